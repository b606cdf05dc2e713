(** * The meaning of grammar symbols over lines

    [V r g ms nls ms' subs cs]: the lines [nls], read from matcher state [ms] to [ms'], form children
    of a node of rule [r] according to [g]; building makes [subs] and the comments [cs] of them,
    without errors.  The lemmas follow the structure of [g]. *)
From Verif Require Import PyStr PyStrFacts Types Regex Line DialectData Matcher Ast ParserTable Parser Classify Table Scan Grammar Deriv Cert LineSpec Cst Report Eval LangSpec LangFacts Complete DocSpec Erase.

Inductive seg : mstate -> list nline -> list leaf -> mstate -> Prop :=
| sg_nil ms : seg ms [] [] ms
| sg_cons ms n x t ms1 nls ls ms2 : x <> [] -> lexm (tok_kind t) ms n x = (Ok true, ms1, t) -> seg ms1 nls ls ms2 ->
    seg ms ((n, x) :: nls) (mkLeaf ms n x t :: ls) ms2.
Lemma seg_app ms n1 l1 ms1 n2 l2 ms2 : seg ms n1 l1 ms1 -> seg ms1 n2 l2 ms2 -> seg ms (n1 ++ n2) (l1 ++ l2) ms2.
Proof. induction 1; intros H2; [exact H2|]. cbn [app]. econstructor; eauto. Qed.
Lemma seg_app_inv l1 : forall l2 ms nls ms2, seg ms nls (l1 ++ l2) ms2 -> exists n1 n2 ms1, nls = n1 ++ n2 /\ seg ms n1 l1 ms1 /\ seg ms1 n2 l2 ms2.
Proof.
  induction l1 as [|a l1 IH]; intros l2 ms nls ms2 H.
  - exists [], nls, ms. repeat split; [constructor | exact H].
  - cbn [app] in H. inversion H as [|? n x t m1 nls0 ls m2 H1 H2 H3]; subst. destruct (IH _ _ _ _ H3) as [n1 [n2 [m [-> [S1 S2]]]]].
    exists ((n, x) :: n1), n2, m. repeat split; [|exact S2]. econstructor; eauto.
Qed.
Lemma seg_leaf ms nls ls ms' a : seg ms nls ls ms' -> In a ls -> lf_x a <> [] /\ exists ms1, lexm (lkind a) (lf_ms a) (lf_n a) (lf_x a) = (Ok true, ms1, lf_t a).
Proof. induction 1; intros Ha; [destruct Ha|]. destruct Ha as [<-|Ha]; [|now apply IHseg]. cbn. split; [assumption|]. eexists. exact H0. Qed.

(** ** Rules whose leaves do not depend on their siblings *)
Definition normal (r : rule) : bool := match r with RDescription | RDocString => false | _ => true end.
Definition leafc (r : rule) (a : leaf) : Prop :=
  matcher_ok (lf_ms a) /\ ms_sep (lf_ms a) = None /\
  (r = RGherkinDocument -> lkind a = TkComment -> fst (fst (lexm TkLanguage (lf_ms a) (lf_n a) (lf_x a))) <> Ok true).
Definition treec (r : rule) (t : ltree) : Prop := match t with Leaf a => leafc r a | Node _ _ => True end.
Lemma leaf_ok_c p r pre a : normal r = true -> leaf_ok p r pre a -> leafc r a.
Proof.
  intros Hn [H1 H2 H3 H4 H5]. split; [exact H1|]. split.
  - apply H3. unfold sep_open, res_open. destruct r; try reflexivity; discriminate.
  - intros -> Hk. unfold priority in H4. now rewrite Hk in H4.
Qed.
Lemma leafc_ok p r pre a : normal r = true -> (exists ms', lexm (lkind a) (lf_ms a) (lf_n a) (lf_x a) = (Ok true, ms', lf_t a)) -> lf_x a <> [] -> leafc r a -> leaf_ok p r pre a.
Proof.
  intros Hn Hl Hx [H1 [H2 H3]]. constructor; auto.
  - split; [|intros _; exact H2]. intros _. unfold sep_open, res_open. destruct r; try reflexivity; discriminate.
  - unfold priority. destruct r; try discriminate; try exact I; try (destruct (lkind a); exact I). destruct (lkind a) eqn:E; try exact I. now apply H3.
  - intros E. contradiction.
Qed.
Lemma in_yields (a : leaf) (l : list ltree) : In (Leaf a) l -> In a (yields l).
Proof. intros H. apply in_flat_map. exists (Leaf a). split; [exact H | now left]. Qed.
Lemma leaves_ok_c p r l : normal r = true -> leaves_ok p r l -> Forall (treec r) l.
Proof.
  intros Hn H. apply Forall_forall. intros [a|r' l'] Ht; [|exact I]. apply in_split in Ht as [pre [post ->]]. cbn. eapply leaf_ok_c; [exact Hn | eapply H; reflexivity].
Qed.
Lemma leaves_c_ok p r l ms nls ms' : normal r = true -> seg ms nls (yields l) ms' -> Forall (treec r) l -> leaves_ok p r l.
Proof.
  intros Hn S F pre a post ->. rewrite Forall_forall in F. assert (Ha : In (Leaf a) (pre ++ Leaf a :: post)) by (apply in_or_app; right; now left).
  destruct (seg_leaf _ _ _ _ a S (in_yields _ _ Ha)) as [H1 H2]. apply leafc_ok; auto. now apply (F (Leaf a)).
Qed.

(** ** Words and their meaning *)
Definition M (r : rule) (g : gx) (ms : mstate) (nls : list nline) (ms' : mstate) (l : list ltree) : Prop :=
  matches g (lsyms l) /\ Forall (treec r) l /\ Forall (ok_tree r) l /\ seg ms nls (yields l) ms'.
Definition rel := mstate -> list nline -> mstate -> list (key * item) -> list comment -> Prop.
Definition V (r : rule) (g : gx) : rel := fun ms nls ms' subs cs =>
  exists l, M r g ms nls ms' l /\ evals0 l = (subs, []) /\ comments_of (yields l) = cs.
Definition N (p r : rule) : rel := fun ms nls ms' subs cs =>
  exists l, ok_tree p (Node r l) /\ seg ms nls (yields l) ms' /\ eval0 (Node r l) = (subs, []) /\ comments_of (yields l) = cs.

Lemma lsyms_app' l1 l2 : lsyms (l1 ++ l2) = lsyms l1 ++ lsyms l2.
Proof. apply map_app. Qed.
Lemma yields_app' (l1 l2 : list ltree) : yields (l1 ++ l2) = yields l1 ++ yields l2.
Proof. apply flat_map_app. Qed.

Lemma V_lang r g g' ms nls ms' subs cs : (forall w, matches g w <-> matches g' w) -> V r g ms nls ms' subs cs <-> V r g' ms nls ms' subs cs.
Proof. intros H. unfold V, M. setoid_rewrite H. reflexivity. Qed.
Lemma V_eps r ms nls ms' subs cs : V r GEps ms nls ms' subs cs <-> nls = [] /\ ms' = ms /\ subs = [] /\ cs = [].
Proof.
  split.
  - intros [l [[H1 [_ [_ H2]]] [H3 H4]]]. destruct l; [|inversion H1]. cbn in *. inversion H2; subst. injection H3 as <-. auto.
  - intros [-> [-> [-> ->]]]. exists []. split; [|split; reflexivity]. split; [constructor|]. repeat (split; [constructor|]). constructor.
Qed.
Lemma split_errs (s1 s2 : list (key * item)) (e1 e2 : list perr) subs : (s1 ++ s2, e1 ++ e2) = (subs, []) -> subs = s1 ++ s2 /\ e1 = [] /\ e2 = [].
Proof. intros H. injection H as <- H. apply app_eq_nil in H as [-> ->]. auto. Qed.
Lemma V_cat r a b ms nls ms2 subs cs : V r (GCat a b) ms nls ms2 subs cs <->
  exists n1 n2 ms1 s1 s2 c1 c2, nls = n1 ++ n2 /\ subs = s1 ++ s2 /\ cs = c1 ++ c2 /\ V r a ms n1 ms1 s1 c1 /\ V r b ms1 n2 ms2 s2 c2.
Proof.
  split.
  - intros [l [[H1 [H2 [H2' H3]]] [H4 H5]]]. apply cat_inv in H1 as [u [v [E [M1 M2]]]].
    unfold lsyms, syms in E. apply map_eq_app in E as [l1 [l2 [-> [E1 E2]]]]. subst u v. change (list (tree leaf)) with (list ltree) in *.
    rewrite yields_app' in H3. apply seg_app_inv in H3 as [n1 [n2 [ms1 [-> [S1 S2]]]]]. rewrite evals0_app in H4.
    destruct (evals0 l1) as [s1 e1] eqn:E1. destruct (evals0 l2) as [s2 e2] eqn:E2. apply split_errs in H4 as [-> [-> ->]].
    rewrite yields_app', comments_of_app in H5. apply Forall_app in H2 as [F1 F2], H2' as [G1 G2].
    exists n1, n2, ms1, s1, s2, (comments_of (yields l1)), (comments_of (yields l2)). repeat (split; [easy|]). split; [exists l1 | exists l2]; repeat split; assumption.
  - intros [n1 [n2 [ms1 [s1 [s2 [c1 [c2 [-> [-> [-> [[l1 [[A1 [A2 [A3 A4]]] [A5 A6]]] [l2 [[B1 [B2 [B3 B4]]] [B5 B6]]]]]]]]]]]]]].
    exists (l1 ++ l2). split; [|split].
    + split; [rewrite lsyms_app'; now constructor|]. split; [now apply Forall_app|]. split; [now apply Forall_app|]. rewrite yields_app'. eapply seg_app; eauto.
    + rewrite evals0_app, A5, B5. reflexivity.
    + rewrite yields_app', comments_of_app. congruence.
Qed.
Lemma V_alt r a b ms nls ms' subs cs : V r (GAlt a b) ms nls ms' subs cs <-> V r a ms nls ms' subs cs \/ V r b ms nls ms' subs cs.
Proof.
  split.
  - intros [l [[H1 H2] H3]]. apply alt_inv in H1 as [H1|H1]; [left | right]; exists l; (split; [split|]; assumption).
  - intros [H|H]; destruct H as [l [[H1 H2] H3]]; exists l; (split; [split; [|exact H2] | exact H3]); [now apply m_altl | now apply m_altr].
Qed.
Lemma V_opt r a ms nls ms' subs cs : V r (gopt a) ms nls ms' subs cs <-> V r a ms nls ms' subs cs \/ nls = [] /\ ms' = ms /\ subs = [] /\ cs = [].
Proof. unfold gopt. now rewrite V_alt, V_eps. Qed.

Inductive starred (P : rel) : rel :=
| st_nil ms : starred P ms [] ms [] []
| st_cons ms n1 ms1 s1 c1 n2 ms2 s2 c2 : P ms n1 ms1 s1 c1 -> starred P ms1 n2 ms2 s2 c2 -> starred P ms (n1 ++ n2) ms2 (s1 ++ s2) (c1 ++ c2).
Lemma V_star r a ms nls ms' subs cs : V r (GStar a) ms nls ms' subs cs <-> starred (V r a) ms nls ms' subs cs.
Proof.
  split.
  - intros [l [[H1 [H2 [H2' H3]]] [H4 H5]]]. remember (lsyms l) as w eqn:Ew. remember (GStar a) as g eqn:Eg.
    revert l ms nls subs cs Ew H2 H2' H3 H4 H5. induction H1; try discriminate Eg; injection Eg as ->; intros l ms nls subs cs Ew H2 H2' H3 H4 H5.
    + destruct l; [|discriminate Ew]. cbn in *. inversion H3; subst. injection H4 as <-. constructor.
    + symmetry in Ew. unfold lsyms, syms in Ew. apply map_eq_app in Ew as [l1 [l2 [-> [E1 E2]]]]. subst u v. change (list (tree leaf)) with (list ltree) in *.
      rewrite yields_app' in H3. apply seg_app_inv in H3 as [n1 [n2 [ms1 [-> [S1 S2]]]]]. rewrite evals0_app in H4.
      destruct (evals0 l1) as [s1 e1] eqn:E1. destruct (evals0 l2) as [s2 e2] eqn:E2. apply split_errs in H4 as [-> [-> ->]].
      rewrite yields_app', comments_of_app in H5. subst cs. apply Forall_app in H2 as [F1 F2], H2' as [G1 G2].
      econstructor; [exists l1; repeat split; eassumption|]. eapply IHmatches2; eauto.
  - induction 1 as [ms|ms n1 ms1 s1 c1 n2 ms2 s2 c2 H1 H2 IH].
    + exists []. split; [|split; reflexivity]. split; [constructor|]. repeat (split; [constructor|]). constructor.
    + destruct H1 as [l1 [[A1 [A2 [A3 A4]]] [A5 A6]]]. destruct IH as [l2 [[B1 [B2 [B3 B4]]] [B5 B6]]]. exists (l1 ++ l2). split; [|split].
      * split; [rewrite lsyms_app'; now constructor|]. split; [now apply Forall_app|]. split; [now apply Forall_app|]. rewrite yields_app'. eapply seg_app; eauto.
      * rewrite evals0_app, A5, B5. reflexivity.
      * rewrite yields_app', comments_of_app. congruence.
Qed.
Definition tok_sub (k : tok) (t : token) : list (key * item) := if tok_eqb k TkComment then [] else [(KTok k, ITok t)].
Definition tok_com (k : tok) (t : token) : list comment := if tok_eqb k TkComment then [mkComment (t_location t) (t_text t)] else [].
Lemma V_tok r k ms nls ms' subs cs : V r (T k) ms nls ms' subs cs <->
  exists n x t, nls = [(n, x)] /\ x <> [] /\ lexm k ms n x = (Ok true, ms', t) /\ matcher_ok ms /\ ms_sep ms = None /\
    (r = RGherkinDocument -> k = TkComment -> fst (fst (lexm TkLanguage ms n x)) <> Ok true) /\ subs = tok_sub k t /\ cs = tok_com k t.
Proof.
  split.
  - intros [l [[H1 [H2 [H2' H3]]] [H4 H5]]]. apply sym_inv in H1. destruct l as [|[a|r' l'] [|? ?]]; try discriminate H1. injection H1 as Hk.
    cbn in H3. inversion H3 as [|? n x t m1 nls0 ls m2 Hx Hl Hs]; subst a. inversion Hs; subst. apply Forall_inv in H2. destruct H2 as [C1 [C2 C3]]. cbn in *. unfold lkind in *. cbn [lf_t] in *.
    rewrite !app_nil_r in *. exists n, x, t. injection H4 as <-. unfold tok_sub, tok_com. repeat (split; [easy|]). reflexivity.
  - intros [n [x [t [-> [Hx [Hl [H1 [H2 [H3 [-> ->]]]]]]]]]]. assert (Hk : tok_kind t = k) by (unfold tok_kind; now rewrite (lexm_kind _ _ _ _ _ _ Hl)).
    exists [Leaf (mkLeaf ms n x t)]. split; [|split].
    + split; [cbn; unfold lkind; cbn; rewrite Hk; constructor|]. split; [|split; [repeat constructor|]].
      * constructor; [|constructor]. split; [exact H1|]. split; [exact H2|]. unfold lkind. cbn. now rewrite Hk.
      * cbn. econstructor; [exact Hx | rewrite Hk; exact Hl | constructor].
    + cbn. unfold lkind. cbn [lf_t]. rewrite Hk. now rewrite app_nil_r.
    + cbn. unfold lkind. cbn [lf_t]. rewrite Hk. now rewrite app_nil_r.
Qed.
Lemma V_node r r' ms nls ms' subs cs : V r (R r') ms nls ms' subs cs <-> N r r' ms nls ms' subs cs.
Proof.
  split.
  - intros [l [[H1 [H2 [H2' H3]]] [H4 H5]]]. apply sym_inv in H1. destruct l as [|[a|r0 l'] [|? ?]]; try discriminate H1. injection H1 as ->.
    cbn [yields flat_map yield] in *. rewrite app_nil_r in *. apply Forall_inv in H2'. rewrite evals0_cons in H4. exists l'. repeat (split; [assumption|]).
    split; [|exact H5]. destruct (eval0 (Node r' l')) as [s1 e1]. change (evals0 []) with (@nil (key * item), @nil perr) in H4. apply split_errs in H4 as [-> [-> _]]. now rewrite app_nil_r.
  - intros [l [H1 [H2 [H3 H4]]]]. exists [Node r' l]. split; [|split].
    + split; [constructor|]. split; [repeat constructor|]. split; [now constructor|]. cbn [yields flat_map yield]. now rewrite app_nil_r.
    + rewrite evals0_cons, H3. cbn. now rewrite app_nil_r.
    + cbn [yields flat_map yield]. now rewrite app_nil_r.
Qed.
Lemma finish0_errs r s es subs : finish0 r (s, es) = (subs, []) -> es = [].
Proof.
  unfold finish0. destruct (no_id_res _) as [i|e]; [intros H; now injection H|]. destruct e; intros H; injection H; try easy. intros E _. destruct es; discriminate E.
Qed.
Lemma N_normal p r ms nls ms' subs cs : normal r = true -> N p r ms nls ms' subs cs <-> exists s, V r (prod r) ms nls ms' s cs /\ finish0 r (s, []) = (subs, []).
Proof.
  intros Hn. split.
  - intros [l [H1 [H2 [H3 H4]]]]. inversion H1 as [|? ? A1 A2 A3]; subst. rewrite eval0_node in H3. destruct (evals0 l) as [s es] eqn:E.
    pose proof (finish0_errs _ _ _ _ H3) as ->. exists s. split; [|exact H3]. exists l. split; [|split; [exact E | reflexivity]].
    split; [exact A1|]. split; [eapply leaves_ok_c; eauto|]. split; assumption.
  - intros [s [[l [[A1 [A2 [A3 A4]]] [A5 A6]]] H]]. exists l. split; [|split; [exact A4|split; [|exact A6]]].
    + constructor; [exact A1| |exact A3]. eapply leaves_c_ok; eauto.
    + rewrite eval0_node, A5. exact H.
Qed.

Lemma N_normal' p r : normal r = true -> forall ms nls ms' subs cs, N p r ms nls ms' subs cs <-> exists s, V r (prod r) ms nls ms' s cs /\ finish0 r (s, []) = (subs, []).
Proof. intros. now apply N_normal. Qed.
Lemma cat_assoc_lang a b c w : matches (GCat (GCat a b) c) w <-> matches (GCat a (GCat b c)) w.
Proof.
  split; intros H.
  - apply cat_inv in H as [u [v [-> [H1 H2]]]]. apply cat_inv in H1 as [u1 [u2 [-> [H1 H3]]]]. rewrite <- app_assoc. constructor; [exact H1|]. now constructor.
  - apply cat_inv in H as [u [v [-> [H1 H2]]]]. apply cat_inv in H2 as [u1 [u2 [-> [H2 H3]]]]. rewrite app_assoc. constructor; [|exact H3]. now constructor.
Qed.
