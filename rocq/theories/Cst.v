(** * The parser builds a syntax tree

    The actions of the parser, run on a stack of open syntax-tree nodes; the invariant that ties
    this stack to the certificate; soundness: what is built follows the grammar. *)
From Verif Require Import PyStr PyStrFacts Types Regex Line DialectData Matcher Ast ParserTable Parser Classify Table Scan Grammar Deriv Cert LineSpec.

Definition lkind (a : leaf) : tok := tok_kind (lf_t a).
Definition ltree := tree leaf.
Definition lsyms (l : list ltree) : list sym := syms lkind l.

Definition derivs (w : list sym) (g : gx) : gx := fold_left (fun g x => deriv x g) w g.
Lemma derivs_app u v g : derivs (u ++ v) g = derivs v (derivs u g).
Proof. apply fold_left_app. Qed.
Lemma derivs_ok u : forall g w, matches (derivs u g) w <-> matches g (u ++ w).
Proof.
  induction u as [|x u IH]; intros g w; [reflexivity|]. cbn [derivs fold_left app].
  change (fold_left _ u (deriv x g)) with (derivs u (deriv x g)). rewrite IH. apply deriv_ok.
Qed.

(** the matcher between two lines *)
Record matcher_ok (ms : mstate) : Prop := {
  mo_classic : classic_state ms;
  mo_indent : ms_sep ms = None -> ms_indent ms = 0;
  mo_sep : ms_sep ms = None \/ ms_sep ms = Some sep_quotes \/ ms_sep ms = Some sep_ticks }.
Lemma matcher_good ms : matcher_ok ms -> good ms.
Proof. intros [[H1 H2] _ _]. split; [exact H1 | eapply for_name_ok; eauto]. Qed.

(** a doc string is open after the children [pre] of a node of rule [r] *)
Definition sep_open (r : rule) (pre : list ltree) : bool := res_open r (derivs (lsyms pre) (prod r)).

(** why the line was not read as something else, by its place in the tree: below [r], whose
    parent is [p], after the siblings [pre] *)
Definition priority (p r : rule) (pre : list ltree) (a : leaf) : Prop :=
  match r, lkind a with
  | RDescription, TkOther =>
      ~ In (cls (lf_ms a) (lf_x a)) (stop p) /\ (pre = [] -> cls (lf_ms a) (lf_x a) <> TkEmpty)
  | RDocString, TkOther =>
      fst (fst (lexm TkDocStringSeparator (lf_ms a) (lf_n a) (lf_x a))) <> Ok true
  | RGherkinDocument, TkComment =>
      fst (fst (lexm TkLanguage (lf_ms a) (lf_n a) (lf_x a))) <> Ok true
  | _, _ => True
  end.
Record leaf_ok (p r : rule) (pre : list ltree) (a : leaf) : Prop := {
  lo_ms : matcher_ok (lf_ms a);
  lo_lex : exists ms', lexm (lkind a) (lf_ms a) (lf_n a) (lf_x a) = (Ok true, ms', lf_t a);
  lo_open : ms_sep (lf_ms a) = None <-> sep_open r pre = false;
  lo_prio : priority p r pre a;
  lo_eof : lf_x a = [] -> lkind a = TkEOF }.
Definition leaves_ok (p r : rule) (l : list ltree) : Prop :=
  forall pre a post, l = pre ++ Leaf a :: post -> leaf_ok p r pre a.

Inductive ok_tree (p : rule) : ltree -> Prop :=
| ok_leaf a : ok_tree p (Leaf a)
| ok_node r l : matches (prod r) (lsyms l) -> leaves_ok p r l -> Forall (ok_tree r) l -> ok_tree p (Node r l).

(** ** The stack of open nodes *)
Definition cstack := list (rule * list ltree).
Definition hd_rule (cs : cstack) : rule := match cs with (r, _) :: _ => r | [] => RNone end.

Inductive cstep (a : leaf) : act -> cstack -> cstack -> Prop :=
| cs_start r cs : cstep a (AStart r) cs ((r, []) :: cs)
| cs_end r0 r l p l' cs : r0 = r -> r <> RGherkinDocument -> ok_tree p (Node r l) ->
    cstep a (AEnd r0) ((r, l) :: (p, l') :: cs) ((p, l' ++ [Node r l]) :: cs)
| cs_build r l cs : leaf_ok (hd_rule cs) r l a ->
    cstep a ABuild ((r, l) :: cs) ((r, l ++ [Leaf a]) :: cs).
Inductive csteps (a : leaf) : list act -> cstack -> cstack -> Prop :=
| css_nil cs : csteps a [] cs cs
| css_cons x xs cs1 cs2 cs3 : cstep a x cs1 cs2 -> csteps a xs cs2 cs3 -> csteps a (x :: xs) cs1 cs3.
Inductive crun : list ev -> cstack -> cstack -> Prop :=
| cr_nil cs : crun [] cs cs
| cr_err e evs cs cs' : crun evs cs cs' -> crun (EvErr e :: evs) cs cs'
| cr_act a acts evs cs1 cs2 cs3 : csteps a acts cs1 cs2 -> crun evs cs2 cs3 -> crun (EvAct a acts :: evs) cs1 cs3.
Lemma crun_app e1 e2 c1 c2 c3 : crun e1 c1 c2 -> crun e2 c2 c3 -> crun (e1 ++ e2) c1 c3.
Proof. intros H. revert c3 e2. induction H; intros; cbn; [assumption | constructor; auto | econstructor; eauto]. Qed.
Lemma crun_errs es cs : crun (map EvErr es) cs cs.
Proof. induction es; constructor; auto. Qed.
Lemma csteps_app a x y c1 c2 c3 : csteps a x c1 c2 -> csteps a y c2 c3 -> csteps a (x ++ y) c1 c3.
Proof. intros H. revert c3 y. induction H; intros; cbn; [assumption | econstructor; eauto]. Qed.

(** the stack fits the frames of the certificate; [pend]: the child that is being built *)
Fixpoint sinv (pend : list sym) (fr : list frame) (cs : cstack) : Prop :=
  match fr, cs with
  | [], [] => True
  | (r, res) :: fr', (r', l) :: cs' =>
      r' = r /\ res = derivs (lsyms l ++ pend) (prod r) /\ leaves_ok (hd_rule cs') r l /\ Forall (ok_tree r) l /\
      sinv [SR r] fr' cs'
  | _, _ => False
  end.

Lemma leaves_ok_nil p r : leaves_ok p r [].
Proof. intros [|? ?] a post H; discriminate. Qed.
Lemma app_snoc_inv {A} (l : list A) x pre y post : l ++ [x] = pre ++ y :: post ->
  (pre = l /\ y = x /\ post = []) \/ exists post', post = post' ++ [x] /\ l = pre ++ y :: post'.
Proof.
  intros H. destruct (@exists_last _ (y :: post)) as [q [z E]]; [discriminate|].
  rewrite E, app_assoc in H. apply app_inj_tail in H as [-> <-].
  destruct q as [|y' q]; cbn in E.
  - injection E as -> ->. left. rewrite app_nil_r. auto.
  - injection E as <- ->. right. eauto.
Qed.
Lemma leaves_ok_node p r l r' l' : leaves_ok p r l -> leaves_ok p r (l ++ [Node r' l']).
Proof.
  intros H pre a post E. apply app_snoc_inv in E as [[_ [E _]]|[post' [-> E]]]; [discriminate|]. exact (H _ _ _ E).
Qed.
Lemma leaves_ok_leaf p r l a : leaves_ok p r l -> leaf_ok p r l a -> leaves_ok p r (l ++ [Leaf a]).
Proof.
  intros H Ha pre b post E. apply app_snoc_inv in E as [[-> [E _]]|[post' [-> E]]].
  - injection E as ->. exact Ha.
  - exact (H _ _ _ E).
Qed.

Lemma lsyms_app l1 l2 : lsyms (l1 ++ l2) = lsyms l1 ++ lsyms l2.
Proof. apply map_app. Qed.

Lemma start_sinv a r k fr fr' cs : apply_act k (AStart r) fr = Some fr' -> sinv [] fr cs ->
  cstep a (AStart r) cs ((r, []) :: cs) /\ sinv [] fr' ((r, []) :: cs).
Proof.
  intros H I. split; [constructor|]. destruct fr as [|[r0 res] fr]; [discriminate|]. destruct cs as [|[r1 l] cs]; [contradiction|].
  cbn in H. destruct (is_void _); [discriminate|]. injection H as <-. cbn in I. destruct I as [-> [E [I1 [I2 I3]]]].
  cbn [sinv]. split; [reflexivity|]. split; [reflexivity|]. split; [apply leaves_ok_nil|]. split; [constructor|].
  split; [reflexivity|]. split; [|now split].
  rewrite app_nil_r in E. etransitivity; [|symmetry; apply derivs_app]. now rewrite <- E.
Qed.
Lemma end_sinv a r k fr fr' cs : r <> RGherkinDocument -> apply_act k (AEnd r) fr = Some fr' -> sinv [] fr cs ->
  exists cs', cstep a (AEnd r) cs cs' /\ sinv [] fr' cs'.
Proof.
  intros Hr H I. destruct fr as [|[r0 res] fr]; [discriminate|]. destruct cs as [|[r1 l] cs]; [contradiction|].
  cbn in H. destruct fr as [|[r2 res2] fr]; [discriminate|].
  destruct (rule_eqb r0 r) eqn:E1; [|discriminate]. apply rule_eqb_spec in E1 as ->.
  destruct (nullable res) eqn:E2; [|discriminate]. cbn in H. injection H as <-.
  cbn in I. destruct I as [-> [E [I1 [I2 I3]]]].
  destruct cs as [|[r3 l3] cs]; [contradiction|]. destruct I3 as [-> [E3 [I4 [I5 I6]]]].
  rewrite app_nil_r in E. apply nullable_ok in E2. rewrite E in E2. apply derivs_ok in E2. rewrite app_nil_r in E2.
  assert (T : ok_tree r2 (Node r l)) by (constructor; assumption).
  eexists. split; [constructor; [reflexivity | exact Hr | exact T]|].
  cbn [sinv]. split; [reflexivity|]. split; [rewrite lsyms_app, app_nil_r; exact E3|].
  split; [now apply leaves_ok_node|]. split; [|exact I6]. apply Forall_app. split; [exact I5|]. now constructor.
Qed.
Lemma build_sinv a r l fr fr' cs : apply_act (lkind a) ABuild fr = Some fr' -> sinv [] fr ((r, l) :: cs) ->
  leaf_ok (hd_rule cs) r l a ->
  cstep a ABuild ((r, l) :: cs) ((r, l ++ [Leaf a]) :: cs) /\ sinv [] fr' ((r, l ++ [Leaf a]) :: cs).
Proof.
  intros H I Ha. split; [now constructor|]. destruct fr as [|[r0 res] fr]; [discriminate|].
  cbn in H. destruct (is_void _); [discriminate|]. injection H as <-. cbn in I. destruct I as [-> [E [I1 [I2 I3]]]].
  cbn [sinv]. split; [reflexivity|]. split.
  - rewrite app_nil_r in E. rewrite lsyms_app, app_nil_r, derivs_app, <- E. reflexivity.
  - split; [now apply leaves_ok_leaf|]. split; [|exact I3]. apply Forall_app. split; [exact I2|]. now repeat constructor.
Qed.

(** starting and ending rules only *)
Definition plain_act (x : act) : bool := negb (act_eqb ABuild x) && negb (act_eqb (AEnd RGherkinDocument) x).
Lemma acts_sinv a k acts : forallb plain_act acts = true -> forall fr fr' cs,
  apply_acts k acts fr = Some fr' -> sinv [] fr cs ->
  exists cs', csteps a acts cs cs' /\ sinv [] fr' cs'.
Proof.
  induction acts as [|x acts IH]; intros Hb fr fr' cs; cbn [apply_acts].
  - intros H I. injection H as <-. exists cs. split; [constructor | exact I].
  - intros H I. cbn [forallb] in Hb. apply andb_true_iff in Hb as [Hb1 Hb2].
    destruct (apply_act k x fr) as [fr1|] eqn:E; [|discriminate].
    destruct x as [r|r|]; [| |discriminate Hb1].
    + destruct (start_sinv a _ _ _ _ _ E I) as [S1 S2]. destruct (IH Hb2 _ _ _ H S2) as [cs' [C1 C2]].
      exists cs'. split; [econstructor; eauto | exact C2].
    + assert (Hr : r <> RGherkinDocument) by (intros ->; discriminate Hb1).
      destruct (end_sinv a _ _ _ _ _ Hr E I) as [cs1 [S1 S2]]. destruct (IH Hb2 _ _ _ H S2) as [cs' [C1 C2]].
      exists cs'. split; [econstructor; eauto | exact C2].
Qed.
Lemma apply_acts_app k x y fr : apply_acts k (x ++ y) fr =
  match apply_acts k x fr with Some fr' => apply_acts k y fr' | None => None end.
Proof. revert fr. induction x as [|a x IH]; intros fr; cbn; [easy|]. destruct (apply_act k a fr); auto. Qed.

(** ** What [choose] chooses *)
Definition refuses (ms : mstate) (n : nat) (x : str) (rest : list str) (tr : trans) : Prop :=
  fst (fst (lexm (tr_tok tr) ms n x)) = Ok false \/ (exists p, fst (fst (lexm (tr_tok tr) ms n x)) = Err (EParser p)) \/
  exists l, tr_la tr = Some l /\ la (la_tok l) ms rest = Ok false.
Lemma choose_split trs ms n x rest : forall es tr t ms',
  choose trs ms n x rest = (es, CTrans tr t ms') ->
  exists before after, trs = before ++ tr :: after /\ Forall (refuses ms n x rest) before /\
    lexm (tr_tok tr) ms n x = (Ok true, ms', t).
Proof.
  induction trs as [|tr0 trs IH]; intros es tr t ms'; cbn [choose]; [discriminate|].
  assert (Hrec : forall es, choose trs ms n x rest = (es, CTrans tr t ms') -> refuses ms n x rest tr0 ->
    exists before after, tr0 :: trs = before ++ tr :: after /\ Forall (refuses ms n x rest) before /\
    lexm (tr_tok tr) ms n x = (Ok true, ms', t)).
  { intros es' H R. destruct (IH _ _ _ _ H) as [b [c [-> [H2 H3]]]]. exists (tr0 :: b), c. auto. }
  destruct (lexm (tr_tok tr0) ms n x) as [[[[]|e] m] t0] eqn:E.
  - destruct (tr_la tr0) as [l|] eqn:El.
    + destruct (la (la_tok l) ms rest) as [[]|e] eqn:La; intros H; [| |discriminate].
      * injection H as <- <- <- <-. exists [], trs. auto.
      * eapply Hrec; eauto. right. right. eauto.
    + intros H. injection H as <- <- <- <-. exists [], trs. auto.
  - intros H. eapply Hrec; eauto. left. now rewrite E.
  - destruct e as [pe| | | | | | | | | |]; try discriminate.
    assert (R : refuses ms n x rest tr0) by (right; left; exists pe; now rewrite E). destruct (choose trs ms n x rest) as [es' c]. intros H. injection H as <- ->. eapply Hrec; eauto.
Qed.
Lemma order_go_split fr trs : forall before, order_go fr before trs = true ->
  forall b tr c, trs = b ++ tr :: c -> order_at fr (before ++ b) tr c = true.
Proof.
  induction trs as [|tr0 trs IH]; intros before H b tr c E; [destruct b; discriminate|].
  cbn in H. apply andb_true_iff in H as [H1 H2]. destruct b as [|b0 b]; cbn in E.
  - injection E as -> ->. now rewrite app_nil_r.
  - injection E as -> ->. specialize (IH _ H2 b tr c eq_refl). now rewrite <- app_assoc in IH.
Qed.
Lemma tries_refuses ms n x rest before k : Forall (refuses ms n x rest) before -> tries k before = true ->
  fst (fst (lexm k ms n x)) = Ok false \/ exists p, fst (fst (lexm k ms n x)) = Err (EParser p).
Proof.
  intros H T. unfold tries in T. apply existsb_exists in T as [tr [T1 T2]]. apply andb_true_iff in T2 as [T2 T3].
  apply tok_eqb_spec in T2 as <-. rewrite Forall_forall in H. destruct (H _ T1) as [R|[R|[l [R _]]]]; [now left | now right|].
  rewrite R in T3. discriminate.
Qed.

(** ** One accepted line *)
Lemma lexm_kind k ms n x ms' t : lexm k ms n x = (Ok true, ms', t) -> t_mtype t = Some k.
Proof.
  unfold lexm. destruct (_ && _); [discriminate|]. intros H.
  assert (Htitle : forall ty kws m u, match_title ms (new_token x n) ty kws = (Ok true, m, u) -> t_mtype u = Some ty).
  { intros ty kws m u E. unfold match_title in E. destruct (find _ kws); [|discriminate]. now injection E as _ <-. }
  assert (Hsep : forall nt sep op m u, match_separator nt sep op ms (new_token x n) = (Ok true, m, u) -> t_mtype u = Some TkDocStringSeparator).
  { intros nt sep op m u E. unfold match_separator in E. destruct (negb _); [discriminate|]. now injection E as _ <-. }
  destruct k; cbn [classic_match] in H; try (eapply Htitle; eauto; fail).
  - unfold match_EOF in H. destruct (negb _); [discriminate|]. now injection H as _ <-.
  - unfold c_match_Empty in H. destruct (negb _); [discriminate|]. now injection H as _ <-.
  - unfold c_match_Comment in H. destruct (negb _); [discriminate|]. now injection H as _ <-.
  - unfold c_match_TagLine in H. destruct (negb _); [discriminate|]. destruct (g_tags _); [|discriminate]. now injection H as _ <-.
  - unfold m_or in H. destruct (match_title ms (new_token x n) TkScenarioLine (d_scenario (ms_dialect ms))) as [[[[]|] m] u] eqn:E; try discriminate.
    + injection H as <- <-. eapply Htitle; eauto.
    + unfold match_title in E. destruct (find _ _); [discriminate|]. injection E as <- <-. eapply Htitle; eauto.
  - unfold c_match_StepLine in H. destruct (find _ _); [|discriminate]. now injection H as _ <-.
  - unfold c_match_DocStringSeparator in H. destruct (ms_sep ms); [eapply Hsep; eauto|].
    unfold m_or in H. destruct (match_separator None sep_quotes true ms (new_token x n)) as [[[[]|] m] u] eqn:E; try discriminate.
    + injection H as <- <-. eapply Hsep; eauto.
    + unfold match_separator in E. destruct (negb _); [|discriminate]. injection E as <- <-. eapply Hsep; eauto.
  - unfold c_match_TableRow in H. destruct (negb _); [discriminate|]. destruct (table_cells _); [|discriminate]. now injection H as _ <-.
  - unfold c_match_Language in H. destruct (re_match _ _); [|discriminate]. destruct (change_dialect _ _ _); [|discriminate]. now injection H as _ <-.
  - unfold match_Other in H. now injection H as _ <-.
Qed.
Lemma lexm_nonempty k ms n x ms' t : lexm k ms n x = (Ok true, ms', t) -> x = [] -> k = TkEOF.
Proof. intros H ->. destruct (tok_eqb k TkEOF) eqn:E; [now apply tok_eqb_spec|]. unfold lexm in H. rewrite E in H. discriminate. Qed.
Lemma lexm_eof_nil ms n x ms' t : lexm TkEOF ms n x = (Ok true, ms', t) -> x = [].
Proof. unfold lexm. cbn. unfold match_EOF, t_eof, g_bool. cbn. destruct x; [easy|]. discriminate. Qed.

(** the matcher after an accepted line *)
Lemma lexm_sep ms n x ms' t : lexm TkDocStringSeparator ms n x = (Ok true, ms', t) -> matcher_ok ms ->
  matcher_ok ms' /\ (ms_sep ms' = None <-> ms_sep ms <> None) /\ ms_name ms' = ms_name ms /\ ms_dialect ms' = ms_dialect ms /\ ms_default ms' = ms_default ms.
Proof.
  intros H [C I S]. unfold lexm in H. destruct (_ && _); [discriminate|]. cbn [classic_match] in H.
  assert (Hsep : forall sep op m u, sep = sep_quotes \/ sep = sep_ticks ->
     match_separator None sep op ms (new_token x n) = (Ok true, m, u) ->
     matcher_ok m /\ ms_sep m = (if op then Some sep else None) /\ ms_name m = ms_name ms /\ ms_dialect m = ms_dialect ms /\ ms_default m = ms_default ms).
  { intros sep op m u Hs E. unfold match_separator in E. destruct (negb _); [discriminate|]. injection E as <- _.
    split; [|now destruct op]. split; [exact C | now destruct op |]. destruct op; cbn; [|now left]. destruct Hs as [-> | ->]; auto. }
  unfold c_match_DocStringSeparator in H. destruct (ms_sep ms) as [sep|] eqn:Es.
  - assert (Hs : sep = sep_quotes \/ sep = sep_ticks) by (destruct S as [S|[S|S]]; [discriminate | injection S as ->; auto ..]).
    destruct (Hsep _ _ _ _ Hs H) as [A [B D]]. split; [exact A|]. split; [|exact D]. rewrite B. split; congruence.
  - unfold m_or in H. destruct (match_separator None sep_quotes true ms (new_token x n)) as [[[[]|] m] u] eqn:E; try discriminate.
    + injection H as <- <-. destruct (Hsep _ _ _ _ (or_introl eq_refl) E) as [A [B D]]. split; [exact A|]. split; [|exact D]. rewrite B. split; congruence.
    + unfold match_separator in E. destruct (negb _); [|discriminate]. injection E as <- <-.
      destruct (Hsep _ _ _ _ (or_intror eq_refl) H) as [A [B D]]. split; [exact A|]. split; [|exact D]. rewrite B. split; congruence.
Qed.
Lemma lexm_language ms n x ms' t : lexm TkLanguage ms n x = (Ok true, ms', t) -> matcher_ok ms ->
  matcher_ok ms' /\ ms_sep ms' = ms_sep ms /\ ms_indent ms' = ms_indent ms /\ ms_default ms' = ms_default ms.
Proof.
  intros H [C I S]. unfold lexm in H. destruct (_ && _); [discriminate|]. cbn [classic_match] in H.
  unfold c_match_Language in H. destruct (re_match _ _); [|discriminate].
  set (name := match group 1 _ with Some x => x | None => [] end) in H.
  unfold change_dialect in H. destruct (for_name name) as [d|] eqn:E; [|discriminate]. injection H as <- _.
  split; [|now split]. split; [|exact I | exact S]. split; [exact (proj1 C) | exact E].
Qed.
Lemma lexm_other k ms n x ms' t : lexm k ms n x = (Ok true, ms', t) -> k <> TkDocStringSeparator -> k <> TkLanguage -> ms' = ms.
Proof.
  intros H H1 H2. unfold lexm in H. destruct (_ && _); [discriminate|].
  pose proof (classic_shape k ms (new_token x n)) as Sh. rewrite H in Sh. now apply Sh.
Qed.
Lemma lexm_next k ms n x ms' t : lexm k ms n x = (Ok true, ms', t) -> matcher_ok ms ->
  matcher_ok ms' /\ (ms_sep ms' = None <-> (if tok_eqb k TkDocStringSeparator then ms_sep ms <> None else ms_sep ms = None)).
Proof.
  intros H M. destruct (tok_eqb k TkDocStringSeparator) eqn:E.
  - apply tok_eqb_spec in E as ->. destruct (lexm_sep _ _ _ _ _ H M) as [A [B _]]. auto.
  - destruct (tok_eqb k TkLanguage) eqn:F.
    + apply tok_eqb_spec in F as ->. destruct (lexm_language _ _ _ _ _ H M) as [A [B _]]. rewrite B. easy.
    + rewrite (lexm_other _ _ _ _ _ _ H); [easy | |]; intros ->; discriminate.
Qed.

Lemma cls_tried ms n x rest before k : good ms -> x <> [] -> Forall (refuses ms n x rest) before -> tries k before = true ->
  plain k = true -> cls ms x <> k.
Proof.
  intros G Hx R T P F. destruct (tries_refuses _ _ _ _ _ _ R T) as [Q|[p Q]].
  - rewrite lexm_ne in Q by exact Hx. pose proof (classic_true ms G k (new_token x n) x n P eq_refl F) as C.
    assert (G2 : (exists t', classic_match k ms (new_token x n) = (Ok true, ms, t')) \/ exists e, classic_match k ms (new_token x n) = (Err e, ms, new_token x n)).
    { destruct k; try discriminate P; try (left; exact C).
      - destruct (g_tags _); [left; exact C | right; eauto].
      - destruct (table_cells _); [left; exact C | right; eauto]. }
    destruct G2 as [[t' G2]|[e G2]]; rewrite G2 in Q; discriminate Q.
  - rewrite lexm_ne in Q by exact Hx.
    pose proof (classic_shape k ms (new_token x n)) as Sh.
    destruct (classic_match k ms (new_token x n)) as [[r m] t]. cbn in Q. subst r. destruct Sh as [-> _]. discriminate P.
Qed.


(** ** Soundness of one line *)
Definition st_inv (q : nat) (ms : mstate) (cs : cstack) : Prop :=
  exists fr, cert q = Some fr /\ sinv [] fr cs /\ matcher_ok ms /\ (ms_sep ms = None <-> docopen fr = false).

Lemma andb_prop2 a b : a && b = true -> a = true /\ b = true.
Proof. apply andb_true_iff. Qed.

Lemma plain_acts q st tr : ptable q = Some st -> In tr (st_trans st) -> forallb plain_act (removelast (tr_acts tr)) = true.
Proof.
  intros Hq Hin. assert (C : all_states (fun q st => forallb (fun tr => forallb plain_act (removelast (tr_acts tr))) (st_trans st)) = true) by (vm_compute; reflexivity).
  pose proof (all_states_spec _ C q st Hq) as D. rewrite forallb_forall in D. now apply D.
Qed.
Lemma trans_sound q st ms n x rest es tr t ms' cs :
  ptable q = Some st -> st_inv q ms cs ->
  choose (st_trans st) ms n x rest = (es, CTrans tr t ms') ->
  exists cs', csteps (mkLeaf ms n x t) (tr_acts tr) cs cs' /\ st_inv (tr_next tr) ms' cs'.
Proof.
  intros Hq [fr [Hc [Hs [Hm Ho]]]] H. pose proof (matcher_good _ Hm) as Hg.
  destruct (choose_split _ _ _ _ _ _ _ _ _ H) as [before [after [E [R L]]]].
  pose proof (all_states_spec _ order_ok q st Hq) as O. unfold check_order in O. rewrite Hc in O.
  pose proof (order_go_split _ _ _ O before tr after E) as A. cbn [app] in A. clear O.
  pose proof (all_states_spec _ sound_ok q st Hq) as S. unfold check_sound in S. rewrite Hc in S.
  assert (Hin : In tr (st_trans st)) by (rewrite E; apply in_elt).
  rewrite forallb_forall in S. specialize (S tr Hin).
  unfold order_at in A.
  destruct (apply_acts (tr_tok tr) (removelast (tr_acts tr)) fr) as [[|[r res] frs]|] eqn:E1; try discriminate A.
  apply andb_prop2 in A as [A AA]. cbv zeta in AA.
  apply andb_prop2 in AA as [AA A8]. apply andb_prop2 in AA as [AA A7]. apply andb_prop2 in AA as [AA A6]. apply andb_prop2 in AA as [A4 A5].
  apply andb_prop2 in A as [A A3]. apply andb_prop2 in A as [A1 A2].
  apply acts_eqb_spec in A1. apply negb_true_iff in A2. apply eqb_prop in A3.
  rewrite A1 in S |- *. rewrite apply_acts_app, E1 in S. cbv iota beta in S.
  match type of S with match ?g with _ => _ end = _ => destruct g as [fr'|] eqn:E2; [|discriminate S] end.
  destruct (cert (tr_next tr)) as [fr''|] eqn:E3; [|discriminate S]. apply frames_eqb_spec in S as <-.
  apply eqb_prop in A8.
  assert (K : lkind (mkLeaf ms n x t) = tr_tok tr) by (unfold lkind, tok_kind; cbn; now rewrite (lexm_kind _ _ _ _ _ _ L)).
  destruct (acts_sinv (mkLeaf ms n x t) _ _ (plain_acts _ _ _ Hq Hin) _ _ _ E1 Hs) as [cs1 [C1 C2]].
  destruct cs1 as [|[r1 l] cs1]; [contradiction|]. pose proof C2 as C3. cbn [sinv] in C3. destruct C3 as [-> [C3 [_ [_ C4]]]].
  rewrite app_nil_r in C3.
  assert (P : leaf_ok (hd_rule cs1) r l (mkLeaf ms n x t)).
  { split; cbn [lf_ms lf_n lf_x lf_t].
    - exact Hm.
    - rewrite K. eauto.
    - unfold sep_open. rewrite <- C3, <- A3. exact Ho.
    - unfold priority. cbn [lf_ms lf_n lf_x lf_t]. rewrite K.
      assert (Hp : match frs with (p, _) :: _ => p | [] => RNone end = hd_rule cs1).
      { destruct frs as [|[p g] frs], cs1 as [|[p' g'] cs1]; try contradiction; [reflexivity|]. cbn in C4 |- *. symmetry. apply C4. }
      rewrite Hp in A4.
      assert (Hx : tr_tok tr = TkOther -> x <> []) by (intros F G; pose proof (lexm_nonempty _ _ _ _ _ _ L G); congruence).
      assert (Hnot : forall k, tries k before = true -> fst (fst (lexm k ms n x)) <> Ok true).
      { intros k T. destruct (tries_refuses _ _ _ _ _ _ R T) as [-> | [p ->]]; discriminate. }
      destruct r; try exact I; destruct (tr_tok tr) eqn:Etok; try exact I.
      + apply Hnot, A4.
      + apply Hnot. apply andb_prop2 in A4 as [A4 _]. now apply andb_prop2 in A4.
      + apply andb_prop2 in A4 as [A4 _]. apply andb_prop2 in A4 as [A4 A9]. apply eqb_prop in A9.
        rewrite forallb_forall in A4. split.
        * intros F. refine (cls_tried _ _ _ _ _ _ Hg (Hx eq_refl) R (A4 _ F) _ eq_refl).
          destruct (hd_rule cs1); cbn in F; repeat (destruct F as [F|F]; [rewrite <- F; reflexivity|]); destruct F.
        * intros -> F. refine (cls_tried _ _ _ _ _ TkEmpty Hg (Hx eq_refl) R _ eq_refl F).
          rewrite A9. apply gx_eqb_spec. exact C3.
    - intros Hx. rewrite K. eapply lexm_nonempty; eauto. }
  cbn [apply_acts] in E2. match type of E2 with match ?g with _ => _ end = _ => destruct g as [fr2|] eqn:E4; [|discriminate E2] end. injection E2 as ->.
  rewrite <- K in E4.
  destruct (build_sinv _ _ _ _ _ _ E4 C2 P) as [B1 B2].
  eexists. split; [eapply csteps_app; [exact C1 | econstructor; [exact B1 | constructor]]|].
  exists fr'. split; [exact E3|]. split; [exact B2|].
  destruct (lexm_next _ _ _ _ _ _ L Hm) as [M1 M2]. split; [exact M1|]. rewrite M2, A8.
  destruct (tok_eqb (tr_tok tr) TkDocStringSeparator); [|exact Ho].
  rewrite Ho. destruct (docopen fr); cbn; split; congruence.
Qed.

(** ** Soundness of a run *)
Lemma g_tags_exn l e : g_tags l = Err e -> e = EAttributeError.
Proof.
  unfold g_tags. generalize (tl (split_on ch_at (strip (uncomment (strip (g_trimmed l)))))), (g_indent l + 1)%nat.
  intros items. induction items as [|i items IH]; intros col; [discriminate|]. cbn [tags_go].
  destruct (re_search _ _); [congruence|]. destruct (tags_go items _) eqn:E; cbn; [discriminate|].
  intros H. injection H as <-. eapply IH, E.
Qed.
(** the line [x] raises [e]: a tag line or a table row that cannot be read *)
Definition raise_at (x : str) (e : exn) : Prop :=
  (e = EAttributeError /\ startswith [ch_at] (lstrip x) = true /\ g_tags (mkLine x 0) = Err e) \/
  (e = ERuntimeError /\ startswith [ch_pipe] (lstrip x) = true /\ table_cells (mkLine x 0) = Err e).
Definition line_exn (lines : list str) (e : exn) : Prop := exists x, In x lines /\ raise_at x e.
Lemma line_exn_cons x lines e : line_exn lines e -> line_exn (x :: lines) e.
Proof. intros [y [H1 H2]]. exists y. split; [now right | exact H2]. Qed.
Lemma la_exn k ms lines e : good ms -> la k ms lines = Err e -> line_exn lines e.
Proof.
  intros Hg.
  induction lines as [|x rest IH]; cbn [la]; [discriminate|]. destruct (tok_eqb _ _); [discriminate|].
  destruct (cls ms x) eqn:C; try discriminate; try (intros H; apply line_exn_cons, IH, H).
  destruct (g_tags (mkLine x 0)) eqn:E; [intros H; apply line_exn_cons, IH, H|]. intros H. injection H as <-.
  exists x. split; [now left|]. left. split; [eapply g_tags_exn; eauto|]. split; [|exact E].
  pose proof (cls_has ms Hg TkTagLine x ltac:(discriminate) ltac:(discriminate)) as F. rewrite C in F. cbn in F.
  unfold has in F. cbn in F. now rewrite orb_false_r in F.
Qed.
Lemma lexm_err k ms n x e m t : lexm k ms n x = (Err e, m, t) ->
  match e with EParser p => k = TkLanguage /\ l_line (pe_loc p) = n | _ => raise_at x e end.
Proof.
  unfold lexm. destruct (_ && _); [discriminate|]. intros H.
  pose proof (classic_shape k ms (new_token x n)) as Sh. rewrite H in Sh.
  assert (R : forall e0, e = e0 -> k = TkTagLine /\ e0 = EAttributeError \/ k = TkTableRow /\ e0 = ERuntimeError -> raise_at x e0).
  { intros e0 <- [[-> ->]|[-> ->]]; cbn [classic_match] in H.
    - left. change (g_tags (mkLine x 0)) with (g_tags (t_line (new_token x n))). unfold c_match_TagLine in H. destruct (negb _) eqn:N; [discriminate|]. apply negb_false_iff in N.
      destruct (g_tags _) eqn:G; [discriminate|]. injection H as -> _ _. (split; [reflexivity|]); (split; [exact N | first [exact G | reflexivity]]).
    - right. change (table_cells (mkLine x 0)) with (table_cells (t_line (new_token x n))). unfold c_match_TableRow in H. destruct (negb _) eqn:N; [discriminate|]. apply negb_false_iff in N.
      destruct (table_cells _) eqn:G; [discriminate|]. injection H as -> _ _. (split; [reflexivity|]); (split; [exact N | first [exact G | reflexivity]]). }
  destruct e; try (apply (R _ eq_refl); apply Sh).
  split; [apply Sh|]. destruct Sh as [-> _]. cbn [classic_match] in H. unfold c_match_Language in H.
  destruct (re_match _ _); [|discriminate].
  set (name := match group 1 _ with Some x => x | None => [] end) in H.
  unfold change_dialect in H. destruct (for_name name); [discriminate|]. injection H as <- _ _. reflexivity.
Qed.
Lemma choose_errs trs ms n x rest : good ms -> forall es c, choose trs ms n x rest = (es, c) ->
  Forall (fun e => l_line (pe_loc e) = n) es /\ (forall e, c = CExn e -> line_exn (x :: rest) e).
Proof.
  intros Hg. induction trs as [|tr trs IH]; intros es c; cbn [choose].
  - intros H. injection H as <- <-. split; [constructor | discriminate].
  - destruct (lexm (tr_tok tr) ms n x) as [[[[]|e] m] t] eqn:E.
    + destruct (tr_la tr) as [l|].
      * destruct (la (la_tok l) ms rest) as [[]|e] eqn:L; [| apply IH|]; intros H; injection H as <- <-; (split; [constructor|]); try discriminate.
        intros e' H. injection H as <-. apply line_exn_cons. eapply la_exn; eauto.
      * intros H; injection H as <- <-. split; [constructor | discriminate].
    + apply IH.
    + pose proof (lexm_err _ _ _ _ _ _ _ E) as F.
      destruct e; try (intros H; injection H as <- <-; split; [constructor|]; intros ? Q; injection Q as <-; exists x; split; [now left | exact F]).
      destruct (choose trs ms n x rest) as [es' c'] eqn:G. intros H; injection H as <- <-.
      destruct (IH _ _ eq_refl) as [I1 I2]. split; [constructor; [apply F | exact I1] | exact I2].
Qed.

Definition builds (acts : list act) : list act := filter (act_eqb ABuild) acts.
(** an event of line [n] *)
Definition ev_at (n : nat) (e : ev) : Prop :=
  match e with
  | EvErr p => l_line (pe_loc p) = n
  | EvAct a acts => lf_n a = n /\ t_loc_line (lf_t a) = n /\ builds acts = [ABuild]
  end.

Lemma order_builds q st tr : ptable q = Some st -> In tr (st_trans st) -> builds (tr_acts tr) = [ABuild].
Proof.
  intros Hq Hin. assert (C : all_states (fun q st => forallb (fun tr => acts_eqb (builds (tr_acts tr)) [ABuild]) (st_trans st)) = true) by (vm_compute; reflexivity).
  pose proof (all_states_spec _ C q st Hq) as D. rewrite forallb_forall in D. now apply acts_eqb_spec, D.
Qed.
Lemma lexm_line k ms n x ms' t : lexm k ms n x = (Ok true, ms', t) -> t_line t = mkLine x n /\ t_loc_line t = n.
Proof.
  unfold lexm. destruct (_ && _); [discriminate|]. intros H.
  pose proof (classic_shape k ms (new_token x n)) as Sh. rewrite H in Sh. destruct Sh as [[A B] _]. auto.
Qed.

Lemma unexpected_line t exp : l_line (pe_loc (unexpected t exp)) = t_loc_line t.
Proof. unfold unexpected. destruct (t_eof t); [reflexivity|]. destruct (t_loc_col t) as [[|]|]; reflexivity. Qed.

Lemma scan_step_sound q st ms n x rest cs evs r :
  ptable q = Some st -> st_inv q ms cs -> scan_step q ms n x rest = (evs, r) ->
  Forall (ev_at n) evs /\
  exists cs', crun evs cs cs' /\
    match r with
    | Err e => line_exn (x :: rest) e /\ exists q', st_inv q' ms cs'
    | Ok (q', ms') => st_inv q' ms' cs' /\ (x <> [] -> ptable q' <> None) /\
        ((exists e, In (EvErr e) evs) \/
         exists tr t, evs = [EvAct (mkLeaf ms n x t) (tr_acts tr)] /\ In tr (st_trans st) /\ tr_next tr = q' /\
                      lexm (tr_tok tr) ms n x = (Ok true, ms', t))
    end.
Proof.
  intros Hq Hi. unfold scan_step. rewrite Hq.
  destruct (choose (st_trans st) ms n x rest) as [es ch] eqn:E.
  assert (G : good ms) by (destruct Hi as [fr [_ [_ [M _]]]]; now apply matcher_good).
  destruct (choose_errs _ _ _ _ _ G _ _ E) as [F1 F2].
  assert (F3 : Forall (ev_at n) (map EvErr es)) by (apply Forall_map; exact F1).
  pose proof (ptable_basic _ _ Hq) as Hb. unfold check_basic in Hb. repeat (apply andb_true_iff in Hb as [Hb ?Hx]).
  destruct ch as [tr t ms'| |e]; intros H; injection H as <- <-.
  - destruct (choose_good _ _ _ _ _ _ _ _ _ G E) as [_ [Hin L]].
    destruct (trans_sound _ _ _ _ _ _ _ _ _ _ _ Hq Hi E) as [cs' [C1 C2]]. split.
    + apply Forall_app. split; [exact F3|]. repeat constructor; cbn; [eapply lexm_line; eauto | eapply order_builds; eauto].
    + exists cs'. split; [eapply crun_app; [apply crun_errs | econstructor; [exact C1 | constructor]]|].
      split; [exact C2|]. split.
      * intros Hne. rewrite forallb_forall in Hx. specialize (Hx _ Hin).
        destruct (tok_eqb (tr_tok tr) TkEOF) eqn:Q; [|destruct (ptable (tr_next tr)); [discriminate | discriminate Hx]].
        apply tok_eqb_spec in Q. rewrite Q in L. apply lexm_eof_nil in L. contradiction.
      * destruct es as [|e es]; [right; exists tr, t; auto | left; exists e; now left].
  - split; [apply Forall_app; split; [exact F3|]; repeat constructor; cbn; apply unexpected_line|].
    exists cs. split; [eapply crun_app; [apply crun_errs | do 2 constructor]|].
    apply Nat.eqb_eq in Hx0. rewrite Hx0. split; [exact Hi|]. split; [congruence|].
    left. eexists. apply in_or_app. right. now left.
  - split; [exact F3|]. exists cs. split; [apply crun_errs|]. split; [now apply F2 | eauto].
Qed.

(** the leaves built by events *)
Definition ev_leaves (evs : list ev) : list leaf := flat_map (fun e => match e with EvAct a _ => [a] | EvErr _ => [] end) evs.

(** the lines [lines] after line [n], read from matcher state [ms], with a last leaf for the end of the file *)
Inductive lchain : mstate -> nat -> list str -> list leaf -> Prop :=
| lc_eof ms n t ms' : lexm TkEOF ms (S n) [] = (Ok true, ms', t) -> lchain ms n [] [mkLeaf ms (S n) [] t]
| lc_line ms n x rest t ms' k ls : x <> [] -> lexm k ms (S n) x = (Ok true, ms', t) ->
    lchain ms' (S n) rest ls -> lchain ms n (x :: rest) (mkLeaf ms (S n) x t :: ls).

Definition closed_doc (cs : cstack) : Prop :=
  exists l, cs = [(RGherkinDocument, l)] /\ ok_tree RNone (Node RGherkinDocument l).

Definition check_final (q : nat) (st : pstate) : bool :=
  forallb (fun tr => negb (tok_eqb (tr_tok tr) TkEOF) ||
     match cert (tr_next tr) with Some [(RGherkinDocument, res)] => nullable res | _ => false end) (st_trans st).
Lemma final_ok : all_states check_final = true.
Proof. vm_compute. reflexivity. Qed.
Lemma closed_cert q ms cs res : st_inv q ms cs -> cert q = Some [(RGherkinDocument, res)] -> nullable res = true -> closed_doc cs.
Proof.
  intros [fr [C [I _]]] E N. rewrite E in C. injection C as <-.
  destruct cs as [|[r l] [|? ?]]; cbn [sinv] in I; try (destruct I; fail); [|now destruct I as [_ [_ [_ [_ []]]]]].
  destruct I as [-> [R [L1 [L2 _]]]]. exists l. split; [reflexivity|]. constructor; auto.
  apply nullable_ok in N. rewrite R, app_nil_r in N. apply derivs_ok in N. now rewrite app_nil_r in N.
Qed.

Theorem scan_sound : forall lines q ms n cs evs r,
  lines_ok lines -> ptable q <> None -> st_inv q ms cs -> scan q ms n lines = (evs, r) ->
  Forall (fun e => exists m, n < m <= n + length lines + 1 /\ ev_at m e) evs /\
  exists cs' q' ms', crun evs cs cs' /\ st_inv q' ms' cs' /\
    match r with
    | Err e => line_exn lines e
    | Ok _ => (exists e, In (EvErr e) evs) \/ (closed_doc cs' /\ lchain ms n lines (ev_leaves evs))
    end.
Proof.
  induction lines as [|x rest IH]; intros q ms n cs evs r Hl Hq Hi; cbn [scan];
    (destruct (ptable q) as [st|] eqn:Eq; [|contradiction]).
  - destruct (scan_step q ms (S n) [] []) as [ev1 r1] eqn:E.
    destruct (scan_step_sound _ _ _ _ _ _ _ _ _ Eq Hi E) as [F [cs' [C D]]].
    assert (F' : Forall (fun e => exists m, n < m <= n + 0 + 1 /\ ev_at m e) ev1).
    { eapply Forall_impl; [|exact F]. intros a Ha. exists (S n). split; [lia | exact Ha]. }
    destruct r1 as [[q' ms']|e]; intros H; injection H as <- <-; (split; [exact F'|]).
    + exists cs', q', ms'. split; [exact C|]. destruct D as [D1 [D2 D3]]. split; [exact D1|].
      destruct D3 as [D3|[tr [t [-> [D4 [D5 D6]]]]]]; [now left | right].
      pose proof (lexm_nonempty _ _ _ _ _ _ D6 eq_refl) as K. split.
      * pose proof (all_states_spec _ final_ok q st Eq) as Fin. unfold check_final in Fin. rewrite forallb_forall in Fin.
        specialize (Fin _ D4). rewrite K, D5 in Fin. cbn [tok_eqb negb orb] in Fin.
        destruct (cert q') as [[|[rr res] [|? ?]]|] eqn:Eqq; try discriminate Fin; destruct rr; try discriminate Fin.
        eapply closed_cert; eauto.
      * rewrite K in D6. cbn. econstructor; eauto.
    + destruct D as [[y [[<-|[]] [[_ [D1 _]]|[_ [D1 _]]]]] _]; discriminate D1.
  - destruct (scan_step q ms (S n) x rest) as [ev1 r1] eqn:E.
    destruct (scan_step_sound _ _ _ _ _ _ _ _ _ Eq Hi E) as [F [cs' [C D]]].
    assert (F' : Forall (fun e => exists m, n < m <= n + length (x :: rest) + 1 /\ ev_at m e) ev1).
    { eapply Forall_impl; [|exact F]. intros a Ha. exists (S n). split; [cbn; lia | exact Ha]. }
    assert (Hx : x <> []) by now inversion Hl. assert (Hl' : lines_ok rest) by now inversion Hl.
    destruct r1 as [[q' ms']|e].
    + destruct D as [D1 [D2 D3]]. destruct (scan q' ms' (S n) rest) as [ev2 r2] eqn:E2.
      intros H; injection H as <- <-.
      destruct (IH q' ms' (S n) cs' ev2 r2 Hl' (D2 Hx) D1 E2) as [G1 [cs2 [q2 [ms2 [G2 [G3 G4]]]]]]. split.
      * apply Forall_app. split; [exact F'|]. eapply Forall_impl; [|exact G1].
        intros a [m [M1 M2]]. exists m. split; [cbn; lia | exact M2].
      * exists cs2, q2, ms2. split; [eapply crun_app; eauto|]. split; [exact G3|].
        destruct r2 as [u|e]; [|now apply line_exn_cons].
        destruct D3 as [[e D3]|[tr [t [-> [D4 [D5 D6]]]]]]; [left; exists e; apply in_or_app; now left|].
        destruct G4 as [[e G4]|[G4 G5]]; [left; exists e; apply in_or_app; now right|]. right.
        split; [exact G4|]. cbn. econstructor; eauto.
    + intros H; injection H as <- <-. split; [exact F'|]. destruct D as [D1 [q' D2]]. eauto 10.
Qed.

(** the yield of a stack: bottom first *)
Definition cyield (cs : cstack) : list leaf := flat_map (fun p => yields (snd p)) (rev cs).
Lemma cyield_cons r l cs : cyield ((r, l) :: cs) = cyield cs ++ yields l.
Proof. unfold cyield. cbn [rev]. rewrite flat_map_app. cbn. now rewrite app_nil_r. Qed.
Lemma yields_app (l1 l2 : list ltree) : yields (l1 ++ l2) = yields l1 ++ yields l2.
Proof. apply flat_map_app. Qed.
Lemma csteps_yield a acts cs cs' : csteps a acts cs cs' -> cyield cs' = cyield cs ++ map (fun _ => a) (builds acts).
Proof.
  induction 1 as [|x xs c1 c2 c3 H1 H2 IH]; [cbn; now rewrite app_nil_r|].
  rewrite IH. destruct H1; cbn [builds filter act_eqb map].
  - rewrite cyield_cons. cbn. now rewrite app_nil_r.
  - rewrite !cyield_cons, yields_app. cbn. rewrite app_nil_r. fold (yields l). now rewrite !app_assoc.
  - rewrite !cyield_cons, yields_app. cbn. now rewrite <- !app_assoc.
Qed.
Lemma crun_yield evs cs cs' m : crun evs cs cs' -> Forall (fun e => exists n, m e n /\ ev_at n e) evs ->
  cyield cs' = cyield cs ++ ev_leaves evs.
Proof.
  induction 1 as [|e evs c1 c2 H IH|a acts evs c1 c2 c3 H1 H2 IH]; intros F.
  - cbn. now rewrite app_nil_r.
  - inversion F; subst. now apply IH.
  - inversion F as [|? ? Fh F']; subst. destruct Fh as [n [_ Fh]]. cbn [ev_at] in Fh. destruct Fh as [_ [_ B]]. rewrite (IH F'), (csteps_yield _ _ _ _ H1), B. cbn.
    now rewrite <- app_assoc.
Qed.
