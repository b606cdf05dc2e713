(** * Every syntax tree over the lines is found by the parser

    Completeness: if the lines have a syntax tree that follows the grammar, the machine of Scan.v
    reports no error and builds exactly this tree (so there is only one). *)
From Verif Require Import PyStr PyStrFacts Types Regex Line DialectData Matcher Ast ParserTable Parser Classify Table Scan Grammar Deriv Cert LineSpec Cst Report Eval LangSpec LangFacts.

(** ** A tree as a sequence of marks *)
Inductive mark := MS (r : rule) | ME (r : rule) | MB (a : leaf).
Fixpoint walk (t : ltree) : list mark :=
  match t with Leaf a => [MB a] | Node r l => MS r :: flat_map walk l ++ [ME r] end.
Definition walks (l : list ltree) : list mark := flat_map walk l.
Lemma walk_node r l : walk (Node r l) = MS r :: walks l ++ [ME r].
Proof. reflexivity. Qed.
Lemma walks_app a b : walks (a ++ b) = walks a ++ walks b.
Proof. apply flat_map_app. Qed.

(** the sequence determines the trees *)
Definition closes (m : list mark) : Prop := match m with MS _ :: _ | MB _ :: _ => False | _ => True end.
Lemma walks_inj l : forall l' s s', closes s -> closes s' -> walks l ++ s = walks l' ++ s' -> l = l' /\ s = s'.
Proof.
  assert (G : forall n l, length (walks l) <= n -> forall l' s s', closes s -> closes s' -> walks l ++ s = walks l' ++ s' -> l = l' /\ s = s').
  2: { apply (G _ l (le_n _)). }
  induction n as [|n IH]; intros k Hn l' s s' C C' E.
  - destruct k as [|[a|r k0] k]; cbn in Hn; try lia. destruct l' as [|[a|r k0] k]; cbn in E; [auto | subst s; destruct C..].
  - destruct k as [|[a|r k0] k], l' as [|[a'|r' k0'] k']; cbn in E; try (subst s; now destruct C); try (subst s'; now destruct C').
    + auto.
    + injection E as <- E. cbn in Hn. fold (walks k) in Hn. destruct (IH k ltac:(lia) k' s s' C C' E) as [-> ->]. auto.
    + discriminate.
    + discriminate.
    + injection E as <- E. cbn in Hn. fold (walks k0) (walks k) in Hn. rewrite !app_length in Hn. cbn in Hn.
      fold (walks k0) (walks k) (walks k0') (walks k') in E. rewrite <- !app_assoc in E. cbn [app] in E.
      destruct (IH k0 ltac:(lia) k0' (ME r :: walks k ++ s) (ME r :: walks k' ++ s') I I E) as [-> E2]. injection E2 as E2.
      destruct (IH k ltac:(lia) k' s s' C C' E2) as [-> ->]. auto.
Qed.

(** ** Marks against the certificate *)
Definition lctx (p r : rule) (res : gx) (a : leaf) : Prop := exists pre, res = derivs (lsyms pre) (prod r) /\ leaf_ok p r pre a /\ (exists w, matches (prod r) (lsyms pre ++ w)).
Definition top_of (fr : list frame) : rule := match fr with (r, _) :: _ => r | [] => RNone end.
Inductive marks_ok : list frame -> list mark -> Prop :=
| mk_nil fr : marks_ok fr []
| mk_start r fr fr' m : apply_act TkOther (AStart r) fr = Some fr' -> marks_ok fr' m -> marks_ok fr (MS r :: m)
| mk_end r fr fr' m : apply_act TkOther (AEnd r) fr = Some fr' -> marks_ok fr' m -> marks_ok fr (ME r :: m)
| mk_build r res frs a fr' m : lctx (top_of frs) r res a -> apply_act (lkind a) ABuild ((r, res) :: frs) = Some fr' ->
    marks_ok fr' m -> marks_ok ((r, res) :: frs) (MB a :: m).

Lemma not_void g w : matches g w -> is_void g = false.
Proof. destruct g; try reflexivity. intros H. now apply void_inv in H. Qed.
Lemma walk_marks t : forall p, ok_tree p t -> forall res frs w m, matches res (root_sym lkind t :: w) ->
  (forall a, t = Leaf a -> lctx (top_of frs) p res a) ->
  marks_ok ((p, deriv (root_sym lkind t) res) :: frs) m -> marks_ok ((p, res) :: frs) (walk t ++ m).
Proof.
  induction t as [a|r l IH] using tree_ind'; intros p O res frs w m H L K.
  - cbn [walk app]. eapply mk_build; [now apply L| |exact K]. cbn [apply_act root_sym] in *. apply deriv_ok, not_void in H. now rewrite H.
  - rewrite walk_node. cbn [app]. rewrite <- app_assoc. cbn [app]. cbn [root_sym] in *. apply deriv_ok, not_void in H.
    eapply mk_start; [cbn [apply_act]; rewrite H; reflexivity|]. inversion O as [|? ? M Lv F]; subst.
    assert (G : forall done todo, l = done ++ todo ->
      marks_ok ((r, derivs (lsyms l) (prod r)) :: (p, deriv (SR r) res) :: frs) (ME r :: m) ->
      marks_ok ((r, derivs (lsyms done) (prod r)) :: (p, deriv (SR r) res) :: frs) (walks todo ++ ME r :: m)).
    { intros done todo. revert done. induction todo as [|t todo IH2]; intros done E K2; [rewrite app_nil_r in E; subst; exact K2|].
      change (walks (t :: todo)) with (walk t ++ walks todo). rewrite <- app_assoc.
      assert (Ht : In t l) by (rewrite E; apply in_elt).
      apply (proj1 (Forall_forall _ _) IH t Ht r) with (w := lsyms todo).
      - eapply Forall_forall in F; eauto.
      - apply derivs_ok. change (root_sym lkind t :: lsyms todo) with (lsyms (t :: todo)). rewrite E, lsyms_app in M. exact M.
      - intros a ->. exists done. split; [reflexivity|]. split; [eapply Lv; exact E|]. exists (lsyms (Leaf a :: todo)). rewrite E, lsyms_app in M. exact M.
      - replace (deriv (root_sym lkind t) (derivs (lsyms done) (prod r))) with (derivs (lsyms (done ++ [t])) (prod r)) by now rewrite lsyms_app, derivs_app.
        apply IH2; [now rewrite <- app_assoc | exact K2]. }
    apply (G [] l eq_refl). eapply mk_end; [|exact K]. cbn [apply_act]. rewrite rule_eqb_refl.
    assert (N : nullable (derivs (lsyms l) (prod r)) = true) by (apply nullable_ok, derivs_ok; now rewrite app_nil_r). now rewrite N.
Qed.
Lemma doc_marks l : ok_tree RNone (Node RGherkinDocument l) -> marks_ok [(RGherkinDocument, prod RGherkinDocument)] (walks l).
Proof.
  intros O. inversion O as [|? ? M Lv F]; subst.
  assert (G : forall done todo, l = done ++ todo -> marks_ok [(RGherkinDocument, derivs (lsyms done) (prod RGherkinDocument))] (walks todo)).
  { intros done todo. revert done. induction todo as [|t todo IH2]; intros done E; [constructor|].
    change (walks (t :: todo)) with (walk t ++ walks todo). apply walk_marks with (w := lsyms todo).
    - eapply Forall_forall in F; [exact F|]. rewrite E. apply in_elt.
    - apply derivs_ok. change (root_sym lkind t :: lsyms todo) with (lsyms (t :: todo)). rewrite E, lsyms_app in M. exact M.
    - intros a ->. exists done. split; [reflexivity|]. split; [eapply Lv; exact E|]. exists (lsyms (Leaf a :: todo)). rewrite E, lsyms_app in M. exact M.
    - replace (deriv (root_sym lkind t) (derivs (lsyms done) (prod RGherkinDocument))) with (derivs (lsyms (done ++ [t])) (prod RGherkinDocument)) by now rewrite lsyms_app, derivs_app.
      apply IH2. now rewrite <- app_assoc. }
  apply (G [] l eq_refl).
Qed.

(** no node is empty *)
Fixpoint tight (m : list mark) : Prop :=
  match m with
  | MS _ :: m' => match m' with ME _ :: _ => False | _ => True end /\ tight m'
  | _ :: m' => tight m'
  | [] => True
  end.
Lemma prod_nonempty r : nullable (prod r) = false.
Proof. destruct r; reflexivity. Qed.
Lemma walk_tight t : forall p, ok_tree p t -> forall m, tight m -> tight (walk t ++ m) /\ match walk t ++ m with ME _ :: _ => False | _ => True end.
Proof.
  induction t as [a|r l IH] using tree_ind'; intros p O m T; [split; [exact T | exact I]|].
  rewrite walk_node. cbn [app]. rewrite <- app_assoc. cbn [app]. inversion O as [|? ? M Lv F]; subst.
  split; [|exact I]. cbn [tight].
  assert (G : forall l, Forall (fun t => forall p, ok_tree p t -> forall m, tight m -> tight (walk t ++ m) /\ match walk t ++ m with ME _ :: _ => False | _ => True end) l ->
    Forall (ok_tree r) l -> tight (walks l ++ ME r :: m) /\ (l <> [] -> match walks l ++ ME r :: m with ME _ :: _ => False | _ => True end)).
  { clear -T. intros l H F. induction H as [|t l Ht H IHl]; [split; [exact T | congruence]|]. inversion F; subst. destruct IHl as [I1 _]; [assumption|].
    change (walks (t :: l)) with (walk t ++ walks l). rewrite <- app_assoc. destruct (Ht r ltac:(assumption) _ I1) as [A B]. auto. }
  destruct (G l IH F) as [G1 G2]. split; [|exact G1]. apply G2. intros ->. cbn in M. apply nullable_ok in M. now rewrite prod_nonempty in M.
Qed.
Lemma walks_tight p l : Forall (ok_tree p) l -> tight (walks l).
Proof.
  induction 1 as [|t l Ht H IH]; [exact I|]. change (walks (t :: l)) with (walk t ++ walks l). now apply (walk_tight t p Ht).
Qed.

(** ** The marks up to the next leaf *)
Definition mact (m : mark) : act := match m with MS r => AStart r | ME r => AEnd r | MB _ => ABuild end.
Definition leaves_of (m : list mark) : list leaf := flat_map (fun x => match x with MB a => [a] | _ => [] end) m.
Lemma first_leaf m a ls : leaves_of m = a :: ls -> tight m ->
  exists es ss m', m = map ME es ++ map MS ss ++ MB a :: m' /\ leaves_of m' = ls /\ tight m'.
Proof.
  induction m as [|x m IH]; intros E T; [discriminate|]. destruct x as [r|r|b]; cbn in E.
  - destruct T as [T1 T2]. destruct (IH E T2) as [es [ss [m' [-> [E1 E2]]]]]. destruct es as [|e es]; [|destruct T1].
    exists [], (r :: ss), m'. auto.
  - destruct (IH E T) as [es [ss [m' [-> [E1 E2]]]]]. exists (r :: es), ss, m'. auto.
  - injection E as <- E. exists [], [], m. auto.
Qed.
Lemma in_all_rules r : r <> RNone -> In r all_rules.
Proof. intros H. destruct r; cbn; tauto. Qed.

(** what is known when the leaf is built *)
Record built (fr : list frame) (acts : list act) (a : leaf) (fr' : list frame) (m : list mark) : Prop := {
  bt_frames : exists r res frs, apply_acts (lkind a) acts fr = Some ((r, res) :: frs) /\ lctx (top_of frs) r res a /\
    apply_act (lkind a) ABuild ((r, res) :: frs) = Some fr';
  bt_rest : marks_ok fr' m }.
Lemma apply_start k r fr : apply_act k (AStart r) fr = apply_act TkOther (AStart r) fr.
Proof. reflexivity. Qed.
Lemma apply_end k r fr : apply_act k (AEnd r) fr = apply_act TkOther (AEnd r) fr.
Proof. reflexivity. Qed.
Lemma prod_none_void : prod RNone = GVoid. Proof. reflexivity. Qed.
Lemma none_dead frs m : marks_ok ((RNone, GVoid) :: frs) m -> m = [].
Proof.
  inversion 1 as [|? ? ? ? E|? ? ? ? E|? ? ? ? ? ? ? E]; subst; [reflexivity| | |]; exfalso; cbn in E; try discriminate.
  destruct frs; [discriminate|]. rewrite andb_false_r in E. discriminate.
Qed.
Lemma in_opens k a m : lkind a = k -> forall fuel ss fr, marks_ok fr (map MS ss ++ MB a :: m) ->
  exists fr', built fr (map AStart ss) a fr' m /\
   (In (map AStart ss ++ [ABuild], fr') (opens fuel k fr) \/ exists p x, In (p, x) (opens fuel k fr) /\ ~ In ABuild p).
Proof.
  intros K. induction fuel as [|fuel IHf].
  - intros ss fr H. assert (B : exists fr', built fr (map AStart ss) a fr' m).
    { revert fr H. induction ss as [|r ss IH]; intros fr H; cbn [map app] in H; inversion H; subst.
      - eexists. split; [|eassumption]. eexists _, _, _. split; [reflexivity|]. split; eassumption.
      - destruct (IH _ ltac:(eassumption)) as [fr2 [[r2 [res2 [frs2 [B1 B2]]]] B3]]. exists fr2. split; [|exact B3].
        eexists _, _, _. split; [|exact B2]. cbn [map apply_acts]. rewrite apply_start. match goal with H : apply_act _ _ _ = Some _ |- _ => rewrite H end. exact B1. }
    destruct B as [fr' B]. exists fr'. split; [exact B|]. destruct ss as [|r ss].
    + left. destruct B as [[r [res [frs [B1 [B2 B3]]]]] _]. cbn in B1. injection B1 as ->. cbn [opens map app].
      apply in_or_app. left. cbn [apply_act] in B3. rewrite K in B3. destruct (is_void _); [discriminate|]. injection B3 as <-. now left.
    + right. exists [], fr. split; [|intros []]. cbn [map app] in H. inversion H as [|? ? ? ? E H2| |]; subst.
      destruct fr as [|[r0 res] frs]; [discriminate E|]. cbn [opens]. apply in_or_app. right. apply in_flat_map. exists r. cbn [apply_act] in E.
      destruct (is_void (deriv (SR r) res)) eqn:V; [discriminate|]. split; [|now left]. apply in_all_rules.
      intros ->. injection E as <-. apply none_dead in H2. destruct ss; discriminate.
  - intros ss fr H. destruct ss as [|r ss].
    + cbn [map app] in H. inversion H as [| | |? ? ? ? ? ? L E H2]; subst. eexists. split.
      * split; [|exact H2]. eexists _, _, _. split; [reflexivity|]. split; eassumption.
      * left. cbn [opens map app]. apply in_or_app. left. cbn [apply_act] in E. destruct (is_void _); [discriminate|]. injection E as <-. now left.
    + cbn [map app] in H. inversion H as [|? ? fr1 ? E H2| |]; subst. destruct (IHf ss fr1 H2) as [fr' [B C]]. exists fr'. split.
      * destruct B as [[r2 [res2 [frs2 [B1 B2]]]] B3]. split; [|exact B3]. eexists _, _, _. split; [|exact B2]. cbn [map apply_acts]. rewrite apply_start, E. exact B1.
      * destruct fr as [|[r0 res] frs]; [discriminate E|]. pose proof E as E'. cbn [apply_act] in E. destruct (is_void (deriv (SR r) res)) eqn:V; [discriminate|]. injection E as <-.
        assert (Hr : In r all_rules).
        { apply in_all_rules. intros ->. apply none_dead in H2. destruct ss; discriminate. }
        destruct C as [C|[p [x [C1 C2]]]].
        -- left. cbn [opens map app]. apply in_or_app. right. apply in_flat_map. exists r. split; [exact Hr|]. cbv beta zeta. rewrite V. apply in_map_iff. eexists. split; [|exact C]. reflexivity.
        -- right. exists (AStart r :: p), x. split; [|intros [F|F]; [discriminate | auto]]. cbn [opens]. apply in_or_app. right. apply in_flat_map. exists r. split; [exact Hr|]. cbv beta zeta. rewrite V. apply in_map_iff. eexists. split; [|exact C1]. reflexivity.
Qed.
Lemma in_moves k a m ss : lkind a = k -> forall es fr, marks_ok fr (map ME es ++ map MS ss ++ MB a :: m) ->
  exists fr', built fr (map AEnd es ++ map AStart ss) a fr' m /\
   (In (map AEnd es ++ map AStart ss ++ [ABuild], fr') (moves k fr) \/ exists p x, In (p, x) (moves k fr) /\ ~ In ABuild p).
Proof.
  intros K. induction es as [|e es IH]; intros fr H; cbn [map app] in *.
  - destruct (in_opens k a m K 4 ss fr H) as [fr' [B C]]. exists fr'. split; [exact B|].
    assert (I : incl (opens 4 k fr) (moves k fr)) by (destruct fr as [|[r res] frs]; [intros x [] | intros x Hx; cbn [moves]; apply in_or_app; now left]).
    destruct C as [C|[p [x [C1 C2]]]]; [left; now apply I | right; exists p, x; split; [now apply I | exact C2]].
  - inversion H as [| |? ? fr1 ? E H2|]; subst. destruct (IH fr1 H2) as [fr' [B C]]. exists fr'. split.
    + destruct B as [[r2 [res2 [frs2 [B1 B2]]]] B3]. split; [|exact B3]. eexists _, _, _. split; [|exact B2]. cbn [apply_acts]. rewrite apply_end, E. exact B1.
    + destruct fr as [|[r res] frs]; [discriminate E|]. cbn [apply_act] in E. destruct frs as [|f frs]; [discriminate|].
      destruct (rule_eqb r e) eqn:R; [|discriminate]. destruct (nullable res) eqn:N; [|discriminate]. cbn [andb] in E. injection E as <-. apply rule_eqb_spec in R as ->.
      assert (I : forall p x, In (p, x) (moves (lkind a) (f :: frs)) -> In (AEnd e :: p, x) (moves (lkind a) ((e, res) :: f :: frs))).
      { intros p x Hx. cbn [moves]. apply in_or_app. right. rewrite N. cbn [andb negb]. apply in_map_iff. exists (p, x). auto. }
      destruct C as [C|[p [x [C1 C2]]]]; [left; now apply I | right; exists (AEnd e :: p), x; split; [now apply I|]]. intros [F|F]; [discriminate | auto].
Qed.

(** ** The transition that is chosen *)
Lemma pick_split o k trs tr : pick o k trs = Some tr -> exists before after, trs = before ++ tr :: after /\ tr_tok tr = k /\ fires o tr = true /\
  Forall (fun x => tr_tok x <> k \/ fires o x = false) before.
Proof.
  induction trs as [|t trs IH]; cbn [pick]; [discriminate|]. destruct (tok_eqb (tr_tok t) k) eqn:E1; cbn [andb].
  - destruct (fires o t) eqn:E2.
    + intros H. injection H as ->. apply tok_eqb_spec in E1. exists [], trs. auto.
    + intros H. destruct (IH H) as [b [c [-> [A [B C]]]]]. exists (t :: b), c. repeat split; auto.
  - intros H. destruct (IH H) as [b [c [-> [A [B C]]]]]. exists (t :: b), c. repeat split; auto. constructor; [|exact C]. left. intros F. rewrite F, tok_eqb_refl in E1. discriminate.
Qed.
Definition passes (ms : mstate) (n : nat) (x : str) (rest : list str) (tr : trans) : Prop :=
  (exists m t, lexm (tr_tok tr) ms n x = (Ok false, m, t)) \/
  (exists m t l, lexm (tr_tok tr) ms n x = (Ok true, m, t) /\ tr_la tr = Some l /\ la (la_tok l) ms rest = Ok false).
Lemma choose_passes before tr after ms n x rest ms' t : Forall (passes ms n x rest) before ->
  lexm (tr_tok tr) ms n x = (Ok true, ms', t) ->
  (forall l, tr_la tr = Some l -> la (la_tok l) ms rest = Ok true) ->
  choose (before ++ tr :: after) ms n x rest = ([], CTrans tr t ms').
Proof.
  intros B L A. induction B as [|b before Hb B IH]; cbn [app choose].
  - rewrite L. destruct (tr_la tr) as [l|]; [|reflexivity]. now rewrite (A l eq_refl).
  - destruct Hb as [[m [u E]]|[m [u [l [E [E2 E3]]]]]]; rewrite E; [exact IH|]. rewrite E2, E3. exact IH.
Qed.

(** the language pattern only fits comment lines *)
Lemma language_hash x name : language_line x name -> startswith [ch_hash] (lstrip x) = true.
Proof.
  intros H. apply language_lstrip in H. destruct H as [a [b [c [d [e [E [A _]]]]]]].
  destruct a as [|h a]; [rewrite E; reflexivity|]. unfold all_space in A. cbn in A. apply andb_true_iff in A as [A _].
  cbn in E. apply lstrip_head in E. congruence.
Qed.
Lemma lexm_lang_false ms n x : x <> [] -> (forall name, ~ language_line x name) -> lexm TkLanguage ms n x = (Ok false, ms, new_token x n).
Proof.
  intros Hx H. rewrite lexm_ne by exact Hx. cbn [classic_match]. unfold c_match_Language.
  change (get_line_text (t_line (new_token x n)) (-1)) with (lstrip x). pose proof (language_re x) as R.
  destruct (re_match LANGUAGE_RE (lstrip x)); [|reflexivity]. destruct R as [name [_ R]]. now destruct (H name).
Qed.
Lemma lexm_lang_true ms n x name d : x <> [] -> language_line x name -> for_name name = Some d ->
  lexm TkLanguage ms n x = (Ok true, mkMs (ms_md ms) (ms_default ms) name d (ms_indent ms) (ms_sep ms) (ms_feature ms),
    set_matched ms (new_token x n) (Some TkLanguage) (Some name) None None None []).
Proof.
  intros Hx H D. rewrite lexm_ne by exact Hx. cbn [classic_match]. unfold c_match_Language.
  change (get_line_text (t_line (new_token x n)) (-1)) with (lstrip x). pose proof (language_re x) as R.
  destruct (re_match LANGUAGE_RE (lstrip x)) as [st|]; [|now destruct (R name)]. destruct R as [name' [G R]].
  rewrite (language_unique _ _ _ R H) in G. rewrite G. unfold change_dialect. rewrite D. reflexivity.
Qed.
Lemma lexm_lang_err ms n x name : x <> [] -> language_line x name -> for_name name = None ->
  lexm TkLanguage ms n x = (Err (no_such_language name (mkLoc n (Some (g_indent (mkLine x n) + 1)))), ms, set_matched ms (new_token x n) (Some TkLanguage) (Some name) None None None []).
Proof.
  intros Hx H D. rewrite lexm_ne by exact Hx. cbn [classic_match]. unfold c_match_Language.
  change (get_line_text (t_line (new_token x n)) (-1)) with (lstrip x). pose proof (language_re x) as R.
  destruct (re_match LANGUAGE_RE (lstrip x)) as [st|]; [|now destruct (R name)]. destruct R as [name' [G R]].
  rewrite (language_unique _ _ _ R H) in G. rewrite G. unfold change_dialect. rewrite D. unfold set_matched, t_location. cbn [t_loc_line t_loc_col t_line new_token].
  unfold g_bool. destruct x; [contradiction|]. reflexivity.
Qed.
Lemma lexm_lang_inv ms n x ms' t : lexm TkLanguage ms n x = (Ok true, ms', t) -> exists name d, language_line x name /\ for_name name = Some d /\ 
  ms' = mkMs (ms_md ms) (ms_default ms) name d (ms_indent ms) (ms_sep ms) (ms_feature ms) /\ t = set_matched ms (new_token x n) (Some TkLanguage) (Some name) None None None [].
Proof.
  intros H. assert (Hx : x <> []) by (intros ->; discriminate H).
  pose proof (language_re x) as R. destruct (re_match LANGUAGE_RE (lstrip x)) as [st|] eqn:E.
  - destruct R as [name [_ R]]. destruct (for_name name) as [d|] eqn:D.
    + rewrite (lexm_lang_true ms n x name d Hx R D) in H. injection H as <- <-. eauto 6.
    + rewrite (lexm_lang_err ms n x name Hx R D) in H. discriminate.
  - rewrite (lexm_lang_false ms n x Hx R) in H. discriminate.
Qed.

(** the class of an accepted line *)
Lemma lexm_cls k ms n x ms' t : good ms -> plain k = true -> lexm k ms n x = (Ok true, ms', t) -> cls ms x = k.
Proof.
  intros G P L. assert (Hx : x <> []) by (intros ->; destruct k; discriminate L || discriminate P).
  destruct (tok_eqb (cls ms x) k) eqn:E; [now apply tok_eqb_spec|]. rewrite lexm_false in L; try assumption; [discriminate|]. intros F. rewrite F, tok_eqb_refl in E. discriminate.
Qed.
Lemma sep_cls ms n x ms' t : good ms -> ms_sep ms = None -> lexm TkDocStringSeparator ms n x = (Ok true, ms', t) -> cls ms x = TkDocStringSeparator.
Proof.
  intros G S L. assert (Hx : x <> []) by (intros ->; discriminate L). rewrite lexm_ne in L by exact Hx. cbn [classic_match] in L.
  pose proof (cls_has ms G TkDocStringSeparator x ltac:(discriminate) ltac:(discriminate)) as H.
  apply tok_eqb_spec. rewrite <- H. unfold has. cbn [starts existsb]. unfold c_match_DocStringSeparator in L. rewrite S in L.
  assert (E : forall sep, match_separator None sep true ms (new_token x n) = if negb (startswith sep (lstrip x)) then (Ok false, ms, new_token x n) else match_separator None sep true ms (new_token x n)).
  { intros sep. unfold match_separator, g_startswith. change (g_trimmed (t_line (new_token x n))) with (lstrip x). destruct (startswith sep (lstrip x)); reflexivity. }
  rewrite (E sep_quotes) in L. destruct (startswith sep_quotes (lstrip x)) eqn:E1; [reflexivity|]. cbn [negb m_or] in L.
  rewrite (E sep_ticks) in L. destruct (startswith sep_ticks (lstrip x)) eqn:E2; [reflexivity|]. discriminate L.
Qed.
Lemma sep_false ms n x : good ms -> x <> [] -> ms_sep ms = None -> cls ms x <> TkDocStringSeparator -> lexm TkDocStringSeparator ms n x = (Ok false, ms, new_token x n).
Proof.
  intros G Hx S C. pose proof (cls_has ms G TkDocStringSeparator x ltac:(discriminate) ltac:(discriminate)) as H.
  assert (Q : tok_eqb (cls ms x) TkDocStringSeparator = false) by (destruct (tok_eqb (cls ms x) TkDocStringSeparator) eqn:E; [apply tok_eqb_spec in E; contradiction | reflexivity]).
  rewrite Q in H. unfold has in H. cbn [starts existsb] in H. apply orb_false_iff in H as [H1 H]. apply orb_false_iff in H as [H2 _].
  rewrite lexm_ne by exact Hx. cbn [classic_match]. unfold c_match_DocStringSeparator. rewrite S.
  assert (E : forall sep, startswith sep (lstrip x) = false -> match_separator None sep true ms (new_token x n) = (Ok false, ms, new_token x n)).
  { intros sep E. unfold match_separator, g_startswith. change (g_trimmed (t_line (new_token x n))) with (lstrip x). now rewrite E. }
  rewrite (E sep_quotes H1). cbn [m_or]. now rewrite (E sep_ticks H2).
Qed.
Lemma lexm_eof_false ms n x : x <> [] -> lexm TkEOF ms n x = (Ok false, ms, new_token x n).
Proof. intros H. rewrite lexm_ne by exact H. destruct x; [contradiction|]. reflexivity. Qed.
Lemma cls_language ms x name : good ms -> language_line x name -> cls ms x = TkComment.
Proof.
  intros G H. apply language_hash in H. pose proof (cls_has ms G TkComment x ltac:(discriminate) ltac:(discriminate)) as Q.
  unfold has in Q. cbn [starts existsb] in Q. rewrite H in Q. cbn in Q. symmetry in Q. now apply tok_eqb_spec in Q.
Qed.

(** a description has begun *)
Lemma desc_begun pre w : matches (prod RDescription) (lsyms pre ++ w) -> derivs (lsyms pre) (prod RDescription) = prod RDescription -> pre = [].
Proof.
  intros M E. destruct pre as [|t pre]; [reflexivity|]. exfalso. cbn [lsyms syms map] in E, M. change (map (root_sym lkind) pre) with (lsyms pre) in *.
  set (a := root_sym lkind t) in *. assert (A : a = ST TkOther).
  { cbn [prod] in M. unfold gplus, T in M. apply cat_inv in M as [u [v [E1 [M1 M2]]]]. apply sym_inv in M1. subst u. cbn in E1. now injection E1. }
  rewrite A in *. clear A a.
  assert (G : forall w', derivs w' (GStar (T TkOther)) = GStar (T TkOther) \/ derivs w' (GStar (T TkOther)) = GVoid).
  { induction w' as [|y w' IH]; [now left|]. cbn [derivs fold_left]. unfold T. cbn [deriv]. destruct (sym_eqb (ST TkOther) y); cbn [mkcat]; [exact IH|].
    right. change (derivs w' GVoid = GVoid). clear. induction w' as [|y w IH]; [reflexivity | exact IH]. }
  change (derivs (ST TkOther :: lsyms pre) (prod RDescription)) with (derivs (lsyms pre) (GStar (T TkOther))) in E.
  destruct (G (lsyms pre)) as [H|H]; rewrite H in E; discriminate E.
Qed.

(** ** One line *)
Lemma moves_tr q st fr es ss a m : ptable q = Some st -> cert q = Some fr -> marks_ok fr (map ME es ++ map MS ss ++ MB a :: m) ->
  exists fr' tr, built fr (map AEnd es ++ map AStart ss) a fr' m /\
    In (map AEnd es ++ map AStart ss ++ [ABuild], fr') (moves (lkind a) fr) /\
    pick (oracle fr') (lkind a) (st_trans st) = Some tr /\ tr_acts tr = map AEnd es ++ map AStart ss ++ [ABuild] /\ cert (tr_next tr) = Some fr'.
Proof.
  intros Q C M. pose proof (all_states_spec _ complete_ok q st Q) as K. unfold check_complete in K. rewrite C in K. rewrite forallb_forall in K.
  assert (Hk : In (lkind a) all_toks) by (destruct (lkind a); cbn; tauto). specialize (K _ Hk). rewrite forallb_forall in K.
  assert (G : forall p f, In (p, f) (moves (lkind a) fr) -> exists tr, pick (oracle f) (lkind a) (st_trans st) = Some tr /\ tr_acts tr = p /\ cert (tr_next tr) = Some f).
  { intros p f H. specialize (K _ H). cbn [fst snd] in K. destruct (pick _ _ _) as [tr|]; [|discriminate]. exists tr. split; [reflexivity|].
    apply andb_true_iff in K as [K1 K2]. apply acts_eqb_spec in K1. split; [exact K1|]. destruct (cert (tr_next tr)); [|discriminate]. apply frames_eqb_spec in K2. now subst. }
  destruct (in_moves (lkind a) a m ss eq_refl es fr M) as [fr' [B [D|[p [f [D1 D2]]]]]].
  - destruct (G _ _ D) as [tr H]. exists fr', tr. split; [exact B|]. split; [exact D|exact H].
  - exfalso. destruct (G _ _ D1) as [tr [P [A _]]]. destruct (pick_split _ _ _ _ P) as [b [c [E _]]].
    assert (I : In tr (st_trans st)) by (rewrite E; apply in_elt). pose proof (order_builds _ _ _ Q I) as F. rewrite A in F.
    apply D2. assert (X : In ABuild (builds p)) by (rewrite F; now left). unfold builds in X. apply filter_In in X. apply X.
Qed.

Definition lang_ok (a : leaf) : Prop := lkind a = TkComment -> forall e, fst (fst (lexm TkLanguage (lf_ms a) (lf_n a) (lf_x a))) <> Err e.
Lemma in_before {A} (l b c : list A) x y : l = b ++ x :: c -> In y b -> exists b1 b2, b = b1 ++ y :: b2 /\ l = b1 ++ y :: (b2 ++ x :: c).
Proof. intros -> H. apply in_split in H as [b1 [b2 ->]]. exists b1, b2. split; [reflexivity|]. now rewrite <- app_assoc. Qed.
Lemma sep_noerr ms n x e m t : lexm TkDocStringSeparator ms n x <> (Err e, m, t).
Proof.
  intros H. unfold lexm in H. destruct (_ && _); [discriminate|]. pose proof (classic_shape TkDocStringSeparator ms (new_token x n)) as Sh. rewrite H in Sh.
  destruct e; intuition discriminate.
Qed.
Lemma cert0 : cert 0 = Some [(RGherkinDocument, prod RGherkinDocument)].
Proof. reflexivity. Qed.
Lemma lang_zero q st tr : ptable q = Some st -> In tr (st_trans st) -> tr_tok tr = TkLanguage -> q = 0.
Proof.
  intros Q I K. pose proof (ptable_basic _ _ Q) as B. unfold check_basic in B. rewrite !andb_true_iff in B.
  destruct B as [[[[[_ _] B] _] _] _]. apply orb_true_iff in B as [B|B]; [now apply Nat.eqb_eq|].
  rewrite forallb_forall in B. specialize (B _ I). rewrite K in B. cbn [tok_eqb negb] in B. now rewrite andb_false_r in B.
Qed.
Lemma la_tagline q st tr l : ptable q = Some st -> In tr (st_trans st) -> tr_la tr = Some l -> tr_tok tr = TkTagLine.
Proof.
  intros Q I K. pose proof (ptable_basic _ _ Q) as B. unfold check_basic in B. rewrite !andb_true_iff in B.
  destruct B as [[[[[B _] _] _] _] _]. rewrite forallb_forall in B. specialize (B _ I). rewrite K in B. cbn [is_None orb] in B. now apply tok_eqb_spec.
Qed.
Lemma state0_comment tr : In tr (st_trans state_0) -> tr_tok tr = TkComment -> tr_acts tr = [ABuild].
Proof. cbn. intros H K. repeat (destruct H as [<-|H]; [try discriminate K; reflexivity|]). destruct H. Qed.
Lemma only_in ks l tr : only ks l = true -> In tr l -> In (tr_tok tr) ks.
Proof.
  unfold only. rewrite forallb_forall. intros H I. specialize (H _ I). unfold tok_in in H. apply existsb_exists in H as [k [K1 K2]].
  apply tok_eqb_spec in K2. now subst.
Qed.
Lemma stop_plain p k : In k (stop p) -> plain k = true.
Proof. destruct p; cbn; intros H; repeat (destruct H as [<-|H]; [reflexivity|]); destruct H. Qed.

Lemma leaf_step q st fr es ss a m rest ms' : ptable q = Some st -> cert q = Some fr -> marks_ok fr (map ME es ++ map MS ss ++ MB a :: m) ->
  lexm (lkind a) (lf_ms a) (lf_n a) (lf_x a) = (Ok true, ms', lf_t a) ->
  (q = 0 -> lang_ok a) ->
  (forall fr' l tr, In tr (st_trans st) -> tr_la tr = Some l -> lkind a = TkTagLine -> In (map AEnd es ++ map AStart ss ++ [ABuild], fr') (moves (lkind a) fr) -> marks_ok fr' m ->
     la (la_tok l) (lf_ms a) rest = Ok (oracle fr' l)) ->
  exists tr fr', choose (st_trans st) (lf_ms a) (lf_n a) (lf_x a) rest = ([], CTrans tr (lf_t a) ms') /\ In tr (st_trans st) /\
    tr_acts tr = map AEnd es ++ map AStart ss ++ [ABuild] /\ cert (tr_next tr) = Some fr' /\ marks_ok fr' m.
Proof.
  intros Q C M L LG LA. destruct (moves_tr q st fr es ss a m Q C M) as [fr' [tr [B [IM [P [A C']]]]]].
  destruct (pick_split _ _ _ _ P) as [before [after [E [K [Fi Bf]]]]]. exists tr, fr'.
  assert (Itr : In tr (st_trans st)) by (rewrite E; apply in_elt).
  split; [|split; [exact Itr|]; split; [exact A|]; split; [exact C' | exact (bt_rest _ _ _ _ _ B)]].
  assert (LA' := fun l t H H2 H3 => LA fr' l t H H2 H3 IM (bt_rest _ _ _ _ _ B)). clear LA.
  destruct B as [[r [res [frs [B1 [[pre [B2 [B3 [w B4]]]] B5]]]]] _].
  pose proof (all_states_spec _ order_ok q st Q) as O. unfold check_order in O. rewrite C in O.
  pose proof (order_go_split fr (st_trans st) [] O) as Og. cbn [app] in Og. pose proof (Og _ _ _ E) as Ot.
  rewrite E. apply choose_passes.
  2: { now rewrite K. }
  2: { intros l Hl. assert (T := la_tagline _ _ _ _ Q Itr Hl). rewrite (LA' l tr Itr Hl); [|congruence]. unfold fires in Fi. rewrite Hl in Fi. now rewrite Fi. }
  destruct a as [ms n x t]. cbn [lf_ms lf_n lf_x lf_t] in *. set (k := lkind (mkLeaf ms n x t)) in *.
  assert (Mo := lo_ms _ _ _ _ B3). assert (Op := lo_open _ _ _ _ B3). assert (Pr := lo_prio _ _ _ _ B3). assert (Ne := lo_eof _ _ _ _ B3).
  cbn [lf_ms lf_n lf_x lf_t] in Mo, Op, Ne. fold k in Ne. assert (Gd := matcher_good _ Mo).
  unfold sep_open in Op. rewrite <- B2 in Op. unfold priority in Pr. fold k in Pr. cbn [lf_ms lf_n lf_x lf_t] in Pr.
  apply Forall_forall. intros b Hb. rewrite Forall_forall in Bf. specialize (Bf b Hb).
  assert (Ib : In b (st_trans st)) by (rewrite E; apply in_or_app; now left).
  destruct (tok_eqb (tr_tok b) k) eqn:Ek.
  { apply tok_eqb_spec in Ek. destruct Bf as [Bf|Bf]; [contradiction|]. right. unfold fires in Bf. destruct (tr_la b) as [l|] eqn:Lb; [|discriminate].
    exists ms', t, l. rewrite Ek. split; [exact L|]. split; [reflexivity|]. rewrite (LA' l b Ib Lb); [now rewrite Bf|]. rewrite <- Ek. eapply la_tagline; eauto. }
  left. assert (Nk : tr_tok b <> k) by (intros F; rewrite F, tok_eqb_refl in Ek; discriminate). clear Ek Bf.
  destruct (list_eq_dec N.eq_dec x []) as [->|Hx].
  { rewrite lexm_nil; [eauto|]. rewrite <- (Ne eq_refl). exact Nk. }
  assert (EOF : tr_tok b = TkEOF -> exists m0 t0, lexm (tr_tok b) ms n x = (Ok false, m0, t0)) by (intros ->; rewrite lexm_eof_false by exact Hx; eauto).
  unfold order_at in Ot. rewrite A in Ot. rewrite app_assoc in Ot. rewrite removelast_last, K, B1 in Ot. cbn zeta in Ot.
  rewrite !andb_true_iff in Ot. destruct Ot as [[[_ _] Od] [[[[Ok1 _] Ol] Odo] _]]. apply eqb_prop in Od.
  assert (Ob : tr_tok b <> TkOther).
  { intros F. destruct (in_before _ _ _ _ _ E Hb) as [b1 [b2 [_ E2]]]. specialize (Og _ _ _ E2). unfold order_at in Og.
    destruct (apply_acts (tr_tok b) (removelast (tr_acts b)) fr) as [[|[r1 res1] frs1]|]; try discriminate Og. rewrite F in Og. cbn zeta in Og. rewrite !andb_true_iff in Og.
    destruct Og as [_ [[[[_ Og] _] _] _]]. destruct b2; discriminate Og. }
  assert (CL : ms_sep ms = None -> cls ms x = k -> exists m0 t0, lexm (tr_tok b) ms n x = (Ok false, m0, t0)).
  { intros S Cx. destruct (plain (tr_tok b)) eqn:Pl; [rewrite lexm_false by (assumption || congruence); eauto|].
    destruct (tr_tok b) eqn:Tb; try discriminate Pl.
    - now apply EOF.
    - rewrite sep_false by (assumption || congruence). eauto.
    - assert (Z := lang_zero _ _ _ Q Ib Tb). destruct (tok_eqb k TkComment) eqn:Kc.
      + apply tok_eqb_spec in Kc. specialize (LG Z Kc). cbn [lf_ms lf_n lf_x] in LG.
        subst q. change (ptable 0) with (Some state_0) in Q. injection Q as <-. pose proof (state0_comment tr Itr ltac:(congruence)) as X. rewrite A in X.
        assert (X2 : map AEnd es ++ map AStart ss = []). { rewrite app_assoc in X. now apply (app_inj_tail (map AEnd es ++ map AStart ss) []) in X as [X _]. }
        rewrite X2 in B1. cbn in B1. injection B1 as ->. rewrite cert0 in C. injection C as <- _ _. rewrite Kc in Pr.
        destruct (lexm TkLanguage ms n x) as [[[[]|e] m0] t0]; [now destruct Pr | eauto | now destruct (LG e)].
      + rewrite lexm_lang_false; [eauto | exact Hx|]. intros name Hn. apply (cls_language ms) in Hn; [|exact Gd]. rewrite Cx in Hn. rewrite Hn in Kc. discriminate Kc.
    - contradiction. }
  destruct (plain k) eqn:Pk.
  - apply CL; [|eapply lexm_cls; eauto]. apply Op. rewrite <- Od. destruct k; try discriminate Pk; now apply negb_true_iff in Odo.
  - destruct k eqn:Ek; try discriminate Pk.
    + apply lexm_eof_nil in L. contradiction.
    + assert (Rr : negb (docopen fr) || only [TkEOF] before = true) by (destruct r; try discriminate Ok1; exact Ok1).
      destruct (docopen fr) eqn:Do; cbn [negb orb] in Rr.
      * apply only_in with (1 := Rr) in Hb. destruct Hb as [Hb|[]]. apply EOF. auto.
      * apply CL; [apply Op; congruence|]. eapply sep_cls; eauto. apply Op. congruence.
    + cbn [tok_eqb] in Ol. apply only_in with (1 := Ol) in Hb. destruct Hb as [Hb|[]]. apply EOF. auto.
    + destruct r; try discriminate Ok1.
      * rewrite !andb_true_iff in Ok1. destruct Ok1 as [_ Oo]. apply only_in with (1 := Oo) in Hb. destruct Hb as [Hb|[Hb|[]]]; [apply EOF; auto|].
        rewrite <- Hb. destruct (lexm TkDocStringSeparator ms n x) as [[[[]|e] m0] t0] eqn:Ls; [now destruct Pr | eauto | now apply sep_noerr in Ls].
      * rewrite !andb_true_iff in Ok1. destruct Ok1 as [_ Oo]. apply only_in with (1 := Oo) in Hb.
        assert (S : ms_sep ms = None) by (apply Op; rewrite <- Od; rewrite Od; reflexivity).
        destruct Pr as [Pr1 Pr2]. destruct Hb as [Hb|Hb]; [apply EOF; auto|]. apply in_app_or in Hb.
        assert (Cl : plain (tr_tok b) = true /\ cls ms x <> tr_tok b).
        { destruct Hb as [Hb|Hb].
          - destruct (gx_eqb res (prod RDescription)) eqn:G; [|destruct Hb]. destruct Hb as [Hb|[]]. rewrite <- Hb. split; [reflexivity|]. apply Pr2.
            apply gx_eqb_spec in G. eapply desc_begun; [exact B4 | congruence].
          - split; [eapply stop_plain; eauto|]. intros F. apply Pr1. rewrite F. destruct frs as [|[? ?] ?]; exact Hb. }
        rewrite lexm_false by tauto. eauto.
Qed.

(** ** Lookahead *)
Definition title (p : rule) : tok :=
  match p with RScenarioDefinition => TkScenarioLine | RExamplesDefinition => TkExamplesLine | RFeatureHeader => TkFeatureLine | _ => TkRuleLine end.
Definition tags_below (fr : list frame) : option rule := match fr with (RTags, _) :: (p, _) :: _ => Some p | _ => None end.
Definition is_tags (p : rule) (fr : list frame) : bool := match tags_below fr with Some p' => rule_eqb p p' | None => false end.
Definition titled (p : rule) : bool := match p with RScenarioDefinition | RExamplesDefinition | RFeatureHeader | RRuleHeader => true | _ => false end.
Definition check_tags (fr : list frame) : bool :=
  forallb (fun m : list act * list frame => match tags_below (snd m) with Some _ => true | None => false end) (moves TkTagLine fr) &&
  match tags_below fr with
  | Some p => titled p && forallb (fun k => match k with
      | TkTagLine | TkEmpty | TkComment => forallb (fun m : list act * list frame => is_tags p (snd m)) (moves k fr)
      | _ => tok_eqb k (title p) || match moves k fr with [] => true | _ => false end end) all_toks
  | None => true
  end.
Lemma tags_ok : forallb (fun c : nat * list frame => check_tags (snd c)) cert_list = true.
Proof. vm_compute. reflexivity. Qed.
Lemma cert_in q fr : cert q = Some fr -> In (q, fr) cert_list.
Proof.
  unfold cert, look. destruct (find _ _) as [[q' f]|] eqn:E; [|discriminate]. intros H. injection H as <-. apply find_some in E as [E1 E2]. cbn in E2. apply Nat.eqb_eq in E2. now subst.
Qed.
Lemma tags_checked q fr : cert q = Some fr -> check_tags fr = true.
Proof. intros H. apply cert_in in H. pose proof tags_ok as T. rewrite forallb_forall in T. exact (T _ H). Qed.
Lemma la_tok_title l p : titled p = true -> tok_eqb (title p) (la_tok l) = rule_eqb p (match l with LA0 => RScenarioDefinition | LA1 => RExamplesDefinition end).
Proof. destruct l, p; intros H; try discriminate H; reflexivity. Qed.

Lemma lchain_nil ms n ls : lchain ms n [] ls -> exists t ms', lexm TkEOF ms (S n) [] = (Ok true, ms', t) /\ ls = [mkLeaf ms (S n) [] t].
Proof. inversion 1; subst; eauto. Qed.
Lemma lchain_cons ms n x rest ls : lchain ms n (x :: rest) ls -> exists t ms' k ls', x <> [] /\ lexm k ms (S n) x = (Ok true, ms', t) /\ lchain ms' (S n) rest ls' /\ ls = mkLeaf ms (S n) x t :: ls'.
Proof. inversion 1; subst; eauto 10. Qed.
Lemma la_lines l lines : forall ms n q fr p m, lchain ms n lines (leaves_of m) -> good ms -> ptable q <> None -> cert q = Some fr -> tags_below fr = Some p -> marks_ok fr m -> tight m ->
  la (la_tok l) ms lines = Ok (rule_eqb p (match l with LA0 => RScenarioDefinition | LA1 => RExamplesDefinition end)).
Proof.
  induction lines as [|x rest IH]; intros ms n q fr p m Ch G Hq C Tb M Ti; destruct (ptable q) as [st|] eqn:Q; try contradiction; clear Hq.
  - apply lchain_nil in Ch as [t [ms' [L E2]]]. destruct (first_leaf m _ _ E2 Ti) as [es [ss [m' [-> [Em Ti']]]]].
    destruct (moves_tr q st fr es ss _ m' Q C M) as [fr' [tr [_ [I _]]]]. exfalso. 
    pose proof (tags_checked _ _ C) as K. unfold check_tags in K. rewrite Tb in K. rewrite !andb_true_iff in K. destruct K as [_ [Kp K]].
    rewrite forallb_forall in K. assert (Ek : lkind (mkLeaf ms (S n) [] t) = TkEOF) by (unfold lkind, tok_kind; cbn [lf_t]; now rewrite (lexm_kind _ _ _ _ _ _ L)).
    rewrite Ek in I. specialize (K TkEOF ltac:(cbn; tauto)). destruct (moves TkEOF fr); [destruct I|]. destruct p; try discriminate Kp; discriminate K.
  - apply lchain_cons in Ch as [t [ms' [k [ls [Hx [L [Ch' E1]]]]]]]. destruct (first_leaf m _ _ E1 Ti) as [es [ss [m' [-> [Em Ti']]]]].
    destruct (moves_tr q st fr es ss _ m' Q C M) as [fr' [tr [B [I [P [A C']]]]]].
    assert (Ek : lkind (mkLeaf ms (S n) x t) = k) by (unfold lkind, tok_kind; cbn [lf_t]; now rewrite (lexm_kind _ _ _ _ _ _ L)). rewrite Ek in *.
    pose proof (tags_checked _ _ C) as K. unfold check_tags in K. rewrite Tb in K. rewrite !andb_true_iff in K. destruct K as [_ [Kp K]].
    rewrite forallb_forall in K. specialize (K k ltac:(destruct k; cbn; tauto)). cbn [la].
    assert (Next : k = TkTagLine \/ k = TkEmpty \/ k = TkComment -> ms' = ms /\ tags_below fr' = Some p /\ cls ms x = k).
    { intros Hk. split; [destruct Hk as [H|[H|H]]; subst k; apply (lexm_other _ _ _ _ _ _ L); rewrite H; discriminate|]. split; [|eapply lexm_cls; eauto; destruct Hk as [H|[H|H]]; now rewrite H].
      assert (K' : forallb (fun m : list act * list frame => is_tags p (snd m)) (moves k fr) = true) by (destruct Hk as [H|[H|H]]; rewrite H in K |- *; exact K).
      rewrite forallb_forall in K'. specialize (K' _ I). cbn [snd] in K'. unfold is_tags in K'. destruct (tags_below fr'); [|discriminate]. apply rule_eqb_spec in K'. now subst. }
    assert (Pt : ptable (tr_next tr) <> None).
    { destruct (pick_split _ _ _ _ P) as [b [c [E [Kt _]]]]. pose proof (ptable_basic _ _ Q) as Bs. unfold check_basic in Bs. rewrite !andb_true_iff in Bs.
      destruct Bs as [_ Bs]. rewrite forallb_forall in Bs. specialize (Bs tr ltac:(rewrite E; apply in_elt)). rewrite Kt in Bs. intros F. rewrite F in Bs.
      destruct k; try discriminate Bs. apply lexm_eof_nil in L. contradiction. }
    assert (Skip : k = TkTagLine \/ k = TkEmpty \/ k = TkComment -> la (la_tok l) ms rest = Ok (rule_eqb p (match l with LA0 => RScenarioDefinition | LA1 => RExamplesDefinition end))).
    { intros Hk. destruct (Next Hk) as [-> [Tb' _]]. rewrite <- Em in Ch'. pose proof (bt_rest _ _ _ _ _ B). eapply IH; eauto. }
    assert (Ttl : k <> TkTagLine -> k <> TkEmpty -> k <> TkComment -> k = title p).
    { intros N1 N2 N3. destruct (moves k fr) as [|m0 ml] eqn:Em2; [destruct I|]. destruct k; try contradiction; cbn [orb] in K; rewrite orb_false_r in K; now apply tok_eqb_spec in K. }
    assert (Pl : plain k = true). { destruct k; try reflexivity; specialize (Ttl ltac:(discriminate) ltac:(discriminate) ltac:(discriminate)); destruct p; discriminate. }
    rewrite (lexm_cls _ _ _ _ _ _ G Pl L). clear Ek.
    destruct (tok_eqb k (la_tok l)) eqn:Kl.
    + apply tok_eqb_spec in Kl. assert (k = title p) by (apply Ttl; rewrite Kl; destruct l; discriminate). rewrite <- la_tok_title by exact Kp. rewrite <- H, Kl, tok_eqb_refl. reflexivity.
    + destruct (tok_eqb k TkTagLine) eqn:E2; [apply tok_eqb_spec in E2; subst k|].
      * assert (exists i, g_tags (mkLine x 0) = Ok i) as [i ->]; [|auto].
        { pose proof (lexm_tag ms (S n) x G Hx (lexm_cls _ _ _ _ _ _ G Pl L)) as F. destruct (g_tags (mkLine x 0)) as [i|e]; [eauto|]. destruct F as [F _]. congruence. }
      * destruct (tok_eqb k TkEmpty) eqn:E3; [apply tok_eqb_spec in E3; subst k; auto|].
        destruct (tok_eqb k TkComment) eqn:E4; [apply tok_eqb_spec in E4; subst k; auto|].
        assert (Kt : k = title p) by (apply Ttl; intros F; rewrite F in *; discriminate).
        rewrite <- la_tok_title, <- Kt, Kl by exact Kp. destruct k; try reflexivity; discriminate.
Qed.

(** ** All lines *)
Definition ev_mark (a : leaf) (x : act) : mark := match x with AStart r => MS r | AEnd r => ME r | ABuild => MB a end.
Definition ev_marks (evs : list ev) : list mark := flat_map (fun e => match e with EvAct a acts => map (ev_mark a) acts | EvErr _ => [] end) evs.
Lemma ev_marks_app e1 e2 : ev_marks (e1 ++ e2) = ev_marks e1 ++ ev_marks e2.
Proof. apply flat_map_app. Qed.
Lemma ev_marks_move a es ss : map (ev_mark a) (map AEnd es ++ map AStart ss ++ [ABuild]) = map ME es ++ map MS ss ++ [MB a].
Proof. rewrite !map_app, !map_map. reflexivity. Qed.
Fixpoint heads (m : list mark) : list leaf := match m with MB a :: m' => a :: heads m' | _ => [] end.
Definition clean (evs : list ev) : Prop := forall e, ~ In (EvErr e) evs.
Lemma state0_zero tr : In tr (st_trans state_0) -> tr_next tr = 0 -> tr_acts tr = [ABuild].
Proof. cbn. intros H K. repeat (destruct H as [<-|H]; [try discriminate K; reflexivity|]). destruct H. Qed.
Lemma next_zero q st tr : ptable q = Some st -> In tr (st_trans st) -> tr_next tr = 0 -> q = 0.
Proof.
  intros Q I K. pose proof (ptable_basic _ _ Q) as B. unfold check_basic in B. rewrite !andb_true_iff in B.
  destruct B as [[[[[_ _] B] _] _] _]. apply orb_true_iff in B as [B|B]; [now apply Nat.eqb_eq|].
  rewrite forallb_forall in B. specialize (B _ I). rewrite K in B. discriminate B.
Qed.
Lemma next_ptable q st tr : ptable q = Some st -> In tr (st_trans st) -> tr_tok tr <> TkEOF -> ptable (tr_next tr) <> None.
Proof.
  intros Q I K. pose proof (ptable_basic _ _ Q) as B. unfold check_basic in B. rewrite !andb_true_iff in B.
  destruct B as [_ B]. rewrite forallb_forall in B. specialize (B _ I). destruct (tok_eqb (tr_tok tr) TkEOF) eqn:E; [apply tok_eqb_spec in E; contradiction|].
  intros F. rewrite F in B. discriminate.
Qed.
Lemma moves_state q st fr k acts fr' : ptable q = Some st -> cert q = Some fr -> In (acts, fr') (moves k fr) -> k <> TkEOF -> exists q', cert q' = Some fr' /\ ptable q' <> None.
Proof.
  intros Q C I Hk. pose proof (all_states_spec _ complete_ok q st Q) as K. unfold check_complete in K. rewrite C in K. rewrite forallb_forall in K.
  specialize (K k ltac:(destruct k; cbn; tauto)). rewrite forallb_forall in K. specialize (K _ I). cbn [fst snd] in K.
  destruct (pick (oracle fr') k (st_trans st)) as [tr|] eqn:P; [|discriminate]. apply andb_true_iff in K as [K1 K2]. destruct (cert (tr_next tr)) eqn:E; [|discriminate].
  apply frames_eqb_spec in K2. subst. exists (tr_next tr). split; [exact E|]. destruct (pick_split _ _ _ _ P) as [b [c [F [Kt _]]]].
  eapply next_ptable; eauto; [rewrite F; apply in_elt | congruence].
Qed.

Lemma lines_step q st fr ms n x rest m a ls ms' : ptable q = Some st -> cert q = Some fr -> marks_ok fr m -> tight m -> leaves_of m = a :: ls ->
  (q = 0 -> Forall lang_ok (heads m)) -> good ms -> lf_ms a = ms -> lf_n a = n -> lf_x a = x -> lexm (lkind a) ms n x = (Ok true, ms', lf_t a) ->
  (lkind a = TkTagLine -> lchain ms' n rest ls) ->
  exists tr m', scan_step q ms n x rest = ([EvAct a (tr_acts tr)], Ok (tr_next tr, ms')) /\ In tr (st_trans st) /\ tr_tok tr = lkind a /\
    m = map (ev_mark a) (tr_acts tr) ++ m' /\ leaves_of m' = ls /\ tight m' /\ (exists fr', cert (tr_next tr) = Some fr' /\ marks_ok fr' m') /\
    (tr_next tr = 0 -> Forall lang_ok (heads m')).
Proof.
  intros Q C M Ti El Lg G E1 E2 E3 L Ch. destruct (first_leaf m a ls El Ti) as [es [ss [m' [Em [El' Ti']]]]].
  rewrite Em in M. assert (Zero : q = 0 -> lang_ok a).
  { intros Hq. specialize (Lg Hq). rewrite Em in Lg. destruct es as [|e es].
    - destruct ss as [|r ss]; [now inversion Lg|]. clear Lg. cbn [map app] in M. inversion M as [|? ? fr1 ? S M1| |]; subst r0 fr0 m0.
      subst q. change (ptable 0) with (Some state_0) in Q. injection Q as <-. intros Kc.
      exfalso. destruct (moves_tr 0 state_0 fr [] (r :: ss) a m' eq_refl C M) as [fr' [tr [_ [_ [P [A _]]]]]].
      destruct (pick_split _ _ _ _ P) as [b [c [Es [Kt _]]]]. rewrite (state0_comment tr) in A; [discriminate A | rewrite Es; apply in_elt | congruence].
    - subst q. rewrite cert0 in C. injection C as <-. cbn [map app] in M. inversion M as [| |? ? fr1 ? S M1|]; subst. discriminate S. }
  destruct (leaf_step q st fr es ss a m' rest ms' Q C M) as [tr [fr' [Cs [I [A [C' M']]]]]].
  { now rewrite E1, E2, E3. }
  { exact Zero. }
  { intros fr' l tr I Hl Kt Im M'. rewrite E1. destruct (moves_state _ _ _ _ _ _ Q C Im ltac:(rewrite Kt; discriminate)) as [q' [C' Hq']].
    pose proof (tags_checked _ _ C) as K. unfold check_tags in K. rewrite !andb_true_iff in K. destruct K as [K _]. rewrite forallb_forall in K. rewrite Kt in Im. specialize (K _ Im). cbn [snd] in K.
    destruct (tags_below fr') as [p|] eqn:Tb; [|discriminate].
    assert (Ems : ms' = ms) by (rewrite Kt in L; apply (lexm_other _ _ _ _ _ _ L); discriminate). subst ms'.
    assert (Or : oracle fr' l = rule_eqb p (match l with LA0 => RScenarioDefinition | LA1 => RExamplesDefinition end)).
    { unfold tags_below in Tb. destruct fr' as [|[[] ?] [|[? ?] ?]]; try discriminate Tb. injection Tb as ->. reflexivity. }
    rewrite Or. eapply la_lines with (n := n) (m := m'); eauto. rewrite El'. now apply Ch. }
  assert (Kt : tr_tok tr = lkind a).
  { destruct (choose_split _ _ _ _ _ _ _ _ _ Cs) as [_ [_ [_ [_ H]]]]. unfold lkind, tok_kind. now rewrite (lexm_kind _ _ _ _ _ _ H). }
  exists tr, m'. split; [|split; [exact I|]; split; [exact Kt|]].
  { unfold scan_step. rewrite Q, <- E1, <- E2, <- E3, Cs. cbn [map app]. destruct a. reflexivity. }
  rewrite A, ev_marks_move, <- !app_assoc. cbn [app]. split; [exact Em|]. split; [exact El'|]. split; [exact Ti'|]. split; [eauto|].
  intros Z. assert (Hq := next_zero _ _ _ Q I Z). specialize (Lg Hq). subst q. change (ptable 0) with (Some state_0) in Q. injection Q as <-.
  rewrite (state0_zero tr I Z) in A. rewrite Em in Lg. destruct es as [|e es]; [|discriminate A]. destruct ss as [|r ss]; [|discriminate A]. cbn [map app heads] in Lg. now inversion Lg.
Qed.
Theorem scan_complete lines : forall q ms n m, ptable q <> None -> (exists fr, cert q = Some fr /\ marks_ok fr m) -> tight m -> lchain ms n lines (leaves_of m) -> good ms ->
  (q = 0 -> Forall lang_ok (heads m)) ->
  exists evs tail, scan q ms n lines = (evs, Ok tt) /\ clean evs /\ m = ev_marks evs ++ tail /\ leaves_of tail = [].
Proof.
  induction lines as [|x rest IH]; intros q ms n m Hq [fr [C M]] Ti Ch G Lg; destruct (ptable q) as [st|] eqn:Q; try contradiction; clear Hq.
  - apply lchain_nil in Ch as [t [ms' [L E]]].
    assert (Ek : lkind (mkLeaf ms (S n) [] t) = TkEOF) by (unfold lkind, tok_kind; cbn [lf_t]; now rewrite (lexm_kind _ _ _ _ _ _ L)).
    destruct (lines_step q st fr ms (S n) [] [] m _ [] ms' Q C M Ti E Lg G eq_refl eq_refl eq_refl) as [tr [m' [S [_ [_ [Em [El _]]]]]]].
    { rewrite Ek. exact L. } { rewrite Ek. discriminate. }
    eexists _, m'. split; [cbn [scan]; rewrite S; reflexivity|]. split; [intros e [F|[]]; discriminate|]. split; [|exact El]. cbn [ev_marks flat_map]. now rewrite app_nil_r.
  - apply lchain_cons in Ch as [t [ms' [k [ls [Hx [L [Ch E]]]]]]].
    assert (Ek : lkind (mkLeaf ms (S n) x t) = k) by (unfold lkind, tok_kind; cbn [lf_t]; now rewrite (lexm_kind _ _ _ _ _ _ L)).
    destruct (lines_step q st fr ms (S n) x rest m _ ls ms' Q C M Ti E Lg G eq_refl eq_refl eq_refl) as [tr [m' [S [I [Kt [Em [El [Ti' [Fr Lg']]]]]]]]].
    { rewrite Ek. exact L. } { intros _. exact Ch. }
    destruct (IH (tr_next tr) ms' (Datatypes.S n) m') as [evs [tail [S2 [Cl [Em2 El2]]]]]; auto.
    { eapply next_ptable; eauto. rewrite Kt, Ek. intros ->. apply lexm_eof_nil in L. contradiction. }
    { rewrite El. exact Ch. } { eapply lexm_good; eauto. }
    eexists _, tail. split; [cbn [scan]; rewrite S, S2; reflexivity|]. split; [intros e [F|F]; [discriminate | now apply Cl in F]|]. split; [|exact El2].
    cbn [app]. change (ev_marks (EvAct ?a ?l :: ?e)) with (map (ev_mark a) l ++ ev_marks e). rewrite <- app_assoc, <- Em2. exact Em.
Qed.

(** ** The tree that is built *)
Definition cwalk (cs : cstack) : list mark := flat_map (fun p => MS (fst p) :: walks (snd p)) (rev cs).
Lemma cwalk_cons r l cs : cwalk ((r, l) :: cs) = cwalk cs ++ MS r :: walks l.
Proof. unfold cwalk. cbn [rev]. rewrite flat_map_app. cbn. now rewrite app_nil_r. Qed.
Lemma csteps_walk a acts cs cs' : csteps a acts cs cs' -> cwalk cs' = cwalk cs ++ map (ev_mark a) acts.
Proof.
  induction 1 as [|x xs c1 c2 c3 H1 H2 IH]; [cbn; now rewrite app_nil_r|]. rewrite IH. destruct H1; cbn [map ev_mark].
  - rewrite cwalk_cons. cbn. now rewrite <- app_assoc.
  - subst. rewrite !cwalk_cons, walks_app. cbn [walks flat_map]. rewrite walk_node, app_nil_r. rewrite <- !app_assoc. cbn [app]. rewrite <- !app_assoc. cbn [app]. now rewrite <- !app_assoc.
  - rewrite !cwalk_cons, walks_app. cbn. rewrite <- !app_assoc. cbn. now rewrite <- !app_assoc.
Qed.
Lemma crun_walk evs cs cs' : crun evs cs cs' -> cwalk cs' = cwalk cs ++ ev_marks evs.
Proof.
  induction 1 as [|e evs c1 c2 H IH|a acts evs c1 c2 c3 H1 H2 IH]; [cbn; now rewrite app_nil_r | exact IH|].
  rewrite IH, (csteps_walk _ _ _ _ H1). cbn. now rewrite <- app_assoc.
Qed.
Lemma leaves_walk t : leaves_of (walk t) = yield t.
Proof.
  induction t as [a|r l IH] using tree_ind'; [reflexivity|]. rewrite walk_node. cbn [leaves_of flat_map app]. fold (leaves_of (walks l ++ [ME r])).
  unfold leaves_of. rewrite flat_map_app. cbn. rewrite app_nil_r. fold (leaves_of (walks l)). induction IH as [|t l Ht F IH2]; [reflexivity|].
  change (walks (t :: l)) with (walk t ++ walks l). unfold leaves_of in *. rewrite flat_map_app, Ht, IH2. reflexivity.
Qed.
Lemma leaves_walks l : leaves_of (walks l) = yields l.
Proof. induction l as [|t l IH]; [reflexivity|]. change (walks (t :: l)) with (walk t ++ walks l). unfold leaves_of. rewrite flat_map_app. fold (leaves_of (walk t)) (leaves_of (walks l)). now rewrite leaves_walk, IH. Qed.

(** the leading comments of the document *)
Definition langs_ok (l : list ltree) : Prop := forall a, In (Leaf a) l -> lang_ok a.
Lemma heads_walks l : langs_ok l -> Forall lang_ok (heads (walks l)).
Proof.
  induction l as [|[a|r l'] l IH]; intros H; [constructor| |constructor]. cbn. constructor; [apply H; now left|]. apply IH. intros b Hb. apply H. now right.
Qed.
Lemma doc_last l : matches (prod RGherkinDocument) (lsyms l) -> exists l0 a, l = l0 ++ [Leaf a].
Proof.
  intros M. cbn [prod gseq] in M. apply cat_inv in M as [u [v [E [_ M]]]]. apply cat_inv in M as [v1 [v2 [-> [_ M]]]]. apply sym_inv in M. subst v2.
  rewrite app_assoc in E. destruct l as [|t0 l0] using rev_ind; [destruct (u ++ v1); discriminate|]. rewrite lsyms_app in E. apply app_inj_tail in E as [_ E].
  destruct t0 as [a|r k]; [eauto | discriminate].
Qed.
Lemma clean_app e1 e2 : clean (e1 ++ e2) <-> clean e1 /\ clean e2.
Proof. unfold clean. split; [intros H; split; intros e He; apply (H e), in_or_app; auto|]. intros [H1 H2] e He. apply in_app_or in He as [He|He]; [now apply H1 in He | now apply H2 in He]. Qed.

Theorem tree_found ms lines l : matcher_ok ms -> ms_sep ms = None -> lines_ok lines -> doc_tree ms lines l -> langs_ok l ->
  exists evs, scan 0 ms 0 lines = (evs, Ok tt) /\ clean evs /\ crun evs [(RGherkinDocument, [])] [(RGherkinDocument, l)].
Proof.
  intros Hm Hs Hl [O Ch] Lg. inversion O as [|? ? Mt Lv F]; subst.
  destruct (scan_complete lines 0 ms 0 (walks l)) as [evs [tail [S [Cl [Em El]]]]]; try discriminate.
  { exists [(RGherkinDocument, prod RGherkinDocument)]. split; [reflexivity | now apply doc_marks]. }
  { eapply walks_tight; eauto. } { rewrite leaves_walks. exact Ch. } { now apply matcher_good. } { intros _. now apply heads_walks. }
  exists evs. split; [exact S|]. split; [exact Cl|].
  assert (Inv : st_inv 0 ms [(RGherkinDocument, [])]).
  { exists [(RGherkinDocument, prod RGherkinDocument)]. split; [reflexivity|]. split.
    - cbn [sinv]. split; [reflexivity|]. split; [reflexivity|]. split; [apply leaves_ok_nil|]. split; [constructor | exact I].
    - split; [exact Hm|]. rewrite Hs. split; reflexivity. }
  destruct (scan_sound lines 0 ms 0 [(RGherkinDocument, [])] evs _ Hl ltac:(discriminate) Inv S) as [_ [cs' [q' [ms' [Run [_ Fin]]]]]].
  destruct Fin as [[e Fin]|[[l' [-> O']] _]]; [now apply Cl in Fin|].
  assert (E : l = l'); [|now subst].
  pose proof (crun_walk _ _ _ Run) as W. rewrite !cwalk_cons in W. cbn in W. injection W as W.
  assert (Tl : tail = []).
  { destruct (doc_last _ Mt) as [l0 [a El0]]. destruct tail as [|y tail] using rev_ind; [reflexivity|]. exfalso. rewrite El0, walks_app, app_assoc in Em. apply app_inj_tail in Em as [_ <-].
    unfold leaves_of in El. rewrite flat_map_app in El. apply app_eq_nil in El as [_ El]. discriminate El. }
  rewrite Tl, app_nil_r in Em. destruct (walks_inj l l' [] [] I I) as [E _]; [|exact E]. rewrite !app_nil_r. congruence.
Qed.

Lemma sim_clean ids evs cs cs' : crun evs cs cs' -> clean evs -> forall b es, image ids cs b es ->
  exists es1 b', raw_evs ast_builder evs b = (es1, Ok tt, b') /\ image ids cs' b' (es ++ es1).
Proof.
  induction 1 as [cs|e evs c1 c2 H IH|a acts evs c1 c2 c3 H1 H2 IH]; intros Cl b es I0.
  - exists [], b. rewrite app_nil_r. split; [reflexivity | exact I0].
  - exfalso. apply (Cl e). now left.
  - destruct (sim_steps (fun _ => True) ids a acts c1 c2 H1 (fun _ => Logic.I) b es I0) as [es1 [b1 [R1 [I1 _]]]]; [apply Forall_forall; unfold rowP; auto|].
    destruct (IH ltac:(intros e He; apply (Cl e); now right) b1 _ I1) as [es2 [b2 [R2 I2]]].
    exists (es1 ++ es2), b2. cbn [raw_evs]. rewrite R1, R2, app_assoc. auto.
Qed.
Lemma cstep_fun a x c1 c2 : cstep a x c1 c2 -> forall c3, cstep a x c1 c3 -> c2 = c3.
Proof. destruct 1; intros c3 H3; inversion H3; subst; congruence. Qed.
Lemma csteps_fun a xs c1 c2 : csteps a xs c1 c2 -> forall c3, csteps a xs c1 c3 -> c2 = c3.
Proof. induction 1 as [|x xs a1 a2 a3 S1 S2 IH]; intros c3 H3; inversion H3; subst; [reflexivity|]. apply IH. rewrite (cstep_fun _ _ _ _ S1 _ ltac:(eassumption)). assumption. Qed.
Lemma crun_fun evs c1 c2 : crun evs c1 c2 -> forall c3, crun evs c1 c3 -> c2 = c3.
Proof.
  induction 1 as [cs|e evs a1 a2 H IH|a acts evs a1 a2 a3 H1 H2 IH]; intros c3 H3; inversion H3; subst; [reflexivity | auto|].
  apply IH. rewrite (csteps_fun _ _ _ _ H1 _ ltac:(eassumption)). assumption.
Qed.
(** the parser finds the tree and reports what building the document from it reports *)
Theorem parse_lines_tree stop ids ms ms0 lines l subs es ids' : ms_reset ms = Ok ms0 -> matcher_ok ms0 -> ms_sep ms0 = None -> lines_ok lines ->
  doc_tree ms0 lines l -> langs_ok l -> evals l ids = (subs, es, ids') ->
  fst (parse_lines stop ids ms lines) = rbind (outcome stop es (Ok tt)) (fun _ => Ok (mkGdoc (feature_in subs) (comments_of (yields l)))) /\
  (es = [] -> ab_ids (c_b (snd (parse_lines stop ids ms lines))) = ids').
Proof.
  intros Hr Hm Hs Hl Ht Lg Ev. destruct (tree_found ms0 lines l Hm Hs Hl Ht Lg) as [evs [Es [Cl Run]]].
  destruct (sim_clean ids evs _ _ Run Cl (mkAb [mkNode RGherkinDocument []; mkNode RNone []] [] ids) []) as [es1 [b1 [R1 I1]]]; [split; reflexivity|].
  assert (Inv : st_inv 0 ms0 [(RGherkinDocument, [])]).
  { exists [(RGherkinDocument, prod RGherkinDocument)]. split; [reflexivity|]. split.
    - cbn [sinv]. split; [reflexivity|]. split; [reflexivity|]. split; [apply leaves_ok_nil|]. split; [constructor | exact I].
    - split; [exact Hm|]. rewrite Hs. split; reflexivity. }
  assert (R0 : forall evs2, raw_evs ast_builder (EvAct no_leaf [AStart RGherkinDocument] :: evs2) (ab_reset ids) =
     raw_evs ast_builder evs2 (mkAb [mkNode RGherkinDocument []; mkNode RNone []] [] ids)).
  { intros evs2. cbn [raw_evs raw_acts bact ast_builder bd_start]. unfold ab_start_rule, ab_reset. cbn [ab_stack ab_comments ab_ids].
    destruct (raw_evs _ evs2 _) as [[? ?] ?]. reflexivity. }
  destruct (scan_sound lines 0 ms0 0 [(RGherkinDocument, [])] evs _ Hl ltac:(discriminate) Inv Es) as [_ [cs' [q' [ms' [Run' [Inv' _]]]]]].
  assert (cs' = [(RGherkinDocument, l)]).
  { pose proof (crun_fun _ _ _ Run _ Run'). congruence. }
  subst cs'.
  destruct (sim_end (fun _ => True) q' ms' ids _ b1 es1 Inv' I1) as [es2 [b2 [R2 [_ G]]]]; [apply Forall_forall; unfold rowP; auto|].
  destruct (G l eq_refl) as [-> [subs' [G1 G2]]]. rewrite Ev in G1. injection G1 as <- <- ->.
  assert (RR : raw_evs ast_builder (doc_evs (scan 0 ms0 0 lines)) (ab_reset ids) = (es, Ok tt, b2)).
  { rewrite Es. unfold doc_evs. cbn [fst snd]. rewrite R0, raw_evs_app, R1. cbn [raw_evs no_leaf lf_t]. rewrite R2. now rewrite !app_nil_r. }
  pose proof (parse_b_outcome ast_builder ast_no_composite stop (ab_reset ids) ms ms0 lines es (Ok tt) b2 Hr (matcher_good _ Hm) Hl RR) as [O1 O2].
  cbv zeta in O1. rewrite Es in O1. cbn [snd] in O1. unfold parse_lines. destruct (parse_b ast_builder stop (ab_reset ids) ms lines) as [r c]. cbn [fst snd] in *. subst r.
  split; [|intros E; now rewrite (O2 E)].
  unfold outcome. destruct stop.
  - destruct es as [|e es]; [|reflexivity]. cbn [rbind]. rewrite (O2 eq_refl). unfold ab_get_result. rewrite G2. reflexivity.
  - destruct (feed es []) as [full errs] eqn:Fe. destruct full; [reflexivity|]. destruct errs as [|e errs]; [|reflexivity].
    assert (es = []) by (destruct (feed_inv (fun _ => True) (fun _ x => x) _ _ _ _ Fe) as [_ [_ [_ [_ [A5 _]]]]]; [unfold distinct_msgs; cbn; constructor | cbn; lia | constructor | apply Forall_forall; auto | auto]).
    cbn [rbind]. rewrite (O2 H). unfold ab_get_result. rewrite G2. reflexivity.
Qed.
