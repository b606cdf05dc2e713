(** * From syntax trees to documents, for any matcher

    Like Eval.v, for the trees of WeakTree.v. *)
From Verif Require Import PyStr PyStrFacts Types Regex Line DialectData Matcher Ast ParserTable Parser Classify Table Scan Grammar Deriv Cert LineSpec Cst Report Eval Ids IdSpec PickleSpec WfDoc AnyRun WeakTree.

Section Weak.
Context (Tk : token -> Prop).
Notation wleaves := (wleaves Tk).
Notation wtree := (wtree Tk).
Notation wstep := (wstep Tk).
Notation wsteps := (wsteps Tk).
Notation winv := (winv Tk).
Lemma wget_node_token r rr k l id subs es id' : plain_rule rr = true -> firsts (ST k) (prod rr) = true -> k <> TkComment ->
  In (SR rr) (lsyms l) -> Forall wtree l -> evals l id = (subs, es, id') ->
  exists n a, get_node (mkNode r subs) rr = Some n /\ get_token n k = Ok (lf_t a).
Proof.
  intros Hp Hf Hk Hin Ho He. apply lsyms_in_node in Hin as [l' Hin].
  assert (Hn : forall l', In (Node rr l') l -> forall id1, exists i id2 e2, eval (Node rr l') id1 = ([(KRule rr, i)], e2, id2)).
  { intros l0 _ id1. now apply eval_plain_ex. }
  pose proof (evals_rule_in r rr l _ _ _ _ _ He Hin Hn) as Hne.
  pose proof (evals_items_rule r rr l _ _ _ _ He Hn) as Hall. unfold get_node, get_single.
  destruct (get_items (mkNode r subs) (KRule rr)) as [|i rest]; [congruence|]. cbn [hd_error].
  destruct (Hall i (or_introl eq_refl)) as [l0 [id1 [id2 [e2 [H1 H2]]]]].
  destruct (evals l0 id1) as [[s0 es0] id0] eqn:E0. rewrite (eval_plain _ _ _ _ _ _ Hp E0) in H2. injection H2 as <- <- <-.
  rewrite Forall_forall in Ho. specialize (Ho _ H1). inversion Ho as [|? ? M L F]; subst.
  destruct (firsts_ok _ _ Hf _ M) as [w W]. destruct (kids_first k l0 w eq_refl W) as [a [l1 [_ [_ K]]]].
  exists (mkNode rr s0), a. split; [reflexivity|]. eapply evals_token; eauto.
Qed.

Lemma wnode_fine r l w id subs es id' cm :
  matches (prod r) (lsyms l ++ w) -> l <> [] \/ w = [] -> top_rule r = true \/ w = [] ->
  wleaves r l -> Forall wtree l -> evals l id = (subs, es, id') ->
  match fst (transform_node (mkNode r subs) cm id') with
  | Ok _ => True
  | Err e => exists q, e = EParser q /\ located_in (map lf_t (kids TkTableRow l)) q
  end.
Proof.
  intros M Hne Hw L O E.
  assert (F : forall k, firsts (ST k) (prod r) = true -> exists a l', l = Leaf a :: l' /\ lkind a = k /\ kids k l = a :: kids k l').
  { intros k Hk. destruct (firsts_ok _ _ Hk _ M) as [w' W].
    assert (l <> []) by (destruct Hne as [?| ->]; [assumption | intros ->; discriminate W]).
    destruct l as [|x l]; [congruence|]. eapply kids_first; [easy|]. cbn in W |- *. injection W as W _. now rewrite W. }
  assert (T : forall k, k <> TkComment -> firsts (ST k) (prod r) = true -> exists a, get_token (mkNode r subs) k = Ok (lf_t a)).
  { intros k Hk Hf. destruct (F k Hf) as [a [l' [_ [_ K]]]]. exists a. eapply evals_token; eauto. }
  assert (Rows : forall i, match get_table_rows (mkNode r subs) i with
     | (Ok rows, _) => rows_of_tokens (map lf_t (kids TkTableRow l)) i = (rows, snd (get_table_rows (mkNode r subs) i))
     | (Err e, _) => exists q, e = EParser q /\ located_in (map lf_t (kids TkTableRow l)) q end).
  { intros i. pose proof (get_table_rows_cases (mkNode r subs) i) as G.
    rewrite (evals_tokens r l TkTableRow _ _ _ _ ltac:(discriminate) E) in G.
    destruct (get_table_rows (mkNode r subs) i) as [[rows|e] i']; exact G. }
  destruct r; try exact I; unfold transform_node; cbn [n_rule].
  - (* RFeature *) destruct (get_node _ _); [|exact I]. destruct (get_tags _ _). destruct (get_token _ _); exact I.
  - (* RRule *) destruct (get_node _ _); [|exact I]. destruct (get_tags _ _). destruct (get_token _ _); exact I.
  - (* RBackground *) destruct (T TkBackgroundLine ltac:(discriminate) eq_refl) as [a ->]. exact I.
  - (* RScenarioDefinition *) destruct Hw as [Hw|Hw]; [discriminate Hw|]. subst w. rewrite app_nil_r in M.
    destruct (wget_node_token RScenarioDefinition RScenario TkScenarioLine l _ _ _ _ eq_refl eq_refl ltac:(discriminate) (must_ok (SR RScenario) (prod RScenarioDefinition) eq_refl _ M) O E) as [n [a [-> Ht]]].
    destruct (get_tags _ _). rewrite Ht. exact I.
  - (* RExamplesDefinition *) destruct Hw as [Hw|Hw]; [discriminate Hw|]. subst w. rewrite app_nil_r in M.
    destruct (wget_node_token RExamplesDefinition RExamples TkExamplesLine l _ _ _ _ eq_refl eq_refl ltac:(discriminate) (must_ok (SR RExamples) (prod RExamplesDefinition) eq_refl _ M) O E) as [n [a [-> Ht]]].
    destruct (get_tags _ _). rewrite Ht. exact I.
  - (* RExamplesTable *) specialize (Rows id'). destruct (get_table_rows _ id') as [[rows|e] i']; [exact I | exact Rows].
  - (* RStep *) destruct (T TkStepLine ltac:(discriminate) eq_refl) as [a ->]. exact I.
  - (* RDataTable *) specialize (Rows id'). destruct (get_table_rows _ id') as [[rows|e] i']; [|exact Rows].
    destruct rows as [|r0 rows]; [|exact I]. apply rows_of_tokens_in in Rows.
    destruct (F TkTableRow eq_refl) as [a [l' [_ [_ K]]]]. rewrite K in Rows. discriminate Rows.
  - (* RDocString *) rewrite (evals_tokens RDocString l TkDocStringSeparator _ _ _ _ ltac:(discriminate) E).
    destruct (F TkDocStringSeparator eq_refl) as [a [l' [El [Ka K]]]]. rewrite K. cbn [map].
    destruct (L [] a l' El) as [_ _ Ho _ _]. specialize (Ho Ka). destruct (t_text (lf_t a)); [exact I | congruence].
  - (* RDescription *) rewrite (evals_tokens RDescription l TkOther _ _ _ _ ltac:(discriminate) E).
    destruct (F TkOther eq_refl) as [a [l' [El [Ka K]]]]. rewrite K. cbn [map last_non_empty].
    destruct (last_non_empty _); [exact I|]. destruct (L [] a l' El) as [_ _ _ Ho _].
    destruct (Ho eq_refl Ka eq_refl) as [c [y ->]]. exact I.
Qed.
Lemma wsim_step (P : perr -> Prop) ids a x cs cs' b es :
  wstep a x cs cs' -> image ids cs b es -> Forall (rowP P) (cyield cs) ->
  exists es1 b', raw_acts ast_builder (lf_t a) [x] b = (es1, Ok tt, b') /\ image ids cs' b' (es ++ es1) /\
    Forall P es1.
Proof.
  intros H [I1 I2] HP. destruct b as [st cm id]. cbn [ab_stack ab_comments ab_ids] in *. subst cm. destruct H as [r cs|r l p l' cs Hr Ok_|r l cs Hl].
  - exists [], (mkAb (mkNode r [] :: st) (comments_of (cyield cs)) id). split; [reflexivity|]. split; [|constructor].
    rewrite app_nil_r. split; cbn [ab_stack ab_comments ab_ids].
    + cbn [img]. rewrite I1, evals_nil. now rewrite app_nil_r.
    + rewrite cyield_cons. cbn. now rewrite app_nil_r.
  - cbn [img] in I1. destruct (img cs ids) as [[st0 es0] id0] eqn:E0. destruct (evals l' id0) as [[subs' es'] id1] eqn:E1.
    destruct (evals l id1) as [[subs es2] id2] eqn:E2. injection I1 as <- <- <-.
    inversion Ok_ as [|? ? M L O]; subst.
    pose proof (wnode_fine r l [] _ _ _ _ (comments_of (cyield ((r, l) :: (p, l') :: cs))) ltac:(now rewrite app_nil_r) (or_intror eq_refl) (or_intror eq_refl) L O E2) as F.
    cbn [raw_acts bact ast_builder bd_end]. unfold ab_end_rule. cbn [ab_stack ab_comments ab_ids].
    rewrite transform_comments in F |- * by exact Hr.
    assert (Y : cyield ((p, l' ++ [Node r l]) :: cs) = cyield ((r, l) :: (p, l') :: cs)).
    { rewrite !cyield_cons, yields_app. cbn. rewrite app_nil_r. fold (yields l). now rewrite app_assoc. }
    assert (E3 : evals (l' ++ [Node r l]) id0 = let '(s2, e2, id2') := finish r (subs, es2, id2) in (subs' ++ s2, es' ++ e2, id2')).
    { rewrite evals_app, E1, evals_one, eval_node, E2. reflexivity. }
    unfold finish in E3. destruct (transform_node (mkNode r subs) [] id2) as [[i|e] id3]; cbn [fst] in F.
    + eexists [], _. split; [reflexivity|]. split; [|constructor]. rewrite app_nil_r. split; cbn [ab_stack ab_comments ab_ids].
      * cbn [img]. rewrite E0, E3. unfold n_add. cbn. now rewrite !app_assoc.
      * now rewrite Y.
    + destruct F as [q [-> [t [T1 T2]]]]. eexists [q], _. split; [reflexivity|]. split.
      * split; cbn [ab_stack ab_comments ab_ids]; [|now rewrite Y]. cbn [img]. rewrite E0, E3. rewrite app_nil_r. now rewrite !app_assoc.
      * constructor; [|constructor]. rewrite T2. apply in_map_iff in T1 as [c [<- T1]]. rewrite Forall_forall in HP. apply HP; [|now apply in_kids in T1 as [_ T1]].
        rewrite cyield_cons. apply in_or_app. right. eapply kids_yields; eauto.
  - cbn [img] in I1. destruct (img cs ids) as [[st0 es0] id0] eqn:E0. destruct (evals l id0) as [[subs es'] id1] eqn:E1.
    injection I1 as <- <- <-. pose proof (wl_type _ _ _ _ Hl) as K.
    assert (E3 : evals (l ++ [Leaf a]) id0 = (subs ++ (if tok_eqb (lkind a) TkComment then [] else [(KTok (lkind a), ITok (lf_t a))]), es', id1)).
    { rewrite evals_app, E1, evals_one. cbn [eval]. now rewrite app_nil_r. }
    assert (Y : comments_of (cyield ((r, l ++ [Leaf a]) :: cs)) = comments_of (cyield ((r, l) :: cs)) ++ comments_of [a]).
    { rewrite <- comments_of_app. f_equal. rewrite !cyield_cons, yields_app, app_assoc. reflexivity. }
    destruct (tok_eqb (lkind a) TkComment) eqn:Q.
    + assert (Kc : lkind a = TkComment) by now apply tok_eqb_spec.
      cbn [raw_acts bact ast_builder bd_build]. unfold ab_build. rewrite K, Kc. cbn [ab_stack ab_comments ab_ids].
      eexists [], _. split; [reflexivity|]. split; [|constructor]. rewrite app_nil_r. split; cbn [ab_stack ab_comments ab_ids].
      * cbn [img]. rewrite E0, E3. now rewrite app_nil_r.
      * rewrite Y. f_equal. unfold comments_of. cbn. now rewrite Q.
    + assert (Y' : comments_of (cyield ((r, l ++ [Leaf a]) :: cs)) = comments_of (cyield ((r, l) :: cs))).
      { rewrite Y. unfold comments_of at 2. cbn. rewrite Q. cbn. now rewrite app_nil_r. }
      assert (Z : raw_acts ast_builder (lf_t a) [ABuild] (mkAb (mkNode r subs :: st0) (comments_of (cyield ((r, l) :: cs))) id1)
         = ([], Ok tt, mkAb (n_add (mkNode r subs) (KTok (lkind a)) (ITok (lf_t a)) :: st0) (comments_of (cyield ((r, l) :: cs))) id1)).
      { cbn [raw_acts bact ast_builder bd_build]. unfold ab_build. rewrite K. destruct (lkind a); try reflexivity. discriminate Q. }
      eexists [], _. split; [exact Z|]. split; [|constructor]. rewrite app_nil_r.
      split; cbn [ab_stack ab_comments ab_ids].
      * cbn [img]. rewrite E0, E3. reflexivity.
      * now rewrite Y'.
Qed.

Lemma wsteps_yield a acts cs cs' : wsteps a acts cs cs' -> cyield cs' = cyield cs ++ map (fun _ => a) (builds acts).
Proof.
  induction 1 as [|x xs c1 c2 c3 H1 H2 IH]; [cbn; now rewrite app_nil_r|].
  rewrite IH. destruct H1; cbn [builds filter act_eqb map].
  - rewrite cyield_cons. cbn. now rewrite app_nil_r.
  - rewrite !cyield_cons, yields_app. cbn. rewrite app_nil_r. fold (yields l). now rewrite !app_assoc.
  - rewrite !cyield_cons, yields_app. cbn. now rewrite <- !app_assoc.
Qed.
Lemma wcyield_step (P : leaf -> Prop) a x cs cs' : wstep a x cs cs' -> P a -> Forall P (cyield cs) -> Forall P (cyield cs').
Proof.
  intros H Pa F. assert (C : wsteps a [x] cs cs') by (econstructor; [exact H | constructor]).
  rewrite (wsteps_yield _ _ _ _ C). apply Forall_app. split; [exact F|]. unfold builds. cbn [filter]. destruct (act_eqb ABuild x); cbn; [constructor; [exact Pa|]|]; constructor.
Qed.
Lemma wsim_steps (P : perr -> Prop) ids a acts cs cs' : wsteps a acts cs cs' -> rowP P a -> forall b es,
  image ids cs b es -> Forall (rowP P) (cyield cs) ->
  exists es1 b', raw_acts ast_builder (lf_t a) acts b = (es1, Ok tt, b') /\ image ids cs' b' (es ++ es1) /\
    Forall P es1 /\ Forall (rowP P) (cyield cs').
Proof.
  induction 1 as [cs|x xs c1 c2 c3 H1 H2 IH]; intros Pa b es I F.
  - exists [], b. rewrite app_nil_r. repeat split; auto; apply I.
  - destruct (wsim_step P _ _ _ _ _ _ _ H1 I F) as [es1 [b1 [R1 [I1 F1]]]].
    destruct (IH Pa b1 _ I1 (wcyield_step _ _ _ _ _ H1 Pa F)) as [es2 [b2 [R2 [I2 [F2 F3]]]]].
    exists (es1 ++ es2), b2. split; [rewrite (raw_acts_cons _ _ _ _ _ _ _ R1), R2; reflexivity|].
    rewrite app_assoc. split; [exact I2|]. split; [now apply Forall_app | exact F3].
Qed.
Lemma wsim_end (P : perr -> Prop) q fr ids cs b es : cert q = Some fr -> winv [] fr cs -> image ids cs b es ->
  Forall (rowP P) (cyield cs) ->
  exists es1 b', raw_acts ast_builder (new_token [] 0) [AEnd RGherkinDocument] b = (es1, Ok tt, b') /\
    Forall P es1 /\
    forall l, cs = [(RGherkinDocument, l)] -> es1 = [] /\
      exists subs, evals l ids = (subs, es, ab_ids b') /\
        ab_stack b' = [mkNode RNone [(KRule RGherkinDocument, IGdoc (mkGdoc
          (match get_single (mkNode RGherkinDocument subs) (KRule RFeature) with Some (IFeature f) => Some f | _ => None end)
          (comments_of (yields l))))]].
Proof.
  intros C I [Im Cm] HP. destruct fr as [|[r res] fr]; [|].
  { exfalso. unfold cert, look in C. destruct (find _ cert_list) as [[q' f]|] eqn:E; [|discriminate]. injection C as ->.
    apply find_some in E as [E _]. pose proof top_ok as T. unfold check_top in T. rewrite forallb_forall in T. now specialize (T _ E). }
  destruct cs as [|[r' l] cs]; [contradiction|]. cbn [WeakTree.winv] in I. destruct I as [-> [E [L [O _]]]]. rewrite app_nil_r in E.
  destruct b as [st cm id]. cbn [ab_stack ab_comments ab_ids] in *. subst cm. cbn [img] in Im.
  destruct (img cs ids) as [[st0 es0] id0] eqn:E0. destruct (evals l id0) as [[subs es2] id2] eqn:E2. injection Im as <- <- <-.
  assert (N : exists n0 st1, st0 = n0 :: st1).
  { clear -E0. destruct cs as [|[r l] cs]; cbn [img] in E0; [injection E0 as <- _ _; eauto|].
    destruct (img cs ids) as [[? ?] ?]. destruct (evals l n) as [[? ?] ?]. injection E0 as <- _ _. eauto. }
  destruct N as [n0 [st1 ->]].
  cbn [raw_acts bact ast_builder bd_end]. unfold ab_end_rule. cbn [ab_stack ab_comments ab_ids].
  assert (Fine : match fst (transform_node (mkNode r subs) (comments_of (cyield ((r, l) :: cs))) id2) with
     | Ok _ => True | Err e => exists q, e = EParser q /\ located_in (map lf_t (kids TkTableRow l)) q end).
  { destruct (cert_top _ _ _ _ C) as [->|[S [T N]]]; [exact I|].
    destruct (sat_ok _ S) as [w W]. rewrite E in W. apply derivs_ok in W.
    eapply wnode_fine with (w := w); eauto. left. intros ->. apply N. exact E. }
  destruct (transform_node (mkNode r subs) _ id2) as [[i|e] id3] eqn:Et; cbn [fst] in Fine.
  - eexists [], _. split; [reflexivity|]. split; [constructor|]. intros l' Hl'. injection Hl' as -> -> ->.
    cbn [img] in E0. injection E0 as <- <- <- <-. split; [reflexivity|]. exists subs.
    unfold transform_node in Et. cbn [n_rule] in Et. injection Et as <- <-. split; [exact E2|]. cbn [ab_stack n_add n_rule n_subs].
    rewrite cyield_cons. reflexivity.
  - destruct Fine as [p [-> [t [T1 T2]]]]. eexists [p], _. split; [reflexivity|]. split.
    + constructor; [|constructor]. rewrite T2. apply in_map_iff in T1 as [c [<- T1]]. rewrite Forall_forall in HP. apply HP; [|now apply in_kids in T1 as [_ T1]].
      rewrite cyield_cons. apply in_or_app. right. eapply kids_yields; eauto.
    + intros l' Hl'. injection Hl' as -> -> ->. unfold transform_node in Et. discriminate Et.
Qed.


Lemma wclosed q fr cs : cert q = Some fr -> winv [] fr cs -> eof_reached q -> exists l, cs = [(RGherkinDocument, l)] /\ wtree (Node RGherkinDocument l).
Proof.
  intros C H [p [st [tr [E1 [E2 [E3 E4]]]]]]. pose proof (all_states_spec _ final_ok p st E1) as Fin. unfold check_final in Fin. rewrite forallb_forall in Fin.
  specialize (Fin _ E2). rewrite E3, E4, C in Fin. cbn [tok_eqb negb orb] in Fin.
  destruct fr as [|[rr res] [|? ?]]; try discriminate Fin; destruct rr; try discriminate Fin.
  destruct cs as [|[r l] [|? ?]]; cbn [WeakTree.winv] in H; try (destruct H; fail); [|now destruct H as [_ [_ [_ [_ []]]]]].
  destruct H as [-> [R [L1 [L2 _]]]]. exists l. split; [reflexivity|]. constructor; auto.
  apply nullable_ok in Fin. rewrite R, app_nil_r in Fin. apply derivs_ok in Fin. now rewrite app_nil_r in Fin.
Qed.
Lemma weval_wf t : wtree t -> (forall a, t = Leaf a -> tok_full (lf_t a)) -> forall id subs es id', eval t id = (subs, es, id') -> Forall sub_wf subs.
Proof.
  induction t as [a|r l IH] using tree_ind'; intros T La id subs es id' E.
  - cbn in E. injection E as <- <- <-. destruct (tok_eqb _ _); constructor; [|constructor]. split; cbn; [reflexivity | now apply La].
  - inversion T as [|? ? T1 T2 T3]; subst. rewrite eval_node in E. destruct (evals l id) as [[s1 e1] id1] eqn:E1.
    assert (W : Forall sub_wf s1).
    { assert (LL : forall a, In (Leaf a) l -> tok_full (lf_t a)).
      { intros a Ha. apply in_split in Ha as [pre [post ->]]. exact (wl_full _ _ _ _ (T2 pre a post eq_refl)). }
      clear T T1 T2 E. revert id s1 e1 id1 E1. induction IH as [|t l Ht Hl IHl]; intros id s1 e1 id1 E1.
      - rewrite evals_nil in E1. injection E1 as <- <- <-. constructor.
      - rewrite evals_cons in E1. destruct (eval t id) as [[sa ea] ia] eqn:Ea. destruct (evals l ia) as [[sb eb] ib] eqn:Eb. injection E1 as <- <- <-.
        inversion T3 as [|? ? T4 T5]; subst. apply Forall_app. split; [|eapply IHl; eauto; intros; apply LL; now right]. eapply Ht; eauto. intros a ->. apply LL. now left. }
    unfold finish in E. destruct (transform_node (mkNode r s1) [] id1) as [[i|e] id2] eqn:Et.
    + injection E as <- <- <-. apply transform_wf in Et as [X Y]; [|exact W]. constructor; [|constructor]. split; cbn; [destruct i; auto; contradiction | exact Y].
    + assert (subs = []) as -> by (destruct e; now injection E as <- _ _). constructor.
Qed.
Theorem wdoc_of_wf ids l d ids' : wtree (Node RGherkinDocument l) -> doc_of ids l d ids' -> doc_wf d.
Proof.
  intros T [subs [E ->]].
  assert (W : Forall sub_wf [(KRule RGherkinDocument, IGdoc (mkGdoc (feature_in subs) []))]).
  { apply (weval_wf (Node RGherkinDocument l) T ltac:(discriminate) ids _ [] ids'). rewrite eval_node, E. reflexivity. }
  inversion W as [|? ? [_ H] _]; subst. exact H.
Qed.
End Weak.
