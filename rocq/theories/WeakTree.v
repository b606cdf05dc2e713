(** * Syntax trees of accepted texts, for any matcher

    Like Cst.v and Eval.v, but without assuming that the tokens come from the classic matcher and
    that the lines are read in order. *)
From Verif Require Import PyStr PyStrFacts Types Regex Line DialectData Matcher Ast ParserTable Parser Classify Table Scan Grammar Deriv Cert LineSpec Cst Report Eval Ids IdSpec PickleSpec WfDoc AnyRun.

(** the children of a node are what its production asks for *)
Record wleaf (F : token -> Prop) (r : rule) (pre : list ltree) (a : leaf) : Prop := mkWl {
  wl_type : t_mtype (lf_t a) = Some (lkind a);
  wl_full : tok_full (lf_t a);
  wl_sep : lkind a = TkDocStringSeparator -> t_text (lf_t a) <> None;
  wl_desc : r = RDescription -> lkind a = TkOther -> pre = [] -> exists c y, t_text (lf_t a) = Some (c :: y);
  wl_F : F (lf_t a) }.
Section Weak.
Context (F : token -> Prop).
Definition wleaves (r : rule) (l : list ltree) : Prop := forall pre a post, l = pre ++ Leaf a :: post -> wleaf F r pre a.
Inductive wtree : ltree -> Prop :=
| wt_leaf a : wtree (Leaf a)
| wt_node r l : matches (prod r) (lsyms l) -> wleaves r l -> Forall wtree l -> wtree (Node r l).
Inductive wstep (a : leaf) : act -> cstack -> cstack -> Prop :=
| ws_start r cs : wstep a (AStart r) cs ((r, []) :: cs)
| ws_end r l p l' cs : r <> RGherkinDocument -> wtree (Node r l) ->
    wstep a (AEnd r) ((r, l) :: (p, l') :: cs) ((p, l' ++ [Node r l]) :: cs)
| ws_build r l cs : wleaf F r l a -> wstep a ABuild ((r, l) :: cs) ((r, l ++ [Leaf a]) :: cs).
Inductive wsteps (a : leaf) : list act -> cstack -> cstack -> Prop :=
| wss_nil cs : wsteps a [] cs cs
| wss_cons x xs cs1 cs2 cs3 : wstep a x cs1 cs2 -> wsteps a xs cs2 cs3 -> wsteps a (x :: xs) cs1 cs3.
Lemma wsteps_app a x y c1 c2 c3 : wsteps a x c1 c2 -> wsteps a y c2 c3 -> wsteps a (x ++ y) c1 c3.
Proof. intros H. revert c3 y. induction H; intros; cbn; [assumption | econstructor; eauto]. Qed.

Fixpoint winv (pend : list sym) (fr : list frame) (cs : cstack) : Prop :=
  match fr, cs with
  | [], [] => True
  | (r, res) :: fr', (r', l) :: cs' =>
      r' = r /\ res = derivs (lsyms l ++ pend) (prod r) /\ wleaves r l /\ Forall wtree l /\ winv [SR r] fr' cs'
  | _, _ => False
  end.
Lemma wleaves_nil r : wleaves r [].
Proof. intros [|? ?] a post H; discriminate. Qed.
Lemma wleaves_node r l r' l' : wleaves r l -> wleaves r (l ++ [Node r' l']).
Proof. intros H pre a post E. apply app_snoc_inv in E as [[_ [E _]]|[post' [-> E]]]; [discriminate|]. exact (H _ _ _ E). Qed.
Lemma wleaves_leaf r l a : wleaves r l -> wleaf F r l a -> wleaves r (l ++ [Leaf a]).
Proof.
  intros H Ha pre b post E. apply app_snoc_inv in E as [[-> [E _]]|[post' [-> E]]]; [injection E as ->; exact Ha | exact (H _ _ _ E)].
Qed.
Lemma start_winv a r k fr fr' cs : apply_act k (AStart r) fr = Some fr' -> winv [] fr cs ->
  wstep a (AStart r) cs ((r, []) :: cs) /\ winv [] fr' ((r, []) :: cs).
Proof.
  intros H I. split; [constructor|]. destruct fr as [|[r0 res] fr]; [discriminate|]. destruct cs as [|[r1 l] cs]; [contradiction|].
  cbn in H. destruct (is_void _); [discriminate|]. injection H as <-. cbn in I. destruct I as [-> [E [I1 [I2 I3]]]].
  cbn [winv]. split; [reflexivity|]. split; [reflexivity|]. split; [apply wleaves_nil|]. split; [constructor|].
  split; [reflexivity|]. split; [|now split].
  rewrite app_nil_r in E. etransitivity; [|symmetry; apply derivs_app]. now rewrite <- E.
Qed.
Lemma end_winv a r k fr fr' cs : r <> RGherkinDocument -> apply_act k (AEnd r) fr = Some fr' -> winv [] fr cs ->
  exists cs', wstep a (AEnd r) cs cs' /\ winv [] fr' cs'.
Proof.
  intros Hr H I. destruct fr as [|[r0 res] fr]; [discriminate|]. destruct cs as [|[r1 l] cs]; [contradiction|].
  cbn in H. destruct fr as [|[r2 res2] fr]; [discriminate|].
  destruct (rule_eqb r0 r) eqn:E1; [|discriminate]. apply rule_eqb_spec in E1 as ->.
  destruct (nullable res) eqn:E2; [|discriminate]. cbn in H. injection H as <-.
  cbn in I. destruct I as [-> [E [I1 [I2 I3]]]].
  destruct cs as [|[r3 l3] cs]; [contradiction|]. destruct I3 as [-> [E3 [I4 [I5 I6]]]].
  rewrite app_nil_r in E. apply nullable_ok in E2. rewrite E in E2. apply derivs_ok in E2. rewrite app_nil_r in E2.
  assert (T : wtree (Node r l)) by (constructor; assumption).
  eexists. split; [constructor; [exact Hr | exact T]|].
  cbn [winv]. split; [reflexivity|]. split; [rewrite lsyms_app, app_nil_r; exact E3|].
  split; [now apply wleaves_node|]. split; [|exact I6]. apply Forall_app. split; [exact I5|]. now constructor.
Qed.
Lemma build_winv a r l fr fr' cs : apply_act (lkind a) ABuild fr = Some fr' -> winv [] fr ((r, l) :: cs) -> wleaf F r l a ->
  wstep a ABuild ((r, l) :: cs) ((r, l ++ [Leaf a]) :: cs) /\ winv [] fr' ((r, l ++ [Leaf a]) :: cs).
Proof.
  intros H I Ha. split; [now constructor|]. destruct fr as [|[r0 res] fr]; [discriminate|].
  cbn in H. destruct (is_void _); [discriminate|]. injection H as <-. cbn in I. destruct I as [-> [E [I1 [I2 I3]]]].
  cbn [winv]. split; [reflexivity|]. split.
  - rewrite app_nil_r in E. rewrite lsyms_app, app_nil_r, derivs_app, <- E. reflexivity.
  - split; [now apply wleaves_leaf|]. split; [|exact I3]. apply Forall_app. split; [exact I2|]. now repeat constructor.
Qed.
Lemma acts_winv a k acts : forallb plain_act acts = true -> forall fr fr' cs,
  apply_acts k acts fr = Some fr' -> winv [] fr cs -> exists cs', wsteps a acts cs cs' /\ winv [] fr' cs'.
Proof.
  induction acts as [|x acts IH]; intros Hb fr fr' cs; cbn [apply_acts].
  - intros H I. injection H as <-. exists cs. split; [constructor | exact I].
  - intros H I. cbn [forallb] in Hb. apply andb_true_iff in Hb as [Hb1 Hb2].
    destruct (apply_act k x fr) as [fr1|] eqn:E; [|discriminate].
    destruct x as [r|r|]; [| |discriminate Hb1].
    + destruct (start_winv a _ _ _ _ _ E I) as [S1 S2]. destruct (IH Hb2 _ _ _ H S2) as [cs' [C1 C2]].
      exists cs'. split; [econstructor; eauto | exact C2].
    + assert (Hr : r <> RGherkinDocument) by (intros ->; discriminate Hb1).
      destruct (end_winv a _ _ _ _ _ Hr E I) as [cs1 [S1 S2]]. destruct (IH Hb2 _ _ _ H S2) as [cs' [C1 C2]].
      exists cs'. split; [econstructor; eauto | exact C2].
Qed.

(** the matched token [t], whose line was refused by the transitions [before] *)
Definition wmatched (k : tok) (t : token) : Prop :=
  t_mtype t = Some k /\ tok_full t /\ (k = TkDocStringSeparator -> t_text t <> None) /\
  (k = TkOther -> g_is_empty (t_line t) = false -> exists c y, t_text t = Some (c :: y)) /\
  (k = TkEOF \/ t_eof t = false) /\ (k = TkEOF -> t_eof t = true) /\ F t.
Definition wrefused (k : tok) (l : gline) : Prop := k = TkEmpty -> g_is_empty l = false.
Definition wrap (t : token) : leaf := mkLeaf (lf_ms no_leaf) 0 [] t.
Lemma trans_weak q st before tr after t fr cs : ptable q = Some st -> st_trans st = before ++ tr :: after ->
  (forall tr0, In tr0 before -> tr_la tr0 = None -> t_eof t = false -> wrefused (tr_tok tr0) (t_line t)) ->
  cert q = Some fr -> winv [] fr cs -> wmatched (tr_tok tr) t ->
  exists fr' cs', cert (tr_next tr) = Some fr' /\ wsteps (wrap t) (tr_acts tr) cs cs' /\ winv [] fr' cs'.
Proof.
  intros Hq E R Hc Hs [W1 [W2 [W3 [W4 [W5 [W6 W7]]]]]].
  pose proof (all_states_spec _ order_ok q st Hq) as O. unfold check_order in O. rewrite Hc in O.
  pose proof (order_go_split _ _ _ O before tr after E) as A. cbn [app] in A. clear O.
  pose proof (all_states_spec _ sound_ok q st Hq) as S. unfold check_sound in S. rewrite Hc in S.
  assert (Hin : In tr (st_trans st)) by (rewrite E; apply in_elt).
  rewrite forallb_forall in S. specialize (S tr Hin).
  unfold order_at in A.
  destruct (apply_acts (tr_tok tr) (removelast (tr_acts tr)) fr) as [[|[r res] frs]|] eqn:E1; try discriminate A.
  apply andb_prop2 in A as [A AA]. cbv zeta in AA.
  apply andb_prop2 in AA as [AA A8]. apply andb_prop2 in AA as [AA A7]. apply andb_prop2 in AA as [AA A6]. apply andb_prop2 in AA as [A4 A5].
  apply andb_prop2 in A as [A A3]. apply andb_prop2 in A as [A1 A2].
  apply acts_eqb_spec in A1. rewrite A1 in S |- *. rewrite apply_acts_app, E1 in S. cbv iota beta in S.
  match type of S with match ?g with _ => _ end = _ => destruct g as [fr'|] eqn:E2; [|discriminate S] end.
  destruct (cert (tr_next tr)) as [fr''|] eqn:E3; [|discriminate S]. apply frames_eqb_spec in S as <-.
  assert (K : lkind (wrap t) = tr_tok tr) by (unfold lkind, tok_kind; cbn; now rewrite W1).
  destruct (acts_winv (wrap t) _ _ (plain_acts _ _ _ Hq Hin) _ _ _ E1 Hs) as [cs1 [C1 C2]].
  destruct cs1 as [|[r1 l] cs1]; [contradiction|]. pose proof C2 as C3. cbn [winv] in C3. destruct C3 as [-> [C3 [_ [_ C4]]]].
  rewrite app_nil_r in C3.
  assert (P : wleaf F r l (wrap t)).
  { constructor; rewrite ?K; cbn [wrap lf_t]; auto.
    intros -> Hk ->. rewrite Hk in A4. destruct W5 as [W5|W5]; [congruence|]. apply W4; [exact Hk|].
    apply andb_prop2 in A4 as [A4 _]. apply andb_prop2 in A4 as [_ A9]. apply eqb_prop in A9.
    assert (T : tries TkEmpty before = true) by (rewrite A9; apply gx_eqb_spec; exact C3).
    unfold tries in T. apply existsb_exists in T as [tr0 [T1 T2]]. apply andb_true_iff in T2 as [T2 T3]. apply tok_eqb_spec in T2.
    apply (R tr0 T1); [destruct (tr_la tr0); [discriminate | reflexivity] | exact W5 | exact T2]. }
  cbn [apply_acts] in E2. match type of E2 with match ?g with _ => _ end = _ => destruct g as [fr2|] eqn:E4; [|discriminate E2] end. injection E2 as ->.
  rewrite <- K in E4.
  destruct (build_winv _ _ _ _ _ _ E4 C2 P) as [B1 B2].
  exists fr'. eexists. split; [reflexivity|]. split; [|exact B2]. eapply wsteps_app; [exact C1 | econstructor; [exact B1 | constructor]].
Qed.
End Weak.
