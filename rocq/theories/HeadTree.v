(** * The feature of a document whose leaves begin with tag lines and the feature line *)
From Verif Require Import PyStr PyStrFacts Types Regex Line DialectData Matcher Ast ParserTable Parser Classify Table Scan Grammar Deriv Cert LineSpec Cst Report Eval Ids IdSpec PickleSpec WfDoc AnyRun WeakTree WeakEval.

Fixpoint gsyms (g : gx) : list sym :=
  match g with GVoid | GEps => [] | GSym s => [s] | GCat a b | GAlt a b => gsyms a ++ gsyms b | GStar a => gsyms a end.
Lemma gsyms_ok g w : matches g w -> Forall (fun s => In s (gsyms g)) w.
Proof.
  induction 1; cbn [gsyms]; [constructor|repeat constructor|..].
  - apply Forall_app. split; (eapply Forall_impl; [|eassumption]); intros ? ?; apply in_or_app; auto.
  - eapply Forall_impl; [|eassumption]. intros ? ?. apply in_or_app. auto.
  - eapply Forall_impl; [|eassumption]. intros ? ?. apply in_or_app. auto.
  - constructor.
  - now apply Forall_app.
Qed.
Lemma first_child (g : gx) (l : list ltree) : nullable g = false -> matches g (lsyms l) ->
  exists t l', l = t :: l' /\ matches (deriv (root_sym lkind t) g) (lsyms l').
Proof.
  intros N M. destruct l as [|t l']; [apply nullable_ok in M; congruence|]. exists t, l'. split; [reflexivity|]. now apply deriv_ok.
Qed.
Lemma leaf_kind k t : t_mtype t = Some k -> lkind (wrap t) = k.
Proof. intros H. unfold lkind, tok_kind. cbn. now rewrite H. Qed.
Lemma split_mark {A} (p : A -> bool) (u v u' v' : list A) a b : Forall (fun x => p x = false) u -> Forall (fun x => p x = false) u' -> p a = true -> p b = true ->
  u ++ a :: v = u' ++ b :: v' -> u = u' /\ a = b /\ v = v'.
Proof.
  intros U. revert u'. induction U as [|x u Hx U IH]; intros [|y u'] U' Ha Hb E; cbn in E; injection E as E0 E.
  - auto.
  - subst. inversion U'; congruence.
  - subst. congruence.
  - subst. inversion U' as [|? ? Hy U'']; subst. destruct (IH u' U'' Ha Hb E) as [-> [-> ->]]. auto.
Qed.
Lemma kids_leaves k l : Forall (fun t => exists a, t = Leaf a) l -> kids k l = filter (fun a => tok_eqb (lkind a) k) (yields l).
Proof.
  induction 1 as [|t l [a ->] H IH]; [reflexivity|]. unfold kids, yields in *. cbn [flat_map yield app filter]. rewrite IH. destruct (tok_eqb (lkind a) k); reflexivity.
Qed.
Lemma filter_all {A} (p : A -> bool) l : Forall (fun x => p x = true) l -> filter p l = l.
Proof. induction 1; cbn; [reflexivity|]. rewrite H. now f_equal. Qed.

Lemma first_kind (toks : list token) (ft : token) (r : list leaf) (Kt : Forall (fun t => t_mtype t = Some TkTagLine) toks) (Kf : t_mtype ft = Some TkFeatureLine) y ys : map wrap toks ++ wrap ft :: r = y :: ys -> lkind y = TkTagLine \/ (lkind y = TkFeatureLine /\ toks = []).
Proof.
  destruct toks as [|t ts]; cbn; intros H; injection H as <- _; [right | left]; [split; [now apply leaf_kind | reflexivity]|].
  apply leaf_kind. now inversion Kt.
Qed.
Lemma not_feature (toks : list token) (Kt : Forall (fun t => t_mtype t = Some TkTagLine) toks) : Forall (fun a => tok_eqb (lkind a) TkFeatureLine = false) (map wrap toks).
Proof. apply Forall_map. eapply Forall_impl; [|exact Kt]. intros t H. cbn beta. rewrite (leaf_kind _ _ H). reflexivity. Qed.
Lemma tag_leaves (l : list ltree) : Forall (fun t => In (root_sym lkind t) (gsyms (prod RTags))) l ->
  Forall (fun t => exists b, t = Leaf b) l /\ Forall (fun b => tok_eqb (lkind b) TkFeatureLine = false) (yields l).
Proof.
  intros G. assert (Q : forall t : ltree, In (root_sym lkind t) (gsyms (prod RTags)) -> exists b, t = Leaf b /\ tok_eqb (lkind b) TkFeatureLine = false).
  { intros [b|q m] H; cbn [root_sym] in H.
    - exists b. split; [reflexivity|]. destruct (lkind b); try reflexivity. vm_compute in H. repeat (destruct H as [H|H]; [discriminate|]). destruct H.
    - vm_compute in H. repeat (destruct H as [H|H]; [discriminate|]). destruct H. }
  induction G as [|t l H G [IH1 IH2]]; [split; constructor|]. destruct (Q t H) as [b [-> Hb]]. split; [constructor; eauto|].
  unfold yields. cbn [flat_map yield app]. constructor; [exact Hb | exact IH2].
Qed.
Lemma evals_cons_inv t l id s e id' : evals (t :: l) id = (s, e, id') -> exists s1 e1 id1 s2 e2, eval t id = (s1, e1, id1) /\ evals l id1 = (s2, e2, id') /\ s = s1 ++ s2 /\ e = e1 ++ e2.
Proof.
  rewrite evals_cons. destruct (eval t id) as [[s1 e1] id1] eqn:E1. destruct (evals l id1) as [[s2 e2] id2] eqn:E2. intros H. injection H as <- <- <-. repeat eexists; eauto.
Qed.
Theorem head_feature F (l : list ltree) (ids ids' : nat) (d : gdoc) (toks : list token) (ft : token) (r : list leaf) :
  wtree F (Node RGherkinDocument l) -> yields l = map wrap toks ++ wrap ft :: r ->
  Forall (fun t => t_mtype t = Some TkTagLine) toks -> t_mtype ft = Some TkFeatureLine -> doc_of ids l d ids' ->
  exists f id,
  gd_feature d = Some f /\ fe_tags f = fst (tags_of_tokens toks id) /\
  fe_loc f = t_location ft /\ fe_keyword f = t_keyword ft /\ fe_name f = t_text ft.
Proof.
  intros W Y Kt Kf [subs [Ev ->]]. inversion W as [|? ? M L O]; subst.
  destruct (first_child (prod RGherkinDocument) _ eq_refl M) as [t [l' [-> M']]].
  destruct t as [a|q l2].
  { exfalso. pose proof (first_kind toks ft r Kt Kf a (yields l')) as K. unfold yields in Y. cbn [flat_map yield app] in Y. specialize (K (eq_sym Y)).
    cbn [root_sym] in M'. destruct K as [K|[K _]]; rewrite K in M'; vm_compute in M'; now apply void_inv in M'. }
  cbn [root_sym] in M'. destruct q; try (exfalso; vm_compute in M'; now apply void_inv in M'). clear M'.
  inversion O as [|? ? O1 O2]; subst. inversion O1 as [|? ? M2 L2 P2]; subst.
  destruct (first_child (prod RFeature) _ eq_refl M2) as [t [l2' [-> M2']]]. cbn [root_sym] in M2'.
  destruct t as [a|q l3]; [exfalso; cbn [root_sym] in M2'; change (prod RFeature) with (gseq [R RFeatureHeader; gopt (R RBackground); GStar (R RScenarioDefinition); GStar (R RRule)]) in M2'; vm_compute in M2'; now apply void_inv in M2'|].
  cbn [root_sym] in M2'. destruct q; try (exfalso; vm_compute in M2'; now apply void_inv in M2'). clear M2'.
  inversion P2 as [|? ? P2a P2b]; subst. inversion P2a as [|? ? M3 L3 P3]; subst.
  (* the header *)
  assert (H3 : exists l5, l3 = Leaf (wrap ft) :: l5 /\ toks = [] /\ ~ In (SR RTags) (lsyms l5) \/
               exists l4, l3 = Node RTags l4 :: Leaf (wrap ft) :: l5 /\ kids TkTagLine l4 = map wrap toks).
  { destruct (first_child (prod RFeatureHeader) _ eq_refl M3) as [t [l5 [-> M3']]]. destruct t as [a|q l4].
    - exists l5. left. pose proof Y as Y'. unfold yields in Y'. cbn [flat_map yield app] in Y'. destruct (first_kind toks ft r Kt Kf a _ (eq_sym Y')) as [K|[K ->]]; cbn [root_sym] in M3'; rewrite K in M3'.
      + exfalso. vm_compute in M3'. now apply void_inv in M3'.
      + cbn [map app] in Y'. injection Y' as -> _. repeat split; auto. intros H. pose proof (gsyms_ok _ _ M3') as G. rewrite Forall_forall in G. specialize (G _ H). vm_compute in G. repeat (destruct G as [G|G]; [discriminate|]). exact G.
    - cbn [root_sym] in M3'. destruct q; try (exfalso; vm_compute in M3'; now apply void_inv in M3').
      destruct (first_child (deriv (SR RTags) (prod RFeatureHeader)) _ eq_refl M3') as [t [l6 [-> M3'']]]. exists l6. right. exists l4.
      destruct t as [a|q l7]; [|exfalso; cbn [root_sym] in M3''; destruct q; vm_compute in M3''; now apply void_inv in M3''].
      assert (K : lkind a = TkFeatureLine). { cbn [root_sym] in M3''. destruct (lkind a); try reflexivity; exfalso; vm_compute in M3''; now apply void_inv in M3''. }
      inversion P3 as [|? ? P3a P3b]; subst. inversion P3a as [|? ? M4 L4 P4]; subst. pose proof (gsyms_ok _ _ M4) as G.
      assert (Lv : Forall (fun t => exists b, t = Leaf b) l4 /\ Forall (fun b => tok_eqb (lkind b) TkFeatureLine = false) (yields l4)).
      { clear -G. unfold lsyms, syms in G. rewrite Forall_map in G. now apply tag_leaves. }
      destruct Lv as [Lv Nf]. pose proof Y as Y'. unfold yields in Y'. cbn [flat_map yield] in Y'. rewrite <- !app_assoc in Y'. cbn [app] in Y'.
      destruct (split_mark (fun b => tok_eqb (lkind b) TkFeatureLine) _ _ _ _ a (wrap ft) Nf (not_feature toks Kt) ltac:(cbn beta; now rewrite K) ltac:(cbn beta; now rewrite (leaf_kind _ _ Kf)) Y') as [E1 [-> _]].
      split; [reflexivity|]. rewrite kids_leaves by exact Lv. rewrite E1. apply filter_all. apply Forall_map. eapply Forall_impl; [|exact Kt].
      intros t0 H0. cbn beta. rewrite (leaf_kind _ _ H0). reflexivity. }
  (* evaluation *)
  destruct (evals_cons_inv _ _ _ _ _ _ Ev) as [s1 [e1 [id1 [s2 [e2 [E1 [E2 [-> Ee]]]]]]]]. symmetry in Ee. apply app_eq_nil in Ee as [-> ->]. rewrite eval_node in E1.
  destruct (evals (Node RFeatureHeader l3 :: l2') ids) as [[s34 e34] id4] eqn:E34. destruct (evals_cons_inv _ _ _ _ _ _ E34) as [s3' [e3' [id3 [s4 [e4 [E3' [E4 [-> ->]]]]]]]].
  destruct (evals l3 ids) as [[s3 e3] id3'] eqn:E3. rewrite (eval_plain RFeatureHeader l3 ids s3 e3 id3' eq_refl E3) in E3'. injection E3' as <- <- <-.
  assert (E1' : finish RFeature ([(KRule RFeatureHeader, INode RFeatureHeader s3)] ++ s4, e3 ++ e4, id4) = (s1, [], id1)) by (rewrite <- E34; exact E1).
  clear E1. rename E1' into E1. cbn [finish] in E1.
  unfold transform_node in E1. cbn [n_rule] in E1.
  assert (Gn : get_node (mkNode RFeature ([(KRule RFeatureHeader, INode RFeatureHeader s3)] ++ s4)) RFeatureHeader = Some (mkNode RFeatureHeader s3)) by reflexivity.
  rewrite Gn in E1.
  assert (Tk : get_token (mkNode RFeatureHeader s3) TkFeatureLine = Ok ft).
  { destruct H3 as [l5 [[-> _]|[l4 [-> _]]]]; change ft with (lf_t (wrap ft)); (eapply evals_token; [|exact E3|]); [discriminate| |discriminate|];
      unfold kids; cbn [flat_map]; rewrite (leaf_kind _ _ Kf); reflexivity. }
  assert (Tg : forall id, get_tags (mkNode RFeatureHeader s3) id = tags_of_tokens toks id).
  { intros id. unfold get_tags. destruct H3 as [l5 [[-> [-> Nt]]|[l4 [-> Kl]]]].
    - assert (G0 : get_items (mkNode RFeatureHeader s3) (KRule RTags) = []).
      { destruct (get_items (mkNode RFeatureHeader s3) (KRule RTags)) as [|i is] eqn:Eg; [reflexivity|]. exfalso.
        destruct (evals_items_rule RFeatureHeader RTags _ _ _ _ _ E3 ltac:(intros; now apply eval_plain_ex) i ltac:(rewrite Eg; now left)) as [l9 [? [? [? [Hin _]]]]].
        destruct Hin as [Hin|Hin]; [discriminate Hin|]. apply Nt. unfold lsyms, syms. apply in_map_iff. exists (Node RTags l9). auto. }
      unfold get_single. rewrite G0. reflexivity.
    - destruct (evals_cons_inv _ _ _ _ _ _ E3) as [s6' [e6' [id6' [s7 [e7 [E6' [E7 [-> _]]]]]]]]. destruct (evals l4 ids) as [[s6 e6] id6] eqn:E6. rewrite (eval_plain RTags l4 ids s6 e6 id6 eq_refl E6) in E6'. injection E6' as <- <- <-.
      cbn [get_single get_items n_subs filter fst key_eqb app].
      change (get_single _ _) with (Some (INode RTags s6)). cbv iota. rewrite (evals_tokens RTags l4 TkTagLine _ _ _ _ ltac:(discriminate) E6), Kl, map_map. cbn [wrap lf_t]. now rewrite map_id. }
  rewrite Tg, Tk in E1. destruct (tags_of_tokens toks id4) as [tg id5] eqn:Et. injection E1 as <- _ _.
  eexists. exists id4. split; [reflexivity|]. rewrite Et. cbn. auto.
Qed.
