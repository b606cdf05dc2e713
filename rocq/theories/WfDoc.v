(** * Documents the parser returns are complete and rectangular ([doc_wf] of PickleSpec.v) *)
From Verif Require Import PyStr PyStrFacts Types Regex Line DialectData Matcher Ast ParserTable Parser Classify Table Scan Grammar Deriv Cert LineSpec Cst Report Eval Ids IdSpec PickleSpec.

Definition tok_full (t : token) : Prop :=
  match tok_kind t with
  | TkStepLine => (exists k, t_ktype t = Some k) /\ (exists x, t_text t = Some x) /\ (exists kw, t_keyword t = Some kw) /\ located (t_location t)
  | TkScenarioLine => (exists x, t_text t = Some x) /\ located (t_location t)
  | TkTagLine => Forall (fun i => exists x, i_text i = ch_at :: x) (t_items t)
  | TkExamplesLine => exists x, t_keyword t = Some x
  | TkFeatureLine => (exists x, t_dialect t = Some x) /\ (exists x, t_text t = Some x)
  | _ => True
  end.
Fixpoint item_wf (i : item) : Prop :=
  match i with
  | ITok t => tok_full t
  | INode _ subs => (fix go (l : list (key * item)) : Prop := match l with [] => True | p :: l' => (match snd p with ITok t => fst p = KTok (tok_kind t) | _ => True end /\ item_wf (snd p)) /\ go l' end) subs
  | IStep x => step_wf x
  | ITable t => exists n, rows_width n (dt_rows t)
  | IRows l => exists n, rows_width n l
  | IBackground b => background_wf b
  | IScenario x => scenario_wf x
  | IExamples x => examples_wf x
  | IRule x => rule_wf x
  | IFeature x => feature_wf x
  | IGdoc d => doc_wf d
  | _ => True
  end.
Definition sub_wf (p : key * item) : Prop := match snd p with ITok t => fst p = KTok (tok_kind t) | _ => True end /\ item_wf (snd p).
Lemma node_wf r subs : item_wf (INode r subs) <-> Forall sub_wf subs.
Proof. induction subs as [|p l IH]; cbn; [split; auto|]. cbn in IH. rewrite IH. split; [intros [H1 H2]; now constructor|]. intros H. inversion H; subst. auto. Qed.

Section Node.
Context (n : node) (W : Forall sub_wf (n_subs n)).
Lemma items_wf q i : In i (get_items n q) -> sub_wf (q, i).
Proof.
  unfold get_items. intros H. apply in_map_iff in H as [[q' i'] [<- H]]. apply filter_In in H as [H1 H2]. apply key_eqb_spec in H2. cbn in *. subst q'.
  rewrite Forall_forall in W. now apply W.
Qed.
Lemma single_wf q i : get_single n q = Some i -> sub_wf (q, i).
Proof. unfold get_single. intros H. apply items_wf. destruct (get_items n q); [discriminate|]. injection H as ->. now left. Qed.
Lemma token_wf k t : get_token n k = Ok t -> tok_kind t = k /\ tok_full t.
Proof.
  unfold get_token. destruct (get_single n (KTok k)) as [[]|] eqn:E; try discriminate. intros H. injection H as ->. apply single_wf in E as [E1 E2]. cbn in *. injection E1 as ->. auto.
Qed.
Lemma flat_wf {A} (f : item -> list A) (P : A -> Prop) q : (forall i a, item_wf i -> In a (f i) -> P a) -> Forall P (flat_map f (get_items n q)).
Proof. intros H. apply Forall_forall. intros a Ha. apply in_flat_map in Ha as [i [H1 H2]]. apply items_wf in H1 as [_ H1]. eapply H; eauto. Qed.
Lemma steps_wf : Forall step_wf (get_steps n).
Proof. apply flat_wf. intros [] a; cbn; try contradiction. intros H [<-|[]]. exact H. Qed.
Lemma examples_wf_ : Forall examples_wf (get_examples n).
Proof. apply flat_wf. intros [] a; cbn; try contradiction. intros H [<-|[]]. exact H. Qed.
Lemma scenarios_wf : Forall scenario_wf (get_scenarios n).
Proof. apply flat_wf. intros [] a; cbn; try contradiction. intros H [<-|[]]. exact H. Qed.
Lemma rules_wf : Forall rule_wf (get_rules n).
Proof. apply flat_wf. intros [] a; cbn; try contradiction. intros H [<-|[]]. exact H. Qed.
Lemma get_background_wf : opt_wf background_wf (get_background n).
Proof. unfold get_background. destruct (get_single n _) as [[]|] eqn:E; try exact I. now apply single_wf in E as [_ E]. Qed.
Lemma get_node_wf r h : get_node n r = Some h -> Forall sub_wf (n_subs h).
Proof. unfold get_node. destruct (get_single n _) as [[]|] eqn:E; try discriminate. intros H. injection H as <-. apply single_wf in E as [_ E]. now apply node_wf in E. Qed.
Lemma tokens_wf k t : In t (get_tokens n k) -> tok_kind t = k /\ tok_full t.
Proof.
  unfold get_tokens. intros H. apply in_flat_map in H as [i [H1 H2]]. destruct i; try contradiction. destruct H2 as [<-|[]].
  apply items_wf in H1 as [E1 E2]. cbn in *. injection E1 as ->. auto.
Qed.
End Node.
Lemma tags_of_items_wf t l : forall id, Forall (fun i => exists x, i_text i = ch_at :: x) l -> tags_wf (fst (tags_of_items t l id)).
Proof.
  induction l as [|i l IH]; intros id H; [constructor|]. inversion H; subst. cbn. specialize (IH (S id) ltac:(assumption)). destruct (tags_of_items t l (S id)). constructor; assumption.
Qed.
Lemma tags_of_tokens_wf l : forall id, Forall (fun t => Forall (fun i => exists x, i_text i = ch_at :: x) (t_items t)) l -> tags_wf (fst (tags_of_tokens l id)).
Proof.
  induction l as [|t l IH]; intros id H; [constructor|]. inversion H; subst. cbn. pose proof (tags_of_items_wf t (t_items t) id ltac:(assumption)) as A.
  destruct (tags_of_items t (t_items t) id) as [l1 id1]. specialize (IH id1 ltac:(assumption)). destruct (tags_of_tokens l id1). cbn. apply Forall_app. auto.
Qed.
Lemma get_tags_wf n id tags id' : Forall sub_wf (n_subs n) -> get_tags n id = (tags, id') -> tags_wf tags.
Proof.
  intros W. unfold get_tags. destruct (get_single n _) as [[]|] eqn:E; try (intros H; injection H as <- <-; constructor).
  intros H. apply (single_wf n W) in E as [_ E]. apply node_wf in E.
  replace tags with (fst (tags_of_tokens (get_tokens (mkNode r subs) TkTagLine) id)) by (now rewrite H).
  apply tags_of_tokens_wf. apply Forall_forall. intros t Ht. apply (tokens_wf (mkNode r subs) E) in Ht as [E1 E2]. unfold tok_full in E2. now rewrite E1 in E2.
Qed.
Lemma ensure_width rows : ensure_cell_count rows = Ok tt -> exists n, rows_width n rows.
Proof.
  destruct rows as [|r0 rows]; [exists 0; constructor|]. cbn [ensure_cell_count]. destruct (find _ _) eqn:E; [discriminate|]. intros _. exists (length (row_cells r0)).
  apply Forall_forall. intros r Hr. apply (find_none _ _ E) in Hr. apply negb_false_iff in Hr. now apply Nat.eqb_eq.
Qed.
Lemma table_rows_width n id rows id' : get_table_rows n id = (Ok rows, id') -> exists k, rows_width k rows.
Proof.
  unfold get_table_rows. destruct (rows_of_tokens _ _) as [l i]. destruct (ensure_cell_count l) as [[]|] eqn:E; cbn; [|discriminate]. intros H. injection H as <- <-. now apply ensure_width.
Qed.
Lemma transform_wf n cm id i id' : Forall sub_wf (n_subs n) -> transform_node n cm id = (Ok i, id') -> match i with ITok _ => False | _ => True end /\ item_wf i.
Proof.
  intros W. unfold transform_node. destruct (n_rule n).
  - intros H. injection H as <- <-. split; [exact I|]. now apply node_wf.
  - (* document *) intros H. injection H as <- <-. split; [exact I|]. cbn. unfold doc_wf. cbn. destruct (get_single n _) as [[]|] eqn:E; try exact I. now apply single_wf in E as [_ E].
  - (* feature *) destruct (get_node n RFeatureHeader) as [h|] eqn:Eh; [|intros H; injection H as <- <-; now split]. apply (get_node_wf n W) in Eh. destruct (get_tags h id) as [tags id1] eqn:Eg; try apply (get_tags_wf h id _ _ Eh) in Eg.
    destruct (get_token h TkFeatureLine) as [t|] eqn:Et; [|intros H; injection H as <- <-; now split]. apply (token_wf h Eh) in Et as [E1 E2]. unfold tok_full in E2. rewrite E1 in E2.
    intros H. injection H as <- <-. split; [exact I|]. destruct E2 as [E2 E3]. split; [now repeat split|]. cbn. split; [now apply get_background_wf|]. split; [now apply scenarios_wf | now apply rules_wf].
  - intros H. injection H as <- <-. split; [exact I|]. now apply node_wf.
  - (* rule *) destruct (get_node n RRuleHeader) as [h|] eqn:Eh; [|intros H; injection H as <- <-; now split]. apply (get_node_wf n W) in Eh. destruct (get_tags h id) as [tags id1] eqn:Eg; try apply (get_tags_wf h id _ _ Eh) in Eg.
    destruct (get_token h TkRuleLine) as [t|] eqn:Et; [|intros H; injection H as <- <-; now split].
    intros H. injection H as <- <-. split; [exact I|]. split; cbn; [now apply get_background_wf | split; [now apply scenarios_wf | exact Eg]].
  - intros H. injection H as <- <-. split; [exact I|]. now apply node_wf.
  - (* background *) destruct (get_token _ _); intros H; [|discriminate]. injection H as <- <-. split; [exact I|]. now apply steps_wf.
  - (* scenario definition *) destruct (get_tags n id) as [tags id1] eqn:Eg; apply (get_tags_wf n id _ _ W) in Eg. destruct (get_node n RScenario) as [h|] eqn:Eh; [|discriminate]. apply (get_node_wf n W) in Eh.
    destruct (get_token h TkScenarioLine) as [t|] eqn:Et; [|discriminate]. apply (token_wf h Eh) in Et as [E1 E2]. unfold tok_full in E2. rewrite E1 in E2.
    intros H. injection H as <- <-. split; [exact I|]. destruct E2 as [E2 E3]. split; [now repeat split|]. split; [now apply steps_wf | now apply examples_wf_].
  - intros H. injection H as <- <-. split; [exact I|]. now apply node_wf.
  - (* examples definition *) destruct (get_tags n id) as [tags id1] eqn:Eg; apply (get_tags_wf n id _ _ W) in Eg. destruct (get_node n RExamples) as [h|] eqn:Eh; [|discriminate]. apply (get_node_wf n W) in Eh.
    destruct (get_token h TkExamplesLine) as [t|] eqn:Et; [|discriminate]. apply (token_wf h Eh) in Et as [E1 E2]. unfold tok_full in E2. rewrite E1 in E2.
    intros H. injection H as <- <-. split; [exact I|]. split; [|split; [exact E2 | exact Eg]]. unfold examples_rectangular. cbn.
    destruct (get_single h _) as [[]|] eqn:E; try reflexivity. apply (single_wf h Eh) in E as [_ [k E]]. destruct x as [|r0 rows]; [reflexivity|]. inversion E; subst. assumption.
  - intros H. injection H as <- <-. split; [exact I|]. now apply node_wf.
  - (* examples table *) destruct (get_table_rows n id) as [[rows|e] i'] eqn:E; intros H; [|discriminate]. injection H as <- <-. split; [exact I|]. cbn. eapply table_rows_width; eauto.
  - (* step *) destruct (get_token n TkStepLine) as [t|] eqn:Et; [|discriminate]. apply (token_wf n W) in Et as [E1 E2]. unfold tok_full in E2. rewrite E1 in E2.
    intros H. injection H as <- <-. split; [exact I|]. split; [exact E2|]. unfold step_rectangular. cbn. destruct (get_single n _) as [[]|] eqn:E.
    all: try (destruct (get_single n (KRule RDocString)) as [[]|]; exact I). now apply (single_wf n W) in E as [_ E].
  - (* data table *) destruct (get_table_rows n id) as [[[|r0 rows]|e] i'] eqn:E; intros H; try discriminate. injection H as <- <-. split; [exact I|]. cbn. eapply table_rows_width; eauto.
  - (* doc string *) destruct (get_tokens _ _); [discriminate|]. destruct (t_text _); intros H; [|discriminate]. injection H as <- <-. now split.
  - intros H. injection H as <- <-. split; [exact I|]. now apply node_wf.
  - (* description *) cbv zeta. destruct (last_non_empty _); intros H; [|discriminate]. injection H as <- <-. now split.
Qed.

Lemma tags_go_at l : forall c r, tags_go l c = Ok r -> Forall (fun i => exists x, i_text i = ch_at :: x) r.
Proof.
  induction l as [|x l IH]; intros c r; cbn [tags_go]; [intros H; injection H as <-; constructor|]. destruct (re_search _ _); [discriminate|].
  destruct (tags_go l _) eqn:E; [|discriminate]. intros H. injection H as <-. constructor; [eexists; reflexivity | eauto].
Qed.
Lemma lexm_full k ms n x ms' t : lexm k ms n x = (Ok true, ms', t) -> tok_full t.
Proof.
  intros H. pose proof (lexm_kind _ _ _ _ _ _ H) as K. unfold tok_full, tok_kind. rewrite K. unfold lexm in H. destruct (negb _ && _); [discriminate|]. destruct k; try exact I; cbn [classic_match] in H.
  - unfold c_match_TagLine in H. destruct (g_startswith _ _); [|discriminate]. destruct (g_tags _) eqn:E; [|discriminate]. injection H as <- <-. cbn. eapply tags_go_at, E.
  - unfold match_title in H. destruct (find _ _); [|discriminate]. injection H as <- <-. cbn. eauto.
  - unfold m_or, match_title in H. destruct (find _ _); [injection H as <- <-; cbn; split; [eauto|]; eexists; reflexivity|]. destruct (find _ _); [|discriminate]. injection H as <- <-. cbn. split; [eauto|]. eexists; reflexivity.
  - unfold match_title in H. destruct (find _ _); [|discriminate]. injection H as <- <-. cbn. eauto.
  - unfold c_match_StepLine in H. destruct (find _ _); [|discriminate]. injection H as <- <-. cbn. repeat split; eauto. eexists; reflexivity.
Qed.
Lemma eval_wf t : forall p, ok_tree p t -> (forall a, t = Leaf a -> tok_full (lf_t a)) -> forall id subs es id', eval t id = (subs, es, id') -> Forall sub_wf subs.
Proof.
  induction t as [a|r l IH] using tree_ind'; intros p T La id subs es id' E.
  - cbn in E. injection E as <- <- <-. destruct (tok_eqb _ _); constructor; [|constructor]. split; cbn; [reflexivity | now apply La].
  - inversion T as [|? ? T1 T2 T3]; subst. rewrite eval_node in E. destruct (evals l id) as [[s1 e1] id1] eqn:E1.
    assert (W : Forall sub_wf s1).
    { assert (LL : forall a, In (Leaf a) l -> tok_full (lf_t a)).
      { intros a Ha. apply in_split in Ha as [pre [post ->]]. destruct (T2 pre a post eq_refl) as [_ [ms' L] _ _ _]. eapply lexm_full; eauto. }
      clear T T1 T2 E. revert id s1 e1 id1 E1. induction IH as [|t l Ht Hl IHl]; intros id s1 e1 id1 E1.
      - rewrite evals_nil in E1. injection E1 as <- <- <-. constructor.
      - rewrite evals_cons in E1. destruct (eval t id) as [[sa ea] ia] eqn:Ea. destruct (evals l ia) as [[sb eb] ib] eqn:Eb. injection E1 as <- <- <-.
        inversion T3 as [|? ? T4 T5]; subst. apply Forall_app. split; [|eapply IHl; eauto; intros; apply LL; now right]. eapply Ht; eauto. intros a ->. apply LL. now left. }
    unfold finish in E. destruct (transform_node (mkNode r s1) [] id1) as [[i|e] id2] eqn:Et.
    + injection E as <- <- <-. apply transform_wf in Et as [X Y]; [|exact W]. constructor; [|constructor]. split; cbn; [destruct i; auto; contradiction | exact Y].
    + assert (subs = []) as -> by (destruct e; now injection E as <- _ _). constructor.
Qed.
Theorem doc_of_wf p ids l d ids' : ok_tree p (Node RGherkinDocument l) -> doc_of ids l d ids' -> doc_wf d.
Proof.
  intros T [subs [E ->]].
  assert (W : Forall sub_wf [(KRule RGherkinDocument, IGdoc (mkGdoc (feature_in subs) []))]).
  { apply (eval_wf (Node RGherkinDocument l) p T ltac:(discriminate) ids _ [] ids'). rewrite eval_node, E. reflexivity. }
  inversion W as [|? ? [_ H] _]; subst. exact H.
Qed.
