(** * Every element of a document comes from the tokens that the matcher matched

    For both matchers; [G]: what is known of a token that was matched. *)
From Verif Require Import PyStr PyStrFacts Types Regex Line DialectData Matcher Ast ParserTable Parser Classify Table Scan Grammar Deriv Cert LineSpec Cst Report Eval Ids IdSpec PickleSpec WfDoc AnyRun WeakTree WeakEval PartsSpec.

Section Src.
Context (G : token -> Prop).
Definition tok_src (k : tok) (t : token) : Prop := G t /\ tok_kind t = k.
Definition title_src (k : tok) (loc : location) (kw name : option str) : Prop :=
  exists t, tok_src k t /\ loc = t_location t /\ kw = t_keyword t /\ name = t_text t.
Definition tag_src (g : tag) : Prop := exists t i, tok_src TkTagLine t /\ In i (t_items t) /\ tag_loc g = get_location t (i_column i) /\ tag_name g = i_text i.
Definition row_src (r : row) : Prop := exists t, tok_src TkTableRow t /\ row_loc r = t_location t /\ row_cells r = get_cells t.
Definition text_src (x : str) : Prop := exists ts, Forall (tok_src TkOther) ts /\ x = join [ch_nl] (map text_of ts).
Definition doc_src (ds : docstring) : Prop := exists t media, tok_src TkDocStringSeparator t /\ ds_loc ds = t_location t /\ ds_delimiter ds = t_keyword t /\
  t_text t = Some media /\ ds_media ds = match media with [] => None | _ => Some media end /\ text_src (ds_content ds).
Definition table_src (t : datatable) : Prop := Forall row_src (dt_rows t) /\ exists r rows, dt_rows t = r :: rows /\ dt_loc t = row_loc r.
Definition arg_src (a : steparg) : Prop := match a with ANone => True | ATable t => table_src t | ADoc d => doc_src d end.
Definition step_src (x : step) : Prop :=
  (exists t, tok_src TkStepLine t /\ st_loc x = t_location t /\ st_keyword x = t_keyword t /\ st_ktype x = t_ktype t /\ st_text x = t_text t) /\ arg_src (st_arg x).
Definition background_src (b : background) : Prop := title_src TkBackgroundLine (bg_loc b) (bg_keyword b) (bg_name b) /\ text_src (bg_desc b) /\ Forall step_src (bg_steps b).
Definition examples_src (x : examples) : Prop := title_src TkExamplesLine (ex_loc x) (ex_keyword x) (ex_name x) /\ text_src (ex_desc x) /\ Forall tag_src (ex_tags x) /\ Forall row_src (example_rows x).
Definition scenario_src (x : scenario) : Prop := title_src TkScenarioLine (sc_loc x) (sc_keyword x) (sc_name x) /\ text_src (sc_desc x) /\ Forall tag_src (sc_tags x) /\
  Forall step_src (sc_steps x) /\ Forall examples_src (sc_examples x).
Definition opt_src {A} (P : A -> Prop) (o : option A) : Prop := match o with Some a => P a | None => True end.
Definition rule_src (x : rule_ast) : Prop := title_src TkRuleLine (ru_loc x) (ru_keyword x) (ru_name x) /\ text_src (ru_desc x) /\ Forall tag_src (ru_tags x) /\
  opt_src background_src (ru_background x) /\ Forall scenario_src (ru_scenarios x).
Definition feature_src (f : feature) : Prop :=
  (exists t, tok_src TkFeatureLine t /\ fe_loc f = t_location t /\ fe_keyword f = t_keyword t /\ fe_name f = t_text t /\ fe_language f = t_dialect t) /\
  text_src (fe_desc f) /\ Forall tag_src (fe_tags f) /\ opt_src background_src (fe_background f) /\ Forall scenario_src (fe_scenarios f) /\ Forall rule_src (fe_rules f).

Fixpoint item_src (i : item) : Prop :=
  match i with
  | ITok t => G t
  | INode _ subs => (fix go (l : list (key * item)) : Prop := match l with [] => True | p :: l' => (match snd p with ITok t => fst p = KTok (tok_kind t) | _ => True end /\ item_src (snd p)) /\ go l' end) subs
  | IStep x => step_src x
  | IDoc x => doc_src x
  | ITable t => table_src t
  | IRows l => Forall row_src l
  | IDesc x => text_src x
  | IBackground b => background_src b
  | IScenario x => scenario_src x
  | IExamples x => examples_src x
  | IRule x => rule_src x
  | IFeature x => feature_src x
  | IGdoc d => opt_src feature_src (gd_feature d)
  | INone => True
  end.
Definition sub_src (p : key * item) : Prop := match snd p with ITok t => fst p = KTok (tok_kind t) | _ => True end /\ item_src (snd p).
Lemma node_src r subs : item_src (INode r subs) <-> Forall sub_src subs.
Proof. induction subs as [|p l IH]; cbn; [split; auto|]. cbn in IH. rewrite IH. split; [intros [H1 H2]; now constructor|]. intros H. inversion H; subst. auto. Qed.

Section Node.
Context (n : node) (W : Forall sub_src (n_subs n)).
Lemma items_src q i : In i (get_items n q) -> sub_src (q, i).
Proof.
  unfold get_items. intros H. apply in_map_iff in H as [[q' i'] [<- H]]. apply filter_In in H as [H1 H2]. apply key_eqb_spec in H2. cbn in *. subst q'.
  rewrite Forall_forall in W. now apply W.
Qed.
Lemma single_src q i : get_single n q = Some i -> sub_src (q, i).
Proof. unfold get_single. intros H. apply items_src. destruct (get_items n q); [discriminate|]. injection H as ->. now left. Qed.
Lemma token_src k t : get_token n k = Ok t -> tok_src k t.
Proof.
  unfold get_token. destruct (get_single n (KTok k)) as [[]|] eqn:E; try discriminate. intros H. injection H as ->. apply single_src in E as [E1 E2]. cbn in *. injection E1 as ->. split; auto.
Qed.
Lemma flat_src {A} (f : item -> list A) (P : A -> Prop) q : (forall i a, item_src i -> In a (f i) -> P a) -> Forall P (flat_map f (get_items n q)).
Proof. intros H. apply Forall_forall. intros a Ha. apply in_flat_map in Ha as [i [H1 H2]]. apply items_src in H1 as [_ H1]. eapply H; eauto. Qed.
Lemma steps_src : Forall step_src (get_steps n).
Proof. apply flat_src. intros [] a; cbn; try contradiction. intros H [<-|[]]. exact H. Qed.
Lemma examples_src_ : Forall examples_src (get_examples n).
Proof. apply flat_src. intros [] a; cbn; try contradiction. intros H [<-|[]]. exact H. Qed.
Lemma scenarios_src : Forall scenario_src (get_scenarios n).
Proof. apply flat_src. intros [] a; cbn; try contradiction. intros H [<-|[]]. exact H. Qed.
Lemma rules_src : Forall rule_src (get_rules n).
Proof. apply flat_src. intros [] a; cbn; try contradiction. intros H [<-|[]]. exact H. Qed.
Lemma get_background_src : opt_src background_src (get_background n).
Proof. unfold get_background. destruct (get_single n _) as [[]|] eqn:E; try exact I. now apply single_src in E as [_ E]. Qed.
Lemma get_description_src : text_src (get_description n).
Proof. unfold get_description. destruct (get_single n _) as [[]|] eqn:E; try (exists []; split; [constructor | reflexivity]). now apply single_src in E as [_ E]. Qed.
Lemma get_node_src r h : get_node n r = Some h -> Forall sub_src (n_subs h).
Proof. unfold get_node. destruct (get_single n _) as [[]|] eqn:E; try discriminate. intros H. injection H as <-. apply single_src in E as [_ E]. now apply node_src in E. Qed.
Lemma tokens_src k : Forall (tok_src k) (get_tokens n k).
Proof.
  unfold get_tokens. apply Forall_forall. intros t H. apply in_flat_map in H as [i [H1 H2]]. destruct i; try contradiction. destruct H2 as [<-|[]].
  apply items_src in H1 as [E1 E2]. cbn in *. injection E1 as ->. split; auto.
Qed.
End Node.
Lemma tags_of_items_src t l : forall id, tok_src TkTagLine t -> incl l (t_items t) -> Forall tag_src (fst (tags_of_items t l id)).
Proof.
  induction l as [|i l IH]; intros id T H; [constructor|]. cbn. specialize (IH (S id) T ltac:(intros ? ?; apply H; now right)). destruct (tags_of_items t l (S id)).
  constructor; [|exact IH]. exists t, i. split; [exact T|]. split; [apply H; now left | split; reflexivity].
Qed.
Lemma tags_of_tokens_src l : forall id, Forall (tok_src TkTagLine) l -> Forall tag_src (fst (tags_of_tokens l id)).
Proof.
  induction l as [|t l IH]; intros id H; [constructor|]. inversion H; subst. cbn. pose proof (tags_of_items_src t (t_items t) id ltac:(assumption) ltac:(intros ? ?; assumption)) as A.
  destruct (tags_of_items t (t_items t) id) as [l1 id1]. specialize (IH id1 ltac:(assumption)). destruct (tags_of_tokens l id1). cbn. apply Forall_app. auto.
Qed.
Lemma get_tags_src n id tags id' : Forall sub_src (n_subs n) -> get_tags n id = (tags, id') -> Forall tag_src tags.
Proof.
  intros W. unfold get_tags. destruct (get_single n _) as [[]|] eqn:E; try (intros H; injection H as <- <-; constructor).
  intros H. apply (single_src n W) in E as [_ E]. apply node_src in E.
  replace tags with (fst (tags_of_tokens (get_tokens (mkNode r subs) TkTagLine) id)) by (now rewrite H).
  apply tags_of_tokens_src. now apply (tokens_src (mkNode r subs)).
Qed.
Lemma rows_of_tokens_src l : forall id, Forall (tok_src TkTableRow) l -> Forall row_src (fst (rows_of_tokens l id)).
Proof.
  induction l as [|t l IH]; intros id H; [constructor|]. inversion H; subst. cbn. specialize (IH (S id) ltac:(assumption)). destruct (rows_of_tokens l (S id)). constructor; [|exact IH].
  exists t. split; [assumption | split; reflexivity].
Qed.
Lemma table_rows_src n id rows id' : Forall sub_src (n_subs n) -> get_table_rows n id = (Ok rows, id') -> Forall row_src rows.
Proof.
  intros W. unfold get_table_rows. pose proof (rows_of_tokens_src _ id (tokens_src n W TkTableRow)) as R. destruct (rows_of_tokens _ _) as [l i]. cbn in R.
  destruct (ensure_cell_count l) as [[]|]; cbn; [|discriminate]. intros H. injection H as <- <-. exact R.
Qed.
Lemma transform_src n cm id i id' : Forall sub_src (n_subs n) -> transform_node n cm id = (Ok i, id') -> match i with ITok _ => False | _ => True end /\ item_src i.
Proof.
  intros W. unfold transform_node. destruct (n_rule n).
  - intros H. injection H as <- <-. split; [exact I|]. now apply node_src.
  - (* document *) intros H. injection H as <- <-. split; [exact I|]. cbn. destruct (get_single n _) as [[]|] eqn:E; try exact I. now apply single_src in E as [_ E].
  - (* feature *) destruct (get_node n RFeatureHeader) as [h|] eqn:Eh; [|intros H; injection H as <- <-; now split]. apply (get_node_src n W) in Eh. destruct (get_tags h id) as [tags id1] eqn:Eg; try apply (get_tags_src h id _ _ Eh) in Eg.
    destruct (get_token h TkFeatureLine) as [t|] eqn:Et; [|intros H; injection H as <- <-; now split]. apply (token_src h Eh) in Et.
    intros H. injection H as <- <-. split; [exact I|]. split; [exists t; repeat split; auto; apply Et|]. cbn. split; [now apply get_description_src|]. split; [exact Eg|].
    split; [now apply get_background_src|]. split; [now apply scenarios_src | now apply rules_src].
  - intros H. injection H as <- <-. split; [exact I|]. now apply node_src.
  - (* rule *) destruct (get_node n RRuleHeader) as [h|] eqn:Eh; [|intros H; injection H as <- <-; now split]. apply (get_node_src n W) in Eh. destruct (get_tags h id) as [tags id1] eqn:Eg; try apply (get_tags_src h id _ _ Eh) in Eg.
    destruct (get_token h TkRuleLine) as [t|] eqn:Et; [|intros H; injection H as <- <-; now split]. apply (token_src h Eh) in Et.
    intros H. injection H as <- <-. split; [exact I|]. split; [exists t; auto|]. cbn. split; [now apply get_description_src|]. split; [exact Eg|]. split; [now apply get_background_src | now apply scenarios_src].
  - intros H. injection H as <- <-. split; [exact I|]. now apply node_src.
  - (* background *) destruct (get_token _ _) as [t|] eqn:Et; intros H; [|discriminate]. apply (token_src n W) in Et. injection H as <- <-. split; [exact I|]. split; [exists t; auto|]. cbn. split; [now apply get_description_src | now apply steps_src].
  - (* scenario definition *) destruct (get_tags n id) as [tags id1] eqn:Eg; apply (get_tags_src n id _ _ W) in Eg. destruct (get_node n RScenario) as [h|] eqn:Eh; [|discriminate]. apply (get_node_src n W) in Eh.
    destruct (get_token h TkScenarioLine) as [t|] eqn:Et; [|discriminate]. apply (token_src h Eh) in Et.
    intros H. injection H as <- <-. split; [exact I|]. split; [exists t; auto|]. cbn. split; [now apply get_description_src|]. split; [exact Eg|]. split; [now apply steps_src | now apply examples_src_].
  - intros H. injection H as <- <-. split; [exact I|]. now apply node_src.
  - (* examples definition *) destruct (get_tags n id) as [tags id1] eqn:Eg; apply (get_tags_src n id _ _ W) in Eg. destruct (get_node n RExamples) as [h|] eqn:Eh; [|discriminate]. apply (get_node_src n W) in Eh.
    destruct (get_token h TkExamplesLine) as [t|] eqn:Et; [|discriminate]. apply (token_src h Eh) in Et.
    intros H. injection H as <- <-. split; [exact I|]. split; [exists t; auto|]. cbn. split; [now apply get_description_src|]. split; [exact Eg|]. unfold example_rows. cbn [ex_header ex_body].
    destruct (get_single h _) as [[]|] eqn:E; try constructor. apply (single_src h Eh) in E as [_ E]. cbn in E. destruct x as [|r0 rows]; exact E.
  - intros H. injection H as <- <-. split; [exact I|]. now apply node_src.
  - (* examples table *) destruct (get_table_rows n id) as [[rows|e] i'] eqn:E; intros H; [|discriminate]. injection H as <- <-. split; [exact I|]. cbn. eapply table_rows_src; eauto.
  - (* step *) destruct (get_token n TkStepLine) as [t|] eqn:Et; [|discriminate]. apply (token_src n W) in Et.
    intros H. injection H as <- <-. split; [exact I|]. split; [exists t; repeat split; auto; apply Et|]. cbn [st_arg]. destruct (get_single n (KRule RDataTable)) as [[]|] eqn:E.
    all: try (destruct (get_single n (KRule RDocString)) as [[]|] eqn:E2; try exact I; apply (single_src n W) in E2 as [_ E2]; exact E2). now apply (single_src n W) in E as [_ E].
  - (* data table *) destruct (get_table_rows n id) as [[[|r0 rows]|e] i'] eqn:E; intros H; try discriminate. injection H as <- <-. split; [exact I|]. cbn. split; [eapply table_rows_src; eauto|]. exists r0, rows. auto.
  - (* doc string *) pose proof (tokens_src n W TkDocStringSeparator) as T. destruct (get_tokens n TkDocStringSeparator) as [|t ts]; [discriminate|]. inversion T; subst. destruct (t_text t) as [media|] eqn:Em; intros H; [|discriminate]. injection H as <- <-.
    split; [exact I|]. exists t, media. cbn. split; [assumption|]. repeat split; auto. exists (get_tokens n TkOther). split; [now apply tokens_src | reflexivity].
  - intros H. injection H as <- <-. split; [exact I|]. now apply node_src.
  - (* description *) cbv zeta. destruct (last_non_empty _) as [k|]; intros H; [|discriminate]. injection H as <- <-. split; [exact I|]. cbn. exists (firstn k (get_tokens n TkOther)). split; [|reflexivity].
    pose proof (tokens_src n W TkOther) as T. rewrite <- (firstn_skipn k) in T. now apply Forall_app in T as [T _].
Qed.
Lemma weval_src t : wtree G t -> (forall a, t = Leaf a -> t_mtype (lf_t a) = Some (lkind a) /\ G (lf_t a)) -> forall id subs es id', eval t id = (subs, es, id') -> Forall sub_src subs.
Proof.
  induction t as [a|r l IH] using tree_ind'; intros T La id subs es id' E.
  - cbn in E. injection E as <- <- <-. destruct (tok_eqb _ _); constructor; [|constructor]. destruct (La a eq_refl) as [L1 L2]. split; cbn; [|exact L2]. unfold tok_kind. now rewrite L1.
  - inversion T as [|? ? T1 T2 T3]; subst. rewrite eval_node in E. destruct (evals l id) as [[s1 e1] id1] eqn:E1.
    assert (W : Forall sub_src s1).
    { assert (LL : forall a, In (Leaf a) l -> t_mtype (lf_t a) = Some (lkind a) /\ G (lf_t a)).
      { intros a Ha. apply in_split in Ha as [pre [post ->]]. destruct (T2 pre a post eq_refl). auto. }
      clear T T1 T2 E. revert id s1 e1 id1 E1. induction IH as [|t l Ht Hl IHl]; intros id s1 e1 id1 E1.
      - rewrite evals_nil in E1. injection E1 as <- <- <-. constructor.
      - rewrite evals_cons in E1. destruct (eval t id) as [[sa ea] ia] eqn:Ea. destruct (evals l ia) as [[sb eb] ib] eqn:Eb. injection E1 as <- <- <-.
        inversion T3 as [|? ? T4 T5]; subst. apply Forall_app. split; [|eapply IHl; eauto; intros; apply LL; now right]. eapply Ht; eauto. intros a ->. apply LL. now left. }
    unfold finish in E. destruct (transform_node (mkNode r s1) [] id1) as [[i|e] id2] eqn:Et.
    + injection E as <- <- <-. apply transform_src in Et as [X Y]; [|exact W]. constructor; [|constructor]. split; cbn; [destruct i; auto; contradiction | exact Y].
    + assert (subs = []) as -> by (destruct e; now injection E as <- _ _). constructor.
Qed.
Theorem wdoc_src ids l d ids' : wtree G (Node RGherkinDocument l) -> doc_of ids l d ids' -> opt_src feature_src (gd_feature d).
Proof.
  intros T [subs [E ->]].
  assert (W : Forall sub_src [(KRule RGherkinDocument, IGdoc (mkGdoc (feature_in subs) []))]).
  { apply (weval_src (Node RGherkinDocument l) T ltac:(discriminate) ids _ [] ids'). rewrite eval_node, E. reflexivity. }
  inversion W as [|? ? [_ H] _]; subst. exact H.
Qed.

(** the parts of a feature *)
Lemma feature_parts_src f : feature_src f ->
  Forall rule_src (fe_rules f) /\ Forall scenario_src (feature_scenarios f) /\ Forall background_src (feature_backgrounds f) /\ Forall examples_src (feature_examples f) /\
  Forall step_src (feature_steps f) /\ Forall tag_src (feature_tags f) /\ Forall row_src (feature_rows f) /\ Forall table_src (feature_tables f) /\ Forall doc_src (feature_docs f).
Proof.
  intros [_ [_ [T [B [S R]]]]]. rewrite Forall_forall in T, S, R.
  assert (SC : forall x, In x (feature_scenarios f) -> scenario_src x).
  { intros x Hx. unfold feature_scenarios in Hx. apply in_app_or in Hx as [Hx|Hx]; [auto|]. apply in_flat_map in Hx as [r [H1 H2]]. destruct (R r H1) as [_ [_ [_ [_ H]]]]. rewrite Forall_forall in H. auto. }
  assert (BG : forall x, In x (feature_backgrounds f) -> background_src x).
  { intros x Hx. unfold feature_backgrounds in Hx. apply in_app_or in Hx as [Hx|Hx].
    - destruct (fe_background f); [|destruct Hx]. destruct Hx as [<-|[]]. exact B.
    - apply in_flat_map in Hx as [r [H1 H2]]. destruct (R r H1) as [_ [_ [_ [H _]]]]. destruct (ru_background r); [|destruct H2]. destruct H2 as [<-|[]]. exact H. }
  assert (EX : forall x, In x (feature_examples f) -> examples_src x).
  { intros x Hx. unfold feature_examples in Hx. apply in_flat_map in Hx as [y [H1 H2]]. destruct (SC y H1) as [_ [_ [_ [_ H]]]]. rewrite Forall_forall in H. auto. }
  assert (ST : forall x, In x (feature_steps f) -> step_src x).
  { intros x Hx. unfold feature_steps in Hx. apply in_app_or in Hx as [Hx|Hx]; apply in_flat_map in Hx as [y [H1 H2]].
    - destruct (BG y H1) as [_ [_ H]]. rewrite Forall_forall in H. auto.
    - destruct (SC y H1) as [_ [_ [_ [H _]]]]. rewrite Forall_forall in H. auto. }
  assert (TB : forall x, In x (feature_tables f) -> table_src x).
  { intros x Hx. unfold feature_tables in Hx. apply in_flat_map in Hx as [y [H1 H2]]. destruct (ST y H1) as [_ H]. unfold step_tables in H2. destruct (st_arg y); try destruct H2 as []. destruct H0; subst; auto. contradiction. }
  assert (TG : forall x, In x (feature_tags f) -> tag_src x).
  { intros x Hx. unfold feature_tags in Hx. apply in_app_or in Hx as [Hx|Hx]; [now apply T|]. apply in_app_or in Hx as [Hx|Hx]; [|apply in_app_or in Hx as [Hx|Hx]]; apply in_flat_map in Hx as [y [H1 H2]].
    - destruct (R y H1) as [_ [_ [H _]]]. rewrite Forall_forall in H. auto.
    - destruct (SC y H1) as [_ [_ [H _]]]. rewrite Forall_forall in H. auto.
    - destruct (EX y H1) as [_ [_ [H _]]]. rewrite Forall_forall in H. auto. }
  repeat split; apply Forall_forall; auto.
  - intros x Hx. unfold feature_rows in Hx. apply in_app_or in Hx as [Hx|Hx]; apply in_flat_map in Hx as [y [H1 H2]].
    + destruct (TB y H1) as [H _]. rewrite Forall_forall in H. auto.
    + destruct (EX y H1) as [_ [_ [_ H]]]. rewrite Forall_forall in H. auto.
  - intros x Hx. unfold feature_docs in Hx. apply in_flat_map in Hx as [y [H1 H2]]. destruct (ST y H1) as [_ H]. unfold step_docs in H2. destruct (st_arg y); try contradiction. destruct H2 as [<-|[]]. exact H.
Qed.
End Src.
