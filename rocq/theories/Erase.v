(** * Building the document without ids

    [evals0] is [evals] of Eval.v with all ids 0. *)
From Verif Require Import PyStr PyStrFacts Types Regex Line DialectData Matcher Ast ParserTable Parser Classify Table Scan Grammar Deriv Cert LineSpec Cst Report Eval LangSpec DocSpec.

Definition no_id_table (t : datatable) : datatable := mkTable (dt_loc t) (map no_id_row (dt_rows t)).
Fixpoint no_id_item (i : item) : item :=
  match i with
  | INode r subs => INode r (map (fun p => (fst p, no_id_item (snd p))) subs)
  | IStep x => IStep (no_id_step x)
  | ITable x => ITable (no_id_table x)
  | IBackground x => IBackground (no_id_background x)
  | IScenario x => IScenario (no_id_scenario x)
  | IExamples x => IExamples (no_id_examples x)
  | IRows x => IRows (map no_id_row x)
  | IRule x => IRule (no_id_rule x)
  | IFeature x => IFeature (no_id_feature x)
  | IGdoc x => IGdoc (no_ids x)
  | i => i
  end.
Definition no_id_sub (p : key * item) : key * item := (fst p, no_id_item (snd p)).
Definition no_id_subs : list (key * item) -> list (key * item) := map no_id_sub.
Definition no_id_res (r : result item) : result item := match r with Ok i => Ok (no_id_item i) | Err e => Err e end.

Lemma no_id_node r subs : no_id_item (INode r subs) = INode r (no_id_subs subs).
Proof. reflexivity. Qed.

(** ** Getters *)
Lemma gi_no r subs k : get_items (mkNode r (no_id_subs subs)) k = map no_id_item (get_items (mkNode r subs) k).
Proof.
  unfold get_items. cbn [n_subs]. induction subs as [|[k0 i] subs IH]; [reflexivity|]. cbn [no_id_subs map no_id_sub fst snd filter].
  destruct (key_eqb k0 k); cbn [map snd]; [f_equal|]; exact IH.
Qed.
Lemma gs_no r subs k : get_single (mkNode r (no_id_subs subs)) k = option_map no_id_item (get_single (mkNode r subs) k).
Proof. unfold get_single. rewrite gi_no. destruct (get_items _ k); reflexivity. Qed.
Lemma gt_no r subs k : get_tokens (mkNode r (no_id_subs subs)) k = get_tokens (mkNode r subs) k.
Proof. unfold get_tokens. rewrite gi_no. induction (get_items (mkNode r subs) (KTok k)) as [|i l IH]; [reflexivity|]. cbn [map flat_map]. rewrite IH. now destruct i. Qed.
Lemma gtok_no r subs k : get_token (mkNode r (no_id_subs subs)) k = get_token (mkNode r subs) k.
Proof. unfold get_token. rewrite gs_no. destruct (get_single (mkNode r subs) (KTok k)) as [[]|]; reflexivity. Qed.
Lemma gdesc_no r subs : get_description (mkNode r (no_id_subs subs)) = get_description (mkNode r subs).
Proof. unfold get_description. rewrite gs_no. destruct (get_single (mkNode r subs) (KRule RDescription)) as [[]|]; reflexivity. Qed.
Lemma gsteps_no r subs : get_steps (mkNode r (no_id_subs subs)) = map no_id_step (get_steps (mkNode r subs)).
Proof. unfold get_steps. rewrite gi_no. induction (get_items (mkNode r subs) (KRule RStep)) as [|i l IH]; [reflexivity|]. cbn [map flat_map]. rewrite IH. now destruct i. Qed.
Lemma gex_no r subs : get_examples (mkNode r (no_id_subs subs)) = map no_id_examples (get_examples (mkNode r subs)).
Proof. unfold get_examples. rewrite gi_no. induction (get_items (mkNode r subs) (KRule RExamplesDefinition)) as [|i l IH]; [reflexivity|]. cbn [map flat_map]. rewrite IH. now destruct i. Qed.
Lemma gsc_no r subs : get_scenarios (mkNode r (no_id_subs subs)) = map no_id_scenario (get_scenarios (mkNode r subs)).
Proof. unfold get_scenarios. rewrite gi_no. induction (get_items (mkNode r subs) (KRule RScenarioDefinition)) as [|i l IH]; [reflexivity|]. cbn [map flat_map]. rewrite IH. now destruct i. Qed.
Lemma gru_no r subs : get_rules (mkNode r (no_id_subs subs)) = map no_id_rule (get_rules (mkNode r subs)).
Proof. unfold get_rules. rewrite gi_no. induction (get_items (mkNode r subs) (KRule RRule)) as [|i l IH]; [reflexivity|]. cbn [map flat_map]. rewrite IH. now destruct i. Qed.
Lemma gbg_no r subs : get_background (mkNode r (no_id_subs subs)) = option_map no_id_background (get_background (mkNode r subs)).
Proof. unfold get_background. rewrite gs_no. destruct (get_single (mkNode r subs) (KRule RBackground)) as [[]|]; reflexivity. Qed.
Lemma gnode_no r subs k : get_node (mkNode r (no_id_subs subs)) k = option_map (fun n => mkNode (n_rule n) (no_id_subs (n_subs n))) (get_node (mkNode r subs) k).
Proof. unfold get_node. rewrite gs_no. destruct (get_single (mkNode r subs) (KRule k)) as [[]|]; reflexivity. Qed.

Lemma tags_items_no t items : forall id, map no_id_tag (fst (tags_of_items t items id)) = map no_id_tag (fst (tags_of_items t items 0)).
Proof.
  assert (G : forall items id, map no_id_tag (fst (tags_of_items t items id)) = map (fun i => mkTag 0 (get_location t (i_column i)) (i_text i)) items).
  { clear. induction items as [|i items IH]; intros id; [reflexivity|]. cbn [tags_of_items]. specialize (IH (S id)). destruct (tags_of_items t items (S id)). cbn [fst map] in *. now rewrite IH. }
  intros id. now rewrite !G.
Qed.
Lemma tags_items_0 t items id : map no_id_tag (fst (tags_of_items t items id)) = map (fun i => mkTag 0 (get_location t (i_column i)) (i_text i)) items.
Proof.
  revert id. induction items as [|i items IH]; intros id; [reflexivity|]. cbn [tags_of_items]. specialize (IH (S id)). destruct (tags_of_items t items (S id)). cbn [fst map] in *. now rewrite IH.
Qed.
Lemma tags_tokens_0 ts : forall id, map no_id_tag (fst (tags_of_tokens ts id)) = flat_map (fun t => map (fun i => mkTag 0 (get_location t (i_column i)) (i_text i)) (t_items t)) ts.
Proof.
  induction ts as [|t ts IH]; intros id; [reflexivity|]. cbn [tags_of_tokens flat_map]. rewrite <- (tags_items_0 t (t_items t) id).
  destruct (tags_of_items t (t_items t) id) as [l1 id1]. specialize (IH id1). destruct (tags_of_tokens ts id1) as [l2 id2]. cbn [fst] in *. now rewrite map_app, IH.
Qed.
Lemma get_tags_no r subs id : map no_id_tag (fst (get_tags (mkNode r (no_id_subs subs)) 0)) = map no_id_tag (fst (get_tags (mkNode r subs) id)).
Proof.
  unfold get_tags. rewrite gs_no. destruct (get_single (mkNode r subs) (KRule RTags)) as [[]|]; try reflexivity. cbn [option_map no_id_item].
  change (map (fun p : key * item => (fst p, no_id_item (snd p))) subs0) with (no_id_subs subs0). rewrite gt_no. now rewrite !tags_tokens_0.
Qed.
Lemma rows_tokens_0 ts : forall id, map no_id_row (fst (rows_of_tokens ts id)) = map (fun t => mkRow 0 (t_location t) (get_cells t)) ts.
Proof.
  induction ts as [|t ts IH]; intros id; [reflexivity|]. cbn [rows_of_tokens map]. specialize (IH (S id)). destruct (rows_of_tokens ts (S id)). cbn [fst map] in *. now rewrite IH.
Qed.
Lemma find_map_row f rows : find f (map no_id_row rows) = option_map no_id_row (find (fun r => f (no_id_row r)) rows).
Proof. induction rows as [|r rows IH]; [reflexivity|]. cbn [map find]. destruct (f (no_id_row r)); [reflexivity | exact IH]. Qed.
Lemma cell_count_no rows : ensure_cell_count (map no_id_row rows) = ensure_cell_count rows.
Proof.
  destruct rows as [|r0 rows]; [reflexivity|]. unfold ensure_cell_count.
  assert (E : forall f, find f (map no_id_row (r0 :: rows)) = option_map no_id_row (find (fun r => f (no_id_row r)) (r0 :: rows))) by (intros; apply find_map_row).
  cbn [map] in *. rewrite E. cbn [no_id_row row_cells].
  destruct (find _ (r0 :: rows)) as [r|]; reflexivity.
Qed.
Lemma cell_count_ids a b : map no_id_row a = map no_id_row b -> ensure_cell_count a = ensure_cell_count b.
Proof. intros H. rewrite <- (cell_count_no a), H. apply cell_count_no. Qed.
Definition no_id_rres (r : result (list row)) : result (list row) := match r with Ok l => Ok (map no_id_row l) | Err e => Err e end.
Lemma table_rows_no r subs id : no_id_rres (fst (get_table_rows (mkNode r (no_id_subs subs)) 0)) = no_id_rres (fst (get_table_rows (mkNode r subs) id)).
Proof.
  unfold get_table_rows. rewrite gt_no. set (ts := get_tokens _ _).
  assert (E : map no_id_row (fst (rows_of_tokens ts 0)) = map no_id_row (fst (rows_of_tokens ts id))) by now rewrite !rows_tokens_0.
  destruct (rows_of_tokens ts 0) as [l1 i1], (rows_of_tokens ts id) as [l2 i2]. cbn [fst] in *. rewrite (cell_count_ids _ _ E).
  destruct (ensure_cell_count l2); cbn [rbind no_id_rres]; [now rewrite E | reflexivity].
Qed.

(** ** Idempotence *)
Lemma map_idem {A} (f : A -> A) l : (forall x, f (f x) = f x) -> map f (map f l) = map f l.
Proof. intros H. rewrite map_map. apply map_ext. exact H. Qed.
Lemma omap_idem {A} (f : A -> A) o : (forall x, f (f x) = f x) -> option_map f (option_map f o) = option_map f o.
Proof. intros H. destruct o; cbn; [now rewrite H | reflexivity]. Qed.
Lemma tag_idem x : no_id_tag (no_id_tag x) = no_id_tag x. Proof. reflexivity. Qed.
Lemma row_idem x : no_id_row (no_id_row x) = no_id_row x. Proof. reflexivity. Qed.
Lemma step_idem x : no_id_step (no_id_step x) = no_id_step x.
Proof. unfold no_id_step. cbn. f_equal. destruct (st_arg x); try reflexivity. cbn. now rewrite (map_idem _ _ row_idem). Qed.
Lemma bg_idem x : no_id_background (no_id_background x) = no_id_background x.
Proof. unfold no_id_background. cbn. now rewrite (map_idem _ _ step_idem). Qed.
Lemma ex_idem x : no_id_examples (no_id_examples x) = no_id_examples x.
Proof. unfold no_id_examples. cbn. now rewrite (map_idem _ _ tag_idem), (map_idem _ _ row_idem), (omap_idem _ _ row_idem). Qed.
Lemma sc_idem x : no_id_scenario (no_id_scenario x) = no_id_scenario x.
Proof. unfold no_id_scenario. cbn. now rewrite (map_idem _ _ tag_idem), (map_idem _ _ step_idem), (map_idem _ _ ex_idem). Qed.
Lemma ru_idem x : no_id_rule (no_id_rule x) = no_id_rule x.
Proof. unfold no_id_rule. cbn. now rewrite (map_idem _ _ tag_idem), (omap_idem _ _ bg_idem), (map_idem _ _ sc_idem). Qed.

Lemma item_idem : forall i, no_id_item (no_id_item i) = no_id_item i.
Proof.
  fix IH 1. destruct i; cbn [no_id_item]; try reflexivity.
  - f_equal. induction subs as [|[k i] subs IHs]; [reflexivity|]. cbn [map fst snd]. now rewrite IH, IHs.
  - now rewrite step_idem.
  - unfold no_id_table. cbn. now rewrite (map_idem _ _ row_idem).
  - now rewrite bg_idem.
  - now rewrite sc_idem.
  - now rewrite ex_idem.
  - now rewrite (map_idem _ _ row_idem).
  - now rewrite ru_idem.
  - unfold no_id_feature. cbn. now rewrite (map_idem _ _ tag_idem), (omap_idem _ _ bg_idem), (map_idem _ _ sc_idem), (map_idem _ _ ru_idem).
  - unfold no_ids. cbn. destruct (gd_feature x) as [f|]; [|reflexivity]. cbn. unfold no_id_feature. cbn.
    now rewrite (map_idem _ _ tag_idem), (omap_idem _ _ bg_idem), (map_idem _ _ sc_idem), (map_idem _ _ ru_idem).
Qed.
Lemma subs_idem subs : no_id_subs (no_id_subs subs) = no_id_subs subs.
Proof. unfold no_id_subs. rewrite map_map. apply map_ext. intros [k i]. unfold no_id_sub. cbn. now rewrite item_idem. Qed.

Theorem transform_no r subs id : r <> RGherkinDocument ->
  no_id_res (fst (transform_node (mkNode r (no_id_subs subs)) [] 0)) = no_id_res (fst (transform_node (mkNode r subs) [] id)).
Proof.
  intros Hr. unfold transform_node. cbn [n_rule n_subs]. destruct r; try contradiction;
    try (cbn [fst no_id_res]; rewrite !no_id_node, subs_idem; reflexivity).
  - (* Feature *)
    rewrite gnode_no. destruct (get_node (mkNode RFeature subs) RFeatureHeader) as [[hr hs]|]; [|reflexivity]. cbn [option_map n_rule n_subs].
    pose proof (get_tags_no hr hs id) as Et. destruct (get_tags (mkNode hr (no_id_subs hs)) 0) as [t1 i1], (get_tags (mkNode hr hs) id) as [t2 i2]. cbn [fst] in Et.
    rewrite gtok_no, gdesc_no, gbg_no, gsc_no, gru_no. destruct (get_token (mkNode hr hs) TkFeatureLine) as [line|e]; [|reflexivity].
    cbn [fst no_id_res no_id_item]. unfold no_id_feature. cbn. now rewrite Et, (omap_idem _ _ bg_idem), (map_idem _ _ sc_idem), (map_idem _ _ ru_idem).
  - (* Rule *)
    rewrite gnode_no. destruct (get_node (mkNode RRule subs) RRuleHeader) as [[hr hs]|]; [|reflexivity]. cbn [option_map n_rule n_subs].
    pose proof (get_tags_no hr hs id) as Et. destruct (get_tags (mkNode hr (no_id_subs hs)) 0) as [t1 i1], (get_tags (mkNode hr hs) id) as [t2 i2]. cbn [fst] in Et.
    rewrite gtok_no, gdesc_no, gbg_no, gsc_no. destruct (get_token (mkNode hr hs) TkRuleLine) as [line|e]; [|reflexivity].
    cbn [fst no_id_res no_id_item]. unfold no_id_rule. cbn. now rewrite Et, (omap_idem _ _ bg_idem), (map_idem _ _ sc_idem).
  - (* Background *)
    rewrite gtok_no, gdesc_no, gsteps_no. destruct (get_token (mkNode RBackground subs) TkBackgroundLine) as [line|e]; [|reflexivity].
    cbn [fst no_id_res no_id_item]. unfold no_id_background. cbn. now rewrite (map_idem _ _ step_idem).
  - (* ScenarioDefinition *)
    pose proof (get_tags_no RScenarioDefinition subs id) as Et. destruct (get_tags (mkNode RScenarioDefinition (no_id_subs subs)) 0) as [t1 i1], (get_tags (mkNode RScenarioDefinition subs) id) as [t2 i2]. cbn [fst] in Et.
    rewrite gnode_no. destruct (get_node (mkNode RScenarioDefinition subs) RScenario) as [[hr hs]|]; [|reflexivity]. cbn [option_map n_rule n_subs].
    rewrite gtok_no, gdesc_no, gsteps_no, gex_no. destruct (get_token (mkNode hr hs) TkScenarioLine) as [line|e]; [|reflexivity].
    cbn [fst no_id_res no_id_item]. unfold no_id_scenario. cbn. now rewrite Et, (map_idem _ _ step_idem), (map_idem _ _ ex_idem).
  - (* ExamplesDefinition *)
    pose proof (get_tags_no RExamplesDefinition subs id) as Et. destruct (get_tags (mkNode RExamplesDefinition (no_id_subs subs)) 0) as [t1 i1], (get_tags (mkNode RExamplesDefinition subs) id) as [t2 i2]. cbn [fst] in Et.
    rewrite gnode_no. destruct (get_node (mkNode RExamplesDefinition subs) RExamples) as [[hr hs]|]; [|reflexivity]. cbn [option_map n_rule n_subs].
    rewrite gtok_no, gdesc_no, gs_no. destruct (get_token (mkNode hr hs) TkExamplesLine) as [line|e]; [|reflexivity].
    cbn [fst no_id_res no_id_item]. unfold no_id_examples. cbn. rewrite Et.
    destruct (get_single (mkNode hr hs) (KRule RExamplesTable)) as [[]|]; try reflexivity. cbn. destruct x; [reflexivity|]. cbn. now rewrite (map_idem _ _ row_idem).
  - (* ExamplesTable *)
    pose proof (table_rows_no RExamplesTable subs id) as E.
    destruct (get_table_rows (mkNode RExamplesTable (no_id_subs subs)) 0) as [[x1|x1] i1], (get_table_rows (mkNode RExamplesTable subs) id) as [[x2|x2] i2];
      cbn [fst no_id_rres] in E; inversion E as [E1]; cbn [fst no_id_res no_id_item]; rewrite ?E1; reflexivity.
  - (* Step *)
    rewrite gtok_no. destruct (get_token (mkNode RStep subs) TkStepLine) as [line|e]; [|reflexivity].
    cbn [fst no_id_res no_id_item]. unfold no_id_step. cbn. rewrite !gs_no.
    destruct (get_single (mkNode RStep subs) (KRule RDataTable)) as [[]|]; destruct (get_single (mkNode RStep subs) (KRule RDocString)) as [[]|];
      try reflexivity; cbn; now rewrite (map_idem _ _ row_idem).
  - (* DataTable *)
    pose proof (table_rows_no RDataTable subs id) as E.
    destruct (get_table_rows (mkNode RDataTable (no_id_subs subs)) 0) as [[x1|x1] i1], (get_table_rows (mkNode RDataTable subs) id) as [[x2|x2] i2];
      cbn [fst no_id_rres] in E; inversion E as [E1]; [|cbn [fst no_id_res]; reflexivity].
    destruct x1 as [|a x1], x2 as [|b x2]; try discriminate E1; [reflexivity|]. cbn [fst no_id_res no_id_item]. unfold no_id_table. cbn [dt_rows dt_loc].
    rewrite E1. injection E1 as E2 E3 E4. now rewrite E2.
  - (* DocString *)
    rewrite !gt_no. destruct (get_tokens (mkNode RDocString subs) TkDocStringSeparator) as [|sep l]; [reflexivity|]. destruct (t_text sep); reflexivity.
  - (* Description *)
    rewrite !gt_no. destruct (last_non_empty _); reflexivity.
Qed.

(** ** Evaluation without ids *)
Definition ans0 := (list (key * item) * list perr)%type.
Definition finish0 (r : rule) (x : ans0) : ans0 :=
  let '(subs, es) := x in
  match no_id_res (fst (transform_node (mkNode r subs) [] 0)) with
  | Ok i => ([(KRule r, i)], es)
  | Err (EParser e) => ([], es ++ [e])
  | Err _ => ([], es)
  end.
Definition evals0_ (f : ltree -> ans0) : list ltree -> ans0 :=
  fix go l :=
    match l with
    | [] => ([], [])
    | t :: l' => let '(s1, e1) := f t in let '(s2, e2) := go l' in (s1 ++ s2, e1 ++ e2)
    end.
Fixpoint eval0 (t : ltree) {struct t} : ans0 :=
  match t with
  | Leaf a => (if tok_eqb (lkind a) TkComment then [] else [(KTok (lkind a), ITok (lf_t a))], [])
  | Node r l => finish0 r (evals0_ eval0 l)
  end.
Definition evals0 : list ltree -> ans0 := evals0_ eval0.
Lemma eval0_node r l : eval0 (Node r l) = finish0 r (evals0 l).
Proof. reflexivity. Qed.
Lemma evals0_cons t l : evals0 (t :: l) = let '(s1, e1) := eval0 t in let '(s2, e2) := evals0 l in (s1 ++ s2, e1 ++ e2).
Proof. reflexivity. Qed.
Lemma evals0_app l1 l2 : evals0 (l1 ++ l2) = let '(s1, e1) := evals0 l1 in let '(s2, e2) := evals0 l2 in (s1 ++ s2, e1 ++ e2).
Proof.
  induction l1 as [|t l1 IH].
  - cbn. destruct (evals0 l2) as [? ?]. reflexivity.
  - cbn [app]. rewrite !evals0_cons. destruct (eval0 t) as [s1 e1]. rewrite IH.
    destruct (evals0 l1) as [s2 e2]. destruct (evals0 l2) as [s3 e3]. now rewrite !app_assoc.
Qed.
Fixpoint no_doc (t : ltree) : Prop :=
  match t with Leaf _ => True | Node r l => r <> RGherkinDocument /\
    (fix go (l : list ltree) : Prop := match l with [] => True | t :: l' => no_doc t /\ go l' end) l end.
Lemma no_doc_node r l : no_doc (Node r l) <-> r <> RGherkinDocument /\ Forall no_doc l.
Proof.
  cbn [no_doc]. split; intros [H1 H2]; (split; [exact H1|]).
  - induction l as [|t l IH]; [constructor|]. destruct H2 as [H2 H3]. constructor; [exact H2 | now apply IH].
  - induction H2; split; assumption.
Qed.

Lemma no_id_subs_app a b : no_id_subs (a ++ b) = no_id_subs a ++ no_id_subs b.
Proof. apply map_app. Qed.
Lemma evals_no_of l : Forall (fun t => forall id subs es id', eval t id = (subs, es, id') -> eval0 t = (no_id_subs subs, es)) l ->
  forall id subs es id', evals l id = (subs, es, id') -> evals0 l = (no_id_subs subs, es).
Proof.
  induction 1 as [|t l Ht Hl IH]; intros id subs es id' E.
  - rewrite evals_nil in E. now injection E as <- <- <-.
  - rewrite evals_cons in E. destruct (eval t id) as [[s1 e1] id1] eqn:E1. destruct (evals l id1) as [[s2 e2] id2] eqn:E2.
    injection E as <- <- <-. rewrite evals0_cons, (Ht _ _ _ _ E1), (IH _ _ _ _ E2). now rewrite no_id_subs_app.
Qed.
Theorem eval_no t : no_doc t -> forall id subs es id', eval t id = (subs, es, id') -> eval0 t = (no_id_subs subs, es).
Proof.
  induction t as [a|r l IH] using tree_ind'; intros Hn id subs es id' E.
  - cbn [eval] in E. cbn [eval0]. injection E as <- <- <-. now destruct (tok_eqb (lkind a) TkComment).
  - apply no_doc_node in Hn as [Hr Hl]. rewrite eval_node in E. destruct (evals l id) as [[s1 e1] id1] eqn:E1.
    assert (E0 : evals0 l = (no_id_subs s1, e1)).
    { eapply evals_no_of; [|exact E1]. rewrite Forall_forall in *. intros t Ht. apply IH; [exact Ht | now apply Hl]. }
    rewrite eval0_node, E0. unfold finish in E. unfold finish0. rewrite (transform_no _ _ id1 Hr).
    destruct (transform_node (mkNode r s1) [] id1) as [[i|e] id2]; cbn [fst no_id_res].
    + injection E as <- <- <-. reflexivity.
    + destruct e; injection E as <- <- <-; reflexivity.
Qed.
Theorem evals_no l : Forall no_doc l -> forall id subs es id', evals l id = (subs, es, id') -> evals0 l = (no_id_subs subs, es).
Proof.
  intros H. apply evals_no_of. induction H as [|t l Ht _ IH]; constructor; [|exact IH]. now apply eval_no.
Qed.
