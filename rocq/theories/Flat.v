(** * The builder on tokens without columns (for C68) *)
From Verif Require Import PyStr PyStrFacts Types Regex Line DialectData Matcher Ast ParserTable Parser LineSpec TransSpec.

Section Flat.
Context (d : dialect).

Definition flat_tok (t : token) : token :=
  mkTok (mkLine [] 0) (t_loc_line t) None (t_mtype t)
    (match t_mtype t, t_text t with Some TkDocStringSeparator, None => Some [] | Some TkComment, _ => None | _, x => x end)
    (map (fun i => mkItem 0 (i_text i)) (t_items t))
    (match t_mtype t with Some TkTableRow => None | _ => t_keyword t end)
    (match t_mtype t with Some TkStepLine => plain_type d (t_keyword t) (t_ktype t) | _ => None end)
    0%Z (t_dialect t).
Fixpoint flat_item (i : item) : item :=
  match i with
  | ITok t => ITok (flat_tok t)
  | INode r subs => INode r (map (fun p => (fst p, flat_item (snd p))) subs)
  | IStep x => IStep (plain_step d x)
  | IDoc x => IDoc (plain_doc x)
  | ITable x => ITable (plain_table x)
  | IBackground x => IBackground (plain_background d x)
  | IScenario x => IScenario (plain_scenario d x)
  | IExamples x => IExamples (plain_examples x)
  | IRows x => IRows (map plain_row x)
  | IRule x => IRule (plain_rule d x)
  | IFeature x => IFeature (plain_feature d x)
  | IGdoc x => IGdoc (plain_document d x)
  | i => i
  end.
Definition flat_sub (p : key * item) : key * item := (fst p, flat_item (snd p)).
Definition flat_subs : list (key * item) -> list (key * item) := map flat_sub.
Definition flat_node (n : node) : node := mkNode (n_rule n) (flat_subs (n_subs n)).
(** a node in which a token filed under a kind is of this kind *)
Definition filed (p : key * item) : Prop := forall t, snd p = ITok t -> match fst p with KTok k => t_mtype t = Some k | KNone => t_mtype t = None | KRule _ => False end.
Fixpoint filed_item (i : item) : Prop := match i with INode _ subs => fold_right (fun p a => filed p /\ filed_item (snd p) /\ a) True subs | _ => True end.
Definition filed_subs (subs : list (key * item)) : Prop := Forall (fun p => filed p /\ filed_item (snd p)) subs.
Lemma filed_node r subs : filed_item (INode r subs) <-> filed_subs subs.
Proof.
  unfold filed_subs. cbn [filed_item]. induction subs as [|p subs IH]; [split; [constructor | easy]|]. cbn [fold_right]. split.
  - intros [H1 [H2 H3]]. constructor; [auto | now apply IH].
  - inversion 1; subst. intuition.
Qed.

Lemma flat_items n k : get_items (flat_node n) k = map flat_item (get_items n k).
Proof.
  unfold get_items, flat_node. cbn [n_subs]. induction (n_subs n) as [|[k0 i] subs IH]; [reflexivity|]. cbn [flat_subs map flat_sub fst snd filter].
  destruct (key_eqb k0 k); cbn [map snd]; [f_equal|]; exact IH.
Qed.
Lemma flat_single n k : get_single (flat_node n) k = option_map flat_item (get_single n k).
Proof. unfold get_single. rewrite flat_items. destruct (get_items n k); reflexivity. Qed.
Lemma flat_tokens n k : get_tokens (flat_node n) k = map flat_tok (get_tokens n k).
Proof. unfold get_tokens. rewrite flat_items. induction (get_items n (KTok k)) as [|i l IH]; [reflexivity|]. cbn [map flat_map]. rewrite IH. now destruct i. Qed.
Definition flat_res (r : result token) : result token := match r with Ok t => Ok (flat_tok t) | Err e => Err e end.
Lemma flat_token n k : get_token (flat_node n) k = flat_res (get_token n k).
Proof. unfold get_token. rewrite flat_single. destruct (get_single n (KTok k)) as [[]|]; reflexivity. Qed.
Lemma flat_description n : get_description (flat_node n) = get_description n.
Proof. unfold get_description. rewrite flat_single. destruct (get_single n (KRule RDescription)) as [[]|]; reflexivity. Qed.
Lemma flat_steps n : get_steps (flat_node n) = map (plain_step d) (get_steps n).
Proof. unfold get_steps. rewrite flat_items. induction (get_items n (KRule RStep)) as [|i l IH]; [reflexivity|]. cbn [map flat_map]. rewrite IH. now destruct i. Qed.
Lemma flat_examples n : get_examples (flat_node n) = map plain_examples (get_examples n).
Proof. unfold get_examples. rewrite flat_items. induction (get_items n (KRule RExamplesDefinition)) as [|i l IH]; [reflexivity|]. cbn [map flat_map]. rewrite IH. now destruct i. Qed.
Lemma flat_scenarios n : get_scenarios (flat_node n) = map (plain_scenario d) (get_scenarios n).
Proof. unfold get_scenarios. rewrite flat_items. induction (get_items n (KRule RScenarioDefinition)) as [|i l IH]; [reflexivity|]. cbn [map flat_map]. rewrite IH. now destruct i. Qed.
Lemma flat_rules n : get_rules (flat_node n) = map (plain_rule d) (get_rules n).
Proof. unfold get_rules. rewrite flat_items. induction (get_items n (KRule RRule)) as [|i l IH]; [reflexivity|]. cbn [map flat_map]. rewrite IH. now destruct i. Qed.
Lemma flat_background n : get_background (flat_node n) = option_map (plain_background d) (get_background n).
Proof. unfold get_background. rewrite flat_single. destruct (get_single n (KRule RBackground)) as [[]|]; reflexivity. Qed.
Lemma flat_getnode n k : get_node (flat_node n) k = option_map flat_node (get_node n k).
Proof. unfold get_node. rewrite flat_single. destruct (get_single n (KRule k)) as [[]|]; reflexivity. Qed.

Lemma flat_location t c : line_only (get_location t c) = get_location (flat_tok t) 0.
Proof. destruct c; reflexivity. Qed.
Lemma flat_tags_items t items : forall id, tags_of_items (flat_tok t) (map (fun i => mkItem 0 (i_text i)) items) id = (map plain_tag (fst (tags_of_items t items id)), snd (tags_of_items t items id)).
Proof.
  induction items as [|i items IH]; intros id; [reflexivity|]. cbn [map tags_of_items]. rewrite IH. destruct (tags_of_items t items (S id)) as [l id']. cbn [fst snd map]. unfold plain_tag at 2. cbn [tag_id tag_loc tag_name i_column i_text]. now rewrite flat_location.
Qed.
Lemma flat_tags_tokens ts : forall id, tags_of_tokens (map flat_tok ts) id = (map plain_tag (fst (tags_of_tokens ts id)), snd (tags_of_tokens ts id)).
Proof.
  induction ts as [|t ts IH]; intros id; [reflexivity|]. cbn [map tags_of_tokens]. change (t_items (flat_tok t)) with (map (fun i => mkItem 0 (i_text i)) (t_items t)). rewrite flat_tags_items.
  destruct (tags_of_items t (t_items t) id) as [l1 id1]. cbn [fst snd]. rewrite IH. destruct (tags_of_tokens ts id1) as [l2 id2]. cbn [fst snd]. now rewrite map_app.
Qed.
Lemma flat_tags n id : get_tags (flat_node n) id = (map plain_tag (fst (get_tags n id)), snd (get_tags n id)).
Proof.
  unfold get_tags. rewrite flat_single. destruct (get_single n (KRule RTags)) as [[]|]; try reflexivity. cbn [option_map flat_item].
  change (mkNode r (map (fun p : key * item => (fst p, flat_item (snd p))) subs)) with (flat_node (mkNode r subs)). rewrite flat_tokens. apply flat_tags_tokens.
Qed.
Lemma flat_cells t : get_cells (flat_tok t) = map plain_cell (get_cells t).
Proof. unfold get_cells. cbn [t_items flat_tok]. rewrite !map_map. apply map_ext. intros i. unfold plain_cell. cbn [cell_loc cell_value i_column i_text]. now rewrite flat_location. Qed.
Lemma flat_rows ts : forall id, rows_of_tokens (map flat_tok ts) id = (map plain_row (fst (rows_of_tokens ts id)), snd (rows_of_tokens ts id)).
Proof.
  induction ts as [|t ts IH]; intros id; [reflexivity|]. cbn [map rows_of_tokens]. rewrite IH. destruct (rows_of_tokens ts (S id)) as [l id']. cbn [fst snd map]. unfold plain_row at 2. cbn [row_id row_loc row_cells]. now rewrite flat_cells.
Qed.
(** errors compare by whether there is one *)
Lemma flat_count rows : match ensure_cell_count rows, ensure_cell_count (map plain_row rows) with Ok _, Ok _ => True | Err _, Err _ => True | _, _ => False end.
Proof.
  destruct rows as [|r0 rows]; [exact I|]. unfold ensure_cell_count.
  assert (E : forall (f : row -> bool) l, (forall r, f (plain_row r) = f r) -> find f (map plain_row l) = option_map plain_row (find f l)).
  { intros f l H. induction l as [|r l IH]; [reflexivity|]. cbn [map find]. rewrite H. destruct (f r); [reflexivity | exact IH]. }
  cbn [map]. change (plain_row r0 :: map plain_row rows) with (map plain_row (r0 :: rows)).
  assert (L : length (row_cells (plain_row r0)) = length (row_cells r0)) by (cbn; apply map_length). rewrite L. clear L.
  rewrite E by (intros r; cbn; now rewrite map_length). destruct (find _ (r0 :: rows)); exact I.
Qed.
Lemma flat_table n id : snd (get_table_rows (flat_node n) id) = snd (get_table_rows n id) /\
  match fst (get_table_rows n id), fst (get_table_rows (flat_node n) id) with Ok a, Ok b => b = map plain_row a | Err _, Err _ => True | _, _ => False end.
Proof.
  unfold get_table_rows. rewrite flat_tokens, flat_rows. destruct (rows_of_tokens (get_tokens n TkTableRow) id) as [rows id']. cbn [fst snd]. split; [reflexivity|].
  pose proof (flat_count rows) as C. destruct (ensure_cell_count rows), (ensure_cell_count (map plain_row rows)); try contradiction; cbn [rbind]; auto.
Qed.

Lemma filed_get n k t : filed_subs (n_subs n) -> In t (get_tokens n k) -> t_mtype t = Some k.
Proof.
  unfold get_tokens, get_items. intros F H. apply in_flat_map in H as [i [H1 H2]]. apply in_map_iff in H1 as [[k0 i0] [<- H1]]. apply filter_In in H1 as [H1 H3]. cbn [fst snd] in *.
  unfold filed_subs in F. rewrite Forall_forall in F. destruct i0 as [t0| | | | | | | | | | | | |]; try contradiction. destruct H2 as [->|[]]. destruct (F _ H1) as [F1 _]. specialize (F1 t eq_refl). cbn in F1.
  destruct k0 as [k0|r|]; try discriminate H3; cbn in H3. destruct k0, k; try discriminate H3; exact F1.
Qed.
Lemma filed_token n k t : filed_subs (n_subs n) -> get_token n k = Ok t -> t_mtype t = Some k.
Proof.
  intros F H. apply (filed_get n k t F). unfold get_token in H. unfold get_tokens. unfold get_single in H. destruct (get_items n (KTok k)) as [|i l]; [discriminate|]. cbn in H. destruct i; try discriminate. injection H as ->. now left.
Qed.
Lemma filed_getnode n r m : filed_subs (n_subs n) -> get_node n r = Some m -> filed_subs (n_subs m).
Proof.
  unfold get_node, get_single, get_items. intros F H. destruct (map snd (filter _ (n_subs n))) as [|i l] eqn:E; [discriminate|]. cbn in H. destruct i as [|r' subs| | | | | | | | | | | |]; try discriminate. injection H as <-. cbn [n_subs].
  assert (In (INode r' subs) (map snd (filter (fun p => key_eqb (fst p) (KRule r)) (n_subs n)))) by (rewrite E; now left).
  apply in_map_iff in H as [[k0 i0] [E1 H]]. cbn in E1. subst i0. apply filter_In in H as [H _]. unfold filed_subs in F. rewrite Forall_forall in F. destruct (F _ H) as [_ F2]. now apply (filed_node r') in F2.
Qed.

Lemma text_flat t : t_mtype t = Some TkOther -> text_of (flat_tok t) = text_of t.
Proof. intros H. unfold text_of, flat_tok. cbn. rewrite H. reflexivity. Qed.
Lemma last_flat l : Forall (fun t => t_mtype t = Some TkOther) l -> last_non_empty (map flat_tok l) = last_non_empty l.
Proof.
  induction 1 as [|t l Ht H IH]; [reflexivity|]. cbn [map last_non_empty]. rewrite IH. destruct (last_non_empty l); [reflexivity|].
  unfold flat_tok. cbn. rewrite Ht. reflexivity.
Qed.

(** the transformation commutes with the projection, except that the projection may hide a missing text *)
Definition agree (x y : result item) : Prop :=
  match x, y with
  | Ok i, Ok j => j = flat_item i
  | Err ETypeError, _ => True
  | Err _, Err _ => True
  | _, _ => False
  end.
Lemma agree_err e e' : agree (Err e) (Err e').
Proof. destruct e; exact I. Qed.
Theorem transform_flat n comments id : filed_subs (n_subs n) ->
  agree (fst (transform_node n comments id)) (fst (transform_node (flat_node n) (map plain_comment comments) id)) /\
  (fst (transform_node n comments id) <> Err ETypeError -> snd (transform_node (flat_node n) (map plain_comment comments) id) = snd (transform_node n comments id)).
Proof.
  intros F. unfold transform_node. change (n_rule (flat_node n)) with (n_rule n). destruct (n_rule n);
    try (cbn [fst snd agree]; split; [reflexivity | intros _; reflexivity]).
  - (* GherkinDocument *) cbn [fst snd agree]. split; [|intros _; reflexivity]. rewrite flat_single. cbn [flat_item]. unfold plain_document. cbn [gd_feature gd_comments]. do 2 f_equal. destruct (get_single n (KRule RFeature)) as [[]|]; reflexivity.
  - (* Feature *)
    rewrite flat_getnode. destruct (get_node n RFeatureHeader) as [h|] eqn:G; cbn [option_map]; [|split; [reflexivity | intros _; reflexivity]].
    pose proof (filed_getnode _ _ _ F G) as Fh. rewrite flat_tags. destruct (get_tags h id) as [tags id1]. cbn [fst snd]. rewrite flat_token.
    destruct (get_token h TkFeatureLine) as [line|e] eqn:T; cbn [flat_res fst snd agree]; [|split; [reflexivity | intros _; reflexivity]]. split; [|intros _; reflexivity].
    rewrite flat_description, flat_background, flat_scenarios, flat_rules. cbn [flat_item]. unfold plain_feature. cbn. rewrite (filed_token _ _ _ Fh T). reflexivity.
  - (* Rule *)
    rewrite flat_getnode. destruct (get_node n RRuleHeader) as [h|] eqn:G; cbn [option_map]; [|split; [reflexivity | intros _; reflexivity]].
    pose proof (filed_getnode _ _ _ F G) as Fh. rewrite flat_tags. destruct (get_tags h id) as [tags id1]. cbn [fst snd]. rewrite flat_token.
    destruct (get_token h TkRuleLine) as [line|e] eqn:T; cbn [flat_res fst snd agree]; [|split; [reflexivity | intros _; reflexivity]]. split; [|intros _; reflexivity].
    rewrite flat_description, flat_background, flat_scenarios. cbn [flat_item]. unfold plain_rule. cbn. rewrite (filed_token _ _ _ Fh T). reflexivity.
  - (* Background *)
    rewrite flat_token. destruct (get_token n TkBackgroundLine) as [line|e] eqn:T; cbn [flat_res fst snd]; [|split; [apply agree_err | intros _; reflexivity]]. split; [|intros _; reflexivity].
    rewrite flat_description, flat_steps. cbn [agree flat_item]. unfold plain_background. cbn. rewrite (filed_token _ _ _ F T). reflexivity.
  - (* ScenarioDefinition *)
    rewrite flat_tags, flat_getnode. destruct (get_tags n id) as [tags id1]. cbn [fst snd]. destruct (get_node n RScenario) as [sn|] eqn:G; cbn [option_map]; [|split; [apply agree_err | intros _; reflexivity]].
    pose proof (filed_getnode _ _ _ F G) as Fh. rewrite flat_token.
    destruct (get_token sn TkScenarioLine) as [line|e] eqn:T; cbn [flat_res fst snd]; [|split; [apply agree_err | intros _; reflexivity]]. split; [|intros _; reflexivity].
    rewrite flat_description, flat_steps, flat_examples. cbn [agree flat_item]. unfold plain_scenario. cbn. rewrite (filed_token _ _ _ Fh T). reflexivity.
  - (* ExamplesDefinition *)
    rewrite flat_tags, flat_getnode. destruct (get_tags n id) as [tags id1]. cbn [fst snd]. destruct (get_node n RExamples) as [en|] eqn:G; cbn [option_map]; [|split; [apply agree_err | intros _; reflexivity]].
    pose proof (filed_getnode _ _ _ F G) as Fh. rewrite flat_token.
    destruct (get_token en TkExamplesLine) as [line|e] eqn:T; cbn [flat_res fst snd]; [|split; [apply agree_err | intros _; reflexivity]]. split; [|intros _; reflexivity].
    rewrite flat_description, flat_single. cbn [agree flat_item]. unfold plain_examples. cbn. rewrite (filed_token _ _ _ Fh T).
    destruct (get_single en (KRule RExamplesTable)) as [[]|]; try reflexivity. cbn. destruct x; reflexivity.
  - (* ExamplesTable *)
    destruct (flat_table n id) as [E1 E2]. destruct (get_table_rows n id) as [[a|e] i1], (get_table_rows (flat_node n) id) as [[b|e'] i2]; cbn [fst snd] in *; subst; try contradiction.
    + split; [reflexivity | intros _; reflexivity].
    + split; [apply agree_err | intros _; reflexivity].
  - (* Step *)
    rewrite flat_token. destruct (get_token n TkStepLine) as [line|e] eqn:T; cbn [flat_res fst snd]; [|split; [apply agree_err | intros _; reflexivity]]. split; [|intros _; reflexivity].
    rewrite !flat_single. cbn [agree flat_item]. unfold plain_step. cbn. rewrite (filed_token _ _ _ F T).
    destruct (get_single n (KRule RDataTable)) as [[]|]; destruct (get_single n (KRule RDocString)) as [[]|]; reflexivity.
  - (* DataTable *)
    destruct (flat_table n id) as [E1 E2]. destruct (get_table_rows n id) as [[a|e] i1], (get_table_rows (flat_node n) id) as [[b|e'] i2]; cbn [fst snd] in *; subst; try contradiction.
    + destruct a as [|r0 a]; cbn [map fst snd]; [split; [apply agree_err | intros _; reflexivity]|]. split; [reflexivity | intros _; reflexivity].
    + split; [apply agree_err | intros _; reflexivity].
  - (* DocString *)
    rewrite !flat_tokens. destruct (get_tokens n TkDocStringSeparator) as [|sep l] eqn:T; cbn [map fst snd]; [split; [apply agree_err | intros _; reflexivity]|].
    assert (Ks : t_mtype sep = Some TkDocStringSeparator) by (apply (filed_get n); [exact F | rewrite T; now left]).
    assert (Hs : t_text (flat_tok sep) = match t_text sep with None => Some [] | x => x end) by (unfold flat_tok; cbn; now rewrite Ks; destruct (t_text sep)).
    rewrite Hs. destruct (t_text sep) as [media|]; cbn [fst snd]; [|split; [exact I | now intros H; exfalso; apply H]]. split; [|intros _; reflexivity].
    cbn [agree flat_item]. unfold plain_doc. cbn [ds_loc ds_content ds_delimiter ds_media]. do 2 f_equal.
    + f_equal. rewrite map_map. apply map_ext_in. intros t Ht. apply text_flat. now apply (filed_get n).
    + unfold flat_tok. cbn. now rewrite Ks.
  - (* Description *)
    rewrite !flat_tokens. assert (Fo : Forall (fun t => t_mtype t = Some TkOther) (get_tokens n TkOther)) by (apply Forall_forall; intros t; now apply filed_get).
    rewrite (last_flat _ Fo). destruct (last_non_empty _) as [k|]; cbn [fst snd]; [|split; [apply agree_err | intros _; reflexivity]]. split; [|intros _; reflexivity].
    cbn [agree flat_item]. do 2 f_equal. rewrite <- firstn_map, map_map. rewrite <- !firstn_map. f_equal. apply map_ext_in. intros t Ht. apply text_flat. rewrite Forall_forall in Fo. auto.
Qed.
End Flat.
