(** * Identifiers: shifting and uniqueness *)
From Verif Require Import PyStr PyStrFacts Types Regex Line DialectData Matcher Ast ParserTable Parser Classify Table Scan Grammar Cst Report Eval IdSpec Rel.

(** ** Shifting commutes with the builder *)
Section Shift.
Context (k : nat).
Fixpoint sh_item (i : item) : item :=
  match i with
  | INode r subs => INode r ((fix go l := match l with [] => [] | (q, i) :: l' => (q, sh_item i) :: go l' end) subs)
  | IStep x => IStep (sh_step k x)
  | ITable x => ITable (sh_table k x)
  | IBackground x => IBackground (sh_background k x)
  | IScenario x => IScenario (sh_scenario k x)
  | IExamples x => IExamples (sh_examples k x)
  | IRows x => IRows (map (sh_row k) x)
  | IRule x => IRule (sh_rule k x)
  | IFeature x => IFeature (sh_feature k x)
  | IGdoc x => IGdoc (sh_doc k x)
  | _ => i
  end.
Definition sh_sub (p : key * item) := (fst p, sh_item (snd p)).
Definition sh_subs := map sh_sub.
Lemma sh_node r subs : sh_item (INode r subs) = INode r (sh_subs subs).
Proof. cbn. f_equal. unfold sh_subs. induction subs as [|[q i] l IH]; [reflexivity|]. cbn. f_equal. exact IH. Qed.
Definition sh_n (n : node) := mkNode (n_rule n) (sh_subs (n_subs n)).

Lemma sh_items n q : get_items (sh_n n) q = map sh_item (get_items n q).
Proof.
  unfold get_items, sh_n. cbn. induction (n_subs n) as [|[q' i] l IH]; [reflexivity|]. cbn.
  destruct (key_eqb q' q); cbn; [f_equal|]; exact IH.
Qed.
Lemma sh_single n q : get_single (sh_n n) q = option_map sh_item (get_single n q).
Proof. unfold get_single. rewrite sh_items. now destruct (get_items n q). Qed.
Lemma sh_tokens n t : get_tokens (sh_n n) t = get_tokens n t.
Proof.
  unfold get_tokens. rewrite sh_items. induction (get_items n (KTok t)) as [|i l IH]; [reflexivity|]. cbn. rewrite IH. now destruct i.
Qed.
Lemma sh_token n t : get_token (sh_n n) t = get_token n t.
Proof. unfold get_token. rewrite sh_single. destruct (get_single n (KTok t)) as [[]|]; reflexivity. Qed.
Lemma sh_tags_items t items : forall id, tags_of_items t items (id + k) =
  (map (sh_tag k) (fst (tags_of_items t items id)), snd (tags_of_items t items id) + k).
Proof.
  induction items as [|i items IH]; intros id; [reflexivity|]. cbn [tags_of_items]. change (S (id + k)) with (S id + k). rewrite IH.
  destruct (tags_of_items t items (S id)). reflexivity.
Qed.
Lemma sh_tags_tokens ts : forall id, tags_of_tokens ts (id + k) =
  (map (sh_tag k) (fst (tags_of_tokens ts id)), snd (tags_of_tokens ts id) + k).
Proof.
  induction ts as [|t ts IH]; intros id; [reflexivity|]. cbn [tags_of_tokens]. rewrite sh_tags_items.
  destruct (tags_of_items t (t_items t) id) as [l1 id1]. cbn [fst snd]. rewrite IH. destruct (tags_of_tokens ts id1). cbn. now rewrite map_app.
Qed.
Lemma sh_get_tags n id : get_tags (sh_n n) (id + k) = (map (sh_tag k) (fst (get_tags n id)), snd (get_tags n id) + k).
Proof.
  unfold get_tags. rewrite sh_single. destruct (get_single n (KRule RTags)) as [[]|]; try reflexivity.
  cbn [option_map]. rewrite sh_node. change (mkNode r (sh_subs subs)) with (sh_n (mkNode r subs)). rewrite sh_tokens. apply sh_tags_tokens.
Qed.
Lemma sh_rows ts : forall id, rows_of_tokens ts (id + k) = (map (sh_row k) (fst (rows_of_tokens ts id)), snd (rows_of_tokens ts id) + k).
Proof.
  induction ts as [|t ts IH]; intros id; [reflexivity|]. cbn [rows_of_tokens]. change (S (id + k)) with (S id + k). rewrite IH.
  destruct (rows_of_tokens ts (S id)). reflexivity.
Qed.
Lemma sh_ensure l : ensure_cell_count (map (sh_row k) l) = ensure_cell_count l.
Proof.
  destruct l as [|r0 l]; [reflexivity|]. unfold ensure_cell_count. change (map (sh_row k) (r0 :: l)) with (sh_row k r0 :: map (sh_row k) l).
  cbn iota. change (row_cells (sh_row k r0)) with (row_cells r0). change (sh_row k r0 :: map (sh_row k) l) with (map (sh_row k) (r0 :: l)).
  generalize (r0 :: l) as m. intros m.
  assert (F : find (fun r => negb (Nat.eqb (length (row_cells r)) (length (row_cells r0)))) (map (sh_row k) m) =
    option_map (sh_row k) (find (fun r => negb (Nat.eqb (length (row_cells r)) (length (row_cells r0)))) m)).
  { induction m as [|x m IH]; [reflexivity|]. cbn [map find]. change (row_cells (sh_row k x)) with (row_cells x). destruct (negb _); [reflexivity | exact IH]. }
  rewrite F. destruct (find _ m); reflexivity.
Qed.
Lemma sh_get_rows n id : get_table_rows (sh_n n) (id + k) =
  (match fst (get_table_rows n id) with Ok l => Ok (map (sh_row k) l) | Err e => Err e end, snd (get_table_rows n id) + k).
Proof.
  unfold get_table_rows. rewrite sh_tokens, sh_rows. destruct (rows_of_tokens (get_tokens n TkTableRow) id) as [l id']. cbn [fst snd].
  rewrite sh_ensure. destruct (ensure_cell_count l); reflexivity.
Qed.
Lemma sh_desc n : get_description (sh_n n) = get_description n.
Proof. unfold get_description. rewrite sh_single. destruct (get_single n (KRule RDescription)) as [[]|]; reflexivity. Qed.
Lemma sh_flat {A} (f : item -> list A) (g : A -> A) l : (forall i, f (sh_item i) = map g (f i)) ->
  flat_map f (map sh_item l) = map g (flat_map f l).
Proof. intros H. induction l as [|i l IH]; [reflexivity|]. cbn. now rewrite H, IH, map_app. Qed.
Lemma sh_steps n : get_steps (sh_n n) = map (sh_step k) (get_steps n).
Proof. unfold get_steps. rewrite sh_items. apply sh_flat. now intros []. Qed.
Lemma sh_get_examples n : get_examples (sh_n n) = map (sh_examples k) (get_examples n).
Proof. unfold get_examples. rewrite sh_items. apply sh_flat. now intros []. Qed.
Lemma sh_scenarios n : get_scenarios (sh_n n) = map (sh_scenario k) (get_scenarios n).
Proof. unfold get_scenarios. rewrite sh_items. apply sh_flat. now intros []. Qed.
Lemma sh_rules n : get_rules (sh_n n) = map (sh_rule k) (get_rules n).
Proof. unfold get_rules. rewrite sh_items. apply sh_flat. now intros []. Qed.
Lemma sh_get_background n : get_background (sh_n n) = option_map (sh_background k) (get_background n).
Proof. unfold get_background. rewrite sh_single. destruct (get_single n (KRule RBackground)) as [[]|]; reflexivity. Qed.
Lemma sh_get_node n r : get_node (sh_n n) r = option_map sh_n (get_node n r).
Proof. unfold get_node. rewrite sh_single. destruct (get_single n (KRule r)) as [[]|]; try reflexivity. cbn [option_map]. now rewrite sh_node. Qed.

Lemma sh_transform n cm id : transform_node (sh_n n) cm (id + k) =
  (match fst (transform_node n cm id) with Ok i => Ok (sh_item i) | Err e => Err e end, snd (transform_node n cm id) + k).
Proof.
  unfold transform_node. cbn [n_rule sh_n]. destruct (n_rule n); try (fold (sh_n n); cbn [fst snd]; rewrite ?sh_node; reflexivity).
  all: fold (sh_n n).
  - rewrite sh_single. destruct (get_single n (KRule RFeature)) as [[]|]; reflexivity.
  - rewrite sh_get_node. destruct (get_node n RFeatureHeader) as [h|]; [|reflexivity]. cbn [option_map]. rewrite sh_get_tags.
    destruct (get_tags h id) as [tags id1]. cbn [fst snd]. rewrite sh_token. destruct (get_token h TkFeatureLine); [|reflexivity]. cbn [fst snd].
    rewrite sh_desc, sh_get_background, sh_scenarios, sh_rules. reflexivity.
  - rewrite sh_get_node. destruct (get_node n RRuleHeader) as [h|]; [|reflexivity]. cbn [option_map]. rewrite sh_get_tags.
    destruct (get_tags h id) as [tags id1]. cbn [fst snd]. rewrite sh_token. destruct (get_token h TkRuleLine); [|reflexivity]. cbn [fst snd].
    rewrite sh_desc, sh_get_background, sh_scenarios. reflexivity.
  - rewrite sh_token. destruct (get_token n TkBackgroundLine); [|reflexivity]. cbn [fst snd]. rewrite sh_desc, sh_steps. reflexivity.
  - rewrite sh_get_tags. destruct (get_tags n id) as [tags id1]. cbn [fst snd]. rewrite sh_get_node. destruct (get_node n RScenario) as [h|]; [|reflexivity].
    cbn [option_map]. rewrite sh_token. destruct (get_token h TkScenarioLine); [|reflexivity]. cbn [fst snd]. rewrite sh_desc, sh_steps, sh_get_examples. reflexivity.
  - rewrite sh_get_tags. destruct (get_tags n id) as [tags id1]. cbn [fst snd]. rewrite sh_get_node. destruct (get_node n RExamples) as [h|]; [|reflexivity].
    cbn [option_map]. rewrite sh_token. destruct (get_token h TkExamplesLine); [|reflexivity]. cbn [fst snd]. rewrite sh_desc, sh_single.
    destruct (get_single h (KRule RExamplesTable)) as [[]|]; try reflexivity. destruct x as [|r0 rs]; reflexivity.
  - rewrite sh_get_rows. destruct (get_table_rows n id) as [[rows|e] id1]; reflexivity.
  - rewrite sh_token. destruct (get_token n TkStepLine); [|reflexivity]. cbn [fst snd]. rewrite !sh_single.
    destruct (get_single n (KRule RDataTable)) as [[]|]; try reflexivity; destruct (get_single n (KRule RDocString)) as [[]|]; reflexivity.
  - rewrite sh_get_rows. destruct (get_table_rows n id) as [[[|r0 rows]|e] id1]; reflexivity.
  - rewrite sh_tokens. destruct (get_tokens n TkDocStringSeparator) as [|t ts]; [reflexivity|]. destruct (t_text t); [|reflexivity]. now rewrite sh_tokens.
  - rewrite sh_tokens. cbv zeta. destruct (last_non_empty _); reflexivity.
Qed.

Definition shb (b1 b2 : astb) : Prop :=
  ab_stack b2 = map sh_n (ab_stack b1) /\ ab_comments b2 = ab_comments b1 /\ ab_ids b2 = ab_ids b1 + k.
Lemma sh_start r : resp shb (ab_start_rule r).
Proof. intros [s1 c1 i1] [s2 c2 i2] [H1 [H2 H3]]. cbn in *. subst. repeat split. Qed.
Lemma sh_add n q i : sh_n (n_add n q i) = n_add (sh_n n) q (sh_item i).
Proof. unfold sh_n, n_add. cbn. f_equal. unfold sh_subs. now rewrite map_app. Qed.
Lemma sh_end r : resp shb (ab_end_rule r).
Proof.
  intros [s1 c1 i1] [s2 c2 i2] [H1 [H2 H3]]. cbn in *. subst. unfold ab_end_rule. cbn [ab_stack ab_comments ab_ids].
  destruct s1 as [|n [|p st]]; [repeat split..|]. cbn [map]. rewrite sh_transform. destruct (transform_node n c1 i1) as [[i|e] id']; cbn [fst snd]; [|repeat split].
  split; [reflexivity|]. split; [|split; reflexivity]. cbn. now rewrite sh_add.
Qed.
Lemma sh_build t : resp shb (ab_build t).
Proof.
  intros [s1 c1 i1] [s2 c2 i2] [H1 [H2 H3]]. cbn in *. subst. unfold ab_build. cbn [ab_stack ab_comments ab_ids].
  destruct (t_mtype t) as [[]|]; destruct s1 as [|n st]; cbn [map]; repeat split; cbn [ab_stack map snd]; rewrite ?sh_add; reflexivity.
Qed.
Theorem parse_shift stop ids ms lines :
  fst (parse_lines stop (ids + k) ms lines) = match fst (parse_lines stop ids ms lines) with Ok d => Ok (sh_doc k d) | Err e => Err e end /\
  c_ms (snd (parse_lines stop (ids + k) ms lines)) = c_ms (snd (parse_lines stop ids ms lines)) /\
  ab_ids (c_b (snd (parse_lines stop (ids + k) ms lines))) = ab_ids (c_b (snd (parse_lines stop ids ms lines))) + k.
Proof.
  assert (H : shb (ab_reset ids) (ab_reset (ids + k))) by (repeat split).
  destruct (parse_b_rel ast_builder shb sh_start sh_end sh_build stop _ _ ms lines H) as [E [_ [_ [_ [_ [Em [_ Eb]]]]]]].
  unfold parse_lines. destruct (parse_b ast_builder stop (ab_reset ids) ms lines) as [r c], (parse_b ast_builder stop (ab_reset (ids + k)) ms lines) as [r2 c2].
  cbn [fst snd] in *. subst r2. split; [|split; [now symmetry | apply Eb]]. destruct r; [|reflexivity]. cbn [rbind].
  destruct Eb as [Eb _]. unfold ab_get_result. rewrite Eb. destruct (ab_stack (c_b c)) as [|n st]; [reflexivity|]. cbn [map].
  rewrite sh_single. destruct (get_single n _) as [[]|]; reflexivity.
Qed.
End Shift.

(** ** Uniqueness *)
Definition cnt (x : nat) (l : list nat) : nat := count_occ Nat.eq_dec l x.
Lemma cnt_app x a b : cnt x (a ++ b) = cnt x a + cnt x b.
Proof. apply count_occ_app. Qed.
Lemma cnt_cons x a b : cnt x (a :: b) = cnt x [a] + cnt x b.
Proof. apply (cnt_app x [a]). Qed.
Lemma cnt_NoDup l : NoDup l <-> forall x, cnt x l <= 1.
Proof. unfold cnt. rewrite (NoDup_count_occ Nat.eq_dec). reflexivity. Qed.
Lemma cnt_in x l : In x l <-> 1 <= cnt x l.
Proof. unfold cnt. rewrite (count_occ_In Nat.eq_dec). lia. Qed.

Fixpoint item_ids (i : item) : list nat :=
  match i with
  | INode r subs => (fix go l := match l with [] => [] | (q, i) :: l' => item_ids i ++ go l' end) subs
  | IStep x => step_ids x
  | ITable x => row_ids (dt_rows x)
  | IBackground x => background_ids x
  | IScenario x => scenario_ids x
  | IExamples x => examples_ids x
  | IRows x => row_ids x
  | IRule x => rule_ids x
  | IFeature x => feature_ids x
  | IGdoc x => doc_ids x
  | _ => []
  end.
Definition subs_ids (l : list (key * item)) : list nat := flat_map (fun p => item_ids (snd p)) l.
Lemma node_ids r subs : item_ids (INode r subs) = subs_ids subs.
Proof. cbn. induction subs as [|[q i] l IH]; [reflexivity|]. cbn. now f_equal. Qed.
(** the identifiers below the children of kind [q] *)
Definition key_ids (q : key) (n : node) : list nat := flat_map item_ids (get_items n q).

Lemma key_eqb_spec a b : key_eqb a b = true <-> a = b.
Proof.
  destruct a as [x|x|], b as [y|y|]; cbn; try (split; [discriminate | congruence]); try (split; reflexivity).
  - rewrite tok_eqb_spec. split; congruence.
  - rewrite Deriv.rule_eqb_spec. split; congruence.
Qed.
Fixpoint sum_keys (x : nat) (qs : list key) (n : node) : nat :=
  match qs with [] => 0 | q :: qs' => cnt x (key_ids q n) + sum_keys x qs' n end.
Lemma key_ids_cons q r p l : key_ids q (mkNode r (p :: l)) = (if key_eqb (fst p) q then item_ids (snd p) else []) ++ key_ids q (mkNode r l).
Proof. unfold key_ids, get_items. cbn. destruct (key_eqb (fst p) q); reflexivity. Qed.
Lemma sum_keys_le x qs n : NoDup qs -> sum_keys x qs n <= cnt x (subs_ids (n_subs n)).
Proof.
  destruct n as [r l]. intros Hq. induction l as [|p l IH]; cbn [n_subs subs_ids flat_map] in *.
  - clear Hq. induction qs as [|q qs IHq]; cbn; [lia|]. unfold key_ids, get_items. cbn. exact IHq.
  - rewrite cnt_app. fold (subs_ids l). fold (subs_ids l) in IH.
    assert (G : forall qs, NoDup qs -> sum_keys x qs (mkNode r (p :: l)) <= (if existsb (key_eqb (fst p)) qs then cnt x (item_ids (snd p)) else 0) + sum_keys x qs (mkNode r l)).
    { clear. induction qs as [|q qs IH]; intros H; [cbn; lia|]. inversion H; subst. cbn [sum_keys existsb]. rewrite key_ids_cons, cnt_app.
      specialize (IH H3). destruct (key_eqb (fst p) q) eqn:E.
      - cbn [orb]. destruct (existsb (key_eqb (fst p)) qs) eqn:E2; [|lia]. apply existsb_exists in E2 as [q' [I1 I2]].
        apply key_eqb_spec in E, I2. subst. contradiction.
      - cbn [orb]. change (cnt x []) with 0. lia. }
    specialize (G qs Hq). destruct (existsb _ _); lia.
Qed.

Lemma flat_le {A} x (f : item -> list A) (g : A -> list nat) l :
  (forall i, cnt x (flat_map g (f i)) <= cnt x (item_ids i)) -> cnt x (flat_map g (flat_map f l)) <= cnt x (flat_map item_ids l).
Proof.
  intros H. induction l as [|i l IH]; [cbn; lia|]. cbn [flat_map]. rewrite flat_map_app, !cnt_app. specialize (H i). lia.
Qed.
Lemma steps_le x n : cnt x (flat_map step_ids (get_steps n)) <= cnt x (key_ids (KRule RStep) n).
Proof. apply flat_le. intros []; cbn [flat_map item_ids]; rewrite ?app_nil_r; cbn; lia. Qed.
Lemma examples_le x n : cnt x (flat_map examples_ids (get_examples n)) <= cnt x (key_ids (KRule RExamplesDefinition) n).
Proof. apply flat_le. intros []; cbn [flat_map item_ids]; rewrite ?app_nil_r; cbn; lia. Qed.
Lemma scenarios_le x n : cnt x (flat_map scenario_ids (get_scenarios n)) <= cnt x (key_ids (KRule RScenarioDefinition) n).
Proof. apply flat_le. intros []; cbn [flat_map item_ids]; rewrite ?app_nil_r; cbn; lia. Qed.
Lemma rules_le x n : cnt x (flat_map rule_ids (get_rules n)) <= cnt x (key_ids (KRule RRule) n).
Proof. apply flat_le. intros []; cbn [flat_map item_ids]; rewrite ?app_nil_r; cbn; lia. Qed.
Lemma single_le x n q i : get_single n q = Some i -> cnt x (item_ids i) <= cnt x (key_ids q n).
Proof. unfold get_single, key_ids. destruct (get_items n q) as [|j l]; [discriminate|]. cbn [hd_error flat_map]. intros H. injection H as <-. rewrite cnt_app. lia. Qed.
Lemma background_le x n : cnt x (opt_ids background_ids (get_background n)) <= cnt x (key_ids (KRule RBackground) n).
Proof.
  unfold get_background. destruct (get_single n (KRule RBackground)) as [[]|] eqn:E; try (cbn; lia). apply (single_le x) in E. exact E.
Qed.
Lemma get_node_le x n r h : get_node n r = Some h -> cnt x (subs_ids (n_subs h)) <= cnt x (key_ids (KRule r) n).
Proof.
  unfold get_node. destruct (get_single n (KRule r)) as [[]|] eqn:E; try discriminate. intros H. injection H as <-.
  apply (single_le x) in E. rewrite node_ids in E. exact E.
Qed.

(** fresh identifiers *)
Definition fresh (x id id' : nat) : nat := cnt x (seq id (id' - id)).
Lemma fresh_range x id id' : 1 <= fresh x id id' -> id <= x < id'.
Proof. unfold fresh. rewrite <- cnt_in, in_seq. lia. Qed.
Lemma fresh_le x id id' : fresh x id id' <= 1.
Proof. unfold fresh. apply cnt_NoDup, seq_NoDup. Qed.
Lemma fresh_split x a b c : a <= b -> b <= c -> fresh x a c = fresh x a b + fresh x b c.
Proof. intros H1 H2. unfold fresh. rewrite <- cnt_app. replace b with (a + (b - a)) at 2 by lia. rewrite <- seq_app. f_equal. f_equal. lia. Qed.
Lemma fresh_one x a : fresh x a (S a) = cnt x [a].
Proof. unfold fresh. now replace (S a - a) with 1 by lia. Qed.

Lemma tags_items_ids t items : forall id, id <= snd (tags_of_items t items id) /\
  tag_ids (fst (tags_of_items t items id)) = seq id (snd (tags_of_items t items id) - id).
Proof.
  induction items as [|i items IH]; intros id; cbn [tags_of_items]; [cbn; now rewrite Nat.sub_diag|].
  specialize (IH (S id)). destruct (tags_of_items t items (S id)) as [l id']. cbn [fst snd tag_ids map tag_id] in *. destruct IH as [I1 I2].
  split; [lia|]. replace (id' - id) with (S (id' - S id)) by lia. cbn [seq]. f_equal. exact I2.
Qed.
Lemma tags_tokens_ids ts : forall id, id <= snd (tags_of_tokens ts id) /\
  tag_ids (fst (tags_of_tokens ts id)) = seq id (snd (tags_of_tokens ts id) - id).
Proof.
  induction ts as [|t ts IH]; intros id; cbn [tags_of_tokens]; [cbn; now rewrite Nat.sub_diag|].
  pose proof (tags_items_ids t (t_items t) id) as [A1 A2]. destruct (tags_of_items t (t_items t) id) as [l1 id1]. cbn [fst snd] in *.
  specialize (IH id1). destruct (tags_of_tokens ts id1) as [l2 id2]. cbn [fst snd] in *. destruct IH as [I1 I2]. split; [lia|].
  unfold tag_ids in *. rewrite map_app, A2, I2. replace (id2 - id) with ((id1 - id) + (id2 - id1)) by lia. rewrite seq_app. f_equal. f_equal. lia.
Qed.
Lemma get_tags_ids n id : id <= snd (get_tags n id) /\ forall x, cnt x (tag_ids (fst (get_tags n id))) = fresh x id (snd (get_tags n id)).
Proof.
  unfold get_tags. destruct (get_single n (KRule RTags)) as [[]|]; try (cbn; split; [lia|]; intros; unfold fresh; now rewrite Nat.sub_diag).
  destruct (tags_tokens_ids (get_tokens (mkNode r subs) TkTagLine) id) as [H1 H2]. split; [exact H1|]. intros x. unfold fresh. now rewrite H2.
Qed.
Lemma rows_ids ts : forall id, id <= snd (rows_of_tokens ts id) /\
  row_ids (fst (rows_of_tokens ts id)) = seq id (snd (rows_of_tokens ts id) - id).
Proof.
  induction ts as [|t ts IH]; intros id; cbn [rows_of_tokens]; [cbn; now rewrite Nat.sub_diag|].
  specialize (IH (S id)). destruct (rows_of_tokens ts (S id)) as [l id']. cbn [fst snd row_ids map row_id] in *. destruct IH as [I1 I2].
  split; [lia|]. replace (id' - id) with (S (id' - S id)) by lia. cbn [seq]. f_equal. exact I2.
Qed.
Lemma get_rows_ids n id r id' : get_table_rows n id = (r, id') -> id <= id' /\
  forall rows, r = Ok rows -> forall x, cnt x (row_ids rows) = fresh x id id'.
Proof.
  unfold get_table_rows. pose proof (rows_ids (get_tokens n TkTableRow) id) as [H1 H2]. destruct (rows_of_tokens _ id) as [l i]. cbn [fst snd] in *.
  intros H. injection H as <- <-. split; [exact H1|]. intros rows Hr x. destruct (ensure_cell_count l); [|discriminate]. injection Hr as <-. unfold fresh. now rewrite H2.
Qed.

Lemma hd_tl_ids (rows : list row) : match hd_error rows with Some r => [row_id r] | None => [] end ++ row_ids (tl rows) = row_ids rows.
Proof. now destruct rows. Qed.
Ltac keys n qs := assert (forall x, sum_keys x qs n <= cnt x (subs_ids (n_subs n))) by (intros; apply sum_keys_le; repeat constructor; cbn; intuition discriminate).
Lemma transform_ids n cm id i id' : transform_node n cm id = (i, id') -> id <= id' /\
  forall a, i = Ok a -> forall x, cnt x (item_ids a) <= cnt x (subs_ids (n_subs n)) + fresh x id id'.
Proof.
  intros H. unfold transform_node in H. destruct (n_rule n);
    try (injection H as <- <-; split; [lia|]; intros a Ha x; injection Ha as <-; rewrite node_ids; lia).
  - (* document *) injection H as <- <-. split; [lia|]. intros a Ha x. injection Ha as <-. cbn [item_ids doc_ids gd_feature].
    unfold doc_ids. cbn [gd_feature]. keys n [KRule RFeature]. specialize (H x). cbn in H.
    destruct (get_single n (KRule RFeature)) as [[]|] eqn:E; cbn [opt_ids]; try (cbn; lia). apply (single_le x) in E. cbn [item_ids] in E. lia.
  - (* feature *) destruct (get_node n RFeatureHeader) as [h|] eqn:Eh; [|injection H as <- <-; split; [lia|]; intros a Ha x; injection Ha as <-; cbn; lia].
    pose proof (get_tags_ids h id) as [T1 T2]. destruct (get_tags h id) as [tags id1]. cbn [fst snd] in *.
    destruct (get_token h TkFeatureLine); injection H as <- <-; (split; [lia|]); intros a' Ha x; injection Ha as <-; [|cbn; lia].
    cbn [item_ids]. unfold feature_ids. cbn [fe_tags fe_background fe_scenarios fe_rules]. rewrite !cnt_app.
    keys n [KRule RBackground; KRule RScenarioDefinition; KRule RRule]. specialize (H x). cbn [sum_keys] in H. specialize (T2 x).
    pose proof (background_le x n). pose proof (scenarios_le x n). pose proof (rules_le x n). lia.
  - (* rule *) destruct (get_node n RRuleHeader) as [h|] eqn:Eh; [|injection H as <- <-; split; [lia|]; intros a Ha x; injection Ha as <-; cbn; lia].
    pose proof (get_tags_ids h id) as [T1 T2]. destruct (get_tags h id) as [tags id1]. cbn [fst snd] in *.
    destruct (get_token h TkRuleLine); injection H as <- <-; (split; [lia|]); intros a' Ha x; injection Ha as <-; [|cbn; lia].
    cbn [item_ids]. unfold rule_ids. cbn [ru_id ru_tags ru_background ru_scenarios]. rewrite cnt_cons, !cnt_app, (fresh_split x id id1 (S id1)), fresh_one by lia.
    keys n [KRule RBackground; KRule RScenarioDefinition]. specialize (H x). cbn [sum_keys] in H. specialize (T2 x).
    pose proof (background_le x n). pose proof (scenarios_le x n). lia.
  - (* background *) destruct (get_token n TkBackgroundLine); injection H as <- <-; (split; [lia|]); intros a' Ha x; [|discriminate]. injection Ha as <-.
    cbn [item_ids]. unfold background_ids. cbn [bg_id bg_steps]. rewrite cnt_cons, fresh_one.
    keys n [KRule RStep]. specialize (H x). cbn [sum_keys] in H. pose proof (steps_le x n). lia.
  - (* scenario *) pose proof (get_tags_ids n id) as [T1 T2]. destruct (get_tags n id) as [tags id1]. cbn [fst snd] in *.
    destruct (get_node n RScenario) as [h|] eqn:Eh; [|injection H as <- <-; split; [lia|]; discriminate].
    destruct (get_token h TkScenarioLine); injection H as <- <-; (split; [lia|]); intros a' Ha x; [|discriminate]. injection Ha as <-.
    cbn [item_ids]. unfold scenario_ids. cbn [sc_id sc_tags sc_steps sc_examples]. rewrite cnt_cons, !cnt_app, (fresh_split x id id1 (S id1)), fresh_one by lia.
    keys n [KRule RScenario]. specialize (H x). cbn [sum_keys] in H. specialize (T2 x).
    keys h [KRule RStep; KRule RExamplesDefinition]. specialize (H0 x). cbn [sum_keys] in H0.
    pose proof (steps_le x h). pose proof (examples_le x h). pose proof (get_node_le x _ _ _ Eh). lia.
  - (* examples *) pose proof (get_tags_ids n id) as [T1 T2]. destruct (get_tags n id) as [tags id1]. cbn [fst snd] in *.
    destruct (get_node n RExamples) as [h|] eqn:Eh; [|injection H as <- <-; split; [lia|]; discriminate].
    destruct (get_token h TkExamplesLine); injection H as <- <-; (split; [lia|]); intros a' Ha x; [|discriminate]. injection Ha as <-.
    cbn [item_ids]. unfold examples_ids. cbn [ex_id ex_tags ex_header ex_body]. rewrite hd_tl_ids.
    rewrite cnt_cons, !cnt_app, (fresh_split x id id1 (S id1)), fresh_one by lia.
    keys n [KRule RExamples]. specialize (H x). cbn [sum_keys] in H. specialize (T2 x).
    keys h [KRule RExamplesTable]. specialize (H0 x). cbn [sum_keys] in H0.
    pose proof (get_node_le x _ _ _ Eh).
    destruct (get_single h (KRule RExamplesTable)) as [[]|] eqn:E; try (cbn; lia). apply (single_le x) in E. cbn [item_ids] in E. lia.
  - (* examples table *) destruct (get_table_rows n id) as [r id1] eqn:E. apply get_rows_ids in E as [E1 E2].
    destruct r; injection H as <- <-; (split; [exact E1|]); intros a' Ha x; [|discriminate]. injection Ha as <-. cbn [item_ids]. rewrite (E2 _ eq_refl). lia.
  - (* step *) destruct (get_token n TkStepLine); injection H as <- <-; (split; [lia|]); intros a' Ha x; [|discriminate]. injection Ha as <-.
    cbn [item_ids]. unfold step_ids. cbn [st_id st_arg]. rewrite cnt_cons, fresh_one.
    keys n [KRule RDataTable]. specialize (H x). cbn [sum_keys] in H.
    destruct (get_single n (KRule RDataTable)) as [[]|] eqn:E; try (destruct (get_single n (KRule RDocString)) as [[]|]; cbn; lia).
    apply (single_le x) in E. cbn [item_ids] in E. lia.
  - (* data table *) destruct (get_table_rows n id) as [r id1] eqn:E. apply get_rows_ids in E as [E1 E2].
    destruct r as [[|r0 rows]|]; injection H as <- <-; (split; [exact E1|]); intros a' Ha x; try discriminate. injection Ha as <-. cbn [item_ids dt_rows]. rewrite (E2 _ eq_refl). lia.
  - (* doc string *) destruct (get_tokens n TkDocStringSeparator) as [|t ts]; [injection H as <- <-; split; [lia | discriminate]|].
    destruct (t_text t); injection H as <- <-; (split; [lia|]); intros a' Ha x; [|discriminate]. injection Ha as <-. cbn. lia.
  - (* description *) cbv zeta in H. destruct (last_non_empty _); injection H as <- <-; (split; [lia|]); intros a' Ha x; [|discriminate]. injection Ha as <-. cbn. lia.
Qed.

Definition ids_ok (id : nat) (subs : list (key * item)) (id' : nat) : Prop :=
  id <= id' /\ forall x, cnt x (subs_ids subs) <= fresh x id id'.
Lemma evals_ids_list l : Forall (fun t => forall id subs es id', eval t id = (subs, es, id') -> ids_ok id subs id') l ->
  forall id subs es id', evals l id = (subs, es, id') -> ids_ok id subs id'.
Proof.
  induction 1 as [|t l Ht Hl IH]; intros id subs es id' E.
  - rewrite evals_nil in E. injection E as <- <- <-. split; [lia|]. intros x. cbn. lia.
  - rewrite evals_cons in E. destruct (eval t id) as [[s1 e1] id1] eqn:E1. destruct (evals l id1) as [[s2 e2] id2] eqn:E2. injection E as <- <- <-.
    destruct (Ht _ _ _ _ E1) as [A1 A2]. destruct (IH _ _ _ _ E2) as [B1 B2]. split; [lia|]. intros x. unfold subs_ids. rewrite flat_map_app, cnt_app.
    rewrite (fresh_split x id id1 id2) by lia. specialize (A2 x). specialize (B2 x). unfold subs_ids in *. lia.
Qed.
Lemma eval_ids t : forall id subs es id', eval t id = (subs, es, id') -> ids_ok id subs id'.
Proof.
  induction t as [a|r l IH] using tree_ind'; intros id subs es id' E.
  - cbn in E. injection E as <- <- <-. split; [lia|]. intros x. destruct (tok_eqb _ _); cbn; lia.
  - rewrite eval_node in E. destruct (evals l id) as [[s1 e1] id1] eqn:E1. destruct (evals_ids_list l IH _ _ _ _ E1) as [A1 A2].
    unfold finish in E. destruct (transform_node (mkNode r s1) [] id1) as [res id2] eqn:Et. apply transform_ids in Et as [B1 B2]. cbn [n_subs] in B2.
    destruct res as [i|e].
    + injection E as <- <- <-. split; [lia|]. intros x. cbn [subs_ids flat_map snd]. rewrite app_nil_r.
      specialize (B2 _ eq_refl x). specialize (A2 x). rewrite (fresh_split x id id1 id2) by lia. unfold subs_ids in *. lia.
    + assert (subs = [] /\ id' = id2) as [-> ->] by (destruct e; injection E as <- <- <-; auto). split; [lia|]. intros x. cbn. lia.
Qed.
Lemma evals_ids l id subs es id' : evals l id = (subs, es, id') -> ids_ok id subs id'.
Proof. apply evals_ids_list. rewrite Forall_forall. intros t _. apply eval_ids. Qed.

Theorem doc_ids_ok ids l d ids' : doc_of ids l d ids' -> ids <= ids' /\ NoDup (doc_ids d) /\ Forall (fun x => ids <= x < ids') (doc_ids d).
Proof.
  intros [subs [E ->]]. apply evals_ids in E as [H1 H2]. split; [exact H1|].
  assert (G : forall x, cnt x (doc_ids (mkGdoc (feature_in subs) (comments_of (yields l)))) <= fresh x ids ids').
  { intros x. etransitivity; [|apply H2]. unfold doc_ids, feature_in. cbn [gd_feature].
    pose proof (sum_keys_le x [KRule RFeature] (mkNode RGherkinDocument subs) ltac:(repeat constructor; auto)) as S. cbn [sum_keys n_subs] in S.
    destruct (get_single _ (KRule RFeature)) as [[]|] eqn:F; cbn [opt_ids]; try (cbn; lia). apply (single_le x) in F. cbn [item_ids] in F. lia. }
  split.
  - apply cnt_NoDup. intros x. specialize (G x). pose proof (fresh_le x ids ids'). lia.
  - apply Forall_forall. intros x Hx. apply cnt_in in Hx. apply fresh_range. specialize (G x). lia.
Qed.

(** the counter never goes back *)
Theorem ids_monotone stop ids ms lines : ids <= ab_ids (c_b (snd (parse_lines stop ids ms lines))).
Proof.
  set (RB := fun b1 b2 : astb => b1 = b2 /\ ids <= ab_ids b1).
  assert (H1 : forall r, resp RB (ab_start_rule r)) by (intros r b1 b2 [<- H]; split; [reflexivity|]; split; [reflexivity | exact H]).
  assert (H2 : forall r, resp RB (ab_end_rule r)).
  { intros r b1 b2 [<- H]. split; [reflexivity|]. split; [reflexivity|]. unfold ab_end_rule. destruct (ab_stack b1) as [|n [|p st]]; try exact H.
    destruct (transform_node n (ab_comments b1) (ab_ids b1)) as [res id2] eqn:E. apply transform_ids in E as [E _]. destruct res; cbn; lia. }
  assert (H3 : forall t, resp RB (ab_build t)).
  { intros t b1 b2 [<- H]. split; [reflexivity|]. split; [reflexivity|]. unfold ab_build. destruct (t_mtype t) as [[]|]; destruct (ab_stack b1); exact H. }
  assert (H0 : RB (ab_reset ids) (ab_reset ids)) by (split; [reflexivity | cbn; lia]).
  destruct (parse_b_rel ast_builder RB H1 H2 H3 stop _ _ ms lines H0) as [_ [_ [_ [_ [_ [_ [_ [_ Eb]]]]]]]].
  unfold parse_lines. destruct (parse_b ast_builder stop (ab_reset ids) ms lines) as [r c]. exact Eb.
Qed.
