(** * Blank lines do not matter to the builder: facts for C76 *)
From Verif Require Import PyStr PyStrFacts Types Regex Line DialectData Matcher Ast ParserTable Parser Classify Table Scan Grammar Deriv Cert LineSpec Cst Report Eval EmptyScan.

Definition kempty : key := KTok TkEmpty.
(** without the blank lines *)
Fixpoint purge (i : item) : item :=
  match i with
  | INode r subs => INode r (flat_map (fun p => if key_eqb (fst p) kempty then [] else [(fst p, purge (snd p))]) subs)
  | _ => i
  end.
Definition psubs (subs : list (key * item)) : list (key * item) :=
  flat_map (fun p => if key_eqb (fst p) kempty then [] else [(fst p, purge (snd p))]) subs.
Definition pnode (n : node) : node := mkNode (n_rule n) (psubs (n_subs n)).
Definition pb (b : astb) : astb := mkAb (map pnode (ab_stack b)) (ab_comments b) (ab_ids b).

Lemma key_eqb_spec a b : key_eqb a b = true <-> a = b.
Proof.
  destruct a, b; cbn; split; intros H; try discriminate; try reflexivity; try (injection H as ->).
  - apply tok_eqb_spec in H as ->. reflexivity.
  - apply tok_eqb_refl.
  - apply rule_eqb_spec in H as ->. reflexivity.
  - now apply rule_eqb_spec.
Qed.
Lemma get_items_purge n k : key_eqb k kempty = false -> get_items (pnode n) k = map purge (get_items n k).
Proof.
  intros K. unfold get_items, pnode, psubs. cbn [n_subs]. induction (n_subs n) as [|[k' i] l IH]; [reflexivity|]. cbn [flat_map fst snd filter].
  destruct (key_eqb k' kempty) eqn:E.
  - cbn [app]. destruct (key_eqb k' k) eqn:F; [|exact IH]. apply key_eqb_spec in F. congruence.
  - cbn [app filter fst]. destruct (key_eqb k' k); [|exact IH]. cbn [map snd]. now rewrite IH.
Qed.
Lemma get_single_purge n k : key_eqb k kempty = false -> get_single (pnode n) k = option_map purge (get_single n k).
Proof. intros K. unfold get_single. rewrite get_items_purge by exact K. now destruct (get_items n k). Qed.
Lemma get_tokens_purge n k : k <> TkEmpty -> get_tokens (pnode n) k = get_tokens n k.
Proof.
  intros K. unfold get_tokens. rewrite get_items_purge by (destruct k; try reflexivity; contradiction).
  induction (get_items n (KTok k)) as [|i l IH]; [reflexivity|]. cbn [map flat_map]. rewrite IH. now destruct i.
Qed.
Lemma get_token_purge n k : k <> TkEmpty -> get_token (pnode n) k = get_token n k.
Proof. intros K. unfold get_token. rewrite get_single_purge by (destruct k; try reflexivity; contradiction). destruct (get_single n (KTok k)) as [[]|]; reflexivity. Qed.
Lemma get_node_purge n r : get_node (pnode n) r = option_map pnode (get_node n r).
Proof. unfold get_node. rewrite get_single_purge by reflexivity. destruct (get_single n (KRule r)) as [[]|]; reflexivity. Qed.
Lemma get_tags_purge n id : get_tags (pnode n) id = get_tags n id.
Proof.
  unfold get_tags. rewrite get_single_purge by reflexivity. destruct (get_single n (KRule RTags)) as [[]|]; try reflexivity.
  cbn [option_map purge]. change (mkNode r (flat_map _ subs)) with (pnode (mkNode r subs)). now rewrite get_tokens_purge.
Qed.
Lemma get_table_rows_purge n id : get_table_rows (pnode n) id = get_table_rows n id.
Proof. unfold get_table_rows. now rewrite get_tokens_purge. Qed.
Lemma get_description_purge n : get_description (pnode n) = get_description n.
Proof. unfold get_description. rewrite get_single_purge by reflexivity. destruct (get_single n (KRule RDescription)) as [[]|]; reflexivity. Qed.
Lemma flat_purge {A} (f : item -> list A) l : (forall i, f (purge i) = f i) -> flat_map f (map purge l) = flat_map f l.
Proof. intros H. induction l as [|i l IH]; [reflexivity|]. cbn [map flat_map]. now rewrite H, IH. Qed.
Lemma get_steps_purge n : get_steps (pnode n) = get_steps n.
Proof. unfold get_steps. rewrite get_items_purge by reflexivity. apply flat_purge. now intros []. Qed.
Lemma get_examples_purge n : get_examples (pnode n) = get_examples n.
Proof. unfold get_examples. rewrite get_items_purge by reflexivity. apply flat_purge. now intros []. Qed.
Lemma get_scenarios_purge n : get_scenarios (pnode n) = get_scenarios n.
Proof. unfold get_scenarios. rewrite get_items_purge by reflexivity. apply flat_purge. now intros []. Qed.
Lemma get_rules_purge n : get_rules (pnode n) = get_rules n.
Proof. unfold get_rules. rewrite get_items_purge by reflexivity. apply flat_purge. now intros []. Qed.
Lemma get_background_purge n : get_background (pnode n) = get_background n.
Proof. unfold get_background. rewrite get_single_purge by reflexivity. destruct (get_single n (KRule RBackground)) as [[]|]; reflexivity. Qed.

Lemma transform_purge n cm id : transform_node (pnode n) cm id =
  (match fst (transform_node n cm id) with Ok i => Ok (purge i) | Err e => Err e end, snd (transform_node n cm id)).
Proof.
  unfold transform_node. cbn [pnode n_rule]. fold (pnode n). destruct (n_rule n) eqn:R; cbv zeta;
    rewrite ?get_token_purge, ?get_tokens_purge, ?get_table_rows_purge, ?get_tags_purge, ?get_node_purge, ?get_background_purge, ?get_scenarios_purge, ?get_rules_purge, ?get_steps_purge, ?get_description_purge by discriminate;
    try reflexivity.
  - rewrite get_single_purge by reflexivity. destruct (get_single n (KRule RFeature)) as [[]|]; reflexivity.
  - destruct (get_node n RFeatureHeader) as [h|]; [|reflexivity]. cbn [option_map]. rewrite get_tags_purge, get_token_purge, get_description_purge by discriminate. destruct (get_tags h id) as [tags id1]. destruct (get_token h TkFeatureLine); reflexivity.
  - destruct (get_node n RRuleHeader) as [h|]; [|reflexivity]. cbn [option_map]. rewrite get_tags_purge, get_token_purge, get_description_purge by discriminate. destruct (get_tags h id) as [tags id1]. destruct (get_token h TkRuleLine); reflexivity.
  - destruct (get_token n TkBackgroundLine); reflexivity.
  - destruct (get_tags n id) as [tags id1]. destruct (get_node n RScenario) as [sn|]; [|reflexivity]. cbn [option_map]. rewrite get_token_purge, get_description_purge, get_steps_purge, get_examples_purge by discriminate. destruct (get_token sn TkScenarioLine); reflexivity.
  - destruct (get_tags n id) as [tags id1]. destruct (get_node n RExamples) as [sn|]; [|reflexivity]. cbn [option_map]. rewrite get_token_purge, get_description_purge, get_single_purge by (discriminate || reflexivity). destruct (get_token sn TkExamplesLine); [|reflexivity].
    destruct (get_single sn (KRule RExamplesTable)) as [[]|]; reflexivity.
  - destruct (get_table_rows n id) as [[rows|e] i]; reflexivity.
  - destruct (get_token n TkStepLine); [|reflexivity]. rewrite !get_single_purge by reflexivity. destruct (get_single n (KRule RDataTable)) as [[]|]; try reflexivity; destruct (get_single n (KRule RDocString)) as [[]|]; reflexivity.
  - destruct (get_table_rows n id) as [[[|? ?]|e] i]; reflexivity.
  - destruct (get_tokens n TkDocStringSeparator) as [|t ts]; [reflexivity|]. destruct (t_text t); reflexivity.
  - destruct (last_non_empty _); reflexivity.
Qed.
Lemma psubs_app a b : psubs (a ++ b) = psubs a ++ psubs b.
Proof. apply flat_map_app. Qed.
Lemma pnode_add n k i : pnode (n_add n k i) = if key_eqb k kempty then pnode n else n_add (pnode n) k (purge i).
Proof. unfold pnode, n_add. cbn [n_rule n_subs]. rewrite psubs_app. unfold psubs at 2. cbn [flat_map fst snd]. destruct (key_eqb k kempty); [now rewrite app_nil_r | reflexivity]. Qed.

Fixpoint item_size (i : item) : nat := match i with INode _ subs => S (fold_right (fun p n => item_size (snd p) + n) 0 subs) | _ => 1 end.
Lemma purge_idem : forall k i, item_size i <= k -> purge (purge i) = purge i.
Proof.
  induction k as [|k IH]; intros i H; [destruct i; cbn in H; lia|]. destruct i; try reflexivity. cbn [purge]. f_equal. cbn [item_size] in H. apply le_S_n in H.
  induction subs as [|[k' i] l IHl]; [reflexivity|]. cbn [fold_right fst snd] in H. cbn [flat_map fst snd]. destruct (key_eqb k' kempty) eqn:E; [apply IHl; lia|].
  cbn [app flat_map fst snd]. rewrite E. cbn [app]. rewrite (IH i) by lia. f_equal. apply IHl. lia.
Qed.
Lemma psubs_idem l : psubs (psubs l) = psubs l.
Proof.
  induction l as [|[k i] l IH]; [reflexivity|]. unfold psubs in *. cbn [flat_map fst snd]. destruct (key_eqb k kempty) eqn:E; [exact IH|].
  cbn [app flat_map fst snd]. rewrite E. cbn [app]. rewrite (purge_idem _ i (le_n _)). f_equal. exact IH.
Qed.
Lemma pnode_idem n : pnode (pnode n) = pnode n.
Proof. unfold pnode. cbn [n_rule n_subs]. now rewrite psubs_idem. Qed.
Lemma pnodes_idem l : map pnode (map pnode l) = map pnode l.
Proof. rewrite map_map. apply map_ext. apply pnode_idem. Qed.

Lemma bact_purge t a b : fst (bact ast_builder t a b) = fst (bact ast_builder t a (pb b)) /\ pb (snd (bact ast_builder t a b)) = pb (snd (bact ast_builder t a (pb b))).
Proof.
  destruct b as [stk cm id]. unfold pb. destruct a as [r|r|]; cbn [bact ast_builder bd_start bd_end bd_build].
  - unfold ab_start_rule. cbn [ab_stack ab_comments ab_ids fst snd map]. split; [reflexivity|]. now rewrite pnodes_idem.
  - unfold ab_end_rule. destruct stk as [|n [|p stk]]; cbn [map ab_stack ab_comments ab_ids fst snd]; [split; reflexivity..|].
    rewrite transform_purge. destruct (transform_node n cm id) as [[i|e] id']; cbn [fst snd ab_stack ab_comments ab_ids map]; (split; [reflexivity|]).
    + rewrite !pnode_add. cbn [key_eqb kempty]. rewrite (purge_idem _ i (le_n _)), pnode_idem, pnodes_idem. reflexivity.
    + now rewrite pnode_idem, pnodes_idem.
  - unfold ab_build. destruct (t_mtype t) as [k|]; [destruct k|]; destruct stk as [|n stk]; cbn [map ab_stack ab_comments ab_ids fst snd]; try (split; reflexivity);
      rewrite ?pnode_add; cbn [key_eqb kempty tok_eqb]; rewrite ?pnode_idem, ?pnodes_idem; split; reflexivity.
Qed.
Lemma bact_sim t a b1 b2 : pb b1 = pb b2 -> fst (bact ast_builder t a b1) = fst (bact ast_builder t a b2) /\ pb (snd (bact ast_builder t a b1)) = pb (snd (bact ast_builder t a b2)).
Proof. intros E. destruct (bact_purge t a b1) as [-> ->], (bact_purge t a b2) as [-> ->]. now rewrite E. Qed.
Lemma acts_sim t acts : forall b1 b2, pb b1 = pb b2 -> fst (raw_acts ast_builder t acts b1) = fst (raw_acts ast_builder t acts b2) /\
  pb (snd (raw_acts ast_builder t acts b1)) = pb (snd (raw_acts ast_builder t acts b2)).
Proof.
  induction acts as [|a acts IH]; intros b1 b2 E; cbn [raw_acts]; [split; [reflexivity | exact E]|].
  destruct (bact_sim t a b1 b2 E) as [S1 S2]. destruct (bact ast_builder t a b1) as [r1 c1], (bact ast_builder t a b2) as [r2 c2]. cbn [fst snd] in S1, S2. subst r2.
  destruct (IH c1 c2 S2) as [I1 I2]. destruct r1 as [u|e]; [split; assumption|]. destruct e; try (split; [reflexivity | exact S2]).
  destruct (raw_acts ast_builder t acts c1) as [[es1 r1] d1], (raw_acts ast_builder t acts c2) as [[es2 r2] d2]. cbn [fst snd] in *. injection I1 as -> ->. split; [reflexivity | exact I2].
Qed.

(** the errors of the builder are of its own kind *)
Lemma transform_kind n cm id e : fst (transform_node n cm id) = Err (EParser e) -> is_ut e = false.
Proof.
  assert (T : forall m k e, get_token m k = Err e -> e = EAttributeError).
  { intros m k e'. unfold get_token. destruct (get_single m (KTok k)) as [[]|]; congruence. }
  pose proof (get_table_rows_cases n id) as G.
  unfold transform_node. destruct (n_rule n); cbn [fst]; try discriminate.
  - destruct (get_node _ _); [|discriminate]. destruct (get_tags _ _). destruct (get_token _ _); discriminate.
  - destruct (get_node _ _); [|discriminate]. destruct (get_tags _ _). destruct (get_token _ _); discriminate.
  - destruct (get_token _ _) eqn:E; [discriminate|]. apply T in E as ->. discriminate.
  - destruct (get_tags _ _). destruct (get_node _ _); [|discriminate]. destruct (get_token _ _) eqn:E; [discriminate|]. apply T in E as ->. discriminate.
  - destruct (get_tags _ _). destruct (get_node _ _); [|discriminate]. destruct (get_token _ _) eqn:E; [discriminate|]. apply T in E as ->. discriminate.
  - destruct (get_table_rows n id) as [[rows|x] i]; [discriminate|]. destruct G as [p [-> [t [_ ->]]]]. cbn [fst]. intros H. injection H as <-. reflexivity.
  - destruct (get_token _ _) eqn:E; [discriminate|]. apply T in E as ->. discriminate.
  - destruct (get_table_rows n id) as [[[|? ?]|x] i]; [discriminate..|]. destruct G as [p [-> [t [_ ->]]]]. cbn [fst]. intros H. injection H as <-. reflexivity.
  - destruct (get_tokens n TkDocStringSeparator) as [|t ts]; [discriminate|]. destruct (t_text t); discriminate.
  - cbv zeta. destruct (last_non_empty _); discriminate.
Qed.
Lemma bact_kind t a b e : fst (bact ast_builder t a b) = Err (EParser e) -> is_ut e = false.
Proof.
  destruct a; cbn [bact ast_builder bd_start bd_end bd_build]; [discriminate| |].
  - unfold ab_end_rule. destruct (ab_stack b) as [|n [|p st]]; try discriminate.
    pose proof (transform_kind n (ab_comments b) (ab_ids b) e) as T. destruct (transform_node _ _ _) as [[i|x] id]; [discriminate | cbn [fst] in *; intros H; injection H as ->; now apply T].
  - unfold ab_build. destruct (t_mtype t) as [k|]; [destruct k|]; destruct (ab_stack b); discriminate.
Qed.
Lemma acts_kind t acts : forall b, Forall (fun e => is_ut e = false) (fst (fst (raw_acts ast_builder t acts b))).
Proof.
  induction acts as [|a acts IH]; intros b; cbn [raw_acts]; [constructor|]. pose proof (bact_kind t a b) as K. destruct (bact ast_builder t a b) as [[u|e] c]; [apply IH|].
  destruct e; try constructor. specialize (IH c). destruct (raw_acts ast_builder t acts c) as [[es r] d]. constructor; [now apply K | exact IH].
Qed.
Lemma filter_not_ut es : Forall (fun e => is_ut e = false) es -> filter (fun e => negb (is_ut e)) es = es.
Proof. induction 1 as [|e es H F IH]; [reflexivity|]. cbn [filter]. rewrite H. cbn [negb]. now rewrite IH. Qed.

(** ** The two runs of the builder *)
Theorem raw_mended evs evs' : Forall2 mended evs evs' -> forall b b' es c es' c', pb b = pb b' ->
  raw_evs ast_builder evs b = (es, Ok tt, c) -> raw_evs ast_builder evs' b' = (es', Ok tt, c') ->
  es' = filter (fun e => negb (is_ut e)) es.
Proof.
  induction 1 as [|e e' evs evs' M F IH]; intros b b' es c es' c' E H H'; cbn [raw_evs] in H, H'.
  { injection H as <- <-. injection H' as <- <-. reflexivity. }
  destruct M as [e NU|p a U T].
  - destruct e as [p|l acts].
    + destruct (raw_evs ast_builder evs b) as [[es1 r1] c1] eqn:R1, (raw_evs ast_builder evs' b') as [[es2 r2] c2] eqn:R2. injection H as <- -> ->. injection H' as <- -> ->.
      cbn [filter]. rewrite (NU p eq_refl). cbn [negb]. f_equal. eapply IH; eauto.
    + destruct (acts_sim (lf_t l) acts b b' E) as [S1 S2]. pose proof (acts_kind (lf_t l) acts b) as K.
      destruct (raw_acts ast_builder (lf_t l) acts b) as [[es0 r0] b1], (raw_acts ast_builder (lf_t l) acts b') as [[es0' r0'] b1']. cbn [fst snd] in S1, S2, K. injection S1 as <- <-.
      destruct r0 as [u|x]; [|discriminate H].
      destruct (raw_evs ast_builder evs b1) as [[es1 r1] c1] eqn:R1, (raw_evs ast_builder evs' b1') as [[es2 r2] c2] eqn:R2. injection H as <- -> ->. injection H' as <- -> ->.
      rewrite filter_app, (filter_not_ut es0 K). f_equal. eapply IH; eauto.
  - destruct (raw_evs ast_builder evs b) as [[es1 r1] c1] eqn:R1. injection H as <- -> ->. cbn [filter]. rewrite U. cbn [negb].
    cbn [raw_acts bact ast_builder bd_build] in H'. unfold ab_build in H'. rewrite T in H'. destruct (ab_stack b') as [|n st] eqn:Es; [discriminate H'|].
    destruct (raw_evs ast_builder evs' _) as [[es2 r2] c2] eqn:R2 in H'. injection H' as <- -> ->. cbn [app]. eapply IH; [|exact R1|exact R2].
    rewrite E. unfold pb. rewrite Es. cbn [ab_stack ab_comments ab_ids map]. now rewrite pnode_add.
Qed.
