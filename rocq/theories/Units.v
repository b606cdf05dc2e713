(** * A feature as a list of scenarios, each with the rule it belongs to *)
From Verif Require Import PyStr PyStrFacts Types Regex Line DialectData Matcher Ast Parser Compiler Scan LineSpec LangSpec LangFacts DocSpec PartsSpec PropLine PropParse PropDoc PropDocString PickleSpec PickleFacts PickleTotal WfDoc PropMdParse PropCompile Glob Robot RobotSpec SuiteSpec RobotFacts PropRobot WriteSpec WriteRead PropWrite EssenceSpec EssenceFacts PropEssence PropAppend MiddleSpec Renumber.
Import PickleSpec WriteSpec.

(** a scenario and the rule it belongs to, without the rule's scenarios *)
Definition unit_ := (option rule_ast * scenario)%type.
Definition cut (ru : rule_ast) : rule_ast := mkRule (ru_id ru) (ru_tags ru) (ru_loc ru) (ru_keyword ru) (ru_name ru) (ru_desc ru) (ru_background ru) [].
Definition rule_units (ru : rule_ast) : list unit_ := map (fun sc => (Some (cut ru), sc)) (ru_scenarios ru).
Definition kunits (f : feature) : list unit_ := map (fun sc => (None, sc)) (fe_scenarios f) ++ flat_map rule_units (fe_rules f).
Definition unit_origins (u : unit_) : list origin := scenario_origins (fst u) (snd u).

(** what a test needs of its origin, with positions *)
Definition pview (f : feature) (o : origin) := (o_view f o, sc_loc (o_scenario o), map st_loc (origin_steps f o)).
Definition ren_view (g : nat -> nat) {A} (v : A * location * list location) := (fst (fst v), ren_loc g (snd (fst v)), map (ren_loc g) (snd v)).
Definition uviews (f : feature) (us : list unit_) := flat_map (fun u => map (pview f) (unit_origins u)) us.

(** without the ids *)
Definition b_unit (u : unit_) : unit_ := (option_map no_id_rule (fst u), no_id_scenario (snd u)).
Definition b_origin (o : origin) : origin :=
  mkOrigin (option_map no_id_rule (o_rule o)) (no_id_scenario (o_scenario o)) (match o_row o with Some (ex, h, r) => Some (no_id_examples ex, no_id_row h, no_id_row r) | None => None end).
Lemma b_examples_o ru sc ex : examples_origins (option_map no_id_rule ru) (no_id_scenario sc) (no_id_examples ex) = map b_origin (examples_origins ru sc ex).
Proof. unfold examples_origins. cbn. destruct (ex_header ex); [|reflexivity]. cbn. now rewrite !map_map. Qed.
Lemma b_unit_o u : unit_origins (b_unit u) = map b_origin (unit_origins u).
Proof.
  destruct u as [ru sc]. unfold unit_origins, b_unit. cbn [fst snd].
  assert (G : forall l, flat_map (examples_origins (option_map no_id_rule ru) (no_id_scenario sc)) (map no_id_examples l) = map b_origin (flat_map (examples_origins ru sc) l)).
  { induction l as [|e l IH]; [reflexivity|]. cbn [map flat_map]. now rewrite b_examples_o, IH, map_app. }
  unfold scenario_origins. cbn [no_id_scenario sc_examples]. destruct (sc_examples sc) as [|e es]; [reflexivity|]. exact (G (e :: es)).
Qed.
Lemma b_bg o : background_steps (option_map no_id_background o) = map no_id_step (background_steps o).
Proof. now destruct o. Qed.
Lemma b_steps f o : origin_steps (no_id_feature f) (b_origin o) = map no_id_step (origin_steps f o).
Proof.
  unfold origin_steps, inherited_steps. cbn [no_id_feature b_origin no_id_scenario fe_background o_scenario o_rule sc_steps]. rewrite map_app. f_equal.
  destruct (sc_steps (o_scenario o)); [reflexivity|]. cbn [map]. rewrite b_bg, map_app. destruct (o_rule o); cbn; [now rewrite b_bg | reflexivity].
Qed.
Lemma b_columns o : columns (b_origin o) = columns o.
Proof. unfold columns. cbn. destruct (o_row o) as [[[ex h] r]|]; [|reflexivity]. cbn. now rewrite ?map_map. Qed.
Lemma b_names l : names_of (map no_id_tag l) = names_of l.
Proof. unfold names_of. now rewrite map_map. Qed.
Lemma b_lower o : names_of (lower_tags (b_origin o)) = names_of (lower_tags o).
Proof.
  unfold lower_tags. cbn [b_origin o_rule o_scenario o_row no_id_scenario sc_tags]. unfold names_of. rewrite !map_app. f_equal; [|f_equal].
  - destruct (o_rule o); [apply b_names | reflexivity].
  - apply b_names.
  - destruct (o_row o) as [[[ex h] r]|]; [apply b_names | reflexivity].
Qed.
Lemma b_view f o : pview (no_id_feature f) (b_origin o) =  (pview f o).
Proof.
  unfold pview, o_view, ren_view. rewrite b_columns, b_lower, b_steps, !map_map. cbn [b_origin o_scenario no_id_scenario sc_desc sc_loc o_row no_id_step st_keyword st_loc].
  destruct (o_row o) as [[[ex h] r]|]; reflexivity.
Qed.
Lemma b_views f us : uviews (no_id_feature f) (map b_unit us) =  (uviews f us).
Proof.
  unfold uviews. induction us as [|u us IH]; [reflexivity|]. cbn [map flat_map]. rewrite IH, b_unit_o, !map_map. f_equal. apply map_ext. intros o. apply b_view.
Qed.
Lemma b_units f : kunits (no_id_feature f) = map b_unit (kunits f).
Proof.
  unfold kunits. cbn [no_id_feature fe_scenarios fe_rules]. rewrite map_app, !map_map. f_equal.
  induction (fe_rules f) as [|r l IH]; [reflexivity|]. cbn [map flat_map]. rewrite map_app, IH. f_equal. unfold rule_units. cbn [no_id_rule ru_scenarios]. now rewrite !map_map.
Qed.
Lemma b_step_e x : step_essence (no_id_step x) = step_essence x.
Proof.
  unfold step_essence. cbn [no_id_step st_ktype st_text st_arg]. f_equal. destruct (st_arg x) as [|t|d]; [reflexivity| |reflexivity]. cbn. rewrite map_map. erewrite map_ext; [reflexivity|]. intros r.
  unfold values_of. cbn. now rewrite ?map_map.
Qed.
Lemma b_steps_e l : map step_essence (map no_id_step l) = map step_essence l.
Proof. rewrite map_map. apply map_ext. apply b_step_e. Qed.
Lemma b_values r : values_of (no_id_row r) = values_of r.
Proof. unfold values_of. cbn. now rewrite ?map_map. Qed.
Lemma b_examples_e x : examples_essence (no_id_examples x) = examples_essence x.
Proof.
  unfold examples_essence. cbn [no_id_examples ex_tags ex_header ex_body]. rewrite b_names, map_map.
  assert (K : option_map values_of (option_map no_id_row (ex_header x)) = option_map values_of (ex_header x)) by (destruct (ex_header x); [exact (f_equal Some (b_values _)) | reflexivity]).
  rewrite K. erewrite map_ext; [reflexivity|]. apply b_values.
Qed.
Lemma b_scenario_e x : scenario_essence (no_id_scenario x) = scenario_essence x.
Proof.
  unfold scenario_essence. cbn [no_id_scenario sc_tags sc_name sc_steps sc_examples]. rewrite b_names, b_steps_e, map_map. erewrite (map_ext (fun x => examples_essence _)); [reflexivity|]. apply b_examples_e.
Qed.

Section Ren.
Variable g : nat -> nat.

(** with other line numbers *)
Definition g_unit (u : unit_) : unit_ := (option_map (ren_rule g) (fst u), (ren_scenario g) (snd u)).
Definition g_origin (o : origin) : origin :=
  mkOrigin (option_map (ren_rule g) (o_rule o)) ((ren_scenario g) (o_scenario o)) (match o_row o with Some (ex, h, r) => Some ((ren_examples g) ex, (ren_row g) h, (ren_row g) r) | None => None end).
Lemma g_examples_o ru sc ex : examples_origins (option_map (ren_rule g) ru) ((ren_scenario g) sc) ((ren_examples g) ex) = map g_origin (examples_origins ru sc ex).
Proof. unfold examples_origins. cbn. destruct (ex_header ex); [|reflexivity]. cbn. now rewrite !map_map. Qed.
Lemma g_unit_o u : unit_origins (g_unit u) = map g_origin (unit_origins u).
Proof.
  destruct u as [ru sc]. unfold unit_origins, g_unit. cbn [fst snd].
  assert (G : forall l, flat_map (examples_origins (option_map (ren_rule g) ru) ((ren_scenario g) sc)) (map (ren_examples g) l) = map g_origin (flat_map (examples_origins ru sc) l)).
  { induction l as [|e l IH]; [reflexivity|]. cbn [map flat_map]. now rewrite g_examples_o, IH, map_app. }
  unfold scenario_origins. cbn [ren_scenario sc_examples]. destruct (sc_examples sc) as [|e es]; [reflexivity|]. exact (G (e :: es)).
Qed.
Lemma g_bg o : background_steps (option_map (ren_background g) o) = map (ren_step g) (background_steps o).
Proof. now destruct o. Qed.
Lemma g_steps f o : origin_steps ((ren_feature g) f) (g_origin o) = map (ren_step g) (origin_steps f o).
Proof.
  unfold origin_steps, inherited_steps. cbn [ren_feature g_origin ren_scenario fe_background o_scenario o_rule sc_steps]. rewrite map_app. f_equal.
  destruct (sc_steps (o_scenario o)); [reflexivity|]. cbn [map]. rewrite g_bg, map_app. destruct (o_rule o); cbn; [now rewrite g_bg | reflexivity].
Qed.
Lemma g_columns o : columns (g_origin o) = columns o.
Proof. unfold columns. cbn. destruct (o_row o) as [[[ex h] r]|]; [|reflexivity]. cbn. now rewrite ?map_map. Qed.
Lemma g_names l : names_of (map (ren_tag g) l) = names_of l.
Proof. unfold names_of. now rewrite map_map. Qed.
Lemma g_lower o : names_of (lower_tags (g_origin o)) = names_of (lower_tags o).
Proof.
  unfold lower_tags. cbn [g_origin o_rule o_scenario o_row ren_scenario sc_tags]. unfold names_of. rewrite !map_app. f_equal; [|f_equal].
  - destruct (o_rule o); [apply g_names | reflexivity].
  - apply g_names.
  - destruct (o_row o) as [[[ex h] r]|]; [apply g_names | reflexivity].
Qed.
Lemma g_view f o : pview ((ren_feature g) f) (g_origin o) = ren_view g (pview f o).
Proof.
  unfold pview, o_view, ren_view. cbn [fst snd]. rewrite g_columns, g_lower, g_steps, !map_map. cbn [g_origin o_scenario ren_scenario sc_desc sc_loc o_row ren_step st_keyword st_loc].
  destruct (o_row o) as [[[ex h] r]|]; reflexivity.
Qed.
Lemma g_views f us : uviews ((ren_feature g) f) (map g_unit us) = map (ren_view g) (uviews f us).
Proof.
  unfold uviews. induction us as [|u us IH]; [reflexivity|]. cbn [map flat_map]. rewrite IH, g_unit_o, !map_map, map_app, map_map. f_equal. apply map_ext. intros o. apply g_view.
Qed.
Lemma g_units f : kunits ((ren_feature g) f) = map g_unit (kunits f).
Proof.
  unfold kunits. cbn [ren_feature fe_scenarios fe_rules]. rewrite map_app, !map_map. f_equal.
  induction (fe_rules f) as [|r l IH]; [reflexivity|]. cbn [map flat_map]. rewrite map_app, IH. f_equal. unfold rule_units. cbn [ren_rule ru_scenarios]. now rewrite !map_map.
Qed.
Lemma g_step_e x : step_essence ((ren_step g) x) = step_essence x.
Proof.
  unfold step_essence. cbn [ren_step st_ktype st_text st_arg]. f_equal. destruct (st_arg x) as [|t|d]; [reflexivity| |reflexivity]. cbn. rewrite map_map. erewrite map_ext; [reflexivity|]. intros r.
  unfold values_of. cbn. now rewrite ?map_map.
Qed.
Lemma g_steps_e l : map step_essence (map (ren_step g) l) = map step_essence l.
Proof. rewrite map_map. apply map_ext. apply g_step_e. Qed.
Lemma g_values r : values_of ((ren_row g) r) = values_of r.
Proof. unfold values_of. cbn. now rewrite ?map_map. Qed.
Lemma g_examples_e x : examples_essence ((ren_examples g) x) = examples_essence x.
Proof.
  unfold examples_essence. cbn [ren_examples ex_tags ex_header ex_body]. rewrite g_names, map_map.
  assert (K : option_map values_of (option_map (ren_row g) (ex_header x)) = option_map values_of (ex_header x)) by (destruct (ex_header x); [exact (f_equal Some (g_values _)) | reflexivity]).
  rewrite K. erewrite map_ext; [reflexivity|]. apply g_values.
Qed.
Lemma g_scenario_e x : scenario_essence ((ren_scenario g) x) = scenario_essence x.
Proof.
  unfold scenario_essence. cbn [ren_scenario sc_tags sc_name sc_steps sc_examples]. rewrite g_names, g_steps_e, map_map. erewrite (map_ext (fun x => examples_essence _)); [reflexivity|]. apply g_examples_e.
Qed.

End Ren.

(** ** A feature is its units *)
Lemma cut_view f ru sc : map (pview f) (scenario_origins (Some (cut ru)) sc) = map (pview f) (scenario_origins (Some ru) sc).
Proof.
  unfold scenario_origins. assert (G : forall l, map (pview f) (flat_map (examples_origins (Some (cut ru)) sc) l) = map (pview f) (flat_map (examples_origins (Some ru) sc) l)).
  { induction l as [|e l IH]; [reflexivity|]. cbn [flat_map]. rewrite !map_app, IH. f_equal. unfold examples_origins. destruct (ex_header e); [|reflexivity]. rewrite !map_map. reflexivity. }
  destruct (sc_examples sc) as [|e es]; [reflexivity | apply (G (e :: es))].
Qed.
Lemma pviews f : map (pview f) (feature_origins f) = uviews f (kunits f).
Proof.
  unfold feature_origins, kunits, uviews. rewrite map_app, flat_map_app. f_equal.
  - induction (fe_scenarios f) as [|x l IH]; [reflexivity|]. cbn [flat_map map]. rewrite map_app, IH. reflexivity.
  - induction (fe_rules f) as [|r l IH]; [reflexivity|]. cbn [flat_map map]. rewrite map_app, flat_map_app, IH. f_equal. unfold rule_units. clear IH.
    induction (ru_scenarios r) as [|x k IH]; [reflexivity|]. cbn [flat_map map]. rewrite map_app, IH. f_equal. symmetry. apply cut_view.
Qed.
Definition unit_tags (u : unit_) : list tag := match fst u with Some ru => ru_tags ru | None => [] end.
Definition unit_bg (u : unit_) : list step := match fst u with Some ru => bg_steps_of (ru_background ru) | None => [] end.
Definition ucompile (f : feature) (lang : str) (u : unit_) : nat -> result (list pickle * nat) :=
  compile_one (fe_tags f ++ unit_tags u) (bg_steps_of (fe_background f) ++ unit_bg u) lang (snd u).
Lemma seq_ext {A} (h k : A -> nat -> result (list pickle * nat)) l : (forall a i, In a l -> h a i = k a i) -> forall i, compile_seq h l i = compile_seq k l i.
Proof. induction l as [|a l IH]; intros H i; [reflexivity|]. cbn [compile_seq]. rewrite (H a i) by now left. destruct (k a i) as [q|]; [|reflexivity]. cbn [rbind]. rewrite IH; [reflexivity|]. intros; apply H; now right. Qed.
Lemma seq_map {A B} (h : B -> nat -> result (list pickle * nat)) (m : A -> B) l : forall i, compile_seq h (map m l) i = compile_seq (fun a => h (m a)) l i.
Proof. induction l as [|a l IH]; intros i; [reflexivity|]. cbn [map compile_seq]. destruct (h (m a) i) as [q|]; [|reflexivity]. cbn [rbind]. now rewrite IH. Qed.
Lemma seq_flat {A B} (h : B -> nat -> result (list pickle * nat)) (m : A -> list B) l : forall i, compile_seq h (flat_map m l) i = compile_seq (fun a => compile_seq h (m a)) l i.
Proof.
  induction l as [|a l IH]; intros i; [reflexivity|]. cbn [flat_map]. rewrite seq_app_. change (compile_seq (fun a => compile_seq h (m a)) (a :: l) i) with (then_ (compile_seq h (m a) i) (compile_seq (fun a => compile_seq h (m a)) l)).
  now apply then_ext.
Qed.
Lemma then_cong r r' h k : r = r' -> (forall i, h i = k i) -> then_ r h = then_ r' k.
Proof. intros ->. apply then_ext. Qed.
Lemma compile_units d f lang i : gd_feature d = Some f -> fe_language f = Some lang -> compile d i = compile_seq (ucompile f lang) (kunits f) i.
Proof.
  intros E L. rewrite (compile_some d f lang i E L). unfold kunits. rewrite seq_app_. apply then_cong.
  - rewrite seq_map. apply seq_ext. intros sc j _. unfold ucompile, unit_tags, unit_bg. cbn [fst snd]. now rewrite !app_nil_r.
  - intros j. rewrite seq_flat. apply seq_ext. intros ru k _. unfold compile_rule, rule_units. rewrite seq_map. reflexivity.
Qed.

(** ** Additions as units *)
Fixpoint added_units (c : option rule_ast) (l : list addition) : list unit_ :=
  match l with
  | [] => []
  | AddScenario x :: l' => (c, x) :: added_units c l'
  | AddRule ru :: l' => rule_units ru ++ added_units (Some (cut ru)) l'
  end.
Definition last_rule (f : feature) : option rule_ast := option_map cut (hd_error (rev (fe_rules f))).
Definition features_with (l : list addition) (f : feature) : feature := fold_left (fun f a => feature_with a f) l f.
Lemma units_one a f : kunits (feature_with a f) = kunits f ++ added_units (last_rule f) [a].
Proof.
  unfold kunits, last_rule. cbn [feature_with fe_scenarios fe_rules]. destruct a as [sc|ru]; cbn [added_units].
  - destruct (fe_rules f) as [|r0 rs] eqn:R.
    + cbn. now rewrite map_app, !app_nil_r.
    + destruct (rev (r0 :: rs)) as [|ru l] eqn:V; [apply (f_equal (@length _)) in V; rewrite rev_length in V; discriminate V|].
      assert (V' : r0 :: rs = rev l ++ [ru]) by (rewrite <- (rev_involutive (r0 :: rs)), V; reflexivity). rewrite V', at_last_snoc, !flat_map_app. cbn [flat_map hd_error option_map]. rewrite !app_nil_r.
      unfold rule_units at 2 4. cbn [rule_with ru_scenarios]. rewrite map_app, <- !app_assoc. reflexivity.
  - rewrite flat_map_app. cbn [flat_map]. now rewrite !app_nil_r, <- app_assoc.
Qed.
Lemma last_one a f : last_rule (feature_with a f) = match a with AddScenario _ => last_rule f | AddRule ru => Some (cut ru) end.
Proof.
  unfold last_rule. cbn [feature_with fe_rules]. destruct a as [sc|ru]; [|now rewrite rev_app_distr].
  destruct (fe_rules f) as [|r0 rs] eqn:R; [reflexivity|]. destruct (rev (r0 :: rs)) as [|ru l] eqn:V; [apply (f_equal (@length _)) in V; rewrite rev_length in V; discriminate V|].
  assert (V' : r0 :: rs = rev l ++ [ru]) by (rewrite <- (rev_involutive (r0 :: rs)), V; reflexivity). rewrite V', at_last_snoc, rev_app_distr. reflexivity.
Qed.
Lemma units_with l : forall f, kunits (features_with l f) = kunits f ++ added_units (last_rule f) l.
Proof.
  induction l as [|a l IH]; intros f; [now rewrite app_nil_r|]. change (features_with (a :: l) f) with (features_with l (feature_with a f)). rewrite IH, units_one, last_one, <- app_assoc. f_equal.
  destruct a; cbn [added_units app]; [reflexivity | now rewrite app_nil_r].
Qed.
Definition only_scenarios (l : list addition) : Prop := Forall (fun a => match a with AddScenario _ => True | AddRule _ => False end) l.
Definition own_rules (l : list addition) : Prop := match l with AddScenario _ :: _ => False | _ => True end.
Definition place_after (c : option rule_ast) (l : list addition) : option rule_ast := fold_left (fun c a => match a with AddScenario _ => c | AddRule ru => Some (cut ru) end) l c.
Lemma added_app c l l' : added_units c (l ++ l') = added_units c l ++ added_units (place_after c l) l'.
Proof. revert c. induction l as [|[x|x] l IH]; intros c; [reflexivity | |]; cbn [app added_units]; rewrite IH, ?app_assoc; reflexivity. Qed.
Lemma added_place c ms bs : only_scenarios ms \/ own_rules bs -> added_units (place_after c ms) bs = added_units c bs.
Proof.
  intros [H|H].
  - f_equal. induction H as [|[x|x] l Hx _ IH]; [reflexivity | exact IH | destruct Hx].
  - destruct bs as [|[x|x] bs]; [reflexivity | destruct H | reflexivity].
Qed.
Lemma with_same l : forall f, fe_tags (features_with l f) = fe_tags f /\ fe_background (features_with l f) = fe_background f /\ fe_language (features_with l f) = fe_language f /\ fe_name (features_with l f) = fe_name f /\ fe_desc (features_with l f) = fe_desc f.
Proof. induction l as [|a l IH]; intros f; [now repeat split|]. exact (IH (feature_with a f)). Qed.
