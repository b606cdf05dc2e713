(** * A feature in other words gives the same suite: C101 *)
From Verif Require Import PyStr PyStrFacts Types Regex Line DialectData Matcher Ast Parser Compiler LineSpec LangSpec DocSpec PartsSpec PickleSpec PropLine PropParse EssenceSpec EssenceFacts
  Glob Robot RobotSpec SuiteSpec RobotFacts PropRobot WriteSpec PropWrite PropEssence PropDoc WordsSpec.
Import PickleSpec WriteSpec.

(** ** Languages do not matter *)
Definition other_language (L : option str) (x : feature) : feature :=
  mkFeature (fe_tags x) (fe_loc x) L (fe_keyword x) (fe_name x) (fe_desc x) (fe_background x) (fe_scenarios x) (fe_rules x).
Definition pickle_said (p : pickle) := (pk_name p, map pt_name (pk_tags p), map (fun q => (ps_type q, ps_text q, ps_arg q)) (pk_steps p)).
Definition said (x y : result (list pickle * nat)) : Prop :=
  match x, y with
  | Ok (ps, i), Ok (ps', i') => map pickle_said ps = map pickle_said ps' /\ i = i'
  | Err e, Err e' => e = e'
  | _, _ => False
  end.
Lemma said_seq {A} (f g : A -> nat -> result (list pickle * nat)) : (forall x i, said (f x i) (g x i)) -> forall l i, said (compile_seq f l i) (compile_seq g l i).
Proof.
  intros H l. induction l as [|x l IH]; intros i; [split; reflexivity|]. cbn [compile_seq]. specialize (H x i). destruct (f x i) as [[ps n]|], (g x i) as [[ps' n']|]; cbn [said rbind] in *; try contradiction; [|exact H].
  destruct H as [H <-]. cbn [snd fst]. specialize (IH n). destruct (compile_seq f l n) as [[qs m]|], (compile_seq g l n) as [[qs' m']|]; cbn [said rbind fst snd] in *; try contradiction; [|exact IH].
  destruct IH as [IH <-]. split; [|reflexivity]. rewrite !map_app. congruence.
Qed.
Section Language.
Context (L L' : str).
Lemma said_scenario tags bg sc i : said (compile_scenario tags bg sc L i) (compile_scenario tags bg sc L' i).
Proof.
  unfold compile_scenario. destruct (match sc_steps sc with [] => _ | _ => _ end) as [[[ps k] n]|]; [|reflexivity]. cbn [rbind]. destruct (get_key _ _); [|reflexivity]. cbn [rbind said]. split; reflexivity.
Qed.
Lemma said_row tags bg sc ex h r i : said (rbind (compile_row tags bg sc ex h L r i) (fun q => Ok ([fst q], snd q))) (rbind (compile_row tags bg sc ex h L' r i) (fun q => Ok ([fst q], snd q))).
Proof.
  unfold compile_row. destruct (match sc_steps sc with [] => _ | _ => _ end) as [[[ps k] n]|]; [|reflexivity]. cbn [rbind]. destruct (pickle_steps (sc_steps sc) _ _ _ _ _) as [[[qs k'] n']|]; [|reflexivity].
  cbn [rbind]. destruct (get_key _ _); [|reflexivity]. cbn [rbind]. destruct (interpolate _ _ _); [|reflexivity]. cbn [rbind said fst snd]. split; reflexivity.
Qed.
Lemma said_one tags bg sc i : said (compile_one tags bg L sc i) (compile_one tags bg L' sc i).
Proof.
  unfold compile_one. destruct (sc_examples sc) eqn:E; [apply said_scenario|]. unfold compile_outline. apply said_seq. intros ex j. unfold compile_examples. destruct (ex_header ex); [|split; reflexivity].
  apply said_seq. intros rr k. apply said_row.
Qed.
End Language.
Lemma said_language f cs L L' i : fe_language f = Some L -> said (compile (mkGdoc (Some f) cs) i) (compile (mkGdoc (Some (other_language (Some L') f)) cs) i).
Proof.
  intros E. unfold compile. cbn [gd_feature other_language fe_background fe_scenarios fe_rules fe_language fe_tags]. rewrite E. cbn [get_key]. cbv zeta.
  assert (G : forall bg, said (rbind (compile_seq (compile_one (fe_tags f) bg L) (fe_scenarios f) i) (fun q1 =>
              rbind (compile_seq (compile_rule (fe_tags f) bg L) (fe_rules f) (snd q1)) (fun q2 => Ok (fst q1 ++ fst q2, snd q2))))
    (rbind (compile_seq (compile_one (fe_tags f) bg L') (fe_scenarios f) i) (fun q1 =>
              rbind (compile_seq (compile_rule (fe_tags f) bg L') (fe_rules f) (snd q1)) (fun q2 => Ok (fst q1 ++ fst q2, snd q2))))).
  { intros bg. pose proof (said_seq _ _ (fun x j => said_one L L' (fe_tags f) bg x j) (fe_scenarios f) i) as S1.
    destruct (compile_seq (compile_one _ _ L) _ i) as [[ps n]|], (compile_seq (compile_one _ _ L') _ i) as [[ps' n']|]; cbn [said rbind fst snd] in *; try contradiction; [|exact S1]. destruct S1 as [S1 <-].
    assert (S2 : said (compile_seq (compile_rule (fe_tags f) bg L) (fe_rules f) n) (compile_seq (compile_rule (fe_tags f) bg L') (fe_rules f) n))
      by (apply said_seq; intros ru j; unfold compile_rule; apply said_seq; intros sc k; apply said_one).
    destruct (compile_seq (compile_rule _ _ L) _ n) as [[qs m]|], (compile_seq (compile_rule _ _ L') _ n) as [[qs' m']|]; cbn [said rbind fst snd] in *; try contradiction; [|exact S2].
    destruct S2 as [S2 <-]. split; [|reflexivity]. rewrite !map_app. congruence. }
  destruct (fe_background f), (fe_scenarios f), (fe_rules f); try exact (G _). split; reflexivity.
Qed.

(** ** Features that differ in words only *)
Lemma w_tags l : names_of (map plain_tag l) = names_of l.
Proof. unfold names_of. now rewrite map_map. Qed.
Lemma w_row r : values_of (plain_row r) = values_of r.
Proof. unfold values_of. cbn. now rewrite map_map. Qed.
Lemma w_step_e x : step_essence (wordless_step x) = step_essence x.
Proof. unfold step_essence. cbn. destruct (st_arg x) as [|t|ds]; cbn; try reflexivity. now rewrite (map_map2 _ _ values_of) by apply w_row. Qed.
Lemma w_steps l : map step_essence (map wordless_step l) = map step_essence l.
Proof. apply map_map2, w_step_e. Qed.
Lemma w_background_e o : option_map background_essence (option_map wordless_background o) = option_map background_essence o.
Proof. apply opt_map2. intros x. apply w_steps. Qed.
Lemma w_examples_e x : examples_essence (wordless_examples x) = examples_essence x.
Proof. unfold examples_essence. cbn. rewrite w_tags. rewrite (opt_map2 _ _ values_of) by apply w_row. now rewrite (map_map2 _ _ values_of) by apply w_row. Qed.
Lemma w_scenario_e x : scenario_essence (wordless_scenario x) = scenario_essence x.
Proof. unfold scenario_essence. cbn. rewrite w_tags, w_steps. now rewrite (map_map2 _ _ examples_essence) by apply w_examples_e. Qed.
Lemma w_scenarios l : map scenario_essence (map wordless_scenario l) = map scenario_essence l.
Proof. apply map_map2, w_scenario_e. Qed.
Lemma w_rule_e x : rule_essence (wordless_rule x) = rule_essence x.
Proof. unfold rule_essence. cbn. now rewrite w_tags, w_scenarios, w_background_e. Qed.
Lemma w_rules l : map rule_essence (map wordless_rule l) = map rule_essence l.
Proof. apply map_map2, w_rule_e. Qed.
Lemma wordless_essence f f' : wordless f = wordless f' -> feature_essence (other_language (fe_language f) f') = feature_essence f.
Proof.
  intros E. unfold feature_essence. cbn [other_language fe_tags fe_language fe_background fe_scenarios fe_rules].
  rewrite <- (w_tags (fe_tags f)), <- (w_tags (fe_tags f')), <- (w_scenarios (fe_scenarios f)), <- (w_scenarios (fe_scenarios f')), <- (w_background_e (fe_background f)), <- (w_background_e (fe_background f')).
  rewrite <- (w_rules (fe_rules f)), <- (w_rules (fe_rules f')).
  change (map plain_tag (fe_tags f)) with (fe_tags (wordless f)). change (map plain_tag (fe_tags f')) with (fe_tags (wordless f')).
  change (map wordless_scenario (fe_scenarios f)) with (fe_scenarios (wordless f)). change (map wordless_scenario (fe_scenarios f')) with (fe_scenarios (wordless f')).
  change (option_map wordless_background (fe_background f)) with (fe_background (wordless f)). change (option_map wordless_background (fe_background f')) with (fe_background (wordless f')).
  change (map wordless_rule (fe_rules f)) with (fe_rules (wordless f)). change (map wordless_rule (fe_rules f')) with (fe_rules (wordless f')). now rewrite E.
Qed.
Definition w_origin (o : origin) : origin :=
  mkOrigin (option_map wordless_rule (o_rule o)) (wordless_scenario (o_scenario o))
    (match o_row o with Some (ex, h, r) => Some (wordless_examples ex, plain_row h, plain_row r) | None => None end).
Lemma wo_examples ru sc ex : examples_origins (option_map wordless_rule ru) (wordless_scenario sc) (wordless_examples ex) = map w_origin (examples_origins ru sc ex).
Proof. unfold examples_origins. cbn. destruct (ex_header ex); [|reflexivity]. cbn. now rewrite !map_map. Qed.
Lemma wo_scenario ru sc : scenario_origins (option_map wordless_rule ru) (wordless_scenario sc) = map w_origin (scenario_origins ru sc).
Proof.
  assert (G : forall l, flat_map (examples_origins (option_map wordless_rule ru) (wordless_scenario sc)) (map wordless_examples l) = map w_origin (flat_map (examples_origins ru sc) l)).
  { induction l as [|e l IH]; [reflexivity|]. cbn. now rewrite wo_examples, IH, map_app. }
  unfold scenario_origins. cbn [wordless_scenario sc_examples]. destruct (sc_examples sc) as [|e es]; [reflexivity|]. exact (G (e :: es)).
Qed.
Lemma wo_scenarios ru l : flat_map (scenario_origins (option_map wordless_rule ru)) (map wordless_scenario l) = map w_origin (flat_map (scenario_origins ru) l).
Proof. induction l as [|e l IH]; [reflexivity|]. cbn. now rewrite wo_scenario, IH, map_app. Qed.
Lemma wo_origins f : feature_origins (wordless f) = map w_origin (feature_origins f).
Proof.
  unfold feature_origins. cbn [wordless fe_scenarios fe_rules]. rewrite map_app. f_equal; [apply (wo_scenarios None)|].
  induction (fe_rules f) as [|r l IH]; [reflexivity|]. cbn [map flat_map wordless_rule ru_scenarios]. rewrite map_app, IH. f_equal. apply (wo_scenarios (Some r)).
Qed.
Lemma w_bg o : background_steps (option_map wordless_background o) = map wordless_step (background_steps o).
Proof. now destruct o. Qed.
Lemma wo_steps f o : origin_steps (wordless f) (w_origin o) = map wordless_step (origin_steps f o).
Proof.
  unfold origin_steps, inherited_steps. cbn [wordless w_origin wordless_scenario fe_background o_scenario o_rule sc_steps]. rewrite map_app. f_equal.
  destruct (sc_steps (o_scenario o)); [reflexivity|]. cbn [map]. rewrite w_bg, map_app. destruct (o_rule o); cbn; [now rewrite w_bg | reflexivity].
Qed.
Lemma wo_lower o : map tag_name (lower_tags (w_origin o)) = map tag_name (lower_tags o).
Proof.
  unfold lower_tags. cbn [w_origin o_rule o_scenario o_row wordless_scenario sc_tags]. rewrite !map_app. f_equal; [|f_equal].
  - destruct (o_rule o); [apply w_tags | reflexivity].
  - apply w_tags.
  - destruct (o_row o) as [[[ex h] r]|]; [apply w_tags | reflexivity].
Qed.
Lemma word_calls : forall sts qs cs sts' qs' cs', Forall3 call_of sts qs cs -> Forall3 call_of sts' qs' cs' -> forall pr, Forall2 (exact_args pr) qs cs -> Forall2 (exact_args pr) qs' cs' ->
  map (fun q => (ps_type q, ps_text q, ps_arg q)) qs = map (fun q => (ps_type q, ps_text q, ps_arg q)) qs' -> Forall4 same_call sts sts' cs cs'.
Proof.
  intros sts qs cs sts' qs' cs' F. revert sts' qs' cs'. induction F as [|st q c sts qs cs H F IH]; intros sts' qs' cs' F' pr X X' E.
  - destruct F'; [constructor | discriminate E].
  - destruct F' as [|st' q' c' sts' qs' cs' H' F']; [discriminate E|]. cbn [map] in E. inversion X as [|? ? ? ? X1 X2]; inversion X' as [|? ? ? ? X1' X2']; subst. injection E as T1 T2 T3 E.
    constructor; [|eapply IH; eauto]. unfold exact_args in *. split; [now rewrite X1, X1', T3|]. destruct H as [[kw [Hk Hn]] _], H' as [[kw' [Hk' Hn']] _]. rewrite Hn, Hn', <- T1, <- T2.
    destruct (ps_type q) as [[]|]; try solve [right; exists kw, kw', (ps_text q); auto]. now left.
Qed.
Lemma word_test f f' o o' p p' t t' pr : test_of f o p t -> test_of f' o' p' t' -> Forall2 (exact_args pr) (pk_steps p) (rt_calls t) -> Forall2 (exact_args pr) (pk_steps p') (rt_calls t') ->
  w_origin o = w_origin o' -> pickle_said p = pickle_said p' -> same_test f f' o o' t t'.
Proof.
  intros [T1 [T2 [T3 [T4 _]]]] [U1 [U2 [U3 [U4 _]]]] X X' Eo Ep. unfold pickle_said in Ep. injection Ep as P1 _ P4. split; [|split; [|split]].
  - exists (pk_name p). split; [exact T1|]. rewrite P1. exact U1.
  - rewrite T2, U2. apply (f_equal (fun o => sc_desc (o_scenario o))) in Eo. cbn in Eo. now rewrite Eo.
  - apply cons_inj. unfold test_tags in *. rewrite T3, U3, <- (wo_lower o), <- (wo_lower o'), Eo. reflexivity.
  - eapply word_calls; eauto.
Qed.
Lemma word_tests f f' pr : forall os ps ts os' ps' ts', Forall3 (test_of f) os ps ts -> Forall3 (test_of f') os' ps' ts' ->
  Forall2 (fun p t => Forall2 (exact_args pr) (pk_steps p) (rt_calls t)) ps ts -> Forall2 (fun p t => Forall2 (exact_args pr) (pk_steps p) (rt_calls t)) ps' ts' ->
  map w_origin os = map w_origin os' -> map pickle_said ps = map pickle_said ps' -> Forall4 (same_test f f') os os' ts ts'.
Proof.
  intros os ps ts os' ps' ts' F. revert os' ps' ts'. induction F as [|o p t os ps ts H F IH]; intros os' ps' ts' F' X X' E1 E2.
  - destruct F'; [constructor | discriminate E1].
  - destruct F' as [|o' p' t' os' ps' ts' H' F']; [discriminate E1|]. inversion X as [|? ? ? ? X1 X2]; inversion X' as [|? ? ? ? X1' X2']; subst.
    assert (A1 : w_origin o = w_origin o') by (cbn [map] in E1; congruence). assert (A2 : map w_origin os = map w_origin os') by (cbn [map] in E1; congruence).
    assert (B1 : pickle_said p = pickle_said p') by (cbn [map] in E2; congruence). assert (B2 : map pickle_said ps = map pickle_said ps') by (cbn [map] in E2; congruence).
    constructor; [eapply word_test; eauto | eapply IH; eauto].
Qed.
Lemma essence_said p p' : pickle_essence p = pickle_essence p' -> pickle_said p = pickle_said p'.
Proof. unfold pickle_essence, pickle_said. intros E. injection E as E1 E2 E3 E4. congruence. Qed.
Lemma essences_said ps : forall ps', map pickle_essence ps = map pickle_essence ps' -> map pickle_said ps = map pickle_said ps'.
Proof. induction ps as [|p ps IH]; intros [|p' ps'] E; try discriminate E; [reflexivity|]. cbn [map] in *. f_equal; [apply essence_said | apply IH]; congruence. Qed.

(** C101.  Two files (classic or Markdown) whose features differ in language and keywords (and ids, places, comments) only give the same suite, in other words, or the
    same failure. *)
Theorem C101_same_in_words : forall printable name name' content content' dir d d' f f',
  read_file name content = Ok d -> read_file name' content' = Ok d' -> gd_feature d = Some f -> gd_feature d' = Some f' -> fe_language f <> None -> fe_language f' <> None -> wordless f = wordless f' ->
  same_in_words f f' (build_gherkin_model printable name content dir) (build_gherkin_model printable name' content' dir).
Proof.
  intros pr name name' content content' dir d d' f f' R R' F F' Lf Lf' E. pose proof (build_eq pr name content dir) as B. pose proof (build_eq pr name' content' dir) as B'.
  rewrite R in B. rewrite R' in B'. destruct (fe_language f) as [L|] eqn:EL; [|contradiction]. destruct (fe_language f') as [L'|] eqn:EL'; [|contradiction].
  assert (C : match compile d 0, compile d' 0 with Ok (ps, _), Ok (ps', _) => map pickle_said ps = map pickle_said ps' | Err e, Err e' => e = e' | _, _ => False end).
  { destruct d as [o cs], d' as [o' cs']. cbn [gd_feature] in F, F'. subst o o'. pose proof (said_language f' cs' L' L 0 EL') as S1.
    assert (Es : essence (mkGdoc (Some f) cs) = essence (mkGdoc (Some (other_language (Some L) f')) cs')) by (unfold essence; cbn [gd_feature option_map]; rewrite <- EL, (wordless_essence f f' E); reflexivity).
    pose proof (C61_pickles _ _ 0 0 Es) as S2. destruct (compile (mkGdoc (Some f) cs) 0) as [[ps i]|e], (compile (mkGdoc (Some f') cs') 0) as [[ps' i']|e'], (compile (mkGdoc (Some (other_language (Some L) f')) cs') 0) as [[ps2 i2]|e2];
      cbn [said] in S1; try contradiction; [|congruence]. destruct S1 as [S1 _]. rewrite (essences_said _ _ S2). now symmetry. }
  destruct (compile d 0) as [[ps i]|e], (compile d' 0) as [[ps' i']|e']; try contradiction C; [|subst e'; rewrite B, B'; split; reflexivity].
  rewrite F in B. rewrite F' in B'. destruct B as [su [-> [S1 [S2 S3]]]], B' as [su' [-> [S1' [S2' S3']]]].
  assert (O : map w_origin (feature_origins f) = map w_origin (feature_origins f')) by (rewrite <- !wo_origins, E; reflexivity).
  unfold origins in S2, S2'. rewrite F in S2. rewrite F' in S2'. pose proof (word_tests f f' pr _ _ _ _ _ _ S2 S2' S3 S3' O C) as T. destruct S1 as [A1 [A2 [A3 [A4 A5]]]], S1' as [A1' [A2' [A3' [A4' A5']]]].
  assert (D : fe_desc f = fe_desc f') by exact (f_equal fe_desc E). assert (N : fe_name f = fe_name f') by exact (f_equal fe_name E).
  assert (Tg : map tag_name (fe_tags f) = map tag_name (fe_tags f')) by (pose proof (f_equal (fun x => names_of (fe_tags x)) E) as G; cbn in G; rewrite !w_tags in G; exact G).
  assert (TT : rs_test_tags su = rs_test_tags su') by (apply cons_inj; now rewrite A4, A4').
  cbn [same_in_words]. split; [rewrite A1, A1', D; reflexivity|]. split; [congruence|]. split; [congruence|]. split; [rewrite A5, A5', TT; destruct (fe_tags f), (fe_tags f'); try discriminate Tg; reflexivity|]. auto.
Qed.
Print Assumptions C101_same_in_words.

(** ** Translation *)
Lemma wp_row r : plain_row (plain_row r) = plain_row r.
Proof. unfold plain_row. cbn [row_cells]. now rewrite map_map. Qed.
Lemma wp_step x : wordless_step (plain_step x) = wordless_step x.
Proof.
  unfold wordless_step, plain_step. cbn [st_ktype st_text st_arg]. f_equal. destruct (st_arg x) as [|t|ds]; [reflexivity| |reflexivity]. cbn [plain_arg dt_rows]. do 2 f_equal. now apply map_map2, wp_row.
Qed.
Lemma wp_tags l : map plain_tag (map plain_tag l) = map plain_tag l.
Proof. now rewrite map_map. Qed.
Lemma wp_background o : option_map wordless_background (option_map plain_background o) = option_map wordless_background o.
Proof. apply opt_map2. intros x. unfold wordless_background. cbn. f_equal. apply map_map2, wp_step. Qed.
Lemma wp_examples x : wordless_examples (plain_examples x) = wordless_examples x.
Proof. unfold wordless_examples. cbn. rewrite wp_tags. f_equal; [apply opt_map2, wp_row | apply map_map2, wp_row]. Qed.
Lemma wp_scenario x : wordless_scenario (plain_scenario x) = wordless_scenario x.
Proof. unfold wordless_scenario. cbn. rewrite wp_tags. f_equal; [apply map_map2, wp_step | apply map_map2, wp_examples]. Qed.
Lemma wp_rule x : wordless_rule (plain_rule x) = wordless_rule x.
Proof. unfold wordless_rule. cbn. rewrite wp_tags, wp_background. f_equal. apply map_map2, wp_scenario. Qed.
Lemma wordless_plain x : wordless (plain x) = wordless x.
Proof. unfold wordless. cbn. rewrite wp_tags, wp_background. f_equal; [apply map_map2, wp_scenario | apply map_map2, wp_rule]. Qed.

Section Say.
Context (w : words).
Lemma sw_background o : option_map wordless_background (option_map (say_background w) o) = option_map wordless_background o.
Proof. apply opt_map2. intros x. unfold wordless_background. cbn. f_equal. apply map_map2. reflexivity. Qed.
Lemma sw_scenario x : wordless_scenario (say_scenario w x) = wordless_scenario x.
Proof. unfold wordless_scenario. cbn. f_equal; apply map_map2; reflexivity. Qed.
Lemma sw_rule x : wordless_rule (say_rule w x) = wordless_rule x.
Proof. unfold wordless_rule. cbn. rewrite sw_background. f_equal. apply map_map2, sw_scenario. Qed.
Lemma wordless_said x : wordless (in_words w x) = wordless x.
Proof. unfold wordless. cbn. rewrite sw_background. f_equal; [apply map_map2, sw_scenario | apply map_map2, sw_rule]. Qed.

(** a translated feature can be written *)
Context (d dl : dialect).
Definition fits (x : step) : Prop := forall t, st_ktype x = Some t -> step_word dl t (w_step w t).
Lemma said_title kws kws' k k' n : title_ok kws k n -> In k' kws' -> title_ok kws' (Some k') n.
Proof. intros [a [b [_ [Hb [_ T]]]]] I. exists k', b. auto. Qed.
Lemma said_step x : step_ok d x -> fits x -> step_ok dl (say_step w x).
Proof.
  intros [[k [t [b [a [_ [Ht [Hk [T _]]]]]]]] A] F. destruct (F _ Hk) as [F1 [b' [a' [F2 F3]]]]. split; [|exact A]. exists (w_step w (LineSpec.step_type d k)), t, b', a'. unfold say_step. cbn [st_keyword st_text st_ktype]. rewrite Hk. cbn [option_map].
  split; [reflexivity|]. split; [exact Ht|]. split; [now rewrite F1|]. auto.
Qed.
Lemma said_steps l : Forall (step_ok d) l -> Forall fits l -> Forall (step_ok dl) (map (say_step w) l).
Proof. intros H F. apply Forall_map. rewrite Forall_forall in *. intros x I. apply said_step; auto. Qed.
Context (I1 : In (w_feature w) (d_feature dl)) (I2 : In (w_rule w) (d_rule dl)) (I3 : In (w_background w) (d_background dl))
  (I4 : In (w_scenario w) (scenario_keywords dl)) (I5 : In (w_outline w) (scenario_keywords dl)) (I6 : In (w_examples w) (d_examples dl)).
Lemma said_background x : background_ok d x -> description_ok dl InBackground (bg_desc x) -> Forall fits (bg_steps x) -> background_ok dl (say_background w x).
Proof. intros [T [_ S]] D F. split; [exact (said_title _ _ _ _ _ T I3)|]. split; [exact D|]. now apply said_steps. Qed.
Lemma said_examples x : examples_ok d x -> description_ok dl InExamples (ex_desc x) -> examples_ok dl (say_examples w x).
Proof. intros [T [_ S]] D. split; [exact (said_title _ _ _ _ _ T I6)|]. split; [exact D | exact S]. Qed.
Lemma said_scenario_ok x : scenario_ok d x -> description_ok dl InScenario (sc_desc x) -> Forall fits (sc_steps x) -> Forall (fun e => description_ok dl InExamples (ex_desc e)) (sc_examples x) -> scenario_ok dl (say_scenario w x).
Proof.
  intros [T [_ [G [S E]]]] D F De. split; [apply (said_title _ _ _ _ _ T); destruct (sc_examples x); assumption|]. split; [exact D|]. split; [exact G|]. split; [now apply said_steps|].
  cbn [say_scenario sc_examples]. apply Forall_map. rewrite Forall_forall in *. intros e I. apply said_examples; auto.
Qed.
Lemma said_scenarios l : Forall (scenario_ok d) l -> Forall (fun x => description_ok dl InScenario (sc_desc x)) l -> Forall fits (flat_map sc_steps l) -> Forall (fun e => description_ok dl InExamples (ex_desc e)) (flat_map sc_examples l) ->
  Forall (scenario_ok dl) (map (say_scenario w) l).
Proof.
  intros H D F E. apply Forall_map. rewrite Forall_forall in *. intros x I. apply said_scenario_ok; [auto | auto | |]; apply Forall_forall; intros y Iy; [apply F | apply E]; apply in_flat_map; eauto.
Qed.
Lemma said_opt o : opt_ok (background_ok d) o -> Forall (fun x => description_ok dl InBackground (bg_desc x)) (of_option o) -> Forall fits (flat_map bg_steps (of_option o)) -> opt_ok (background_ok dl) (option_map (say_background w) o).
Proof. destruct o as [b|]; cbn; [|auto]. intros H D F. inversion D; subst. rewrite app_nil_r in F. now apply said_background. Qed.
Lemma said_feature x : feature_ok d x -> prose_fits dl x -> Forall fits (feature_steps x) -> feature_ok dl (in_words w x).
Proof.
  intros [T [_ [G [B [S R]]]]] [D1 [D2 [D3 [D4 D5]]]] F. unfold feature_steps in F. apply Forall_app in F as [F1 F2]. unfold feature_backgrounds in D3, F1. unfold feature_examples in D5. unfold feature_scenarios in D4, D5, F2.
  rewrite flat_map_app in F1, F2, D5. apply Forall_app in D3 as [D3 D3'], D4 as [D4 D4'], D5 as [D5 D5'], F1 as [F1 F1'], F2 as [F2 F2'].
  split; [exact (said_title _ _ _ _ _ T I1)|]. split; [exact D1|]. split; [exact G|]. split; [now apply said_opt|]. split; [now apply said_scenarios|].
  cbn [in_words fe_rules]. apply Forall_map. rewrite Forall_forall in *. intros r I. destruct (R r I) as [T' [_ [G' [B' S']]]]. split; [exact (said_title _ _ _ _ _ T' I2)|]. split; [exact (D2 r I)|]. split; [exact G'|].
  split; [apply said_opt; [exact B' | |]; apply Forall_forall; intros y Iy; [apply D3'; apply in_flat_map; eauto | apply F1'; apply in_flat_map in Iy as [b [Ib Iy]]; apply in_flat_map; exists b; split; [apply in_flat_map; eauto | exact Iy]]|].
  apply said_scenarios; [exact S' | | |]; apply Forall_forall; intros y Iy; [apply D4'; apply in_flat_map; eauto | apply F2' | apply D5'];
    apply in_flat_map in Iy as [sc [Is Iy]]; apply in_flat_map; exists sc; (split; [apply in_flat_map; eauto | exact Iy]).
Qed.
End Say.
Lemma words_fit d f w : words_of d (types_of f) w -> Forall (fits w d) (feature_steps f).
Proof.
  intros [_ [_ [_ [_ [_ [_ [_ H]]]]]]]. rewrite Forall_forall in *. intros x I t E. apply H. unfold types_of. apply in_flat_map. exists x. split; [exact I|]. rewrite E. now left.
Qed.

(** C101.  A classic feature file, its feature written down in the words of another language whose keywords end none of its descriptions: the text is read as the feature in
    those words, and gives the same suite in other words, or the same failure. *)
Theorem C101_translated : forall printable name name' content dir d f w dl, is_markdown name = false -> is_markdown name' = false ->
  read_file name content = Ok d -> gd_feature d = Some f -> words_of dl (types_of f) w -> prose_fits dl f ->
  exists d' f', read_file name' (feature_text (in_words w f)) = Ok d' /\ gd_feature d' = Some f' /\ plain f' = plain (in_words w f) /\
    same_in_words f f' (build_gherkin_model printable name content dir) (build_gherkin_model printable name' (feature_text (in_words w f)) dir).
Proof.
  intros pr name name' content dir d f w dl M M' R F W P. assert (Q : parse_with false false (s "en") content = Ok d) by (unfold read_file in R; now rewrite M in R).
  destruct (C54_returned false (s "en") content d f en_supported Q F) as [lang [d0 [L1 [L2 L3]]]]. pose proof (words_fit _ _ _ W) as Fi. destruct W as [W0 [W1 [W2 [W3 [W4 [W5 [W6 W7]]]]]]].
  assert (Wr : writable (in_words w f)) by (exists (w_language w), dl; split; [reflexivity|]; split; [exact W0 | now apply (said_feature w d0 dl)]).
  destruct (C54_written false (s "en") (in_words w f) en_supported Wr) as [d' [f' [P' [F' [_ E]]]]]. assert (R' : read_file name' (feature_text (in_words w f)) = Ok d') by (unfold read_file; now rewrite M').
  exists d', f'. split; [exact R'|]. split; [exact F'|]. split; [exact E|]. apply (C101_same_in_words pr name name' _ _ dir d d' f f' R R' F F'); [congruence | |].
  - pose proof (f_equal fe_language E) as X. cbn in X. congruence.
  - rewrite <- (wordless_plain f'), E, wordless_plain. symmetry. apply wordless_said.
Qed.
Print Assumptions C101_translated.

(** C101.  Every language but three has words for all types of steps. *)
Definition type_eqb (a b : ktype) : bool := match a, b with KtContext, KtContext | KtAction, KtAction | KtOutcome, KtOutcome | KtConjunction, KtConjunction | KtUnknown, KtUnknown => true | _, _ => false end.
Lemma type_eqb_iff a b : type_eqb a b = true <-> a = b.
Proof. destruct a, b; split; intros H; try reflexivity; discriminate H. Qed.
Fixpoint word_in (d : dialect) (t : ktype) (before l : list str) : option str :=
  match l with
  | [] => None
  | k :: l' => if type_eqb (LineSpec.step_type d k) t && forallb (fun k' => negb (startswith k' k)) before then Some k else word_in d t (before ++ [k]) l'
  end.
Definition word_for (d : dialect) (t : ktype) : option str := word_in d t [] (all_step_keywords d).
Lemma word_in_some d t k l : forall before, word_in d t before l = Some k -> LineSpec.step_type d k = t /\ exists b a, l = b ++ k :: a /\ Forall (fun k' => startswith k' k = false) (before ++ b).
Proof.
  induction l as [|x l IH]; intros before H; [discriminate H|]. cbn [word_in] in H. destruct (type_eqb _ t && _) eqn:E.
  - injection H as ->. apply andb_true_iff in E as [E1 E2]. apply type_eqb_iff in E1. split; [exact E1|]. exists [], l. split; [reflexivity|]. rewrite app_nil_r. apply Forall_forall. intros k' I. rewrite forallb_forall in E2. apply E2 in I. now apply negb_true_iff in I.
  - apply IH in H as [H1 [b [a [-> H2]]]]. split; [exact H1|]. exists (x :: b), a. split; [reflexivity|]. now rewrite <- app_assoc in H2.
Qed.
Lemma word_in_none d t k a b : forall before, word_in d t before (b ++ k :: a) = None -> LineSpec.step_type d k = t -> Forall (fun k' => startswith k' k = false) (before ++ b) -> False.
Proof.
  induction b as [|x b IH]; intros before H T F; cbn [app word_in] in H.
  - rewrite app_nil_r in F. assert (E : type_eqb (LineSpec.step_type d k) t && forallb (fun k' => negb (startswith k' k)) before = true); [|now rewrite E in H].
    apply andb_true_iff. split; [now apply type_eqb_iff|]. apply forallb_forall. intros k' I. rewrite Forall_forall in F. now rewrite (F k' I).
  - destruct (type_eqb _ t && _); [discriminate H|]. apply (IH (before ++ [x])); [exact H | exact T | now rewrite <- app_assoc].
Qed.
Definition first_words (lang : str) (d : dialect) : words :=
  mkWords lang (hd [] (d_feature d)) (hd [] (d_rule d)) (hd [] (d_background d)) (hd [] (d_scenario d)) (hd [] (d_scenarioOutline d)) (hd [] (d_examples d)) (fun t => match word_for d t with Some k => k | None => [] end).
Definition has {A} (l : list A) : bool := match l with [] => false | _ => true end.
Definition all_words (d : dialect) : bool :=
  has (d_feature d) && has (d_rule d) && has (d_background d) && has (d_scenario d) && has (d_scenarioOutline d) && has (d_examples d) &&
  forallb (fun t => match word_for d t with Some _ => true | None => false end) all_types.
Definition few_words : list str := [s "en-tx"; s "ht"; s "sl"].
Lemma dialect_words : forallb (fun p => str_mem (fst p) few_words || all_words (snd p)) DIALECTS = true.
Proof. vm_compute. reflexivity. Qed.
Lemma in_hd (l : list str) : has l = true -> In (hd [] l) l.
Proof. destruct l; [discriminate | now left]. Qed.
Theorem C101_words : forall lang d, for_name lang = Some d -> ~ In lang few_words -> exists w, w_language w = lang /\ words_of d all_types w.
Proof.
  intros lang d L N. assert (A : all_words d = true).
  { pose proof L as L'. unfold for_name in L'. destruct (find _ DIALECTS) as [[n d0]|] eqn:E; [|discriminate L']. injection L' as ->. apply find_some in E as [E1 E2]. cbn [fst] in E2. apply str_eqb_spec in E2. subst n.
    pose proof dialect_words as W. rewrite forallb_forall in W. specialize (W _ E1). cbn [fst snd] in W. apply orb_true_iff in W as [W|W]; [|exact W]. exfalso. apply N. now apply str_mem_spec in W. }
  unfold all_words in A. repeat (apply andb_true_iff in A as [A ?]). exists (first_words lang d). split; [reflexivity|]. split; [exact L|]. unfold scenario_keywords. cbn [first_words w_feature w_rule w_background w_scenario w_outline w_examples w_step].
  split; [now apply in_hd|]. split; [now apply in_hd|]. split; [now apply in_hd|]. split; [apply in_or_app; left; now apply in_hd|]. split; [apply in_or_app; right; now apply in_hd|]. split; [now apply in_hd|].
  apply Forall_forall. intros t I. match goal with H : forallb _ all_types = true |- _ => rewrite forallb_forall in H; specialize (H t I) end. destruct (word_for d t) as [k|] eqn:E; [|discriminate]. apply word_in_some in E as [E1 [b [a [E2 E3]]]]. split; [exact E1|]. exists b, a. auto.
Qed.
Print Assumptions C101_words.
(** C101.  In those three languages a type of steps has no word: none is read as a step of the type Unknown in en-tx and sl, none as Outcome in ht. *)
Theorem C101_no_words : forall lang d t, In (lang, t) [(s "en-tx", KtUnknown); (s "sl", KtUnknown); (s "ht", KtOutcome)] -> for_name lang = Some d -> forall k, ~ step_word d t k.
Proof.
  intros lang d t I L k [T [b [a [E F]]]]. assert (N : word_in d t [] (all_step_keywords d) = None).
  { repeat (destruct I as [I|I]; [injection I as <- <-; vm_compute in L; injection L as <-; vm_compute; reflexivity|]). destruct I. }
  rewrite E in N. exact (word_in_none d t k a b [] N T F).
Qed.
Print Assumptions C101_no_words.

(** ** A concrete case: a feature with a background, an outline with a starred step and an And, and a description, said in German *)
Definition c101_text : str := text_of_lines [s "@t"; s "Feature: f"; s "  About it"; s "  Background:"; s "    Given a"; s "  Scenario: one"; s "    When b"; s "      | x |"; s "    * c"; s "  Scenario Outline: two <n>"; s "    Then d <n>"; s "    And e"; s "    Examples:"; s "      | n |"; s "      | 1 |"].
Definition c101_d : gdoc := Eval vm_compute in match read_file (s "a.feature") c101_text with Ok d => d | _ => mkGdoc None [] end.
Definition c101_f : feature := Eval vm_compute in match gd_feature c101_d with Some f => f | _ => mkFeature [] (mkLoc 0 None) None None None [] None [] [] end.
Definition c101_de : dialect := Eval vm_compute in match for_name (s "de") with Some d => d | None => mkDialect [] [] [] [] [] [] [] [] [] [] [] end.
Definition c101_w : words := first_words (s "de") c101_de.
Definition c101_german : str := feature_text (in_words c101_w c101_f).
Example C101_case : is_markdown (s "a.feature") = false /\ is_markdown (s "b.feature") = false /\ read_file (s "a.feature") c101_text = Ok c101_d /\ gd_feature c101_d = Some c101_f /\
  words_of c101_de (types_of c101_f) c101_w /\ prose_fits c101_de c101_f /\ types_of c101_f = [KtContext; KtAction; KtUnknown; KtOutcome; KtConjunction].
Proof.
  split; [reflexivity|]. split; [reflexivity|]. split; [vm_compute; reflexivity|]. split; [reflexivity|]. split; [|split; [|vm_compute; reflexivity]].
  - split; [vm_compute; reflexivity|]. repeat (split; [vm_compute; tauto|]). apply Forall_forall. intros t _. assert (A : word_for c101_de t = Some (w_step c101_w t)) by (destruct t; vm_compute; reflexivity).
    apply word_in_some in A as [A1 [b [a [A2 A3]]]]. split; [exact A1|]. exists b, a. auto.
  - unfold prose_fits. cbn [c101_f fe_desc fe_rules].
    split; [|split; [constructor|split; [repeat constructor; now left|split; [repeat constructor; now left | repeat constructor; now left]]]].
    right. split; [|split; [vm_compute; discriminate | vm_compute; discriminate]]. constructor; [|constructor]. split; [vm_compute; reflexivity|].
    intros [H|[H|[H|[H|H]]]]; try discriminate H; destruct H as [kw [nm [I [rest [E _]]]]]; vm_compute in I; repeat (destruct I as [<-|I]; [discriminate E|]); destruct I.
Qed.
Definition c101_tests (text : str) : list (str * list (str * nat)) :=
  match build_gherkin_model (fun _ => true) (s "a.feature") text None with Ok (RSuite su, _) => map (fun t => (rt_name t, map (fun c => (rc_name c, length (rc_args c))) (rt_calls t))) (rs_tests su) | _ => [] end.
Example C101_case_suites :
  c101_tests c101_text = [(s "one", [(s "Given a", 0); (s "When b", 1); (s "c", 0)]); (s "two 1 n = 1", [(s "Given a", 0); (s "Then d 1", 0); (s "And e", 0)])] /\
  c101_tests c101_german = [(s "one", [(s "Angenommen a", 0); (s "Wenn b", 1); (s "c", 0)]); (s "two 1", [(s "Angenommen a", 0); (s "Dann d 1", 0); (s "Und e", 0)])].
Proof. split; vm_compute; reflexivity. Qed.
