(** * Arguments of steps influence nothing but arguments of calls: C97 *)
From Verif Require Import PyStr PyStrFacts Types Regex Line DialectData Matcher Ast Parser Compiler Scan LineSpec LangSpec LangFacts DocSpec PartsSpec PropLine PropParse PropDoc PropDocString PickleSpec PickleFacts PickleTotal WfDoc PropMdParse PropCompile Glob Robot RobotSpec SuiteSpec RobotFacts PropRobot WriteSpec WriteRead PropWrite EssenceSpec EssenceFacts PropEssence PropAppend MiddleSpec Renumber Units PropMiddle ExampleSpec ExampleChange PropExampleRow PartSpec PartChange PropScenarioTags PropStepMore TitleSpec PropView LabelSpec PropLabel ArgOnlySpec.
Import PickleSpec WriteSpec.

Definition a_origin (o : origin) : origin := mkOrigin (option_map argless_rule (o_rule o)) (argless_scenario (o_scenario o)) (o_row o).
Definition argless_pickle (p : pickle) : pickle := mkPickle (pk_nodes p) (pk_id p) (pk_tags p) (pk_name p) (pk_language p) (map (fun q => mkPs (ps_nodes q) (ps_id q) (ps_type q) (ps_text q) None) (pk_steps p)).
Definition argless_test (t : rtest) : rtest := with_calls (map (with_args []) (rt_calls t)) t.
Lemma a_fo f : feature_origins (argless f) = map a_origin (feature_origins f).
Proof.
  apply (fo_map argless argless_rule argless_scenario); try reflexivity. intros ru sc. unfold scenario_origins. cbn [argless_scenario sc_examples].
  assert (G : forall l, flat_map (examples_origins (option_map argless_rule ru) (argless_scenario sc)) l = map a_origin (flat_map (examples_origins ru sc) l)).
  { induction l as [|e l IH]; [reflexivity|]. cbn [flat_map]. rewrite IH, map_app. f_equal. unfold examples_origins. destruct (ex_header e); [|reflexivity]. now rewrite map_map. }
  destruct (sc_examples sc) as [|e es]; [reflexivity|]. exact (G (e :: es)).
Qed.
Lemma a_bg o : background_steps (option_map argless_background o) = map argless_step (background_steps o).
Proof. now destruct o. Qed.
Lemma a_inherited f o : inherited_steps (argless f) (a_origin o) = map argless_step (inherited_steps f o).
Proof.
  unfold inherited_steps. cbn [argless a_origin o_scenario o_rule fe_background argless_scenario sc_steps]. destruct (sc_steps (o_scenario o)); [reflexivity|]. cbn [map]. rewrite a_bg, map_app. destruct (o_rule o); cbn; [now rewrite a_bg | reflexivity].
Qed.
Lemma a_steps f o : origin_steps (argless f) (a_origin o) = map argless_step (origin_steps f o).
Proof. unfold origin_steps. rewrite a_inherited, map_app. reflexivity. Qed.
Lemma a_lower o : lower_tags (a_origin o) = lower_tags o.
Proof. unfold lower_tags. cbn [a_origin o_rule o_scenario o_row argless_scenario sc_tags]. destruct (o_rule o); reflexivity. Qed.
Lemma a_ren g f : argless (ren_feature g f) = ren_feature g (argless f).
Proof.
  assert (Ht : forall l, map argless_step (map (ren_step g) l) = map (ren_step g) (map argless_step l)) by (intros l; rewrite !map_map; reflexivity).
  assert (Hb : forall o, option_map argless_background (option_map (ren_background g) o) = option_map (ren_background g) (option_map argless_background o)) by (intros [b|]; [|reflexivity]; unfold argless_background, ren_background; cbn; now rewrite Ht).
  assert (Hs : forall l, map argless_scenario (map (ren_scenario g) l) = map (ren_scenario g) (map argless_scenario l)) by (intros l; rewrite !map_map; apply map_ext; intros x; unfold argless_scenario, ren_scenario; cbn [sc_id sc_tags sc_loc sc_keyword sc_name sc_desc sc_steps sc_examples]; now rewrite Ht).
  unfold argless, ren_feature. cbn [fe_tags fe_loc fe_language fe_keyword fe_name fe_desc fe_background fe_scenarios fe_rules]. rewrite Hb, Hs. f_equal. rewrite !map_map. apply map_ext. intros r. unfold argless_rule, ren_rule. cbn [ru_id ru_tags ru_loc ru_keyword ru_name ru_desc ru_background ru_scenarios]. now rewrite Hb, Hs.
Qed.
Lemma a_views g f f' : same_but_args g f f' -> map (pview (argless f')) (map a_origin (feature_origins f')) = map (ren_view g) (map (pview (argless f)) (map a_origin (feature_origins f))).
Proof.
  unfold same_but_args. intros E. rewrite a_ren in E. rewrite <- !a_fo. assert (K : forall x, map (pview x) (feature_origins x) = map (pview (kept x)) (feature_origins (kept x))) by (intros x; rewrite ko_origins, map_map; apply map_ext; intros o; symmetry; apply k_view).
  rewrite (K (argless f')), E, <- K, g_fo, !map_map. apply map_ext. intros o. apply g_view.
Qed.
Lemma a_cert pr f os ps ts : cert pr f os ps ts -> cert pr (argless f) (map a_origin os) (map argless_pickle ps) (map argless_test ts).
Proof.
  assert (Fc : forall sts qs cs, Forall3 call_of sts qs cs -> Forall3 call_of (map argless_step sts) (map (fun q => mkPs (ps_nodes q) (ps_id q) (ps_type q) (ps_text q) None) qs) (map (with_args []) cs)).
  { intros sts qs cs F. induction F as [|st q c sts qs cs H F IH]; [constructor|]. cbn [map]. constructor; [|exact IH]. destruct H as [H1 [_ H3]]. split; [exact H1|]. split; [reflexivity | exact H3]. }
  intros [F X]. split.
  - clear X. induction F as [|o p t os ps ts H F IH]; [constructor|]. cbn [map]. constructor; [|exact IH]. destruct H as [H1 [H2 [H3 [H4 [H5 H6]]]]]. unfold test_of, test_tags in *. rewrite a_steps, a_lower. cbn [a_origin o_row o_scenario argless_scenario sc_desc sc_loc argless_test with_calls rt_name rt_doc rt_tags rt_calls rt_line rt_col argless_pickle pk_name pk_steps].
    split; [exact H1|]. split; [exact H2|]. split; [exact H3|]. split; [apply Fc, H4|]. auto.
  - clear F. induction X as [|p t ps ts H X IH]; [constructor|]. cbn [map]. constructor; [|exact IH]. unfold calls_exact in *. cbn [argless_pickle argless_test with_calls rt_calls pk_steps]. clear -H. induction H; constructor; [reflexivity | assumption].
Qed.
(** ** Pickles of one origin *)
Lemma a_pickle f o p : pickle_rel f o p -> pickle_rel (argless f) (a_origin o) (argless_pickle p).
Proof.
  intros P. split; cbn [argless_pickle pk_nodes pk_tags pk_language pk_name pk_steps].
  - exact (pr_nodes _ _ _ P).
  - rewrite (pr_tags _ _ _ P). f_equal. unfold origin_tags. cbn [argless fe_tags a_origin o_rule o_scenario o_row argless_scenario sc_tags]. destruct (o_rule o); reflexivity.
  - exact (pr_lang _ _ _ P).
  - exact (pr_name _ _ _ P).
  - rewrite map_map. transitivity (map ps_nodes (pk_steps p)); [reflexivity|]. rewrite (pr_snodes _ _ _ P). unfold step_nodes. rewrite a_inherited. cbn [a_origin o_scenario o_row argless_scenario sc_steps]. rewrite !map_map. reflexivity.
  - rewrite map_map. transitivity (map ps_type (pk_steps p)); [reflexivity|]. rewrite (pr_types _ _ _ P), a_steps, map_map. reflexivity.
  - destruct (pr_steps _ _ _ P) as [p1 [p2 [E [H1 H2]]]]. rewrite E, map_app, a_inherited. do 2 eexists. split; [reflexivity|]. cbn [a_origin o_scenario argless_scenario sc_steps].
    assert (G : forall v w L Q, Forall2 (step_rel v w) L Q -> Forall2 (step_rel v w) (map argless_step L) (map (fun q => mkPs (ps_nodes q) (ps_id q) (ps_type q) (ps_text q) None) Q)).
    { intros v w L Q F. induction F as [|st q L Q H F IH]; [constructor|]. cbn [map]. constructor; [|exact IH]. destruct H as [H _]. split; [exact H | constructor]. }
    split; apply G; assumption.
Qed.
Lemma f2_texts v w v' w' L L' Q Q' : map cell_value v = map cell_value v' -> map cell_value w = map cell_value w' -> map step_essence L = map step_essence L' -> Forall2 (step_rel v w) L Q -> Forall2 (step_rel v' w') L' Q' ->
  map (fun q => (ps_text q, ps_arg q)) Q = map (fun q => (ps_text q, ps_arg q)) Q'.
Proof.
  intros Ev Ew E F. revert L' Q' E. induction F as [|st q L Q H F IH]; intros [|st' L'] Q' E F'; inversion F' as [|? q' ? Q2 H' F2]; subst; try discriminate E; [reflexivity|]. cbn [map] in *. destruct (step_rel_fun v w v' w' Ev Ew st st' q q' ltac:(congruence) H H') as [-> ->]. f_equal. apply (IH L'); [congruence | exact F2].
Qed.
Lemma zip_eq {A B C} (t : A -> B) (u : A -> C) (x y : list A) : map t x = map t y -> map u x = map u y -> map (fun q => (t q, u q)) x = map (fun q => (t q, u q)) y.
Proof. revert y. induction x as [|a x IH]; intros [|b y] E1 E2; try discriminate E1; [reflexivity|]. cbn [map] in *. f_equal; [congruence | apply IH; congruence]. Qed.
(** the same values in the row *)
Lemma row_values g o o' : kept_origin o' = kept_origin (g_origin g o) -> map cell_value (vars_of o) = map cell_value (vars_of o') /\ map cell_value (vals_of o) = map cell_value (vals_of o') /\ init_type o = init_type o'.
Proof.
  intros Eo. pose proof (f_equal o_row Eo) as R. cbn [kept_origin g_origin o_row] in R. unfold vars_of, vals_of, init_type. destruct (o_row o) as [[[ex h] r]|], (o_row o') as [[[ex' h'] r']|]; try discriminate R; [|auto].
  assert (A : kept_row h' = kept_row (ren_row g h)) by congruence. assert (B : kept_row r' = kept_row (ren_row g r)) by congruence. apply (f_equal values_of) in A. apply (f_equal values_of) in B. rewrite !k_row, g_values in A, B. split; [|split; [|reflexivity]]; symmetry; assumption.
Qed.
Lemma pickles_agree g f f' o o' p p' : kept f' = kept (ren_feature g f) -> kept_origin o' = kept_origin (g_origin g o) -> pickle_rel f o p -> pickle_rel f' o' p' -> pickle_essence p = pickle_essence p'.
Proof.
  intros Ef Eo P P'. destruct (row_values g o o' Eo) as [Ev [Ew Ei]]. unfold pickle_essence.
  assert (St : map kept_step (origin_steps f' o') = map kept_step (map (ren_step g) (origin_steps f o))) by (rewrite <- ko_steps, Ef, Eo, ko_steps, g_steps; reflexivity).
  assert (Se : map step_essence (origin_steps f o) = map step_essence (origin_steps f' o')) by (apply (f_equal (map step_essence)) in St; rewrite !k_steps, g_steps_e in St; auto).
  assert (Ss : map step_essence (sc_steps (o_scenario o)) = map step_essence (sc_steps (o_scenario o'))).
  { pose proof (f_equal (fun q => map step_essence (sc_steps (o_scenario q))) Eo) as Q. cbn [kept_origin g_origin o_scenario kept_scenario ren_scenario sc_steps] in Q. rewrite !k_steps, g_steps_e in Q. auto. }
  assert (Sh : map step_essence (inherited_steps f o) = map step_essence (inherited_steps f' o')) by (unfold origin_steps in Se; rewrite !map_app, Ss in Se; apply app_inv_tail in Se; exact Se).
  assert (En : pk_name p = pk_name p').
  { destruct (pr_name _ _ _ P) as [n [N1 N2]], (pr_name _ _ _ P') as [n' [N1' N2']]. pose proof (f_equal (fun q => sc_name (o_scenario q)) Eo) as Q. cbn [kept_origin g_origin o_scenario kept_scenario ren_scenario sc_name] in Q. assert (n' = n) by congruence. subst n'. apply (same_text _ _ _ _ Ev Ew n); assumption. }
  assert (El : pk_language p = pk_language p').
  { pose proof (pr_lang _ _ _ P) as Q. pose proof (pr_lang _ _ _ P') as Q'. pose proof (f_equal fe_language Ef) as L. cbn [kept ren_feature fe_language] in L. congruence. }
  assert (Et : map pt_name (pk_tags p) = map pt_name (pk_tags p')).
  { rewrite (pr_tags _ _ _ P), (pr_tags _ _ _ P'), !map_map. cbn [pt_name]. unfold origin_tags. rewrite !map_app. f_equal.
    - pose proof (f_equal (fun x => names_of (fe_tags x)) Ef) as Q. cbn [kept fe_tags ren_feature] in Q. rewrite !k_tags, g_names in Q. symmetry. exact Q.
    - rewrite <- !map_app. pose proof (ko_lower o') as Q1. pose proof (ko_lower (g_origin g o)) as Q2. rewrite Eo, Q2 in Q1. pose proof (g_lower g o) as Q3. unfold names_of in Q3. rewrite Q3 in Q1. exact Q1. }
  assert (Ty : map ps_type (pk_steps p) = map ps_type (pk_steps p')).
  { rewrite (pr_types _ _ _ P), (pr_types _ _ _ P'), Ei. apply (f_equal (types_from (init_type o'))). apply (f_equal (map (fun e => fst (fst e)))) in Se. rewrite !map_map in Se. exact Se. }
  assert (Tx : map (fun q => (ps_text q, ps_arg q)) (pk_steps p) = map (fun q => (ps_text q, ps_arg q)) (pk_steps p')).
  { destruct (pr_steps _ _ _ P) as [p1 [p2 [E [H1 H2]]]], (pr_steps _ _ _ P') as [p1' [p2' [E' [H1' H2']]]]. rewrite E, E', !map_app. f_equal; [exact (f2_texts [] [] [] [] _ _ _ _ eq_refl eq_refl Sh H1 H1') | exact (f2_texts _ _ _ _ _ _ _ _ Ev Ew Ss H2 H2')]. }
  f_equal; [congruence|]. pose proof (zip_eq _ _ _ _ Ty Tx) as Z. apply (f_equal (map (fun e => (fst e, fst (snd e), snd (snd e))))) in Z. rewrite !map_map in Z. exact Z.
Qed.
(** ** Calls *)
Section Args.
Context (pr : char -> bool) (v w v' w' : list cell) (Ev : map cell_value v = map cell_value v') (Ew : map cell_value w = map cell_value w').
Lemma args_agree L Q C : Forall2 (step_rel v w) L Q -> Forall2 (exact_args pr) Q C -> forall L' Q' C', Forall2 (step_rel v' w') L' Q' -> Forall2 (exact_args pr) Q' C' -> length L = length L' ->
  Forall2 (fun y y' : step * rcall => argument_essence (st_arg (fst y)) = argument_essence (st_arg (fst y')) -> rc_args (snd y') = rc_args (snd y)) (combine L C) (combine L' C').
Proof.
  intros F. revert C. induction F as [|st q L Q H F IH]; intros C X [|st' L'] Q' C' F' X' Len; try discriminate Len; [constructor|].
  inversion F' as [|? q' ? Q2 H' F2]; subst. inversion X as [|? c ? C2 X1 X2]; subst. inversion X' as [|? c' ? C2' X1' X2']; subst. cbn [combine]. constructor; [|apply (IH _ X2 _ _ _ F2 X2'); now injection Len].
  cbn [fst snd]. intros E. destruct H as [_ A], H' as [_ A']. pose proof (arg_rel_fun v w v' w' Ev Ew _ _ _ _ E A A') as Z. unfold exact_args in *. congruence.
Qed.
End Args.
Lemma combine_split {A B} (a a' : list A) (b b' : list B) : length a = length b -> combine (a ++ a') (b ++ b') = combine a b ++ combine a' b'.
Proof. revert b. induction a as [|x a IH]; intros [|y b] E; try discriminate E; [reflexivity|]. cbn [app combine]. f_equal. apply IH. now injection E. Qed.
Lemma f2_cat {A B} (R : A -> B -> Prop) a a' b b' : Forall2 R a b -> Forall2 R a' b' -> Forall2 R (a ++ a') (b ++ b').
Proof. induction 1; intros; [assumption | constructor; auto]. Qed.
Lemma origin_args pr f f' o o' p p' t t' : map cell_value (vars_of o) = map cell_value (vars_of o') -> map cell_value (vals_of o) = map cell_value (vals_of o') ->
  length (inherited_steps f o) = length (inherited_steps f' o') -> length (sc_steps (o_scenario o)) = length (sc_steps (o_scenario o')) ->
  pickle_rel f o p -> pickle_rel f' o' p' -> calls_exact pr p t -> calls_exact pr p' t' -> same_args_kept f f' (o, t) (o', t').
Proof.
  intros Ev Ew L1 L2 P P' X X'. unfold same_args_kept, calls_exact, origin_steps in *. cbn [fst snd]. destruct (pr_steps _ _ _ P) as [p1 [p2 [E [H1 H2]]]], (pr_steps _ _ _ P') as [p1' [p2' [E' [H1' H2']]]]. rewrite E in X. rewrite E' in X'.
  apply Forall2_app_inv_l in X as [c1 [c2 [X1 [X2 ->]]]]. apply Forall2_app_inv_l in X' as [c1' [c2' [X1' [X2' ->]]]].
  pose proof (f2_len _ _ _ H1) as M1. pose proof (f2_len _ _ _ H1') as M1'. pose proof (f2_len _ _ _ X1) as N1. pose proof (f2_len _ _ _ X1') as N1'.
  rewrite !combine_split by congruence. apply f2_cat; [exact (args_agree pr [] [] [] [] eq_refl eq_refl _ _ _ H1 X1 _ _ _ H1' X1' L1) | exact (args_agree pr _ _ _ _ Ev Ew _ _ _ H2 X2 _ _ _ H2' X2' L2)].
Qed.
Lemma but_args g : forall ts ts', map argless_test ts' = map (ren_test g) (map argless_test ts) -> Forall2 (test_but_args g) ts ts'.
Proof.
  assert (Gc : forall cs cs', map (with_args []) cs' = map (ren_call g) (map (with_args []) cs) -> Forall2 (fun c c' => c' = with_args (rc_args c') (ren_call g c)) cs cs').
  { induction cs as [|c cs IH]; intros [|c' cs'] E; try discriminate E; [constructor|]. cbn [map] in E. constructor; [|apply IH; congruence]. assert (Q : with_args [] c' = ren_call g (with_args [] c)) by congruence.
    destruct c as [a1 a2 a3 a4], c' as [b1 b2 b3 b4]. unfold with_args, ren_call in *. cbn [rc_name rc_args rc_line rc_col] in *. congruence. }
  induction ts as [|t ts IH]; intros [|t' ts'] E; try discriminate E; [constructor|]. cbn [map] in E. constructor; [|apply IH; congruence]. assert (Q : argless_test t' = ren_test g (argless_test t)) by congruence.
  destruct t as [a1 a2 a3 a4 a5 a6], t' as [b1 b2 b3 b4 b5 b6]. unfold test_but_args, argless_test, with_calls, ren_test in *. cbn [rt_name rt_doc rt_tags rt_calls rt_line rt_col] in *. injection Q as Q1 Q2 Q3 Q4 Q5 Q6. split; [congruence | now apply Gc].
Qed.

(** C97.  Two files (classic or Markdown) whose features differ at most in the tables and doc strings of their steps, in what [kept] leaves out, and in that the line [n]
    of the one is the line [g n] of the other.  If both give suites, the suites differ in arguments of calls and in that the lines are moved in the same way, but in
    nothing else; and calls of steps whose arguments say the same have the same arguments. *)
Theorem C97_arguments_only : forall printable g name name' content content' dir d d' f f' x k x' k',
  read_file name content = Ok d -> read_file name' content' = Ok d' -> gd_feature d = Some f -> gd_feature d' = Some f' -> same_but_args g f f' ->
  build_gherkin_model printable name content dir = Ok (RSuite x, k) -> build_gherkin_model printable name' content' dir = Ok (RSuite x', k') ->
  k = fe_name f /\ k' = fe_name f' /\ same_settings x x' /\ Forall2 (test_but_args g) (rs_tests x) (rs_tests x') /\
  Forall2 (same_args_kept f f') (combine (origins d) (rs_tests x)) (combine (origins d') (rs_tests x')).
Proof.
  intros pr g name name' content content' dir d d' f f' x k x' k' R R' F F' E W W'. pose proof (build_eq pr name content dir) as B. pose proof (build_eq pr name' content' dir) as B'. rewrite R, F in B. rewrite R', F' in B'.
  destruct (compile d 0) as [[ps i]|e] eqn:C; [|congruence]. destruct (compile d' 0) as [[ps' i']|e'] eqn:C'; [|congruence].
  destruct B as [su [W1 [S1 [S2 S3]]]], B' as [su' [W1' [S1' [S2' S3']]]]. assert (su = x) by congruence. assert (su' = x') by congruence. subst su su'. split; [congruence|]. split; [congruence|].
  destruct (compile_pickles d f 0 ps i F C) as [Pr _]. destruct (compile_pickles d' f' 0 ps' i' F' C') as [Pr' _].
  pose proof E as E0. unfold same_but_args in E0. rewrite a_ren in E0.
  assert (Oo : map kept_origin (map a_origin (feature_origins f')) = map (fun o => kept_origin (g_origin g (a_origin o))) (feature_origins f)) by (rewrite <- a_fo, <- ko_origins, E0, ko_origins, g_fo, a_fo, !map_map; reflexivity).
  unfold origins in *. rewrite F in *. rewrite F' in *.
  assert (G : map pickle_essence (map argless_pickle ps) = map pickle_essence (map argless_pickle ps') /\
    Forall2 (same_args_kept f f') (combine (feature_origins f) (rs_tests x)) (combine (feature_origins f') (rs_tests x'))).
  { clear - E0 Oo Pr Pr' S3 S3'. revert Oo Pr Pr' S3 S3'. generalize (feature_origins f) (feature_origins f') (rs_tests x) (rs_tests x'). intros os os' ts ts' Oo Pr. revert os' ps' ts ts' Oo. induction Pr as [|o p os ps P Pr IH]; intros [|o' os'] ps' ts ts' Oo Pr' S3 S3'; try discriminate Oo.
    - inversion Pr'; subst. inversion S3; subst. split; [reflexivity | constructor].
    - inversion Pr' as [|? p' ? ps2' P' Pr2']; subst. inversion S3 as [|? t ? ts2 X X2]; subst. inversion S3' as [|? t' ? ts2' X' X2']; subst. cbn [map] in Oo. assert (O1 : kept_origin (a_origin o') = kept_origin (g_origin g (a_origin o))) by congruence.
      destruct (IH os' ps2' ts2 ts2' ltac:(congruence) Pr2' X2 X2') as [I1 I2]. cbn [map combine]. split; [f_equal; [|exact I1]; apply (pickles_agree g (argless f) (argless f') (a_origin o) (a_origin o')); auto using a_pickle|]. constructor; [|exact I2].
      destruct (row_values g _ _ O1) as [Ev [Ew _]]. assert (St : length (origin_steps f' o') = length (origin_steps f o)).
      { pose proof (ko_steps (argless f') (a_origin o')) as Z. rewrite E0, O1, ko_steps, g_steps, !a_steps in Z. apply (f_equal (@length _)) in Z. rewrite !map_length in Z. auto. }
      assert (Ss : length (sc_steps (o_scenario o')) = length (sc_steps (o_scenario o))).
      { pose proof (f_equal (fun q => length (sc_steps (o_scenario q))) O1) as Q. cbn [kept_origin g_origin a_origin o_scenario kept_scenario ren_scenario argless_scenario sc_steps] in Q. rewrite !map_length in Q. exact Q. }
      unfold origin_steps in St. rewrite !app_length in St. apply (origin_args pr f f' o o' p p' t t'); auto; lia. }
  destruct G as [G1 G2]. destruct S1 as [A1 [A2 [A3 [A4 A5]]]], S1' as [A1' [A2' [A3' [A4' A5']]]].
  assert (Tg : map tag_name (fe_tags f') = map tag_name (fe_tags f)).
  { pose proof (f_equal (fun x => names_of (fe_tags x)) E0) as Q. cbn [kept argless fe_tags ren_feature] in Q. rewrite !k_tags in Q. rewrite g_names in Q. exact Q. }
  assert (De : fe_desc f' = fe_desc f) by (pose proof (f_equal fe_desc E0) as Q; exact Q).
  assert (TT : rs_test_tags x' = rs_test_tags x) by (apply cons_inj; now rewrite A4, A4'). split; [|split; [|exact G2]].
  - split; [now rewrite A1, A1', De|]. split; [congruence|]. split; [congruence|]. split; [|exact TT]. rewrite A5, A5', TT. destruct (fe_tags f), (fe_tags f'); try discriminate Tg; reflexivity.
  - apply but_args. apply (tests_placed g pr (argless f) (argless f') _ _ _ (a_cert pr f _ _ _ (Logic.conj S2 S3)) _ _ _ (a_cert pr f' _ _ _ (Logic.conj S2' S3'))); [now apply a_views | exact G1].
Qed.
Print Assumptions C97_arguments_only.
(** C97.  Both give suites if the headers of the examples of one of them have no special characters of regular expressions. *)
Theorem C97_suites : forall printable g name name' content content' dir d d' f f',
  read_file name content = Ok d -> read_file name' content' = Ok d' -> gd_feature d = Some f -> gd_feature d' = Some f' -> same_but_args g f f' -> plain_headers d ->
  exists x x', build_gherkin_model printable name content dir = Ok (RSuite x, fe_name f) /\ build_gherkin_model printable name' content' dir = Ok (RSuite x', fe_name f').
Proof.
  intros pr g name name' content content' dir d d' f f' R R' F F' E Ph. pose proof E as E0. unfold same_but_args in E0. rewrite a_ren in E0.
  assert (Oo : map kept_origin (map a_origin (feature_origins f')) = map (fun o => kept_origin (g_origin g (a_origin o))) (feature_origins f)) by (rewrite <- a_fo, <- ko_origins, E0, ko_origins, g_fo, a_fo, !map_map; reflexivity).
  assert (Ph' : plain_headers d').
  { unfold plain_headers, origins in *. rewrite F in Ph. rewrite F'. clear - Oo Ph. revert Oo. generalize (feature_origins f'). induction Ph as [|o os H Ph IH]; intros [|o' os'] Oo; try discriminate Oo; [constructor|]. cbn [map] in Oo. constructor; [|apply IH; congruence].
    assert (O1 : kept_origin (a_origin o') = kept_origin (g_origin g (a_origin o))) by congruence. destruct (row_values g _ _ O1) as [Ev _]. rewrite header_cells in *. unfold vars_of in *. cbn [a_origin o_row] in Ev. rewrite <- Ev. exact H. }
  assert (Q : forall name content d f, read_file name content = Ok d -> gd_feature d = Some f -> plain_headers d -> exists x, build_gherkin_model pr name content dir = Ok (RSuite x, fe_name f)).
  { clear. intros name content d f R F Ph. pose proof (build_eq pr name content dir) as B. rewrite R, F in B. assert (C : exists ps i, compile d 0 = Ok (ps, i)) by (unfold read_file in R; eapply C28_plain_headers; [| |exact Ph]; [|exact R]; apply en_supported).
    destruct C as [ps [i C]]. rewrite C in B. destruct B as [su [B _]]. eauto. }
  destruct (Q name content d f R F Ph) as [x Hx], (Q name' content' d' f' R' F' Ph') as [x' Hx']. eauto.
Qed.
Print Assumptions C97_suites.

(** ** A concrete case: a doc string is shorter, a table is gone, and a step has got a table *)
Definition c97_one : str := text_of_lines [s "Feature: f"; s "  Background:"; s "    Given b"; s "      | k |"; s "      | 1 |"; s "  Scenario Outline: o"; s "    When <x>"; s "```"; s "one <x>"; s "two"; s "```"; s "    Then y"; s "    Examples:"; s "      | x |"; s "      | 7 |"].
Definition c97_two : str := text_of_lines [s "Feature: f"; s "  Background:"; s "    Given b"; s "      | k |"; s "      | 1 |"; s "  Scenario Outline: o"; s "    When <x>"; s "```"; s "1"; s "```"; s "    Then y"; s "      | t | u |"; s "    Examples:"; s "      | x |"; s "      | 7 |"].
Definition c97_move (n : nat) : nat := if n =? 12 then 11 else n.
Example C97_case : exists d d' f f', read_file (s "a.feature") c97_one = Ok d /\ read_file (s "b.feature") c97_two = Ok d' /\ gd_feature d = Some f /\ gd_feature d' = Some f' /\ same_but_args c97_move f f' /\ kept f <> kept f' /\ plain_headers d.
Proof.
  do 4 eexists. split; [vm_compute; reflexivity|]. split; [vm_compute; reflexivity|]. split; [reflexivity|]. split; [reflexivity|]. split; [vm_compute; reflexivity|]. split; [intros H; vm_compute in H; discriminate H|].
  unfold plain_headers. cbn. repeat (first [apply Forall_nil | apply Forall_cons; cbn | apply plain_word; vm_compute; reflexivity]).
Qed.
Definition c97_calls (text : str) : list (str * list (str * nat * nat)) :=
  match build_gherkin_model (fun _ => true) (s "a.feature") text None with Ok (RSuite su, _) => map (fun t => (rt_name t, map (fun c => (rc_name c, length (rc_args c), rc_line c)) (rt_calls t))) (rs_tests su) | _ => [] end.
Example C97_case_suites : c97_calls c97_one = [(s "o x = 7", [(s "Given b", 1, 3); (s "When 7", 1, 7); (s "Then y", 0, 12)])] /\ c97_calls c97_two = [(s "o x = 7", [(s "Given b", 1, 3); (s "When 7", 1, 7); (s "Then y", 1, 11)])].
Proof. split; vm_compute; reflexivity. Qed.
