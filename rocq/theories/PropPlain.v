(** * Descriptions influence nothing but documentation: C95 *)
From Verif Require Import PyStr PyStrFacts Types Regex Line DialectData Matcher Ast Parser Compiler Scan LineSpec LangSpec LangFacts DocSpec PartsSpec PropLine PropParse PropDoc PropDocString PickleSpec PickleFacts PickleTotal WfDoc PropMdParse PropCompile Glob Robot RobotSpec SuiteSpec RobotFacts PropRobot WriteSpec WriteRead PropWrite EssenceSpec EssenceFacts PropEssence PropAppend MiddleSpec Renumber Units PropMiddle ExampleSpec ExampleChange PropExampleRow PartSpec PartChange PropScenarioTags TitleSpec PropView LabelSpec PropLabel ProseSpec.
Import PickleSpec WriteSpec.

Definition d_origin (o : origin) : origin := mkOrigin (option_map proseless_rule (o_rule o)) (proseless_scenario (o_scenario o)) (o_row o).
Lemma d_fo f : feature_origins (proseless f) = map d_origin (feature_origins f).
Proof.
  apply (fo_map proseless proseless_rule proseless_scenario); try reflexivity. intros ru sc. unfold scenario_origins. cbn [proseless_scenario sc_examples].
  assert (G : forall l, flat_map (examples_origins (option_map proseless_rule ru) (proseless_scenario sc)) l = map d_origin (flat_map (examples_origins ru sc) l)).
  { induction l as [|e l IH]; [reflexivity|]. cbn [flat_map]. rewrite IH, map_app. f_equal. unfold examples_origins. destruct (ex_header e); [|reflexivity]. now rewrite map_map. }
  destruct (sc_examples sc) as [|e es]; [reflexivity|]. exact (G (e :: es)).
Qed.
Lemma d_steps f o : origin_steps (proseless f) (d_origin o) = origin_steps f o.
Proof. unfold origin_steps, inherited_steps. cbn [proseless d_origin o_scenario o_rule fe_background proseless_scenario sc_steps]. destruct (o_rule o); reflexivity. Qed.
Lemma d_lower o : lower_tags (d_origin o) = lower_tags o.
Proof. unfold lower_tags. cbn [d_origin o_rule o_scenario o_row proseless_scenario sc_tags]. destruct (o_rule o); reflexivity. Qed.
Lemma d_ren_scenario g x : proseless_scenario (ren_scenario g x) = ren_scenario g (proseless_scenario x).
Proof. reflexivity. Qed.
Lemma d_ren_scenarios g l : map proseless_scenario (map (ren_scenario g) l) = map (ren_scenario g) (map proseless_scenario l).
Proof. rewrite !map_map. reflexivity. Qed.
Lemma d_ren g f : proseless (ren_feature g f) = ren_feature g (proseless f).
Proof.
  unfold proseless, ren_feature. cbn [fe_tags fe_loc fe_language fe_keyword fe_name fe_desc fe_background fe_scenarios fe_rules]. f_equal; [apply d_ren_scenarios|]. rewrite !map_map. apply map_ext. intros r. unfold proseless_rule, ren_rule. cbn [ru_id ru_tags ru_loc ru_keyword ru_name ru_desc ru_background ru_scenarios]. f_equal. apply d_ren_scenarios.
Qed.
Lemma d_views g f f' : same_but_prose g f f' -> map (pview (proseless f')) (map d_origin (feature_origins f')) = map (ren_view g) (map (pview (proseless f)) (map d_origin (feature_origins f))).
Proof.
  unfold same_but_prose. intros E. rewrite d_ren in E. rewrite <- !d_fo. assert (K : forall x, map (pview x) (feature_origins x) = map (pview (kept x)) (feature_origins (kept x))) by (intros x; rewrite ko_origins, map_map; apply map_ext; intros o; symmetry; apply k_view).
  rewrite (K (proseless f')), E, <- K, g_fo, !map_map. apply map_ext. intros o. apply g_view.
Qed.
Lemma d_essence_f f : feature_essence (proseless f) = feature_essence f.
Proof.
  assert (Hs : forall l, map scenario_essence (map proseless_scenario l) = map scenario_essence l) by (intros l; rewrite map_map; reflexivity).
  unfold feature_essence. cbn [proseless fe_tags fe_language fe_background fe_scenarios fe_rules]. rewrite Hs. f_equal. rewrite map_map. apply map_ext. intros r. unfold rule_essence. cbn [proseless_rule ru_tags ru_background ru_scenarios]. now rewrite Hs.
Qed.
Lemma d_essence g d d' f f' : gd_feature d = Some f -> gd_feature d' = Some f' -> same_but_prose g f f' -> essence d = essence d'.
Proof.
  unfold same_but_prose. intros F F' E. rewrite d_ren in E. assert (Q : essence (ren_gdoc g (mkGdoc (Some (proseless f)) [])) = essence (mkGdoc (Some (proseless f')) [])) by (apply kept_essence; cbn [gd_feature ren_gdoc option_map]; now rewrite E).
  rewrite essence_ren in Q. unfold essence in *. rewrite F, F'. cbn [gd_feature option_map] in Q |- *. rewrite !d_essence_f in Q. exact Q.
Qed.
Lemma d_cert pr f os ps ts : cert pr f os ps ts -> cert pr (proseless f) (map d_origin os) ps (map (with_doc None) ts).
Proof.
  intros [F X]. split.
  - clear X. induction F as [|o p t os ps ts H F IH]; [constructor|]. cbn [map]. constructor; [|exact IH]. destruct H as [H1 [H2 [H3 [H4 [H5 H6]]]]]. unfold test_of, test_tags in *. rewrite d_steps, d_lower. cbn [d_origin o_row o_scenario proseless_scenario sc_desc sc_loc with_doc rt_name rt_doc rt_tags rt_calls rt_line rt_col].
    split; [exact H1|]. split; [reflexivity|]. auto.
  - clear F. induction X as [|p t ps ts H X IH]; [constructor|]. cbn [map]. constructor; [exact H | exact IH].
Qed.
Lemma but_docs g : forall ts ts', map (with_doc None) ts' = map (ren_test g) (map (with_doc None) ts) -> Forall2 (fun t t' => t' = with_doc (rt_doc t') (ren_test g t)) ts ts'.
Proof.
  induction ts as [|t ts IH]; intros [|t' ts'] E; try discriminate E; [constructor|]. cbn [map] in E. constructor; [|apply IH; congruence]. assert (Q : with_doc None t' = ren_test g (with_doc None t)) by congruence.
  destruct t as [a1 a2 a3 a4 a5 a6], t' as [b1 b2 b3 b4 b5 b6]. unfold with_doc, ren_test in *. cbn [rt_name rt_doc rt_tags rt_calls rt_line rt_col] in *. congruence.
Qed.

(** C95.  Two files (classic or Markdown) whose features differ at most in their descriptions, in what [kept] leaves out, and in that the line [n] of the one is the line
    [g n] of the other: both give suites or both give the same failure, and the suites differ in documentation and in that the lines are moved in the same way, but in
    nothing else.  The documentation of a test is the description of its scenario, that of the suite the description of the feature. *)
Theorem C95_docs_only : forall printable g name name' content content' dir d d' f f',
  read_file name content = Ok d -> read_file name' content' = Ok d' -> gd_feature d = Some f -> gd_feature d' = Some f' -> same_but_prose g f f' ->
  match build_gherkin_model printable name content dir, build_gherkin_model printable name' content' dir with
  | Ok (RSuite x, n), Ok (RSuite x', n') => suite_but_docs g x x' /\ n = fe_name f /\ n' = fe_name f' /\
      rs_doc x' = (match strip (fe_desc f') with [] => None | w => Some w end) /\
      Forall2 (fun o t => rt_doc t = match sc_desc (o_scenario o) with [] => None | w => Some (strip w) end) (origins d') (rs_tests x')
  | Ok (RErrors l, n), Ok (RErrors l', n') => l = l' /\ n = n'
  | _, _ => False
  end.
Proof.
  intros pr g name name' content content' dir d d' f f' R R' F F' E. pose proof (build_eq pr name content dir) as B. pose proof (build_eq pr name' content' dir) as B'. rewrite R, F in B. rewrite R', F' in B'.
  pose proof (C61_pickles d d' 0 0 (d_essence g d d' f f' F F' E)) as C.
  destruct (compile d 0) as [[ps i]|e], (compile d' 0) as [[ps' i']|e']; try contradiction C; [|subst e'; now rewrite B, B'].
  destruct B as [su [-> [S1 [S2 S3]]]], B' as [su' [-> [S1' [S2' S3']]]]. destruct S1 as [A1 [A2 [A3 [A4 A5]]]], S1' as [A1' [A2' [A3' [A4' A5']]]].
  assert (Tg : map tag_name (fe_tags f') = map tag_name (fe_tags f)).
  { pose proof (f_equal (fun x => names_of (fe_tags x)) E) as Q. cbn [kept proseless fe_tags ren_feature] in Q. rewrite !k_tags in Q. rewrite g_names in Q. exact Q. }
  assert (TT : rs_test_tags su' = rs_test_tags su) by (apply cons_inj; now rewrite A4, A4'). split; [|split; [auto|]; split; [auto|]; split; [exact A1'|]].
  - split; [congruence|]. split; [congruence|]. split; [|split; [exact TT|]].
    + rewrite A5, A5', TT. destruct (fe_tags f), (fe_tags f'); try discriminate Tg; reflexivity.
    + unfold origins in S2, S2'. rewrite F in S2. rewrite F' in S2'. apply but_docs.
      apply (tests_placed g pr (proseless f) (proseless f') _ _ _ (d_cert pr f _ _ _ (Logic.conj S2 S3)) _ _ _ (d_cert pr f' _ _ _ (Logic.conj S2' S3'))); [now apply d_views | exact C].
  - clear - S2'. induction S2' as [|o p t os ps ts H F IH]; [constructor|]. constructor; [exact (proj1 (proj2 H)) | exact IH].
Qed.
Print Assumptions C95_docs_only.
