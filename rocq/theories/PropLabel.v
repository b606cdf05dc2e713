(** * Tags influence nothing but tags: C93 *)
From Verif Require Import PyStr PyStrFacts Types Regex Line DialectData Matcher Ast Parser Compiler Scan LineSpec LangSpec LangFacts DocSpec PartsSpec PropLine PropParse PropDoc PropDocString PickleSpec PickleFacts PickleTotal WfDoc PropMdParse PropCompile Glob Robot RobotSpec SuiteSpec RobotFacts PropRobot WriteSpec WriteRead PropWrite EssenceSpec EssenceFacts PropEssence PropAppend MiddleSpec Renumber Units PropMiddle ExampleSpec ExampleChange PropExampleRow PartSpec PartChange PropScenarioTags TitleSpec PropView LabelSpec.
Import PickleSpec WriteSpec.

(** ** Origins, views *)
Definition s_origin (o : origin) : origin :=
  mkOrigin (option_map tagless_rule (o_rule o)) (tagless_scenario (o_scenario o)) (match o_row o with Some (ex, h, r) => Some (tagless_examples ex, h, r) | None => None end).
Lemma s_fo f : feature_origins (tagless f) = map s_origin (feature_origins f).
Proof.
  apply (fo_map tagless tagless_rule tagless_scenario); try reflexivity. intros ru sc. unfold scenario_origins. cbn [tagless_scenario sc_examples].
  assert (G : forall l, flat_map (examples_origins (option_map tagless_rule ru) (tagless_scenario sc)) (map tagless_examples l) = map s_origin (flat_map (examples_origins ru sc) l)).
  { induction l as [|e l IH]; [reflexivity|]. cbn [map flat_map]. rewrite IH, map_app. f_equal. unfold examples_origins. cbn [tagless_examples ex_header ex_body]. destruct (ex_header e); [|reflexivity]. now rewrite map_map. }
  destruct (sc_examples sc) as [|e es]; [reflexivity|]. exact (G (e :: es)).
Qed.
Lemma s_steps f o : origin_steps (tagless f) (s_origin o) = origin_steps f o.
Proof. unfold origin_steps, inherited_steps. cbn [tagless s_origin o_scenario o_rule fe_background tagless_scenario sc_steps]. destruct (o_rule o); reflexivity. Qed.
Lemma s_columns o : columns (s_origin o) = columns o.
Proof. unfold columns. cbn [s_origin o_row]. destruct (o_row o) as [[[ex h] r]|]; reflexivity. Qed.
Lemma k_view f o : pview (kept f) (kept_origin o) = pview f o.
Proof.
  unfold pview, o_view, names_of. rewrite ko_columns, ko_lower, ko_steps, !map_map. cbn [kept_origin o_scenario kept_scenario sc_desc sc_loc o_row]. f_equal. f_equal. f_equal. f_equal. f_equal. f_equal. destruct (o_row o) as [[[ex h] r]|]; reflexivity.
Qed.
Lemma s_ren_examples g x : tagless_examples (ren_examples g x) = ren_examples g (tagless_examples x).
Proof. reflexivity. Qed.
Lemma s_ren_scenario g x : tagless_scenario (ren_scenario g x) = ren_scenario g (tagless_scenario x).
Proof. unfold tagless_scenario, ren_scenario. cbn [sc_id sc_tags sc_loc sc_keyword sc_name sc_desc sc_steps sc_examples map]. f_equal. rewrite !map_map. reflexivity. Qed.
Lemma s_ren_scenarios g l : map tagless_scenario (map (ren_scenario g) l) = map (ren_scenario g) (map tagless_scenario l).
Proof. rewrite !map_map. apply map_ext, s_ren_scenario. Qed.
Lemma s_ren_rule g x : tagless_rule (ren_rule g x) = ren_rule g (tagless_rule x).
Proof. unfold tagless_rule, ren_rule. cbn [ru_id ru_tags ru_loc ru_keyword ru_name ru_desc ru_background ru_scenarios map]. f_equal. apply s_ren_scenarios. Qed.
Lemma s_ren g f : tagless (ren_feature g f) = ren_feature g (tagless f).
Proof.
  unfold tagless, ren_feature. cbn [fe_tags fe_loc fe_language fe_keyword fe_name fe_desc fe_background fe_scenarios fe_rules map]. f_equal; [apply s_ren_scenarios|]. rewrite !map_map. apply map_ext, s_ren_rule.
Qed.
Lemma s_views g f f' : same_but_tags g f f' -> map (pview (tagless f')) (map s_origin (feature_origins f')) = map (ren_view g) (map (pview (tagless f)) (map s_origin (feature_origins f))).
Proof.
  unfold same_but_tags. intros E. rewrite s_ren in E. rewrite <- !s_fo. assert (K : forall x, map (pview x) (feature_origins x) = map (pview (kept x)) (feature_origins (kept x))) by (intros x; rewrite ko_origins, map_map; apply map_ext; intros o; symmetry; apply k_view).
  rewrite (K (tagless f')), E, <- K, g_fo, !map_map. apply map_ext. intros o. apply g_view.
Qed.

(** ** Pickles *)
Lemma s_ocompile f lang o i : umap (ocompile (tagless f) lang (s_origin o) i) = umap (ocompile f lang o i).
Proof.
  unfold ocompile. cbn [s_origin o_row o_rule o_scenario tagless fe_tags fe_background].
  assert (Rb : rule_bg (option_map tagless_rule (o_rule o)) = rule_bg (o_rule o)) by (destruct (o_rule o); reflexivity). rewrite Rb.
  destruct (o_row o) as [[[ex h] r]|].
  - unfold compile_row. cbn [tagless_scenario sc_steps sc_name sc_id]. repeat (match goal with |- context [rbind ?x _] => destruct x as [|]; cbn [rbind fst snd umap]; [|reflexivity] end || match goal with |- context [let '(_, _) := ?p in _] => destruct p end || reflexivity).
  - unfold compile_scenario. cbn [tagless_scenario sc_steps sc_name sc_id]. repeat (match goal with |- context [rbind ?x _] => destruct x as [|]; cbn [rbind fst snd umap]; [|reflexivity] end || match goal with |- context [let '(_, _) := ?p in _] => destruct p end || reflexivity).
Qed.
Lemma s_compile f lang cs cs' i : fe_language f = Some lang -> umap (compile (mkGdoc (Some (tagless f)) cs) i) = umap (compile (mkGdoc (Some f) cs') i).
Proof.
  intros L. rewrite (compile_origins (mkGdoc (Some (tagless f)) cs) (tagless f) lang i eq_refl L), (compile_origins (mkGdoc (Some f) cs') f lang i eq_refl L), s_fo. apply umap_seq. intros; apply s_ocompile.
Qed.
Lemma s_essence g f f' cs cs' : same_but_tags g f f' -> essence (mkGdoc (Some (tagless f')) cs') = essence (mkGdoc (Some (tagless f)) cs).
Proof.
  unfold same_but_tags. intros E. rewrite s_ren in E. rewrite <- (essence_ren g (mkGdoc (Some (tagless f)) cs)). apply kept_essence. cbn [gd_feature ren_gdoc option_map]. now rewrite E.
Qed.
Definition same_untagged (r r' : result (list pickle * nat)) : Prop :=
  match r, r' with Ok (ps, _), Ok (ps', _) => map (fun p => pickle_essence (untagged p)) ps = map (fun p => pickle_essence (untagged p)) ps' | Err e, Err e' => e = e' | _, _ => False end.
Lemma s_pickles g f f' lang d d' i i' : gd_feature d = Some f -> gd_feature d' = Some f' -> fe_language f = Some lang -> same_but_tags g f f' -> same_untagged (compile d i) (compile d' i').
Proof.
  intros F F' L E. pose proof (C61_pickles _ _ i i' (eq_sym (s_essence g f f' (gd_comments d) (gd_comments d') E))) as C.
  assert (L' : fe_language f' = Some lang) by (pose proof (f_equal fe_language E) as Q; cbn in Q; congruence).
  pose proof (s_compile f lang (gd_comments d) (gd_comments d) i L) as U. pose proof (s_compile f' lang (gd_comments d') (gd_comments d') i' L') as U'.
  assert (Ed : mkGdoc (Some f) (gd_comments d) = d) by (destruct d; cbn in *; congruence). assert (Ed' : mkGdoc (Some f') (gd_comments d') = d') by (destruct d'; cbn in *; congruence). rewrite Ed in U. rewrite Ed' in U'.
  assert (W : forall l l', map pickle_essence l = map pickle_essence l' -> map (fun p => pickle_essence (untagged p)) l = map (fun p => pickle_essence (untagged p)) l').
  { induction l as [|q l IH]; intros [|q' l'] H; try discriminate H; [reflexivity|]. cbn [map] in *. f_equal; [|apply IH; congruence]. assert (X : pickle_essence q = pickle_essence q') by congruence. unfold pickle_essence in *. cbn [untagged pk_name pk_language pk_tags pk_steps] in *. congruence. }
  assert (V : forall l l' : list pickle, map untagged l = map untagged l' -> map (fun p => pickle_essence (untagged p)) l = map (fun p => pickle_essence (untagged p)) l').
  { intros l l' H. rewrite <- (map_map untagged pickle_essence), H, map_map. reflexivity. }
  destruct (compile (mkGdoc (Some (tagless f)) _) i) as [[p0 j0]|e0], (compile (mkGdoc (Some (tagless f')) _) i') as [[p1 j1]|e1]; try contradiction C; destruct (compile d i) as [[p2 j2]|e2]; try discriminate U; destruct (compile d' i') as [[p3 j3]|e3]; try discriminate U'; cbn [umap] in *; cbn [same_untagged].
  - rewrite <- (V p0 p2), <- (V p1 p3) by congruence. now apply W.
  - congruence.
Qed.

(** ** Tests *)
Lemma s_cert pr f os ps ts : cert pr f os ps ts -> cert pr (tagless f) (map s_origin os) (map untagged ps) (map (with_tags []) ts).
Proof.
  intros [F X]. split.
  - clear X. induction F as [|o p t os ps ts H F IH]; [constructor|]. cbn [map]. constructor; [|exact IH]. destruct H as [H1 [H2 [H3 [H4 [H5 H6]]]]]. unfold test_of. rewrite s_columns, s_steps. cbn [s_origin o_row o_scenario tagless_scenario sc_desc sc_loc untagged pk_name pk_steps with_tags rt_name rt_doc rt_calls rt_line rt_col].
    split; [|split; [exact H2|]; split; [|split; [exact H4|]; split; [exact H5 | exact H6]]].
    + rewrite H1. destruct (o_row o) as [[[ex h] r]|]; reflexivity.
    + unfold test_tags, lower_tags. cbn [s_origin o_rule o_scenario o_row tagless_scenario sc_tags with_tags rt_tags]. destruct (o_rule o) as [ru|], (o_row o) as [[[ex h] r]|]; reflexivity.
  - clear F. induction X as [|p t ps ts H X IH]; [constructor|]. cbn [map]. constructor; [exact H | exact IH].
Qed.
Lemma but_tags g : forall ts ts', map (with_tags []) ts' = map (ren_test g) (map (with_tags []) ts) -> Forall2 (fun t t' => t' = with_tags (rt_tags t') (ren_test g t)) ts ts'.
Proof.
  induction ts as [|t ts IH]; intros [|t' ts'] E; try discriminate E; [constructor|]. cbn [map] in E. constructor; [|apply IH; congruence]. assert (Q : with_tags [] t' = ren_test g (with_tags [] t)) by congruence.
  destruct t as [a1 a2 a3 a4 a5 a6], t' as [b1 b2 b3 b4 b5 b6]. unfold with_tags, ren_test in *. cbn [rt_name rt_doc rt_tags rt_calls rt_line rt_col] in *. congruence.
Qed.

(** C93.  Two files (classic or Markdown) whose features differ at most in their tags, in what [kept] leaves out, and in that the line [n] of the one is the line [g n]
    of the other: both give suites or both give the same failure, and the suites differ in tags and in that the lines are moved in the same way, but in nothing else. *)
Theorem C93_tags_only : forall printable g name name' content content' dir d d' f f',
  read_file name content = Ok d -> read_file name' content' = Ok d' -> gd_feature d = Some f -> gd_feature d' = Some f' -> same_but_tags g f f' ->
  match build_gherkin_model printable name content dir, build_gherkin_model printable name' content' dir with
  | Ok (RSuite x, n), Ok (RSuite x', n') => suite_but_tags g x x' /\ n = fe_name f /\ n' = fe_name f'
  | Ok (RErrors l, n), Ok (RErrors l', n') => l = l' /\ n = n'
  | _, _ => False
  end.
Proof.
  intros pr g name name' content content' dir d d' f f' R R' F F' E. pose proof (build_eq pr name content dir) as B. pose proof (build_eq pr name' content' dir) as B'. rewrite R, F in B. rewrite R', F' in B'.
  assert (L : exists lang, fe_language f = Some lang).
  { assert (W : doc_wf d) by (unfold read_file in R; destruct (is_markdown name); eapply parsed_wf; try exact R; apply en_supported). unfold doc_wf in W. rewrite F in W. destruct W as [[W _] _]. exact W. }
  destruct L as [lang L]. pose proof (s_pickles g f f' lang d d' 0 0 F F' L E) as C.
  destruct (compile d 0) as [[ps i]|e], (compile d' 0) as [[ps' i']|e']; try contradiction C; cbn [same_untagged] in C; [|subst e'; now rewrite B, B'].
  destruct B as [su [-> [S1 [S2 S3]]]], B' as [su' [-> [S1' [S2' S3']]]]. split; [|auto]. destruct S1 as [A1 [A2 [A3 [A4 A5]]]], S1' as [A1' [A2' [A3' [A4' A5']]]].
  assert (De : fe_desc f' = fe_desc f) by (pose proof (f_equal fe_desc E) as Q; cbn in Q; exact Q).
  split; [now rewrite A1, A1', De|]. split; [congruence|]. split; [congruence|].
  unfold origins in S2, S2'. rewrite F in S2. rewrite F' in S2'. apply but_tags.
  apply (tests_placed g pr (tagless f) (tagless f') _ _ _ (s_cert pr f _ _ _ (Logic.conj S2 S3)) _ _ _ (s_cert pr f' _ _ _ (Logic.conj S2' S3'))); [now apply s_views|]. rewrite !map_map. exact C.
Qed.
Print Assumptions C93_tags_only.
