(** * A tag line before any title: C94 *)
From Verif Require Import PyStr PyStrFacts Types Regex Line DialectData Matcher Ast Parser Compiler Scan LineSpec LangSpec LangFacts DocSpec PartsSpec PropLine PropParse PropDoc PropDocString PickleSpec PickleFacts PickleTotal WfDoc PropMdParse PropCompile Glob Robot RobotSpec SuiteSpec RobotFacts PropRobot WriteSpec WriteRead PropWrite EssenceSpec EssenceFacts PropEssence PropAppend MiddleSpec Renumber Units PropMiddle ExampleSpec ExampleChange PropExampleRow PartSpec PartChange PropScenarioTags TitleSpec PropView PropTitle LabelSpec LabelChange PropLabel.
Import PickleSpec WriteSpec.

(** ** Lines *)
Lemma before_a_line a m b x : a_line_of a m b -> split_lines m = [x] -> In (S (line_count a)) (nums (numbered_lines (split_lines (a ++ b)))) ->
  flat_map (before_line (S (S (line_count a))) (S (line_count a), x)) (map (ren_line (moved_down (line_count a) 1)) (numbered_lines (split_lines (a ++ b)))) = numbered_lines (split_lines (a ++ m ++ b)).
Proof.
  intros [[->|E] [O H]] Sx I; [|apply before_lines; [split; auto | exact Sx | exact I]]. cbn [app] in *. change (line_count []) with 0 in *.
  destruct H as [H| ->]; [|vm_compute in I; contradiction]. rewrite lines_split by exact H. rewrite lines_after_eq by exact H. rewrite Sx. cbn [length].
  assert (G : forall l k, 0 < k -> map (ren_line (moved_down 0 1)) (combine (seq k (length l)) l) = combine (seq (S k) (length l)) l).
  { clear. induction l as [|y l IH]; intros k K; [reflexivity|]. cbn [length seq combine map]. unfold ren_line at 1. cbn [fst snd]. unfold moved_down at 1. rewrite (proj2 (Nat.ltb_lt _ _) K), Nat.add_1_r. f_equal. apply IH. lia. }
  unfold numbered_lines at 1. rewrite G by lia. unfold numbered_lines in I. destruct (split_lines b) as [|y l] eqn:Sb; [destruct I|]. cbn [length seq combine flat_map]. rewrite before_here by reflexivity. unfold numbered_lines. cbn [length seq combine app]. do 2 f_equal.
  apply (chg_still _ _ (before_other _ _)). intros K. apply in_map_iff in K as [[j z] [J K]]. cbn [fst] in J. subst j. apply in_combine_l in K. apply List.in_seq in K. lia.
Qed.

(** ** Titles *)
Lemma labelled_some n f : labelled_line n f -> label_some n f.
Proof.
  unfold label_some. intros [K|[K|[K|K]]].
  - left. exact K.
  - right. right. unfold rule_title in K. eapply Exists_impl; [|exact K]. intros r Kr. left. exact Kr.
  - unfold scenario_title, feature_scenarios in K. apply Exists_app in K as [K|K]; [right; left; eapply Exists_impl; [|exact K]; intros y Ky; left; exact Ky|]. right. right. apply (proj1 (exists_flat _ _ _)) in K. eapply Exists_impl; [|exact K]. intros r Kr. right. eapply Exists_impl; [|exact Kr]. intros y Ky. left. exact Ky.
  - apply examples_title_some in K as [K|K]; [right; left; eapply Exists_impl; [|exact K]; intros y Ky; right; exact Ky|]. right. right. eapply Exists_impl; [|exact K]. intros r Kr. right. eapply Exists_impl; [|exact Kr]. intros y Ky. right. exact Ky.
Qed.
(** the title moves with its line *)
Lemma some_moved n m (fe : feature -> feature) (fr : rule_ast -> rule_ast) (fs : scenario -> scenario) (fx : examples -> examples) f :
  (l_line (fe_loc f) = n -> l_line (fe_loc (fe f)) = m) -> (forall r, l_line (ru_loc r) = n -> l_line (ru_loc (fr r)) = m) -> (forall r, l_line (sc_loc r) = n -> l_line (sc_loc (fs r)) = m) -> (forall r, l_line (ex_loc r) = n -> l_line (ex_loc (fx r)) = m) ->
  fe_scenarios (fe f) = map fs (fe_scenarios f) -> fe_rules (fe f) = map fr (fe_rules f) -> (forall r, ru_scenarios (fr r) = map fs (ru_scenarios r)) -> (forall r, sc_examples (fs r) = map fx (sc_examples r)) ->
  label_some n f -> label_some m (fe f).
Proof.
  intros A1 A2 A3 A4 B1 B2 B3 B4.
  assert (Q : forall l, Exists (fun x => l_line (sc_loc x) = n \/ Exists (fun e => l_line (ex_loc e) = n) (sc_examples x)) l -> Exists (fun x => l_line (sc_loc x) = m \/ Exists (fun e => l_line (ex_loc e) = m) (sc_examples x)) (map fs l)).
  { intros l K. apply exists_map. eapply Exists_impl; [|exact K]. intros y [Ky|Ky]; [left; auto | right]. rewrite B4. apply exists_map. eapply Exists_impl; [|exact Ky]. auto. }
  intros [K|[K|K]]; [left; auto | right; left; rewrite B1; auto | right; right; rewrite B2]. apply exists_map. eapply Exists_impl; [|exact K]. intros r [Kr|Kr]; [left; auto | right]. rewrite B3. auto.
Qed.

(** C94.  Line [n] of a text is the title of its feature, of a rule, a scenario or examples.  Then with a tag line before it, the text is the document with these
    tags, after those it has, for that part, and with the lines from line [n] on moved down. *)
Theorem C94_document : forall stop lang a m b d f x items, supported lang -> a_line_of a m b -> split_lines m = [x] -> tags_line x items ->
  parse_with stop false lang (a ++ b) = Ok d -> gd_feature d = Some f -> let n := S (line_count a) in labelled_line n f ->
  exists d', parse_with stop false lang (a ++ m ++ b) = Ok d' /\
    no_ids d' = labels_added n (map (fun i => mkTag 0 (mkLoc n (Some (i_column i))) (i_text i)) items) (no_ids d).
Proof.
  intros stop lang a m b d f x items S H Sx T P F n K. set (k := line_count a) in *. assert (A : stands_for lang (numbered_lines (split_lines (a ++ b))) (no_ids d)) by (apply (C04_parse_iff stop lang _ _ S); eauto).
  set (tags := map (fun i => mkTag 0 (mkLoc n (Some (i_column i))) (i_text i)) items). assert (Tt : tags_at_line (n, x) tags) by (exists items; split; [exact T | reflexivity]).
  apply labelled_some in K. set (g := moved_down k 1). assert (F0 : gd_feature (no_ids d) = Some (no_id_feature f)) by (unfold no_ids; cbn [gd_feature]; now rewrite F).
  assert (K0 : label_some n (no_id_feature f)) by (apply (some_moved n n no_id_feature no_id_rule no_id_scenario no_id_examples); auto).
  assert (Gn : g n = Datatypes.S n) by (unfold g, moved_down, n; rewrite (proj2 (Nat.ltb_lt _ _) (Nat.lt_succ_diag_r _)); lia).
  assert (K1 : label_some (Datatypes.S n) (ren_feature g (no_id_feature f))).
  { apply (some_moved n (Datatypes.S n) (ren_feature g) (ren_rule g) (ren_scenario g) (ren_examples g)); auto; intros; cbn [ren_feature ren_rule ren_scenario ren_examples fe_loc ru_loc sc_loc ex_loc ren_loc l_line]; congruence. }
  assert (I : In n (nums (numbered_lines (split_lines (a ++ b))))).
  { destruct (stands_feature n (before_line n (n, x)) (before_other n (n, x)) (label_some n) (label_feature n tags) lang _ _ _ A (numbers_nodup _) F0 K0) as [[? [_ Z]]|Z]; [intros; now apply feature_label | unfold on_doc in Z; rewrite F0 in Z; discriminate Z|]. clear Z.
    destruct A as [[cs [_ Z]]|[[pre [fl [d1 [f0 [c0 [c1 [-> [_ [_ [H3 Z]]]]]]]]]]|[pre [hd [mid [fl [name [d1 [f0 [c0 [c1 [c2 [-> [_ [_ [_ [_ [H3 Z]]]]]]]]]]]]]]]]]]; rewrite Z in F0; cbn [gd_feature] in F0; [discriminate F0 | |].
    - injection F0 as ->. rewrite nums_app. apply in_or_app. right. exact (proj1 (feature_label n (n, x) tags Tt d1 lang _ _ _ H3) K0).
    - injection F0 as ->. rewrite nums_app. apply in_or_app. right. right. rewrite map_app. apply in_or_app. right. exact (proj1 (feature_label n (n, x) tags Tt d1 name _ _ _ H3) K0). }
  apply (n_stands g) in A. assert (F1 : gd_feature (ren_gdoc g (no_ids d)) = Some (ren_feature g (no_id_feature f))) by (unfold ren_gdoc; rewrite F0; reflexivity).
  pose proof (stands_feature (Datatypes.S n) (before_line (Datatypes.S n) (n, x)) (before_other _ _) (label_some (Datatypes.S n)) (label_feature (Datatypes.S n) tags) lang _ _ _ A (moved_nodup k _) F1 K1 ltac:(intros; now apply feature_label)) as B.
  unfold g, n, k in B. rewrite (before_a_line a m b x H Sx I) in B. apply (C04_parse_iff stop lang _ _ S) in B as [d' [P' E]]. exists d'. split; [exact P'|]. rewrite E. unfold labels_added, on_doc, n, k. rewrite Nat.sub_succ, Nat.sub_0_r. reflexivity.
Qed.
Print Assumptions C94_document.

(** ** Suites *)
Lemma tagless_b_scenario x : tagless_scenario (no_id_scenario x) = no_id_scenario (tagless_scenario x).
Proof. unfold tagless_scenario, no_id_scenario. cbn [sc_id sc_tags sc_loc sc_keyword sc_name sc_desc sc_steps sc_examples map]. f_equal. rewrite !map_map. reflexivity. Qed.
Lemma tagless_b f : tagless (no_id_feature f) = no_id_feature (tagless f).
Proof.
  assert (Hs : forall l, map tagless_scenario (map no_id_scenario l) = map no_id_scenario (map tagless_scenario l)) by (intros l; rewrite !map_map; apply map_ext, tagless_b_scenario).
  unfold tagless, no_id_feature. cbn [fe_tags fe_loc fe_language fe_keyword fe_name fe_desc fe_background fe_scenarios fe_rules map]. rewrite Hs. f_equal. rewrite !map_map. apply map_ext. intros r. unfold tagless_rule, no_id_rule. cbn [ru_id ru_tags ru_loc ru_keyword ru_name ru_desc ru_background ru_scenarios map]. now rewrite Hs.
Qed.
Lemma ren_no_ids g f : ren_feature g (no_id_feature f) = no_id_feature (ren_feature g f).
Proof.
  assert (Hc : forall l, map (ren_tag g) (map no_id_tag l) = map no_id_tag (map (ren_tag g) l)) by (intros l; rewrite !map_map; reflexivity).
  assert (Hr : forall l, map (ren_row g) (map no_id_row l) = map no_id_row (map (ren_row g) l)) by (intros l; rewrite !map_map; reflexivity).
  assert (Ht : forall l, map (ren_step g) (map no_id_step l) = map no_id_step (map (ren_step g) l)).
  { intros l. rewrite !map_map. apply map_ext. intros st. unfold ren_step, no_id_step. cbn [st_id st_loc st_keyword st_ktype st_text st_arg]. f_equal. destruct (st_arg st); cbn; [reflexivity | now rewrite Hr | reflexivity]. }
  assert (Hb : forall o, option_map (ren_background g) (option_map no_id_background o) = option_map no_id_background (option_map (ren_background g) o)) by (intros [b|]; [|reflexivity]; cbn [option_map]; f_equal; unfold ren_background, no_id_background; cbn [bg_id bg_loc bg_keyword bg_name bg_desc bg_steps]; now rewrite Ht).
  assert (Hs : forall l, map (ren_scenario g) (map no_id_scenario l) = map no_id_scenario (map (ren_scenario g) l)).
  { intros l. rewrite !map_map. apply map_ext. intros x. unfold ren_scenario, no_id_scenario. cbn [sc_id sc_tags sc_loc sc_keyword sc_name sc_desc sc_steps sc_examples]. rewrite Hc, Ht. f_equal. rewrite !map_map. apply map_ext. intros e. unfold ren_examples, no_id_examples. cbn [ex_id ex_tags ex_loc ex_keyword ex_name ex_desc ex_header ex_body]. rewrite Hc, Hr. f_equal. now destruct (ex_header e). }
  unfold ren_feature, no_id_feature. cbn [fe_tags fe_loc fe_language fe_keyword fe_name fe_desc fe_background fe_scenarios fe_rules]. rewrite Hc, Hb, Hs. f_equal. rewrite !map_map. apply map_ext. intros r. unfold ren_rule, no_id_rule. cbn [ru_id ru_tags ru_loc ru_keyword ru_name ru_desc ru_background ru_scenarios]. now rewrite Hc, Hb, Hs.
Qed.
Lemma tagless_label_scenario n tags x : tagless_scenario (label_scenario n tags x) = tagless_scenario x.
Proof. unfold tagless_scenario, label_scenario. cbn [sc_id sc_tags sc_loc sc_keyword sc_name sc_desc sc_steps sc_examples]. f_equal. rewrite map_map. reflexivity. Qed.
Lemma tagless_label n tags f : tagless (label_feature n tags f) = tagless f.
Proof.
  assert (Hs : forall l, map tagless_scenario (map (label_scenario n tags) l) = map tagless_scenario l) by (intros l; rewrite map_map; apply map_ext, tagless_label_scenario).
  unfold tagless, label_feature. cbn [fe_tags fe_loc fe_language fe_keyword fe_name fe_desc fe_background fe_scenarios fe_rules]. rewrite Hs. f_equal. rewrite map_map. apply map_ext. intros r. unfold tagless_rule, label_rule. cbn [ru_id ru_tags ru_loc ru_keyword ru_name ru_desc ru_background ru_scenarios]. now rewrite Hs.
Qed.
Lemma labelled_but_tags n tags g f f' : no_id_feature f' = label_feature n tags (ren_feature g (no_id_feature f)) -> same_but_tags g f f'.
Proof. intros E. unfold same_but_tags. rewrite <- (kept_no_ids (tagless f')), <- tagless_b, E, tagless_label, ren_no_ids, tagless_b, kept_no_ids. reflexivity. Qed.
Definition l_origin (n : nat) (tags : list tag) (o : origin) : origin :=
  mkOrigin (option_map (label_rule n tags) (o_rule o)) (label_scenario n tags (o_scenario o)) (match o_row o with Some (ex, h, r) => Some (label_examples n tags ex, h, r) | None => None end).
Lemma l_fo n tags f : feature_origins (label_feature n tags f) = map (l_origin n tags) (feature_origins f).
Proof.
  apply (fo_map (label_feature n tags) (label_rule n tags) (label_scenario n tags)); try reflexivity. intros ru sc. unfold scenario_origins. cbn [label_scenario sc_examples].
  assert (G : forall l, flat_map (examples_origins (option_map (label_rule n tags) ru) (label_scenario n tags sc)) (map (label_examples n tags) l) = map (l_origin n tags) (flat_map (examples_origins ru sc) l)).
  { induction l as [|e l IH]; [reflexivity|]. cbn [map flat_map]. rewrite IH, map_app. f_equal. unfold examples_origins. cbn [label_examples ex_header ex_body]. destruct (ex_header e); [|reflexivity]. now rewrite map_map. }
  destruct (sc_examples sc) as [|e es]; [reflexivity|]. exact (G (e :: es)).
Qed.
Section Words.
Context (n : nat) (items : list mitem) (N : 0 < n).
Let tags := map (fun i => mkTag 0 (mkLoc n (Some (i_column i))) (i_text i)) items.
Let g := moved_down (n - 1) 1.
Lemma here_words l x x' : names_of x' = names_of x -> words_of (if_here (S n) tags (ren_loc g l) x') = words_here n (tag_words items) l (words_of x).
Proof.
  intros E. unfold if_here, words_here, words_of. cbn [ren_loc l_line]. unfold g. rewrite (moved_title n _ N). destruct (l_line l =? n); [|now rewrite E]. unfold names_of in *. rewrite !map_app, E. f_equal. unfold tags, tag_words. now rewrite !map_map.
Qed.
Lemma words_app l l' : words_of (l ++ l') = words_of l ++ words_of l'.
Proof. unfold words_of, names_of. now rewrite !map_app. Qed.
Lemma origin_words o o' : b_origin o' = l_origin (S n) tags (g_origin g (b_origin o)) -> words_of (lower_tags o') = test_words n (tag_words items) o.
Proof.
  intros E. assert (Q : words_of (lower_tags o') = words_of (lower_tags (b_origin o'))) by (unfold words_of; now rewrite b_lower). rewrite Q, E. unfold lower_tags, test_words. rewrite !words_app. cbn [l_origin g_origin b_origin o_rule o_scenario o_row]. f_equal; [|f_equal].
  - destruct (o_rule o) as [ru|]; [|reflexivity]. cbn [option_map label_rule ru_tags ren_rule no_id_rule ru_loc]. apply here_words. unfold names_of. now rewrite !map_map.
  - cbn [label_scenario sc_tags ren_scenario no_id_scenario sc_loc]. apply here_words. unfold names_of. now rewrite !map_map.
  - destruct (o_row o) as [[[ex h] r]|]; [|reflexivity]. cbn [label_examples ex_tags ren_examples no_id_examples ex_loc]. apply here_words. unfold names_of. now rewrite !map_map.
Qed.
End Words.
Lemma no_words n o : test_words n [] o = words_of (lower_tags o).
Proof.
  unfold test_words, lower_tags, words_of, words_here, names_of. rewrite !map_app, !app_nil_r. assert (H : forall (b : bool) (x : list str), (if b then x else x) = x) by (intros []; reflexivity). rewrite H. f_equal; [|f_equal].
  - destruct (o_rule o); [rewrite app_nil_r; apply H | reflexivity].
  - destruct (o_row o) as [[[ex h] r]|]; [|reflexivity]. rewrite app_nil_r. apply H.
Qed.
Lemma tagged_words o t : test_tags o t -> rt_tags t = words_of (lower_tags o).
Proof. unfold test_tags, words_of, names_of. intros <-. symmetry. apply tl_cons. Qed.
Lemma labelled_tests n items : 0 < n -> let g := moved_down (n - 1) 1 in let tags := map (fun i => mkTag 0 (mkLoc n (Some (i_column i))) (i_text i)) items in
  forall ts ts', Forall2 (fun t t' => t' = with_tags (rt_tags t') (ren_test g t)) ts ts' -> forall os os' f f' ps ps', Forall3 (test_of f) os ps ts -> Forall3 (test_of f') os' ps' ts' ->
  map b_origin os' = map (fun o => l_origin (S n) tags (g_origin g (b_origin o))) os -> Forall3 (test_labelled n (tag_words items)) os ts ts'.
Proof.
  intros N g tags ts ts' H. induction H as [|t t' ts ts' E _ IH]; intros os os' f f' ps ps' F F' B.
  - inversion F; subst. constructor.
  - inversion F as [|o p t0 os1 ps1 ts1 T F1]; subst. inversion F' as [|o' p' t0' os1' ps1' ts1' T' F1']; subst. cbn [map] in B. constructor; [|eapply IH; eauto; congruence].
    assert (B1 : b_origin o' = l_origin (S n) tags (g_origin g (b_origin o))) by congruence. destruct T as [_ [_ [T _]]], T' as [_ [_ [T' _]]]. split; [rewrite no_words; now apply tagged_words|].
    rewrite <- (origin_words n items N o o' B1), <- (tagged_words _ _ T'). exact E.
Qed.

(** C94.  Line [n] of a file is the title of its feature, of a rule, a scenario or examples.  If the file is a suite, then so is the file with a tag line before line
    [n]: every test that comes from that part has these tags too, after those of that part; for the feature they are new test tags of the suite, after those it has.
    Nothing else is changed, but for the lines from line [n] on, which are moved down. *)
Theorem C94_suite : forall printable name dir a m b x k d f line items, is_markdown name = false -> a_line_of a m b -> split_lines m = [line] -> tags_line line items ->
  let n := S (line_count a) in let words := map (fun i => tl (i_text i)) items in
  read_file name (a ++ b) = Ok d -> gd_feature d = Some f -> labelled_line n f -> build_gherkin_model printable name (a ++ b) dir = Ok (RSuite x, k) ->
  exists x', build_gherkin_model printable name (a ++ m ++ b) dir = Ok (RSuite x', k) /\
    rs_doc x' = rs_doc x /\ rs_library x' = rs_library x /\ rs_resources x' = rs_resources x /\
    rs_test_tags x' = words_here n words (fe_loc f) (rs_test_tags x) /\
    rs_metadata_tags x' = (match rs_test_tags x' with [] => None | _ => Some (join (s ", ") (rs_test_tags x')) end) /\
    Forall3 (test_labelled n words) (origins d) (rs_tests x) (rs_tests x').
Proof.
  intros pr name dir a m b x k d f line items M O Sl Tl n words R F K B. assert (P : parse_with false false (s "en") (a ++ b) = Ok d) by (unfold read_file in R; now rewrite M in R).
  destruct (C94_document false (s "en") a m b d f line items en_supported O Sl Tl P F K) as [d' [P' Q]]. fold n in Q. set (tags := map _ items) in Q. set (g := moved_down (n - 1) 1). assert (N : 0 < n) by (unfold n; lia).
  assert (R' : read_file name (a ++ m ++ b) = Ok d') by (unfold read_file; now rewrite M).
  assert (Qf : exists f', gd_feature d' = Some f' /\ no_id_feature f' = label_feature (S n) tags (ren_feature g (no_id_feature f))).
  { pose proof (f_equal gd_feature Q) as Q2. unfold no_ids, labels_added, ren_gdoc in Q2. cbn [gd_feature] in Q2. rewrite F in Q2. cbn [option_map] in Q2. fold g in Q2. destruct (gd_feature d') as [f'|]; [|discriminate Q2]. exists f'. split; [reflexivity|]. cbn [option_map] in Q2. congruence. }
  destruct Qf as [f' [F' Qf]]. pose proof (C93_tags_only pr g name name (a ++ b) (a ++ m ++ b) dir d d' f f' R R' F F' (labelled_but_tags _ _ _ _ _ Qf)) as C.
  pose proof (build_eq pr name (a ++ b) dir) as B1. pose proof (build_eq pr name (a ++ m ++ b) dir) as B2. rewrite R, F in B1. rewrite R', F' in B2. rewrite B in C.
  destruct (build_gherkin_model pr name (a ++ m ++ b) dir) as [[[x'|l'] k']|er]; try contradiction C. destruct C as [[C1 [C2 [C3 C4]]] [-> ->]]. exists x'.
  assert (En : fe_name f' = fe_name f) by (change (fe_name f') with (fe_name (no_id_feature f')); rewrite Qf; reflexivity). split; [now rewrite En|]. do 3 (split; [assumption|]).
  destruct (compile d 0) as [[ps i]|e]; [|congruence]. destruct (compile d' 0) as [[ps' i']|e]; [|congruence]. destruct B1 as [su [W1 [S1 [S2 _]]]], B2 as [su' [W2 [S1' [S2' _]]]]. assert (su = x) by congruence. assert (su' = x') by congruence. subst su su'.
  destruct S1 as [_ [_ [_ [D4 D5]]]], S1' as [_ [_ [_ [D4' D5']]]]. 
  assert (Tx : rs_test_tags x = words_of (fe_tags f)) by (unfold words_of, names_of; rewrite <- D4; symmetry; apply tl_cons).
  assert (Tx' : rs_test_tags x' = words_of (fe_tags f')) by (unfold words_of, names_of; rewrite <- D4'; symmetry; apply tl_cons). split; [|split].
  - rewrite Tx', Tx. assert (Z : words_of (fe_tags f') = words_of (fe_tags (no_id_feature f'))) by (unfold words_of, names_of; cbn [no_id_feature fe_tags]; now rewrite !map_map). rewrite Z, Qf. cbn [label_feature fe_tags ren_feature no_id_feature fe_loc]. apply (here_words n items N). unfold names_of. now rewrite !map_map.
  - rewrite D5', Tx'. destruct (fe_tags f'); reflexivity.
  - unfold origins in *. rewrite F in S2 |- *. rewrite F' in S2'. apply (labelled_tests n items N _ _ C4 _ _ _ _ _ _ S2 S2').
    rewrite <- b_fo, Qf, l_fo, g_fo, b_fo, !map_map. reflexivity.
Qed.
Print Assumptions C94_suite.

(** ** Concrete cases: a tag line before the title of the feature (the first line), of a rule, of an outline and of its examples *)
Definition c94_lines : list str := [s "Feature: f"; s "  Scenario: first"; s "    Given x"; s "  @r"; s "  Rule: r"; s "    @own"; s "    Scenario Outline: o"; s "      Given <x>"; s "      @big"; s "      Examples:"; s "        | x |"; s "        | 1 |"; s "    Scenario: last"; s "      Then z"].
Definition c94_text : str := text_of_lines c94_lines.
Definition c94_d : gdoc := Eval vm_compute in doc_of c94_text.
Definition c94_f : feature := match gd_feature c94_d with Some f => f | None => mkFeature [] (mkLoc 0 None) None None None [] None [] [] end.
Definition c94_a (n : nat) : str := text_of_lines (firstn (n - 1) c94_lines).
Definition c94_b (n : nat) : str := text_of_lines (skipn (n - 1) c94_lines).
Definition c94_m : str := s "  @slow @ui  # two" ++ [ch_nl].
Definition c94_at (n : nat) : Prop := c94_a n ++ c94_b n = c94_text /\ a_line_of (c94_a n) c94_m (c94_b n) /\ S (line_count (c94_a n)) = n /\ labelled_line n c94_f.
Lemma c94_place n : c94_a n ++ c94_b n = c94_text -> (c94_a n = [] \/ c94_a n = removelast (c94_a n) ++ [ch_nl]) -> S (line_count (c94_a n)) = n -> labelled_line n c94_f -> c94_at n.
Proof.
  intros H1 H2 H3 H4. split; [exact H1|]. split; [|split; assumption]. split; [destruct H2 as [H2|H2]; [now left | right; eexists; exact H2]|]. split; [reflexivity|]. left. exists (c94_a n ++ s "  @slow @ui  # two"). unfold c94_m. now rewrite app_assoc.
Qed.
Example C94_case : split_lines c94_m = [c94_m] /\ tags_line c94_m [mkItem 3 (s "@slow"); mkItem 9 (s "@ui")] /\ read_file (s "a.feature") c94_text = Ok c94_d /\ gd_feature c94_d = Some c94_f /\ Forall c94_at [1; 5; 7; 10; 13].
Proof.
  split; [vm_compute; reflexivity|]. split; [|split; [vm_compute; reflexivity|]; split; [reflexivity|]].
  - exists (s "  "), [mkRtag [] (s "slow") (s " "); mkRtag [] (s "ui") (s "  ")], (s "# two" ++ [ch_nl]). split; [reflexivity|]. split; [|vm_compute; reflexivity]. split; [repeat constructor|]. split; [discriminate|]. split.
    + repeat constructor; cbn; try discriminate; try (left; reflexivity).
    + right. split; [eexists; reflexivity|]. exists (s "@slow @ui "), ch_space. split; reflexivity.
  - repeat apply Forall_cons; [| | | | |constructor]; (apply c94_place; [vm_compute; reflexivity | first [left; vm_compute; reflexivity | right; vm_compute; reflexivity] | vm_compute; reflexivity|]).
    + left. reflexivity.
    + right. left. left. reflexivity.
    + right. right. left. vm_compute. right. left. reflexivity.
    + right. right. right. vm_compute. left. reflexivity.
    + right. right. left. vm_compute. right. right. left. reflexivity.
Qed.
Definition c94_tags (n : nat) : list str * list (str * list str * nat) :=
  match build_gherkin_model (fun _ => true) (s "a.feature") (c94_a n ++ c94_m ++ c94_b n) None with Ok (RSuite su, _) => (rs_test_tags su, map (fun t => (rt_name t, rt_tags t, rt_line t)) (rs_tests su)) | _ => ([], []) end.
Example C94_case_suites :
  c94_tags 1 = ([s "slow"; s "ui"], [(s "first", [], 3); (s "o x = 1", [s "r"; s "own"; s "big"], 8); (s "last", [s "r"], 14)]) /\
  c94_tags 5 = ([], [(s "first", [], 2); (s "o x = 1", [s "r"; s "slow"; s "ui"; s "own"; s "big"], 8); (s "last", [s "r"; s "slow"; s "ui"], 14)]) /\
  c94_tags 7 = ([], [(s "first", [], 2); (s "o x = 1", [s "r"; s "own"; s "slow"; s "ui"; s "big"], 8); (s "last", [s "r"], 14)]) /\
  c94_tags 10 = ([], [(s "first", [], 2); (s "o x = 1", [s "r"; s "own"; s "big"; s "slow"; s "ui"], 7); (s "last", [s "r"], 14)]).
Proof. repeat split; vm_compute; reflexivity. Qed.
(** C93: other tags everywhere, and a line moved *)
Definition c93_text : str := text_of_lines [s "@f"; s "Feature: g"; s "  @x @y"; s "  Scenario: first"; s "    Given x"; s "  Rule: r"; []; s "    Scenario Outline: o"; s "      Given <x>"; s "      Examples:"; s "        | x |"; s "        | 1 |"; []; s "    Scenario: last"; s "      Then z"].
Definition c93_move (n : nat) : nat := if n <? 2 then n + 1 else if n <? 5 then n + 2 else n + 1.
Example C93_case : exists d f', read_file (s "b.feature") c93_text = Ok d /\ gd_feature d = Some f' /\ same_but_tags c93_move c94_f f' /\ names_of (fe_tags f') = [s "@f"].
Proof. do 2 eexists. split; [vm_compute; reflexivity|]. split; [reflexivity|]. split; vm_compute; reflexivity. Qed.
