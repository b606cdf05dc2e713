(** * A line of description after any title: C96 *)
From Verif Require Import PyStr PyStrFacts Types Regex Line DialectData Matcher Ast Parser Compiler Scan LineSpec LangSpec LangFacts DocSpec PartsSpec PropLine PropParse PropDoc PropDocString PickleSpec PickleFacts PickleTotal WfDoc PropMdParse PropCompile Glob Robot RobotSpec SuiteSpec RobotFacts PropRobot WriteSpec WriteRead PropWrite EssenceSpec EssenceFacts PropEssence PropAppend MiddleSpec Renumber Units PropMiddle ExampleSpec ExampleChange PropExampleRow PartSpec PartChange PropScenarioTags TitleSpec PropView PropTitle LabelSpec LabelChange PropLabel PropLabelLine ProseSpec ProseChange PropPlain PropProse.
Import PickleSpec WriteSpec.

Lemma ended_lines a : ended a -> 0 < line_count a.
Proof. intros [t ->]. unfold line_count. destruct (split_lines (t ++ [ch_nl])) eqn:E; [|cbn; lia]. exfalso. destruct t as [|c t]; cbn in E; [discriminate E|]. destruct (c =? ch_nl)%N; [discriminate E|]. destruct (split_lines (t ++ [ch_nl])); discriminate E. Qed.

(** ** Documents *)
Lemma stands_adds n new (h : str -> feature -> feature) (Q : feature -> Prop) lang ls doc f : stands_for lang ls doc -> NoDup (nums ls) -> gd_feature doc = Some f -> Q f ->
  (forall l d, fe_language f = Some l -> for_name l = Some d -> adds n new (feature_block d l) Q h) -> exists w, all_space w /\ stands_for lang (flat_map (after_line n new) ls) (on_doc (h w) doc).
Proof.
  intros [[cs [H ->]]|[[pre [fl [d [f0 [c0 [c1 [-> [H1 [H2 [H3 ->]]]]]]]]]]|[pre [hd [mid [fl [name [d [f0 [c0 [c1 [c2 [-> [H1 [H2 [H3 [H4 [H5 ->]]]]]]]]]]]]]]]]]] N F K C; [discriminate F| |]; injection F as ->.
  - assert (Lf : fe_language f = Some lang) by (destruct H3 as [? [? [? [? [? [? [? [? [? [? [? [? [? [? [? [? [? [? [_ [_ [_ [_ [_ [_ [_ [_ ->]]]]]]]]]]]]]]]]]]]]]]]]]]; reflexivity).
    destruct (C lang d Lf H2 _ _ _ H3) as [F1 [_ F3]]. assert (S : pre ++ fl = pre ++ fl ++ []) by now rewrite app_nil_r. rewrite S in N |- *.
    destruct (chg_mid n _ (after_other n new) _ _ _ N (F1 K)) as [G Nb]. destruct (F3 Nb K) as [w [W1 W2]]. exists w. split; [exact W1|]. right. left. rewrite G, app_nil_r. exists pre, (flat_map (after_line n new) fl), d, (h w f), c0, c1. repeat (split; [auto|]). reflexivity.
  - assert (Lf : fe_language f = Some name) by (destruct H5 as [? [? [? [? [? [? [? [? [? [? [? [? [? [? [? [? [? [? [_ [_ [_ [_ [_ [_ [_ [_ ->]]]]]]]]]]]]]]]]]]]]]]]]]]; reflexivity).
    destruct (C name d Lf H3 _ _ _ H5) as [F1 [_ F3]]. assert (S : pre ++ hd :: mid ++ fl = (pre ++ hd :: mid) ++ fl ++ []) by (rewrite app_nil_r, <- app_assoc; reflexivity). rewrite S in N |- *.
    destruct (chg_mid n _ (after_other n new) _ _ _ N (F1 K)) as [G Nb]. destruct (F3 Nb K) as [w [W1 W2]]. exists w. split; [exact W1|]. right. right. rewrite G, app_nil_r. exists pre, hd, mid, (flat_map (after_line n new) fl), name, d, (h w f), c0, c1, c2. split; [now rewrite <- app_assoc|]. repeat (split; [auto|]). reflexivity.
Qed.
Lemma tellable_some d n k x f : tellable d n x f -> tell_some n (k, x) d f.
Proof.
  unfold tell_some. cbn [snd]. intros [[K E]|[[K E]|[[K E]|[[K E]|[K E]]]]].
  - left. split; assumption.
  - right. right. right. eapply Exists_impl; [|exact K]. intros r Kr. left. split; assumption.
  - apply background_title_some in K as [K|[K|K]].
    + right. left. destruct (fe_background f); [|contradiction K]. split; assumption.
    + exfalso. clear -K. induction K; assumption.
    + right. right. right. eapply Exists_impl; [|exact K]. intros r [Kr|Kr]; [|exfalso; clear -Kr; induction Kr; assumption]. right. left. destruct (ru_background r); [|contradiction Kr]. split; assumption.
  - unfold feature_scenarios in K. apply Exists_app in K as [K|K]; [right; right; left; eapply Exists_impl; [|exact K]; intros y Ky; left; split; assumption|]. right. right. right. apply (proj1 (exists_flat _ _ _)) in K. eapply Exists_impl; [|exact K]. intros r Kr. right. right. eapply Exists_impl; [|exact Kr]. intros y Ky. left. split; assumption.
  - assert (Q : forall l, Exists (fun e => l_line (ex_loc e) = n) l -> Exists (fun e => l_line (ex_loc e) = n /\ ~ ends_description d InExamples x) l) by (intros l Kl; eapply Exists_impl; [|exact Kl]; intros e Ke; split; assumption).
    apply examples_title_some in K as [K|K]; [right; right; left; eapply Exists_impl; [|exact K]; intros y Ky; right; apply Q, Ky|]. right. right. right. eapply Exists_impl; [|exact K]. intros r Kr. right. right. eapply Exists_impl; [|exact Kr]. intros y Ky. right. apply Q, Ky.
Qed.
Lemma tell_moved n new d (fe : feature -> feature) (fr : rule_ast -> rule_ast) (fs : scenario -> scenario) (fx : examples -> examples) (fb : background -> background) f :
  (l_line (fe_loc f) = n -> l_line (fe_loc (fe f)) = n) -> (forall r, l_line (ru_loc r) = n -> l_line (ru_loc (fr r)) = n) -> (forall r, l_line (sc_loc r) = n -> l_line (sc_loc (fs r)) = n) -> (forall r, l_line (ex_loc r) = n -> l_line (ex_loc (fx r)) = n) ->
  (forall r, l_line (bg_loc r) = n -> l_line (bg_loc (fb r)) = n) -> fe_background (fe f) = option_map fb (fe_background f) -> (forall r, ru_background (fr r) = option_map fb (ru_background r)) ->
  fe_scenarios (fe f) = map fs (fe_scenarios f) -> fe_rules (fe f) = map fr (fe_rules f) -> (forall r, ru_scenarios (fr r) = map fs (ru_scenarios r)) -> (forall r, sc_examples (fs r) = map fx (sc_examples r)) ->
  tell_some n new d f -> tell_some n new d (fe f).
Proof.
  intros A1 A2 A3 A4 A5 B0 B0' B1 B2 B3 B4. unfold tell_some. rewrite B0, B1, B2.
  assert (Qb : forall o, opt_some (fun b => l_line (bg_loc b) = n /\ ~ ends_description d InBackground (snd new)) o -> opt_some (fun b => l_line (bg_loc b) = n /\ ~ ends_description d InBackground (snd new)) (option_map fb o)).
  { intros [b|]; [|easy]. intros [K1 K2]. split; auto. }
  assert (Qs : forall l, Exists (fun e => l_line (sc_loc e) = n /\ ~ ends_description d InScenario (snd new) \/ Exists (fun e => l_line (ex_loc e) = n /\ ~ ends_description d InExamples (snd new)) (sc_examples e)) l ->
    Exists (fun e => l_line (sc_loc e) = n /\ ~ ends_description d InScenario (snd new) \/ Exists (fun e => l_line (ex_loc e) = n /\ ~ ends_description d InExamples (snd new)) (sc_examples e)) (map fs l)).
  { intros l K. apply exists_map. eapply Exists_impl; [|exact K]. intros y [[K1 K2]|Ky]; [left; auto | right]. rewrite B4. apply exists_map. eapply Exists_impl; [|exact Ky]. intros e [K1 K2]. auto. }
  intros [[K1 K2]|[K|[K|K]]]; [left; auto | right; left; auto | right; right; left; auto | right; right; right]. apply exists_map. eapply Exists_impl; [|exact K]. intros r [[K1 K2]|[Kr|Kr]]; [left; auto | right; left | right; right]; [rewrite B0'; auto | rewrite B3; auto].
Qed.

(** C96.  The line [n] of a text is the title of its feature, of a rule, a background, a scenario or examples.  A line [x] that is not blank and does not end a
    description there (no tag, no comment, no title, step, row or doc string that may follow) is put after it.  Then the text with it is the document with that line first
    in the description of that part, white space between it and the description it had, and with the lines after line [n] moved down. *)
Theorem C96_document : forall stop lang a m b d f l dl x, supported lang -> one_line_between a m b -> split_lines m = [x] -> ~ all_space x ->
  parse_with stop false lang (a ++ b) = Ok d -> gd_feature d = Some f -> fe_language f = Some l -> for_name l = Some dl -> let n := line_count a in tellable dl n x f ->
  exists w d', all_space w /\ parse_with stop false lang (a ++ m ++ b) = Ok d' /\
    no_ids d' = on_doc (tell_feature n (without_eol x) w) (ren_gdoc (moved_down n 1) (no_ids d)).
Proof.
  intros stop lang a m b d f l dl x S H Sx V P F Lf Dl n K. assert (A : stands_for lang (numbered_lines (split_lines (a ++ b))) (no_ids d)) by (apply (C04_parse_iff stop lang _ _ S); eauto).
  pose proof (ended_lines a (proj1 H)) as P0. fold n in P0. set (g := moved_down n 1). set (new := (Datatypes.S n, x) : nline). apply (tellable_some dl n (Datatypes.S n)) in K. fold new in K.
  assert (F0 : gd_feature (no_ids d) = Some (no_id_feature f)) by (unfold no_ids; cbn [gd_feature]; now rewrite F).
  assert (Gn : g n = n) by (unfold g, moved_down; now rewrite Nat.ltb_irrefl).
  assert (K0 : tell_some n new dl (ren_feature g (no_id_feature f))).
  { apply (tell_moved n new dl (ren_feature g) (ren_rule g) (ren_scenario g) (ren_examples g) (ren_background g)); try reflexivity; try (intros; cbn [ren_feature ren_rule ren_scenario ren_examples ren_background fe_loc ru_loc sc_loc ex_loc bg_loc ren_loc l_line]; congruence).
    apply (tell_moved n new dl no_id_feature no_id_rule no_id_scenario no_id_examples no_id_background); auto. }
  apply (n_stands g) in A. assert (F1 : gd_feature (ren_gdoc g (no_ids d)) = Some (ren_feature g (no_id_feature f))) by (unfold ren_gdoc; rewrite F0; reflexivity).
  assert (Kw : Forall (fun k => k <> []) (all_step_keywords dl)). { apply Forall_forall. intros q Hq. destruct (step_keyword_full l dl q Dl Hq) as [c [w ->]]. discriminate. }
  assert (We : without_eol (snd new) <> []). { apply Eval.rstrip_crlf_visible. intros Z. apply V. apply lstrip_nil in Z. exact Z. }
  destruct (stands_adds n new (fun w => tell_feature n (without_eol x) w) (tell_some n new dl) lang _ _ _ A (moved_nodup n _) F1 K0) as [w [W B]].
  { intros l2 d2 L2 D2. cbn [ren_feature no_id_feature fe_language] in L2. assert (l2 = l) by congruence. subst l2. assert (d2 = dl) by congruence. subst d2. exact (feature_adds n new dl Kw V We l). }
  assert (Z : flat_map (after_line n new) (map (ren_line g) (numbered_lines (split_lines (a ++ b)))) = numbered_lines (split_lines (a ++ m ++ b))) by exact (added_lines a m b x H Sx P0).
  assert (B' : stands_for lang (numbered_lines (split_lines (a ++ m ++ b))) (on_doc (tell_feature n (without_eol x) w) (ren_gdoc g (no_ids d)))) by (rewrite <- Z; exact B).
  apply (C04_parse_iff stop lang _ _ S) in B' as [d' [P' E]]. exists w, d'. auto.
Qed.
Print Assumptions C96_document.

(** ** Suites *)
Lemma d_no_id f : proseless (no_id_feature f) = no_id_feature (proseless f).
Proof.
  assert (Hs : forall l, map proseless_scenario (map no_id_scenario l) = map no_id_scenario (map proseless_scenario l)) by (intros l; rewrite !map_map; reflexivity).
  unfold proseless, no_id_feature. cbn [fe_tags fe_loc fe_language fe_keyword fe_name fe_desc fe_background fe_scenarios fe_rules]. rewrite Hs. f_equal. rewrite !map_map. apply map_ext. intros r. unfold proseless_rule, no_id_rule. cbn [ru_id ru_tags ru_loc ru_keyword ru_name ru_desc ru_background ru_scenarios]. now rewrite Hs.
Qed.
Lemma kept_told n x w f : kept (proseless (tell_feature n x w f)) = kept (proseless f).
Proof.
  assert (Hb : forall o, option_map kept_background (option_map (tell_background n x w) o) = option_map kept_background o) by (intros [b|]; reflexivity).
  assert (Hs : forall l, map kept_scenario (map proseless_scenario (map (tell_scenario n x w) l)) = map kept_scenario (map proseless_scenario l)).
  { intros l. rewrite !map_map. apply map_ext. intros e. unfold kept_scenario, proseless_scenario, tell_scenario. cbn [sc_id sc_tags sc_loc sc_keyword sc_name sc_desc sc_steps sc_examples]. f_equal. rewrite map_map. reflexivity. }
  unfold kept, proseless, tell_feature. cbn [fe_tags fe_loc fe_language fe_keyword fe_name fe_desc fe_background fe_scenarios fe_rules]. rewrite Hb, Hs. f_equal. rewrite !map_map. apply map_ext. intros r. unfold kept_rule, proseless_rule, tell_rule. cbn [ru_id ru_tags ru_loc ru_keyword ru_name ru_desc ru_background ru_scenarios]. now rewrite Hb, Hs.
Qed.
Lemma told_but_prose n x w g f f' : no_id_feature f' = tell_feature n x w (ren_feature g (no_id_feature f)) -> same_but_prose g f f'.
Proof. intros E. unfold same_but_prose. rewrite <- (kept_no_ids (proseless f')), <- d_no_id, E, kept_told, ren_no_ids, d_no_id, kept_no_ids. reflexivity. Qed.
Definition p_origin (n : nat) (x w : str) (o : origin) : origin :=
  mkOrigin (option_map (tell_rule n x w) (o_rule o)) (tell_scenario n x w (o_scenario o)) (match o_row o with Some (ex, h, r) => Some (tell_examples n x w ex, h, r) | None => None end).
Lemma p_fo n x w f : feature_origins (tell_feature n x w f) = map (p_origin n x w) (feature_origins f).
Proof.
  apply (fo_map (tell_feature n x w) (tell_rule n x w) (tell_scenario n x w)); try reflexivity. intros ru sc. unfold scenario_origins. cbn [tell_scenario sc_examples].
  assert (G : forall l, flat_map (examples_origins (option_map (tell_rule n x w) ru) (tell_scenario n x w sc)) (map (tell_examples n x w) l) = map (p_origin n x w) (flat_map (examples_origins ru sc) l)).
  { induction l as [|e l IH]; [reflexivity|]. cbn [map flat_map]. rewrite IH, map_app. f_equal. unfold examples_origins. cbn [tell_examples ex_header ex_body]. destruct (ex_header e); [|reflexivity]. now rewrite map_map. }
  destruct (sc_examples sc) as [|e es]; [reflexivity|]. exact (G (e :: es)).
Qed.
Lemma down_here n k : (moved_down n 1 k =? n) = (k =? n).
Proof. unfold moved_down. destruct (n <? k) eqn:E; [|reflexivity]. apply Nat.ltb_lt in E. rewrite !(proj2 (Nat.eqb_neq _ _)); [reflexivity | lia | lia]. Qed.
(** the documentation of the test from [o]: [first] comes first, if the scenario is the one on line [n] *)
Lemma told_tests n x w : x <> [] -> let g := moved_down n 1 in forall f f' os os' ps ps' ts ts', Forall3 (test_of f) os ps ts -> Forall3 (test_of f') os' ps' ts' ->
  map b_origin os' = map (fun o => p_origin n x w (g_origin g (b_origin o))) os ->
  Forall3 (fun o t t' => rt_doc t' = if l_line (sc_loc (o_scenario o)) =? n then Some (strip (x ++ w ++ sc_desc (o_scenario o))) else rt_doc t) os ts ts'.
Proof.
  intros V g f f' os os' ps ps' ts ts' H. revert os' ps' ts'. induction H as [|o p t os ps ts T _ IH]; intros os' ps' ts' F' B.
  - destruct os'; [|discriminate B]. inversion F'; subst. constructor.
  - inversion F' as [|o' p' t0' os1' ps1' ts1' T' F1']; subst; [discriminate B|]. cbn [map] in B. constructor; [|eapply IH; eauto; congruence].
    assert (B1 : b_origin o' = p_origin n x w (g_origin g (b_origin o))) by congruence. destruct T as [_ [T _]], T' as [_ [T' _]]. rewrite T, T'.
    pose proof (f_equal (fun q => sc_desc (o_scenario q)) B1) as D. cbn [b_origin p_origin g_origin o_scenario tell_scenario ren_scenario no_id_scenario sc_desc sc_loc] in D. rewrite D. unfold desc_here. cbn [ren_loc l_line]. unfold g. rewrite down_here.
    destruct (l_line (sc_loc (o_scenario o)) =? n); [|reflexivity]. destruct x; [contradiction | reflexivity].
Qed.
Lemma strip_visible x y : ~ all_space x -> strip (x ++ y) <> [].
Proof.
  intros H E. apply H. unfold strip, rstrip in E. apply rstrip_by_nil in E.
  assert (Q : forallb is_space (x ++ y) = true).
  { clear H. revert E. generalize (x ++ y). intros z. unfold lstrip. induction z as [|c z IH]; [reflexivity|]. cbn. destruct (is_space c) eqn:C; [exact IH|]. cbn. rewrite C. intros Z; discriminate Z. }
  rewrite forallb_app in Q. apply andb_true_iff in Q. exact (proj1 Q).
Qed.
(** C96.  The same for the suite of a classic file: its tests are the same but for documentation.  If line [n] is the title of a scenario, the documentation of every
    test from it begins with the new line; if it is the title of the feature, that of the suite does.  All other documentation is as it was; so for a rule, a
    background or examples nothing is changed, but for the lines after line [n], which are moved down. *)
Theorem C96_suite : forall printable name dir a m b su k d f l dl x, is_markdown name = false -> one_line_between a m b -> split_lines m = [x] -> ~ all_space x ->
  read_file name (a ++ b) = Ok d -> gd_feature d = Some f -> fe_language f = Some l -> for_name l = Some dl -> let n := line_count a in tellable dl n x f ->
  build_gherkin_model printable name (a ++ b) dir = Ok (RSuite su, k) ->
  exists su' w, all_space w /\ build_gherkin_model printable name (a ++ m ++ b) dir = Ok (RSuite su', k) /\ suite_but_docs (moved_down n 1) su su' /\
    rs_doc su' = (if l_line (fe_loc f) =? n then Some (strip (without_eol x ++ w ++ fe_desc f)) else rs_doc su) /\
    Forall3 (fun o t t' => rt_doc t' = if l_line (sc_loc (o_scenario o)) =? n then Some (strip (without_eol x ++ w ++ sc_desc (o_scenario o))) else rt_doc t) (origins d) (rs_tests su) (rs_tests su').
Proof.
  intros pr name dir a m b su k d f l dl x M O Sx V R F Lf Dl n K B. assert (P : parse_with false false (s "en") (a ++ b) = Ok d) by (unfold read_file in R; now rewrite M in R).
  destruct (C96_document false (s "en") a m b d f l dl x en_supported O Sx V P F Lf Dl K) as [w [d' [W [P' Q]]]]. fold n in Q. set (g := moved_down n 1) in *.
  assert (R' : read_file name (a ++ m ++ b) = Ok d') by (unfold read_file; now rewrite M).
  assert (Qf : exists f', gd_feature d' = Some f' /\ no_id_feature f' = tell_feature n (without_eol x) w (ren_feature g (no_id_feature f))).
  { pose proof (f_equal gd_feature Q) as Q2. unfold no_ids, on_doc, ren_gdoc in Q2. cbn [gd_feature] in Q2. rewrite F in Q2. cbn [option_map] in Q2. destruct (gd_feature d') as [f'|]; [|discriminate Q2]. exists f'. split; [reflexivity|]. cbn [option_map] in Q2. congruence. }
  destruct Qf as [f' [F' Qf]]. pose proof (C95_docs_only pr g name name (a ++ b) (a ++ m ++ b) dir d d' f f' R R' F F' (told_but_prose _ _ _ _ _ _ Qf)) as C.
  pose proof (build_eq pr name (a ++ b) dir) as B1. pose proof (build_eq pr name (a ++ m ++ b) dir) as B2. rewrite R, F in B1. rewrite R', F' in B2. rewrite B in C.
  destruct (build_gherkin_model pr name (a ++ m ++ b) dir) as [[[x'|l'] k']|er]; try contradiction C. destruct C as [C1 [-> [-> [C4 C5]]]]. exists x', w.
  assert (En : fe_name f' = fe_name f) by (change (fe_name f') with (fe_name (no_id_feature f')); rewrite Qf; reflexivity). split; [exact W|]. split; [now rewrite En|]. split; [exact C1|].
  destruct (compile d 0) as [[ps i]|e]; [|congruence]. destruct (compile d' 0) as [[ps' i']|e]; [|congruence]. destruct B1 as [su1 [W1 [S1 [S2 _]]]], B2 as [su1' [W2 [S1' [S2' _]]]]. assert (su1 = su) by congruence. assert (su1' = x') by congruence. subst su1 su1'.
  assert (Ve : ~ all_space (without_eol x)).
  { intros Z. apply V. destruct (PyStrFacts.rstrip_by_prefix is_crlf x) as [e [He Hc]]. unfold without_eol, rstrip_crlf in Z.
    rewrite He. apply space_app; [exact Z|]. unfold all_space. rewrite forallb_forall in *. intros c Hx. specialize (Hc c Hx). unfold is_crlf in Hc. apply orb_true_iff in Hc as [Hc|Hc]; apply N.eqb_eq in Hc; subst c; reflexivity. }
  split.
  - rewrite C4. change (fe_desc f') with (fe_desc (no_id_feature f')). rewrite Qf. cbn [tell_feature fe_desc ren_feature no_id_feature fe_loc]. unfold desc_here. cbn [ren_loc l_line]. unfold g. rewrite down_here.
    destruct (l_line (fe_loc f) =? n); [|symmetry; exact (proj1 S1)]. pose proof (strip_visible _ (w ++ fe_desc f) Ve) as Z. destruct (strip (without_eol x ++ w ++ fe_desc f)); [contradiction | reflexivity].
  - unfold origins in *. rewrite F in S2 |- *. rewrite F' in S2'. apply (told_tests n (without_eol x) w) with (f := f) (f' := f') (ps := ps) (ps' := ps') (os' := feature_origins f').
    + intros Z. apply Ve. rewrite Z. reflexivity.
    + exact S2.
    + exact S2'.
    + rewrite <- b_fo, Qf, p_fo, g_fo, b_fo, !map_map. reflexivity.
Qed.
Print Assumptions C96_suite.

(** ** Concrete cases: a line of description after the title of the feature, of a background, an outline, its examples, a rule and a scenario *)
Definition no_ender (d : dialect) (x : str) : bool :=
  forallb (fun k => negb (startswith k (lstrip x))) ([[ch_hash]; [ch_at]; [ch_pipe]] ++ scenario_keywords d ++ d_rule d ++ d_background d ++ d_examples d ++ all_step_keywords d).
Lemma no_ender_ok d x p : no_ender d x = true -> ~ ends_description d p x.
Proof.
  unfold no_ender. rewrite forallb_forall. intros H. assert (T : forall k r, In k ([[ch_hash]; [ch_at]; [ch_pipe]] ++ scenario_keywords d ++ d_rule d ++ d_background d ++ d_examples d ++ all_step_keywords d) -> lstrip x <> k ++ r).
  { intros k r I E. specialize (H k I). rewrite E in H. assert (Z : startswith k (k ++ r) = true) by (clear; induction k as [|c k IH]; [reflexivity|]; cbn; rewrite N.eqb_refl; exact IH). rewrite Z in H. discriminate H. }
  assert (Ti : forall kws, (forall k, In k kws -> In k ([[ch_hash]; [ch_at]; [ch_pipe]] ++ scenario_keywords d ++ d_rule d ++ d_background d ++ d_examples d ++ all_step_keywords d)) -> ~ is_title kws x).
  { intros kws I [kw [nm [K [rest [E _]]]]]. exact (T kw _ (I kw K) E). }
  assert (Be : forall k, In k ([[ch_hash]; [ch_at]; [ch_pipe]] ++ scenario_keywords d ++ d_rule d ++ d_background d ++ d_examples d ++ all_step_keywords d) -> ~ begins k x).
  { intros k I B. apply (proj1 (startswith_spec _ _)) in B as [rest E]. exact (T k _ I E). }
  assert (St : ~ is_step d x). { intros [kw [tx [before [after [rest [E [_ [E' _]]]]]]]]. refine (T kw rest _ E'). rewrite E. rewrite !in_app_iff. cbn. tauto. }
  intros [K|[K|[K|[K|K]]]].
  - revert K. apply Be. cbn. auto.
  - revert K. apply Be. cbn. auto.
  - revert K. apply Ti. intros k I. rewrite !in_app_iff. tauto.
  - revert K. apply Ti. intros k I. rewrite !in_app_iff. tauto.
  - destruct p; [revert K; apply Ti; intros k I; rewrite !in_app_iff; tauto | exact (St K) | destruct K as [K|K]; [exact (St K) | revert K; apply Ti; intros k I; rewrite !in_app_iff; tauto] | destruct K as [K|K]; [revert K; apply Be; cbn; auto | revert K; apply Ti; intros k I; rewrite !in_app_iff; tauto]].
Qed.
Definition c96_lines : list str := [s "Feature: f"; s "  Background:"; s "    Given b"; s "  Scenario Outline: o"; []; s "    old text"; s "    Given <x>"; s "    Examples:"; s "      | x |"; s "      | 1 |"; s "  Rule: r"; s "    Scenario: last"; s "      Then z"].
Definition c96_text : str := text_of_lines c96_lines.
Definition c96_d : gdoc := Eval vm_compute in doc_of c96_text.
Definition c96_f : feature := match gd_feature c96_d with Some f => f | None => mkFeature [] (mkLoc 0 None) None None None [] None [] [] end.
Definition c96_a (n : nat) : str := text_of_lines (firstn n c96_lines).
Definition c96_b (n : nat) : str := text_of_lines (skipn n c96_lines).
Definition c96_x : str := s "   told: more  " ++ [ch_nl].
Definition c96_at (n : nat) : Prop := c96_a n ++ c96_b n = c96_text /\ one_line_between (c96_a n) c96_x (c96_b n) /\ line_count (c96_a n) = n /\ exists dl, for_name (s "en") = Some dl /\ tellable dl n c96_x c96_f.
Lemma c96_place n : c96_a n ++ c96_b n = c96_text -> c96_a n = removelast (c96_a n) ++ [ch_nl] -> line_count (c96_a n) = n ->
  feature_title n c96_f \/ rule_title n c96_f \/ background_title n c96_f \/ Exists (fun e => l_line (sc_loc e) = n) (feature_scenarios c96_f) \/ examples_title n c96_f -> c96_at n.
Proof.
  intros H1 H2 H3 H4. split; [exact H1|]. split; [|split; [exact H3|]].
  - split; [eexists; exact H2|]. split; [vm_compute; reflexivity|]. left. exists (c96_a n ++ s "   told: more  "). unfold c96_x. now rewrite app_assoc.
  - exists dialect_en. split; [vm_compute; reflexivity|]. unfold tellable. assert (E : forall p, ~ ends_description dialect_en p c96_x) by (intros p; apply no_ender_ok; vm_compute; reflexivity).
    destruct H4 as [H|[H|[H|[H|H]]]]; [left | right; left | do 2 right; left | do 3 right; left | do 4 right]; (split; [exact H | apply E]).
Qed.
Example C96_case : split_lines c96_x = [c96_x] /\ ~ all_space c96_x /\ read_file (s "a.feature") c96_text = Ok c96_d /\ gd_feature c96_d = Some c96_f /\ fe_language c96_f = Some (s "en") /\ Forall c96_at [1; 2; 4; 8; 11; 12].
Proof.
  split; [vm_compute; reflexivity|]. split; [intros H; discriminate H|]. split; [vm_compute; reflexivity|]. split; [reflexivity|]. split; [reflexivity|].
  repeat apply Forall_cons; [| | | | | |constructor]; (apply c96_place; [vm_compute; reflexivity | vm_compute; reflexivity | vm_compute; reflexivity|]).
  - left. reflexivity.
  - right. right. left. vm_compute. left. reflexivity.
  - right. right. right. left. vm_compute. left. reflexivity.
  - right. right. right. right. vm_compute. left. reflexivity.
  - right. left. vm_compute. left. reflexivity.
  - right. right. right. left. vm_compute. right. left. reflexivity.
Qed.
Definition c96_docs (n : nat) : option str * list (str * option str * nat) :=
  match build_gherkin_model (fun _ => true) (s "a.feature") (c96_a n ++ c96_x ++ c96_b n) None with Ok (RSuite su, _) => (rs_doc su, map (fun t => (rt_name t, rt_doc t, rt_line t)) (rs_tests su)) | _ => (None, []) end.
Example C96_case_suites :
  c96_docs 1 = (Some (s "told: more"), [(s "o x = 1", Some (s "old text"), 5); (s "last", None, 13)]) /\
  c96_docs 2 = (None, [(s "o x = 1", Some (s "old text"), 5); (s "last", None, 13)]) /\
  c96_docs 4 = (None, [(s "o x = 1", Some (s "told: more  " ++ [ch_nl; ch_nl] ++ s "    old text"), 4); (s "last", None, 13)]) /\
  c96_docs 8 = (None, [(s "o x = 1", Some (s "old text"), 4); (s "last", None, 13)]) /\
  c96_docs 12 = (None, [(s "o x = 1", Some (s "old text"), 4); (s "last", Some (s "told: more"), 12)]).
Proof. repeat split; vm_compute; reflexivity. Qed.
(** C95: other descriptions, and other lines *)
Definition c95_text : str := text_of_lines [s "Feature: f"; s "  about"; s "  Background:"; s "    Given b"; s "  Scenario Outline: o"; s "    Given <x>"; s "    Examples:"; s "  why"; s "      | x |"; s "      | 1 |"; s "  Rule: r"; s "    Scenario: last"; s "  how"; s "      Then z"].
Definition c95_move (n : nat) : nat := nth n [0; 1; 3; 4; 5; 5; 5; 6; 7; 9; 10; 11; 12; 14] 0.
Example C95_case : exists d f', read_file (s "b.feature") c95_text = Ok d /\ gd_feature d = Some f' /\ same_but_prose c95_move c96_f f' /\ fe_desc f' = s "  about".
Proof. do 2 eexists. split; [vm_compute; reflexivity|]. split; [reflexivity|]. split; vm_compute; reflexivity. Qed.
