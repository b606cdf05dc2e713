(** * Outlines written out as scenarios: C104 *)
From Verif Require Import PyStr PyStrFacts Types Regex Line DialectData Matcher Ast Parser Compiler LineSpec LangSpec DocSpec PartsSpec PickleSpec PickleFacts PickleTotal PropLine PropParse PropCompile EssenceSpec EssenceFacts
  Glob Robot RobotSpec SuiteSpec RobotFacts PropRobot WriteSpec PropWrite PropEssence PropStepMore PropSpread ExpandSpec.
Import PickleSpec.

(** ** Origins *)
Definition same_head (r r' : option rule_ast) : Prop :=
  match r, r' with
  | None, None => True
  | Some x, Some y => names_of (ru_tags y) = names_of (ru_tags x) /\ same_background (ru_background y) (ru_background x)
  | _, _ => False
  end.
Definition linked (o o' : origin) : Prop := same_head (o_rule o) (o_rule o') /\ o_row o' = None /\ copy_of o (o_scenario o').
Definition in_rule (r : option rule_ast) (o : origin) : origin := mkOrigin r (o_scenario o) (o_row o).
Lemma origins_in_rule r x : scenario_origins r x = map (in_rule r) (scenario_origins None x).
Proof.
  unfold scenario_origins. destruct (sc_examples x) as [|e l]; [reflexivity|]. generalize (e :: l). intros m. induction m as [|a m IH]; [reflexivity|]. cbn [flat_map]. rewrite map_app, <- IH. f_equal.
  unfold examples_origins. destruct (ex_header a); [|reflexivity]. rewrite map_map. reflexivity.
Qed.
Lemma copy_in_rule r o y : copy_of o y -> copy_of (in_rule r o) y. Proof. exact (fun H => H). Qed.
Lemma linked_scenario r r' x ys : same_head r r' -> written_out x ys -> Forall2 linked (scenario_origins r x) (flat_map (scenario_origins r') ys).
Proof.
  intros H. rewrite (origins_in_rule r). unfold written_out. generalize (scenario_origins None x). intros os. induction 1 as [|o y os ys C F IH]; [constructor|]. cbn [map flat_map].
  assert (E : scenario_origins r' y = [mkOrigin r' y None]) by (unfold scenario_origins; now rewrite (proj1 C)). rewrite E. cbn [app]. constructor; [|exact IH]. split; [exact H|]. split; [reflexivity|]. exact C.
Qed.
Lemma linked_scenarios r r' xs ys : same_head r r' -> all_written_out xs ys -> Forall2 linked (flat_map (scenario_origins r) xs) (flat_map (scenario_origins r') ys).
Proof.
  intros H [l [F ->]]. induction F as [|x y xs l W F IH]; [constructor|]. cbn [flat_map concat]. rewrite flat_map_app. apply Forall2_app; [now apply linked_scenario | exact IH].
Qed.
Lemma linked_origins f f' : feature_written_out f f' -> Forall2 linked (feature_origins f) (feature_origins f').
Proof.
  intros [_ [_ [_ [_ [_ [S R]]]]]]. apply Forall2_app; [now apply linked_scenarios|]. clear S. induction R as [|x y l l' [T [B S]] R IH]; [constructor|]. cbn [flat_map]. apply Forall2_app; [|exact IH]. apply linked_scenarios; [|exact S]. now split.
Qed.

(** ** Steps *)
Lemma filled_id x : filled [] x x. Proof. constructor. Qed.
Lemma Forall2_fun {A B} (P : A -> B -> Prop) : (forall a b c, P a b -> P a c -> b = c) -> forall l m n, Forall2 P l m -> Forall2 P l n -> m = n.
Proof. intros H l m n F. revert n. induction F as [|a b l m X F IH]; intros n G; inversion G; subst; [reflexivity|]. f_equal; eauto. Qed.
Lemma arg_filled_fun cols a x y : arg_filled cols a x -> arg_filled cols a y -> x = y.
Proof.
  intros F G. destruct F as [|t rows H|d c m H1 H2]; inversion G as [|t' rows' H'|d' c' m' H1' H2']; subst; [reflexivity| |].
  - do 2 f_equal. revert H H'. apply Forall2_fun. intros r b c. apply Forall2_fun. intros. eapply C24_filled_unique; eauto.
  - do 2 f_equal; [eapply C24_filled_unique; eauto|]. destruct (ds_media d), m, m'; try contradiction; [|reflexivity]. f_equal. eapply C24_filled_unique; eauto.
Qed.
Lemma arg_rel_nothing a p : arg_rel [] [] a p -> p = argument_of a.
Proof.
  destruct 1 as [|t rows H|d c m H1 H2]; [reflexivity| |]; cbn [argument_of].
  - do 2 f_equal. induction H as [|r vs rs vss H _ IH]; [reflexivity|]. cbn [map]. f_equal; [|exact IH]. unfold values_of. clear - H. induction H as [|c v cs vs H _ IH]; [reflexivity|]. cbn [map]. cbn in H. f_equal; [congruence | exact IH].
  - cbn in H1. do 2 f_equal; [congruence|]. destruct (ds_media d), m; try contradiction; [|reflexivity]. cbn in H2. congruence.
Qed.
Lemma step_linked v w st st' q q' : Forall plain (map cell_value v) -> step_copy (cols_of v w) st st' -> step_rel v w st q -> step_rel [] [] st' q' -> ps_text q = ps_text q' /\ ps_arg q = ps_arg q'.
Proof.
  intros P [_ [_ [[a [b [A [B F]]]] G]]] R [[x [T1 T2]] T3]. destruct (step_filled_rel v w st q P R) as [[y [Y1 Y2]] Y3]. cbn in T2. split.
  - assert (y = a) by congruence. subst y. rewrite (C24_filled_unique _ _ _ _ Y2 F). congruence.
  - rewrite (arg_rel_nothing _ _ T3). eapply arg_filled_fun; eauto.
Qed.
Lemma steps_linked v w : Forall plain (map cell_value v) -> forall sts sts' qs qs', Forall2 (step_copy (cols_of v w)) sts sts' -> Forall2 (step_rel v w) sts qs -> Forall2 (step_rel [] []) sts' qs' -> map ps_text qs = map ps_text qs' /\ map ps_arg qs = map ps_arg qs'.
Proof.
  intros P sts sts' qs qs' F. revert qs qs'. induction F as [|a b l m H F IH]; intros qs qs' G G'; inversion G; inversion G'; subst; [auto|]. cbn [map]. destruct (IH _ _ ltac:(eassumption) ltac:(eassumption)) as [I1 I2]. edestruct step_linked as [K1 K2]; eauto. split; congruence.
Qed.
Lemma types_firm kts : match kts with k :: _ => ~ conj k | [] => True end -> forall a b, types_from a kts = types_from b kts.
Proof. destruct kts as [|k kts]; intros H a b; [reflexivity|]. cbn [types_from]. destruct k as [[| | | |]|]; try reflexivity. now exfalso; apply H. Qed.
Lemma copies_types cols l m : Forall2 (step_copy cols) l m -> map st_ktype m = map st_ktype l /\ map st_keyword m = map st_keyword l.
Proof. induction 1 as [|x y l m [K [T _]] _ [I1 I2]]; [auto|]. cbn [map]. split; congruence. Qed.
Lemma head_keys (x y : list step) : map (fun st => (st_keyword st, step_essence st)) x = map (fun st => (st_keyword st, step_essence st)) y -> map st_keyword x = map st_keyword y /\ map st_ktype x = map st_ktype y /\ map step_essence x = map step_essence y.
Proof.
  intros E. pose proof (f_equal (map fst) E) as A. pose proof (f_equal (map snd) E) as B. rewrite !map_map in A, B. cbn [fst snd] in A, B. split; [exact A|]. split; [|exact B].
  apply (f_equal (map (fun z => fst (fst z)))) in B. rewrite !map_map in B. exact B.
Qed.

(** ** Pickles *)
Section Pickles.
Context (f f' : feature) (Q : feature_written_out f f').
Lemma inherited_linked o o' : linked o o' -> map (fun st => (st_keyword st, step_essence st)) (inherited_steps f' o') = map (fun st => (st_keyword st, step_essence st)) (inherited_steps f o).
Proof.
  intros [H [_ [_ [_ [_ [_ S]]]]]]. destruct Q as [_ [_ [_ [_ [B _]]]]]. unfold inherited_steps. inversion S; [reflexivity|]. rewrite !map_app. f_equal; [exact B|]. destruct (o_rule o), (o_rule o'); [apply H | destruct H | destruct H | reflexivity].
Qed.
Lemma lower_linked o o' : linked o o' -> map tag_name (lower_tags o) = map tag_name (lower_tags o').
Proof.
  intros [H [R [_ [T _]]]]. unfold lower_tags. rewrite R, app_nil_r, !map_app. unfold names_of in T. rewrite T. unfold row_tags. f_equal.
  destruct (o_rule o), (o_rule o'); [symmetry; apply H | destruct H | destruct H | reflexivity].
Qed.
Lemma pickle_linked o o' p p' : linked o o' -> pickle_rel f o p -> pickle_rel f' o' p' -> Forall plain (header_names o) -> (o_row o <> None -> forall st l, origin_steps f o = st :: l -> st_ktype st <> Some KtConjunction) -> pickle_essence p = pickle_essence p'.
Proof.
  intros L R R' P U. pose proof (inherited_linked o o' L) as I. destruct (head_keys _ _ I) as [_ [I2 I3]]. pose proof (lower_linked o o' L) as LT. destruct L as [H [Ro [_ [_ [[na [nb [N1 [N2 N3]]]] [_ S]]]]]]. rewrite header_cells in P. rewrite columns_cells in N3, S.
  assert (V' : vars_of o' = []) by (unfold vars_of; now rewrite Ro). assert (W' : vals_of o' = []) by (unfold vals_of; now rewrite Ro).
  assert (N : pk_name p = pk_name p').
  { destruct (pr_name _ _ _ R) as [n [M1 M2]], (pr_name _ _ _ R') as [n' [M1' M2']]. rewrite V', W' in M2'. cbn in M2'. apply interpolate_filled in M2; [|exact P]. assert (n = na) by congruence. subst n. change (combine _ _) with (cols_of (vars_of o) (vals_of o)) in M2. rewrite (C24_filled_unique _ _ _ _ M2 N3). congruence. }
  destruct Q as [Q1 [Q2 [Q3 [Q4 [Q5 [Q6 Q7]]]]]].
  assert (Lg : pk_language p = pk_language p') by (pose proof (pr_lang _ _ _ R) as L1; pose proof (pr_lang _ _ _ R') as L2; congruence).
  assert (T : map pt_name (pk_tags p) = map pt_name (pk_tags p')).
  { rewrite (pr_tags _ _ _ R), (pr_tags _ _ _ R'), !map_map. cbn [pt_name]. change (origin_tags f o) with (fe_tags f ++ lower_tags o). change (origin_tags f' o') with (fe_tags f' ++ lower_tags o'). rewrite !map_app. f_equal; [symmetry; exact Q1 | exact LT]. }
  destruct (copies_types _ _ _ S) as [S1 _].
  assert (Kt : map st_ktype (origin_steps f' o') = map st_ktype (origin_steps f o)) by (unfold origin_steps; rewrite !map_app; congruence).
  assert (K : map ps_type (pk_steps p) = map ps_type (pk_steps p')).
  { rewrite (pr_types _ _ _ R), (pr_types _ _ _ R'), Kt. unfold init_type. rewrite Ro. destruct (o_row o) as [[[? ?] ?]|] eqn:Er; [|reflexivity]. apply types_firm. destruct (origin_steps f o) as [|st l]; [exact Logic.I|]. cbn [map]. intros C. exact (U ltac:(discriminate) st l eq_refl C). }
  destruct (pr_steps _ _ _ R) as [p1 [p2 [E1 [E2 E3]]]], (pr_steps _ _ _ R') as [q1 [q2 [F1 [F2 F3]]]]. rewrite V', W' in F3.
  destruct (steps_rel_filled [] [] [] [] eq_refl eq_refl _ _ _ _ (eq_sym I3) E2 F2) as [A1 A2]. destruct (steps_linked _ _ P _ _ _ _ S E3 F3) as [B1 B2].
  unfold pickle_essence. rewrite N, Lg, T. f_equal. apply triples; [exact K | |]; rewrite E1, F1, !map_app; congruence.
Qed.
Lemma pickles_linked : forall os os', Forall2 linked os os' -> forall ps ps', Forall2 (pickle_rel f) os ps -> Forall2 (pickle_rel f') os' ps' -> Forall (fun o => Forall plain (header_names o)) os ->
  (forall o, In o os -> o_row o <> None -> forall st l, origin_steps f o = st :: l -> st_ktype st <> Some KtConjunction) -> map pickle_essence ps = map pickle_essence ps'.
Proof.
  induction 1 as [|o o' os os' L F IH]; intros ps ps' R R' P U; inversion R; inversion R'; subst; [reflexivity|]. inversion P; subst. cbn [map]. f_equal; [eapply pickle_linked; eauto; apply U; now left | apply IH; auto; intros; eapply U; eauto; now right].
Qed.
(** a test but for its name *)
Definition test_body (t : rtest) := (rt_doc t, rt_tags t, map call_shape (rt_calls t)).
Definition row_suffix (o : origin) : str :=
  match o_row o with None => [] | Some (ex, _, _) => match ex_keyword ex with Some kw => if str_eqb kw (s "Examples") then suffix_of (columns o) else [] | None => [] end end.
Lemma test_linked pr o o' p p' t t' : linked o o' -> pickle_essence p = pickle_essence p' -> test_of f o p t -> test_of f' o' p' t' -> Forall2 (exact_args pr) (pk_steps p) (rt_calls t) -> Forall2 (exact_args pr) (pk_steps p') (rt_calls t') ->
  test_body t = test_body t' /\ rt_name t = rt_name t' ++ row_suffix o.
Proof.
  intros L Ep [T1 [T2 [T3 [T4 _]]]] [U1 [U2 [U3 [U4 _]]]] X X'. unfold pickle_essence in Ep. injection Ep as P1 _ _ P4. pose proof (lower_linked o o' L) as LT. destruct (head_keys _ _ (inherited_linked o o' L)) as [I1 _]. destruct L as [H [Ro [_ [_ [_ [D S]]]]]].
  destruct (copies_types _ _ _ S) as [_ S2]. split.
  - unfold test_body. assert (G : rt_tags t = rt_tags t') by (apply cons_inj; unfold test_tags in *; now rewrite T3, U3).
    assert (K : map st_keyword (origin_steps f o) = map st_keyword (origin_steps f' o')) by (unfold origin_steps; rewrite !map_app; congruence).
    rewrite T2, U2, D, G. now rewrite (same_calls _ _ _ _ _ _ T4 U4 pr X X' K P4).
  - rewrite T1, U1, Ro, app_nil_r, P1. reflexivity.
Qed.
Lemma tests_linked pr : forall os ps ts, Forall3 (test_of f) os ps ts -> forall os' ps' ts', Forall3 (test_of f') os' ps' ts' -> Forall2 linked os os' -> map pickle_essence ps = map pickle_essence ps' ->
  Forall2 (fun p t => Forall2 (exact_args pr) (pk_steps p) (rt_calls t)) ps ts -> Forall2 (fun p t => Forall2 (exact_args pr) (pk_steps p) (rt_calls t)) ps' ts' ->
  map test_body ts = map test_body ts' /\ Forall3 (fun o t t' => rt_name t = rt_name t' ++ row_suffix o) os ts ts'.
Proof.
  induction 1 as [|o p t os ps ts H F IH]; intros os' ps' ts' G L E X X'; inversion L; subst; inversion G; subst; [split; constructor|]. assert (E1 : pickle_essence p = pickle_essence b) by (cbn [map] in E; congruence). assert (E2 : map pickle_essence ps = map pickle_essence lb) by (cbn [map] in E; congruence). inversion X as [|? ? ? ? X1 X2]; inversion X' as [|? ? ? ? X1' X2']; subst.
  match goal with L0 : linked o ?y, G0 : test_of f' ?y _ _ |- _ => destruct (test_linked pr o y p b t c L0 E1 H G0 X1 X1') as [A B] end.
  match goal with L0 : Forall2 linked os ?l, G0 : Forall3 (test_of f') ?l _ _ |- _ => destruct (IH _ _ _ G0 L0 E2 X2 X2') as [C D] end. cbn [map]. split; [now rewrite A, C|]. constructor; assumption.
Qed.
End Pickles.

(** ** C104 *)
Definition suite_body (x : rsuite) := (rs_doc x, rs_library x, rs_resources x, rs_metadata_tags x, rs_test_tags x, map test_body (rs_tests x)).
Lemma no_headers f f' : feature_written_out f f' -> Forall (fun o => Forall plain (header_names o)) (feature_origins f').
Proof. intros Q. induction (linked_origins f f' Q) as [|o o' os os' [_ [R _]] F IH]; [constructor|]. constructor; [|exact IH]. unfold header_names. rewrite R. constructor. Qed.
Theorem C104_same_pickles : forall name name' content content' d d' f f',
  read_file name content = Ok d -> read_file name' content' = Ok d' -> gd_feature d = Some f -> gd_feature d' = Some f' ->
  feature_written_out f f' -> plain_headers d -> no_and_first f ->
  exists ps i ps' i', compile d 0 = Ok (ps, i) /\ compile d' 0 = Ok (ps', i') /\ map pickle_essence ps = map pickle_essence ps'.
Proof.
  intros name name' content content' d d' f f' R R' F F' Q P U.
  assert (P' : plain_headers d') by (unfold plain_headers, origins; rewrite F'; now apply (no_headers f)).
  destruct (compiles _ _ _ R P) as [ps [i C]], (compiles _ _ _ R' P') as [ps' [i' C']]. exists ps, i, ps', i'. split; [exact C|]. split; [exact C'|].
  destruct (compile_pickles d f 0 ps i F C) as [K _]. destruct (compile_pickles d' f' 0 ps' i' F' C') as [K' _]. unfold plain_headers in P. unfold origins in *. rewrite F in *. rewrite F' in *.
  apply (pickles_linked f f' Q _ _ (linked_origins f f' Q) _ _ K K' P). intros o Ho Hr st l E. exact (U o st l Ho Hr E).
Qed.
Print Assumptions C104_same_pickles.
(** C104.  When a file says what another one does, with its outlines written out as scenarios, both give the same suite but for the names of the tests (and the places):
    to the name of the test of a row, the columns are added. *)
Theorem C104_same_suite : forall printable name name' content content' dir d d' f f',
  read_file name content = Ok d -> read_file name' content' = Ok d' -> gd_feature d = Some f -> gd_feature d' = Some f' ->
  feature_written_out f f' -> plain_headers d -> no_and_first f ->
  exists x x', build_gherkin_model printable name content dir = Ok (RSuite x, fe_name f) /\ build_gherkin_model printable name' content' dir = Ok (RSuite x', fe_name f) /\
    suite_body x = suite_body x' /\ Forall3 (fun o t t' => rt_name t = rt_name t' ++ row_suffix o) (feature_origins f) (rs_tests x) (rs_tests x').
Proof.
  intros pr name name' content content' dir d d' f f' R R' F F' Q P U. pose proof (build_eq pr name content dir) as B. pose proof (build_eq pr name' content' dir) as B'. rewrite R in B. rewrite R' in B'.
  destruct (C104_same_pickles _ _ _ _ _ _ _ _ R R' F F' Q P U) as [ps [i [ps' [i' [C [C' E]]]]]]. rewrite C, F in B. rewrite C', F' in B'. destruct B as [su [-> [S1 [S2 S3]]]], B' as [su' [-> [S1' [S2' S3']]]].
  unfold origins in *. rewrite F in *. rewrite F' in *.
  destruct (tests_linked f f' Q pr _ _ _ S2 _ _ _ S2' (linked_origins f f' Q) E S3 S3') as [T N]. destruct S1 as [A1 [A2 [A3 [A4 A5]]]], S1' as [A1' [A2' [A3' [A4' A5']]]]. destruct Q as [Q1 [Q2 [Q3 [Q4 _]]]].
  exists su, su'. split; [reflexivity|]. split; [now rewrite Q3|]. split; [|exact N]. unfold suite_body. rewrite A1, A1', Q4, A2, A2', T. rewrite A3 in A3'. injection A3' as ->. unfold names_of in Q1.
  assert (TT : rs_test_tags su = rs_test_tags su') by (apply cons_inj; now rewrite A4, A4').
  rewrite A5, A5', TT. destruct (fe_tags f), (fe_tags f'); try discriminate Q1; reflexivity.
Qed.
Print Assumptions C104_same_suite.

(** ** Cases *)
Definition fill (cols : list (str * str)) (x : str) : str := fold_left (fun y hv => replace (placeholder (fst hv)) (snd hv) y) cols x.
Lemma fill_filled cols : forall x, filled cols x (fill cols x).
Proof. induction cols as [|[h v] cols IH]; intros x; [constructor|]. unfold fill. cbn [fold_left fst snd]. econstructor; [apply replace_replaced; discriminate | apply IH]. Qed.
Lemma fill_eq cols x y : fill cols x = y -> filled cols x y. Proof. intros <-. apply fill_filled. Qed.
Ltac filling := apply fill_eq; vm_compute; reflexivity.
Ltac same_step := split; [reflexivity|]; split; [reflexivity|]; split; [eexists; eexists; split; [reflexivity|]; split; [reflexivity|]; filling|]; cbn; repeat constructor; filling.
Ltac same_case := split; [reflexivity|]; split; [reflexivity|]; split; [eexists; eexists; split; [reflexivity|]; split; [reflexivity|]; filling|]; split; [reflexivity|]; repeat (apply Forall2_cons; [same_step|]); apply Forall2_nil.
Definition c104_text : str := text_of_lines [s "Feature: f"; s "Background: b"; s "Given a"; s "Scenario: one"; s "And c"; s "Scenario Outline: two <n>"; s "But d <n><m>"; s "| x <m> |"; s "@t"; s "Examples:"; s "| n | m |"; s "| 1 | 2 |"; s "| 3 | 4 |"; s "Examples:";
  s "Rule: r"; s "Scenario Outline: three <k>"; s "When e"; s "Examples: more"; s "| k |"; s "| v |"].
Definition c104_text' : str := text_of_lines [s "Feature: f"; s "Background: b"; s "Given a"; s "Scenario: one"; s "And c"; s "@t"; s "Scenario: two 1"; s "But d 12"; s "| x 2 |"; s "@t"; s "Scenario: two 3"; s "But d 34"; s "| x 4 |";
  s "Rule: r"; s "Scenario: three v"; s "When e"].
Definition c104_d : gdoc := Eval vm_compute in match read_file (s "a.feature") c104_text with Ok d => d | _ => mkGdoc None [] end.
Definition c104_f : feature := Eval vm_compute in match gd_feature c104_d with Some f => f | _ => mkFeature [] (mkLoc 0 None) None None None [] None [] [] end.
Definition c104_d' : gdoc := Eval vm_compute in match read_file (s "a.feature") c104_text' with Ok d => d | _ => mkGdoc None [] end.
Definition c104_f' : feature := Eval vm_compute in match gd_feature c104_d' with Some f => f | _ => mkFeature [] (mkLoc 0 None) None None None [] None [] [] end.
Lemma c104_written : feature_written_out c104_f c104_f'.
Proof.
  split; [reflexivity|]. split; [reflexivity|]. split; [reflexivity|]. split; [reflexivity|]. split; [reflexivity|]. split.
  - exists [firstn 1 (fe_scenarios c104_f'); skipn 1 (fe_scenarios c104_f')]. split; [|reflexivity]. apply Forall2_cons; [|apply Forall2_cons; [|apply Forall2_nil]]; unfold written_out; cbn; repeat (apply Forall2_cons; [same_case|]); apply Forall2_nil.
  - cbn. apply Forall2_cons; [|apply Forall2_nil]. split; [reflexivity|]. split; [reflexivity|]. exists [match fe_rules c104_f' with r :: _ => ru_scenarios r | [] => [] end]. split; [|reflexivity]. apply Forall2_cons; [|apply Forall2_nil]. unfold written_out; cbn; repeat (apply Forall2_cons; [same_case|]); apply Forall2_nil.
Qed.
Definition firm_origin (f : feature) (o : origin) : bool := match o_row o, origin_steps f o with Some _, st :: _ => match st_ktype st with Some KtConjunction => false | _ => true end | _, _ => true end.
Lemma firm_all f : forallb (firm_origin f) (feature_origins f) = true -> no_and_first f.
Proof.
  intros H o st l Ho Hr E C. rewrite forallb_forall in H. specialize (H o Ho). unfold firm_origin in H. rewrite E, C in H. destruct (o_row o); [discriminate H | now apply Hr].
Qed.
Example C104_case : read_file (s "a.feature") c104_text = Ok c104_d /\ read_file (s "a.feature") c104_text' = Ok c104_d' /\ gd_feature c104_d = Some c104_f /\ gd_feature c104_d' = Some c104_f' /\
  feature_written_out c104_f c104_f' /\ plain_headers c104_d /\ no_and_first c104_f /\
  c103_tests c104_text = [(s "one", [(s "Given a", 0); (s "And c", 0)]); (s "two 1 n = 1 m = 2", [(s "Given a", 0); (s "But d 12", 1)]); (s "two 3 n = 3 m = 4", [(s "Given a", 0); (s "But d 34", 1)]); (s "three v k = v", [(s "Given a", 0); (s "When e", 0)])] /\
  c103_tests c104_text' = [(s "one", [(s "Given a", 0); (s "And c", 0)]); (s "two 1", [(s "Given a", 0); (s "But d 12", 1)]); (s "two 3", [(s "Given a", 0); (s "But d 34", 1)]); (s "three v", [(s "Given a", 0); (s "When e", 0)])].
Proof.
  split; [vm_compute; reflexivity|]. split; [vm_compute; reflexivity|]. split; [reflexivity|]. split; [reflexivity|]. split; [exact c104_written|]. split; [apply simple_headers; vm_compute; reflexivity|]. split; [apply firm_all; vm_compute; reflexivity|]. split; vm_compute; reflexivity.
Qed.
(** "And" as the first step: its keyword is left out in a scenario, and kept in an outline *)
Definition c104_bad : str := text_of_lines [s "Feature: f"; s "Scenario Outline: two"; s "And d <n>"; s "Examples:"; s "| n |"; s "| 1 |"].
Definition c104_bad' : str := text_of_lines [s "Feature: f"; s "Scenario: two"; s "And d 1"].
Definition feature_in (x : str) : feature := match read_file (s "a.feature") x with Ok d => match gd_feature d with Some f => f | _ => c104_f end | _ => c104_f end.
Definition c104_bad_f : feature := Eval vm_compute in feature_in c104_bad.
Definition c104_bad_f' : feature := Eval vm_compute in feature_in c104_bad'.
Theorem C104_and_first_differs : exists d d', read_file (s "a.feature") c104_bad = Ok d /\ read_file (s "a.feature") c104_bad' = Ok d' /\ gd_feature d = Some c104_bad_f /\ gd_feature d' = Some c104_bad_f' /\
  feature_written_out c104_bad_f c104_bad_f' /\ plain_headers d /\ ~ no_and_first c104_bad_f /\
  c103_tests c104_bad = [(s "two n = 1", [(s "And d 1", 0)])] /\ c103_tests c104_bad' = [(s "two", [(s "d 1", 0)])].
Proof.
  eexists; eexists. split; [vm_compute; reflexivity|]. split; [vm_compute; reflexivity|]. split; [reflexivity|]. split; [reflexivity|]. split; [|split; [apply simple_headers; vm_compute; reflexivity|]; split; [|split; vm_compute; reflexivity]].
  - split; [reflexivity|]. split; [reflexivity|]. split; [reflexivity|]. split; [reflexivity|]. split; [reflexivity|]. split; [|constructor].
    exists [fe_scenarios c104_bad_f']. split; [|reflexivity]. apply Forall2_cons; [|apply Forall2_nil]. unfold written_out; cbn; repeat (apply Forall2_cons; [same_case|]); apply Forall2_nil.
  - intros N. refine (N (hd (mkOrigin None (mkScenario 0 [] (mkLoc 0 None) None None [] [] []) None) (feature_origins c104_bad_f)) _ _ _ _ eq_refl eq_refl); [now left | discriminate].
Qed.
