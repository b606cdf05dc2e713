(** * Backgrounds spread over the scenarios: C103 *)
From Verif Require Import PyStr PyStrFacts Types Regex Line DialectData Matcher Ast Parser Compiler LineSpec LangSpec DocSpec PartsSpec PickleSpec PickleFacts PickleTotal PropLine PropParse PropCompile EssenceSpec EssenceFacts
  Glob Robot RobotSpec SuiteSpec RobotFacts PropRobot WriteSpec PropWrite PropEssence PropStepMore SpreadSpec.
Import WriteSpec.

Lemma map_split {A B} (f : A -> B) l : forall a b, map f l = a ++ b -> exists x y, l = x ++ y /\ map f x = a /\ map f y = b.
Proof.
  induction l as [|c l IH]; intros a b E.
  - destruct a; [|discriminate E]. destruct b; [|discriminate E]. exists [], []. auto.
  - destruct a as [|d a]; cbn [map app] in E.
    + exists [], (c :: l). auto.
    + injection E as E1 E2. destruct (IH a b E2) as [x [y [-> [X Y]]]]. exists (c :: x), y. cbn. now rewrite E1, X.
Qed.

(** ** Origins *)
Definition spread_origin (f : feature) (o : origin) : origin :=
  mkOrigin (option_map (spread_rule (PickleSpec.background_steps (fe_background f))) (o_rule o))
    (led_by (PickleSpec.background_steps (fe_background f) ++ match o_rule o with None => [] | Some r => PickleSpec.background_steps (ru_background r) end) (o_scenario o)) (o_row o).
Lemma s_scenario f ru pre sc : pre = PickleSpec.background_steps (fe_background f) ++ match ru with None => [] | Some r => PickleSpec.background_steps (ru_background r) end ->
  scenario_origins (option_map (spread_rule (PickleSpec.background_steps (fe_background f))) ru) (led_by pre sc) = map (spread_origin f) (scenario_origins ru sc).
Proof.
  intros ->. unfold scenario_origins. cbn [led_by sc_examples]. destruct (sc_examples sc) as [|e es]; [reflexivity|]. generalize (e :: es). intros l. induction l as [|x l IH]; [reflexivity|].
  cbn [flat_map]. rewrite map_app, <- IH. f_equal. unfold examples_origins. destruct (ex_header x); [|reflexivity]. rewrite map_map. reflexivity.
Qed.
Lemma s_scenarios f ru pre l : pre = PickleSpec.background_steps (fe_background f) ++ match ru with None => [] | Some r => PickleSpec.background_steps (ru_background r) end ->
  flat_map (scenario_origins (option_map (spread_rule (PickleSpec.background_steps (fe_background f))) ru)) (map (led_by pre) l) = map (spread_origin f) (flat_map (scenario_origins ru) l).
Proof. intros E. induction l as [|x l IH]; [reflexivity|]. cbn [map flat_map]. now rewrite map_app, <- IH, (s_scenario f ru pre x E). Qed.
Lemma s_origins f : feature_origins (spread f) = map (spread_origin f) (feature_origins f).
Proof.
  unfold feature_origins. cbn [spread fe_scenarios fe_rules]. rewrite map_app. f_equal; [apply (s_scenarios f None); now rewrite app_nil_r|].
  induction (fe_rules f) as [|r l IH]; [reflexivity|]. cbn [map flat_map spread_rule ru_scenarios]. rewrite map_app, IH. f_equal. now apply (s_scenarios f (Some r)).
Qed.
Lemma s_inherited f o : inherited_steps (spread f) (spread_origin f o) = [].
Proof. unfold inherited_steps. cbn. destruct (sc_steps (o_scenario o)) as [|x l]; [reflexivity|]. destruct (_ ++ x :: l); [reflexivity|]. now destruct (o_rule o). Qed.
Lemma s_own f o : sc_steps (o_scenario (spread_origin f o)) = origin_steps f o.
Proof. unfold origin_steps, inherited_steps. cbn. destruct (sc_steps (o_scenario o)); reflexivity. Qed.
Lemma s_steps f o : origin_steps (spread f) (spread_origin f o) = origin_steps f o.
Proof. unfold origin_steps at 1. now rewrite s_inherited, s_own. Qed.
Lemma s_lower f o : map tag_name (lower_tags (spread_origin f o)) = map tag_name (lower_tags o).
Proof. unfold lower_tags. cbn. now destruct (o_rule o). Qed.

(** ** Steps without placeholders *)
Definition unfilled (vars : list cell) (st : step) : Prop := forall h, In h (map cell_value vars) -> forall x, In x (step_texts st) -> forall a b, x <> a ++ placeholder h ++ b.
Lemma interpolate_nothing vars vals x y : Forall PickleSpec.plain (map cell_value vars) -> (forall h, In h (map cell_value vars) -> forall a b, x <> a ++ placeholder h ++ b) -> interpolate x vars vals = Ok y -> y = x.
Proof.
  intros P N H. apply interpolate_filled in H; [|exact P]. apply (C24_no_placeholder (cols_of vars vals)); [|exact H]. intros h v Hv. apply N. unfold cols_of in Hv. now apply in_combine_l in Hv.
Qed.
Lemma step_rel_unfilled v w st st' q q' : Forall PickleSpec.plain (map cell_value v) -> unfilled v st -> step_essence st = step_essence st' -> step_rel [] [] st q -> step_rel v w st' q' -> ps_text q = ps_text q' /\ ps_arg q = ps_arg q'.
Proof.
  intros P U E [[x [T1 T2]] A] [[x' [T1' T2']] A']. unfold step_essence in E. assert (x' = x) by congruence. subst x'. cbn [interpolate] in T2.
  assert (G : forall z y, In z (step_texts st) -> interpolate z v w = Ok y -> y = z) by (intros z y Hz; apply interpolate_nothing; [exact P|]; intros h Hh; now apply U).
  split. { rewrite (G x (ps_text q')); [congruence | | exact T2']. unfold step_texts. rewrite T1. now left. }
  assert (Ea : argument_essence (st_arg st) = argument_essence (st_arg st')) by congruence. assert (G' : forall z y, In z (argument_texts (st_arg st)) -> interpolate z v w = Ok y -> y = z) by (intros z y Hz; apply G; unfold step_texts; apply in_or_app; now right).
  clear - Ea G' A A'. destruct A as [|t rows H|dd c m H1 H2], A' as [|t' rows' H'|dd' c' m' H1' H2']; try discriminate Ea; [reflexivity| |]; cbn [argument_essence argument_texts] in *.
  - do 2 f_equal. assert (Er : map values_of (dt_rows t) = map values_of (dt_rows t')) by congruence. clear Ea. revert rows rows' H H' Er G'. generalize (dt_rows t'). induction (dt_rows t) as [|r l IH]; intros l' rows rows' H H' Er G'; destruct l' as [|r' l']; try discriminate Er; inversion H; subst; inversion H'; subst; [reflexivity|].
    cbn [map flat_map] in *. f_equal; [|apply (IH l'); [assumption | assumption | congruence | intros zz yy Hz; apply G', in_or_app; now right]].
    assert (Ec : map cell_value (row_cells r) = map cell_value (row_cells r')) by (unfold values_of in Er; congruence). match goal with A1 : Forall2 _ (row_cells r) ?a, A2 : Forall2 _ (row_cells r') ?b |- ?a = ?b => revert A1 A2; generalize a, b end.
    assert (G2 : forall z y, In z (map cell_value (row_cells r)) -> interpolate z v w = Ok y -> y = z) by (intros zz yy Hz; apply G', in_or_app; now left). clear - Ec G2. revert Ec G2. generalize (row_cells r'). induction (row_cells r) as [|c cs IH]; intros cs' Ec G2 a b A1 A2; destruct cs' as [|c' cs']; try discriminate Ec; inversion A1; subst; inversion A2; subst; [reflexivity|].
    cbn [map] in *. f_equal; [|apply (IH cs'); [congruence | intros zz yy Hz; apply G2; now right | assumption | assumption]]. cbn [interpolate] in *. assert (K : cell_value c = cell_value c') by congruence. rewrite <- K in *.
    match goal with A : interpolate (cell_value c) v w = Ok _ |- _ => pose proof (G2 _ _ (or_introl eq_refl) A); congruence end.
  - cbn [interpolate] in *. assert (E1 : ds_content dd = ds_content dd') by congruence. assert (E2 : ds_media dd = ds_media dd') by congruence. rewrite <- E1 in H1'. rewrite <- E2 in H2'. rewrite (G' _ c' (or_introl eq_refl) H1'). do 2 f_equal; [congruence|].
    destruct (ds_media dd) as [z|] eqn:Ez, m as [y|], m' as [y'|]; try contradiction; [|reflexivity]. f_equal. rewrite (G' z y'); [congruence | right; now left | exact H2'].
Qed.
Lemma steps_rel_unfilled v w : Forall PickleSpec.plain (map cell_value v) -> forall sts sts' qs qs', map step_essence sts = map step_essence sts' -> Forall (unfilled v) sts -> Forall2 (step_rel [] []) sts qs -> Forall2 (step_rel v w) sts' qs' ->
  map ps_text qs = map ps_text qs' /\ map ps_arg qs = map ps_arg qs'.
Proof.
  intros P sts sts' qs qs' E U F. revert sts' qs' E U. induction F as [|st q sts qs H F IH]; intros sts' qs' E U F'; inversion F' as [|st' q' sts2 qs2 H' F2]; subst; try discriminate E; [auto|]. inversion U as [|? ? U1 U2]; subst. cbn [map] in *.
  destruct (IH sts2 qs2) as [I1 I2]; [congruence | exact U2 | exact F2|]. destruct (step_rel_unfilled v w st st' q q' P U1) as [K1 K2]; [congruence | exact H | exact H'|]. split; congruence.
Qed.
Lemma steps_rel_filled v w v' w' : map cell_value v = map cell_value v' -> map cell_value w = map cell_value w' -> forall sts sts' qs qs', map step_essence sts = map step_essence sts' -> Forall2 (step_rel v w) sts qs -> Forall2 (step_rel v' w') sts' qs' ->
  map ps_text qs = map ps_text qs' /\ map ps_arg qs = map ps_arg qs'.
Proof.
  intros Ev Ew sts sts' qs qs' E F. revert sts' qs' E. induction F as [|st q sts qs H F IH]; intros sts' qs' E F'; inversion F' as [|st' q' sts2 qs2 H' F2]; subst; try discriminate E; [auto|]. cbn [map] in *.
  destruct (IH sts2 qs2) as [I1 I2]; [congruence | exact F2|]. destruct (step_rel_fun v w v' w' Ev Ew st st' q q') as [K1 K2]; [congruence | exact H | exact H'|]. split; congruence.
Qed.

(** ** Pickles *)
Lemma triples qs : forall qs', map ps_type qs = map ps_type qs' -> map ps_text qs = map ps_text qs' -> map ps_arg qs = map ps_arg qs' ->
  map (fun q => (ps_type q, ps_text q, ps_arg q)) qs = map (fun q => (ps_type q, ps_text q, ps_arg q)) qs'.
Proof. induction qs as [|q qs IH]; intros [|q' qs'] A B C; try discriminate A; [reflexivity|]. cbn [map] in *. f_equal; [congruence | apply IH; congruence]. Qed.
Lemma plain_row_cells a b : plain_row a = plain_row b -> map cell_value (row_cells a) = map cell_value (row_cells b).
Proof. intros E. apply (f_equal values_of) in E. rewrite !e_row in E. exact E. Qed.
Section Pickles.
Context (f f' : feature) (Q : plain f' = plain (spread f)).
Lemma spread_cells o o' : plain_origin o' = plain_origin (spread_origin f o) -> map cell_value (vars_of o) = map cell_value (vars_of o') /\ map cell_value (vals_of o) = map cell_value (vals_of o').
Proof.
  intros E. apply (f_equal o_row) in E. cbn in E. unfold vars_of, vals_of. destruct (o_row o) as [[[ex h] x]|], (o_row o') as [[[ex' h'] x']|]; try discriminate E; [|auto].
  assert (A : plain_row h' = plain_row h) by congruence. assert (B : plain_row x' = plain_row x) by congruence. split; symmetry; now apply plain_row_cells.
Qed.
Lemma spread_inherited o o' : plain_origin o' = plain_origin (spread_origin f o) -> inherited_steps f' o' = [].
Proof.
  intros E. unfold inherited_steps. destruct (sc_steps (o_scenario o')); [reflexivity|]. pose proof (f_equal fe_background Q) as B. cbn in B. destruct (fe_background f'); [discriminate B|]. cbn [PickleSpec.background_steps app].
  apply (f_equal (fun o => match o_rule o with Some r => ru_background r | None => None end)) in E. cbn in E. destruct (o_rule o') as [r'|]; [|reflexivity]. cbn in E. destruct (o_rule o) as [r|]; cbn in E; destruct (ru_background r'); try discriminate E; reflexivity.
Qed.
Lemma spread_steps_plain o o' : plain_origin o' = plain_origin (spread_origin f o) -> map plain_step (origin_steps f' o') = map plain_step (origin_steps f o).
Proof. intros E. now rewrite <- p_steps, Q, E, p_steps, s_steps. Qed.
Lemma spread_pickle o o' p p' : plain_origin o' = plain_origin (spread_origin f o) -> pickle_rel f o p -> pickle_rel f' o' p' -> Forall PickleSpec.plain (header_names o) -> Forall (unfilled (vars_of o)) (inherited_steps f o) -> pickle_essence p = pickle_essence p'.
Proof.
  intros E R R' P U. destruct (spread_cells o o' E) as [Ev Ew]. pose proof (spread_steps_plain o o' E) as Es. rewrite header_cells in P.
  assert (N : pk_name p = pk_name p').
  { destruct (pr_name _ _ _ R) as [n [N1 N2]], (pr_name _ _ _ R') as [n' [N1' N2']]. pose proof (f_equal (fun o => sc_name (o_scenario o)) E) as En. cbn in En. assert (n' = n) by congruence. subst n'. exact (same_text _ _ _ _ Ev Ew _ _ _ N2 N2'). }
  assert (L : pk_language p = pk_language p') by (pose proof (pr_lang _ _ _ R) as L1; pose proof (pr_lang _ _ _ R') as L2; pose proof (f_equal fe_language Q) as L3; cbn in L3; congruence).
  assert (T : map pt_name (pk_tags p) = map pt_name (pk_tags p')).
  { rewrite (pr_tags _ _ _ R), (pr_tags _ _ _ R'), !map_map. cbn [pt_name]. change (origin_tags f o) with (fe_tags f ++ lower_tags o). change (origin_tags f' o') with (fe_tags f' ++ lower_tags o'). rewrite !map_app. f_equal.
    - pose proof (f_equal (fun x => names_of (fe_tags x)) Q) as G. cbn in G. rewrite !e_tags in G. now symmetry.
    - change (map tag_name (lower_tags o) = map tag_name (lower_tags o')). now rewrite <- (p_lower o'), E, p_lower, s_lower. }
  assert (K : map ps_type (pk_steps p) = map ps_type (pk_steps p')).
  { rewrite (pr_types _ _ _ R), (pr_types _ _ _ R'). f_equal.
    - unfold init_type. apply (f_equal o_row) in E. cbn in E. destruct (o_row o) as [[[? ?] ?]|], (o_row o') as [[[? ?] ?]|]; try discriminate E; reflexivity.
    - apply (f_equal (map st_ktype)) in Es. rewrite !map_map in Es. now symmetry. }
  destruct (pr_steps _ _ _ R) as [p1 [p2 [S1 [S2 S3]]]], (pr_steps _ _ _ R') as [q1 [q2 [S1' [S2' S3']]]]. rewrite (spread_inherited o o' E) in S2'. inversion S2'; subst q1. clear S2'.
  unfold origin_steps in Es. rewrite (spread_inherited o o' E) in Es. cbn [app] in Es. rewrite map_app in Es. destruct (map_split _ _ _ _ Es) as [x [y [X1 [X2 X3]]]]. rewrite X1 in S3'. apply Forall2_app_inv_l in S3' as [r1 [r2 [Y1 [Y2 Y3]]]].
  assert (Ex : map step_essence (inherited_steps f o) = map step_essence x) by (rewrite <- (e_steps x), X2, e_steps; reflexivity).
  assert (Ey : map step_essence (sc_steps (o_scenario o)) = map step_essence y) by (rewrite <- (e_steps y), X3, e_steps; reflexivity).
  assert (P' : Forall PickleSpec.plain (map cell_value (vars_of o'))) by now rewrite <- Ev.
  assert (U' : Forall (unfilled (vars_of o')) (inherited_steps f o)) by (eapply Forall_impl; [|exact U]; intros st H h Hh; apply H; now rewrite Ev).
  destruct (steps_rel_unfilled _ _ P' _ _ _ _ Ex U' S2 Y1) as [A1 A2]. destruct (steps_rel_filled _ _ _ _ Ev Ew _ _ _ _ Ey S3 Y2) as [B1 B2].
  unfold pickle_essence. rewrite N, L, T. f_equal. apply triples; [exact K | |]; rewrite S1, S1', Y3; cbn [app]; rewrite !map_app; congruence.
Qed.
Lemma spread_test pr o o' p p' t t' : test_of f o p t -> test_of f' o' p' t' -> Forall2 (exact_args pr) (pk_steps p) (rt_calls t) -> Forall2 (exact_args pr) (pk_steps p') (rt_calls t') ->
  plain_origin o' = plain_origin (spread_origin f o) -> pickle_essence p = pickle_essence p' -> test_shape t = test_shape t'.
Proof.
  intros [T1 [T2 [T3 [T4 _]]]] [U1 [U2 [U3 [U4 _]]]] X X' Eo Ep. unfold test_shape. unfold pickle_essence in Ep. injection Ep as P1 _ _ P4.
  assert (N : rt_name t = rt_name t').
  { rewrite T1, U1, P1. f_equal. assert (C : columns o = columns o') by (rewrite <- (p_columns o'), Eo, p_columns; reflexivity). rewrite C. clear - Eo. apply (f_equal o_row) in Eo. cbn in Eo.
    destruct (o_row o) as [[[ex h] x]|], (o_row o') as [[[ex' h'] x']|]; try discriminate Eo; [|reflexivity].
    assert (E : plain_examples ex' = plain_examples ex) by congruence. apply (f_equal ex_keyword) in E. cbn in E. now rewrite E. }
  assert (D : rt_doc t = rt_doc t').
  { rewrite T2, U2. apply (f_equal (fun o => sc_desc (o_scenario o))) in Eo. cbn in Eo. now rewrite Eo. }
  assert (G : rt_tags t = rt_tags t').
  { apply cons_inj. unfold test_tags in *. now rewrite T3, U3, <- (p_lower o'), Eo, p_lower, s_lower. }
  assert (K : map st_keyword (origin_steps f o) = map st_keyword (origin_steps f' o')).
  { pose proof (spread_steps_plain o o' Eo) as Es. apply (f_equal (map st_keyword)) in Es. rewrite !map_map in Es. now symmetry. }
  rewrite N, D, G. now rewrite (same_calls _ _ _ _ _ _ T4 U4 pr X X' K P4).
Qed.
Lemma spread_tests pr : forall os ps ts os' ps' ts', Forall3 (test_of f) os ps ts -> Forall3 (test_of f') os' ps' ts' ->
  Forall2 (fun p t => Forall2 (exact_args pr) (pk_steps p) (rt_calls t)) ps ts -> Forall2 (fun p t => Forall2 (exact_args pr) (pk_steps p) (rt_calls t)) ps' ts' ->
  Forall2 (pickle_rel f) os ps -> Forall2 (pickle_rel f') os' ps' -> Forall (fun o => Forall PickleSpec.plain (header_names o) /\ Forall (unfilled (vars_of o)) (inherited_steps f o)) os ->
  map plain_origin os' = map plain_origin (map (spread_origin f) os) -> map test_shape ts = map test_shape ts'.
Proof.
  intros os ps ts os' ps' ts' F. revert os' ps' ts'. induction F as [|o p t os ps ts H F IH]; intros os' ps' ts' F' X X' R R' U E1.
  - destruct F'; [reflexivity | discriminate E1].
  - destruct F' as [|o' p' t' os' ps' ts' H' F']; [discriminate E1|]. inversion X as [|? ? ? ? X1 X2]; inversion X' as [|? ? ? ? X1' X2']; inversion R as [|? ? ? ? R1 R2]; inversion R' as [|? ? ? ? R1' R2']; inversion U as [|? ? [U1 U1'] U2]; subst.
    assert (A1 : plain_origin o' = plain_origin (spread_origin f o)) by (cbn [map] in E1; congruence). assert (A2 : map plain_origin os' = map plain_origin (map (spread_origin f) os)) by (cbn [map] in E1; congruence).
    cbn [map]. f_equal; [eapply spread_test; eauto; eapply spread_pickle; eauto | eapply IH; eauto].
Qed.
End Pickles.

(** ** C103 *)
Lemma en_ok : supported (s "en"). Proof. eexists; vm_compute; reflexivity. Qed.
Lemma compiles name content d : read_file name content = Ok d -> plain_headers d -> exists ps i, compile d 0 = Ok (ps, i).
Proof. intros R P. unfold read_file in R. destruct (is_markdown name); eapply C28_plain_headers; eauto using en_ok. Qed.
Lemma inherited_spread f o st : In o (feature_origins f) -> In st (inherited_steps f o) -> In st (spread_steps f).
Proof.
  intros I H. apply origin_in_doc in I as [I _]. unfold inherited_steps in H. destruct (sc_steps (o_scenario o)); [destruct H|]. unfold spread_steps. apply in_app_iff. apply in_app_iff in H as [H|H]; [now left|]. right.
  destruct (o_rule o) as [r|]; [|destruct H]. apply in_flat_map. exists r. split; [apply I | exact H].
Qed.
(** C103.  When a file (classic or Markdown) says what another one does, with the steps of its backgrounds put before those of the scenarios (ids, places and comments
    aside), and no step of a background has a placeholder of a table, then both give the same suite (places aside). *)
Theorem C103_same_suite : forall printable name name' content content' dir d d' f f',
  read_file name content = Ok d -> read_file name' content' = Ok d' -> gd_feature d = Some f -> gd_feature d' = Some f' ->
  plain f' = plain (spread f) -> plain_headers d -> no_placeholders f ->
  exists x x', build_gherkin_model printable name content dir = Ok (RSuite x, fe_name f) /\ build_gherkin_model printable name' content' dir = Ok (RSuite x', fe_name f) /\ suite_shape x = suite_shape x'.
Proof.
  intros pr name name' content content' dir d d' f f' R R' F F' Q P N. pose proof (build_eq pr name content dir) as B. pose proof (build_eq pr name' content' dir) as B'. rewrite R in B. rewrite R' in B'.
  assert (O : map plain_origin (feature_origins f') = map plain_origin (map (spread_origin f) (feature_origins f))) by (rewrite <- p_origins, Q, p_origins, s_origins; reflexivity).
  assert (P' : plain_headers d').
  { unfold plain_headers, origins in *. rewrite F in P. rewrite F'. clear - P O. revert O P. generalize (feature_origins f'). induction (feature_origins f) as [|o os IH]; intros os' O P; destruct os' as [|o' os']; try discriminate O; [constructor|]. inversion P as [|? ? P1 P2]; subst.
    cbn [map] in O. assert (O1 : plain_origin o' = plain_origin (spread_origin f o)) by congruence. constructor; [|apply IH; [congruence | exact P2]]. rewrite header_cells in *. now rewrite <- (proj1 (spread_cells f o o' O1)). }
  destruct (compiles _ _ _ R P) as [ps [i C]], (compiles _ _ _ R' P') as [ps' [i' C']]. rewrite C, F in B. rewrite C', F' in B'. destruct B as [su [-> [S1 [S2 S3]]]], B' as [su' [-> [S1' [S2' S3']]]].
  destruct (compile_pickles d f 0 ps i F C) as [K _]. destruct (compile_pickles d' f' 0 ps' i' F' C') as [K' _]. unfold plain_headers in P. unfold origins in *. rewrite F in *. rewrite F' in *.
  assert (U : Forall (fun o => Forall PickleSpec.plain (header_names o) /\ Forall (unfilled (vars_of o)) (inherited_steps f o)) (feature_origins f)).
  { apply Forall_forall. intros o Ho. rewrite Forall_forall in P. split; [now apply P|]. apply Forall_forall. intros st Hst h Hh x Hx. rewrite <- header_cells in Hh. apply (N o h st x Ho Hh); [now apply (inherited_spread f o) | exact Hx]. }
  pose proof (spread_tests f f' Q pr _ _ _ _ _ _ S2 S2' S3 S3' K K' U O) as T. destruct S1 as [A1 [A2 [A3 [A4 A5]]]], S1' as [A1' [A2' [A3' [A4' A5']]]].
  assert (D : fe_desc f' = fe_desc f) by exact (f_equal fe_desc Q). assert (Nm : fe_name f' = fe_name f) by exact (f_equal fe_name Q).
  assert (Tg : map tag_name (fe_tags f') = map tag_name (fe_tags f)) by (pose proof (f_equal (fun x => names_of (fe_tags x)) Q) as G; cbn in G; rewrite !e_tags in G; exact G).
  exists su, su'. split; [reflexivity|]. split; [now rewrite Nm|]. unfold suite_shape. rewrite A1, A1', D, A2, A2', T. rewrite A3 in A3'. injection A3' as ->.
  assert (TT : rs_test_tags su = rs_test_tags su') by (apply cons_inj; now rewrite A4, A4').
  rewrite A5, A5', TT. destruct (fe_tags f), (fe_tags f'); try discriminate Tg; reflexivity.
Qed.
Print Assumptions C103_same_suite.

(** the feature without backgrounds can be written *)
Section Written.
Context (d : dialect).
Lemma led_ok pre x : Forall (step_ok d) pre -> scenario_ok d x -> scenario_ok d (led_by pre x).
Proof.
  intros Pre [T [De [G [S E]]]]. split; [exact T|]. split; [exact De|]. split; [exact G|]. split; [|exact E]. cbn [led_by sc_steps]. destruct (sc_steps x); [constructor|]. apply Forall_app. auto.
Qed.
Lemma bg_ok o : opt_ok (background_ok d) o -> Forall (step_ok d) (PickleSpec.background_steps o).
Proof. destruct o as [b|]; cbn; [intros H; apply H | constructor]. Qed.
Lemma spread_ok x : feature_ok d x -> feature_ok d (spread x).
Proof.
  intros [T [De [G [B [S R]]]]]. split; [exact T|]. split; [exact De|]. split; [exact G|]. split; [exact I|]. split.
  - cbn [spread fe_scenarios]. apply Forall_map. eapply Forall_impl; [|exact S]. intros y. apply led_ok, bg_ok, B.
  - cbn [spread fe_rules]. apply Forall_map. eapply Forall_impl; [|exact R]. intros y [T' [De' [G' [B' S']]]]. split; [exact T'|]. split; [exact De'|]. split; [exact G'|]. split; [exact I|].
    cbn [spread_rule ru_scenarios]. apply Forall_map. eapply Forall_impl; [|exact S']. intros z. apply led_ok. apply Forall_app. split; now apply bg_ok.
Qed.
End Written.
(** C103.  The backgrounds of every classic feature file can be spread over its scenarios. *)
Theorem C103_written : forall printable name content dir d f, is_markdown name = false -> read_file name content = Ok d -> gd_feature d = Some f -> plain_headers d -> no_placeholders f ->
  exists x x', build_gherkin_model printable name content dir = Ok (RSuite x, fe_name f) /\
    build_gherkin_model printable name (feature_text (spread f)) dir = Ok (RSuite x', fe_name f) /\ suite_shape x = suite_shape x'.
Proof.
  intros pr name content dir d f M R F P N. assert (R0 : parse_with false false (s "en") content = Ok d) by (unfold read_file in R; now rewrite M in R).
  destruct (C54_returned false (s "en") content d f en_ok R0 F) as [l [dl [L [D W]]]].
  assert (Ws : writable (spread f)) by (exists l, dl; split; [exact L|]; split; [exact D | now apply spread_ok]).
  destruct (C54_written false (s "en") (spread f) en_ok Ws) as [d' [f' [R' [F' [_ Q]]]]].
  apply (C103_same_suite pr name name content _ dir d d' f f'); auto. unfold read_file. now rewrite M.
Qed.
Print Assumptions C103_written.

(** ** Cases *)
Definition c103_text : str := text_of_lines [s "Feature: f"; s "Background: b"; s "Given a"; s "| x |"; s "Scenario: one"; s "And c"; s "Scenario: none"; s "Scenario Outline: two <n>"; s "But d <n>"; s "Examples:"; s "| n |"; s "| 1 |"; s "| 2 |"; s "Rule: r"; s "Background:"; s "When e"; s "Example: three"; s "Then g"].
Definition c103_d : gdoc := Eval vm_compute in match read_file (s "a.feature") c103_text with Ok d => d | _ => mkGdoc None [] end.
Definition c103_f : feature := Eval vm_compute in match gd_feature c103_d with Some f => f | _ => mkFeature [] (mkLoc 0 None) None None None [] None [] [] end.
Lemma no_angle f : forallb (fun st => forallb (fun x => negb (existsb (N.eqb 60) x)) (step_texts st)) (spread_steps f) = true -> no_placeholders f.
Proof.
  intros H o h st x _ _ Hst Hx a b ->. rewrite forallb_forall in H. specialize (H st Hst). rewrite forallb_forall in H. specialize (H _ Hx). apply negb_true_iff in H.
  assert (existsb (N.eqb 60) (a ++ placeholder h ++ b) = true) as Y; [|congruence]. apply existsb_exists. exists 60%N. split; [|reflexivity]. apply in_or_app. right. now left.
Qed.
Definition simple_header (h : str) : bool := forallb (fun c => negb (existsb (N.eqb c) (s "\.^$*+?[|(){"))) h.
Lemma simple_plain h : simple_header h = true -> PickleSpec.plain h.
Proof.
  unfold simple_header. intros H. rewrite forallb_forall in H.
  assert (G : forall c, In c h -> In c (s "\.^$*+?[|(){") -> False) by (intros c Hc Hm; specialize (H c Hc); apply negb_true_iff in H; assert (existsb (N.eqb c) (s "\.^$*+?[|(){") = true) as Y by (apply existsb_exists; exists c; split; [exact Hm | apply N.eqb_refl]); congruence).
  split; [intros c Hc Hm; apply (G c Hc); unfold metachar in Hm; vm_compute in Hm |- *; tauto|]. intros [a [c [b [E _]]]]. apply (G 123%N); [rewrite E; apply in_or_app; right; now left | vm_compute; tauto].
Qed.
Lemma simple_headers d : forallb (fun o => forallb simple_header (header_names o)) (origins d) = true -> plain_headers d.
Proof.
  intros H. apply Forall_forall. intros o Ho. rewrite forallb_forall in H. specialize (H o Ho). apply Forall_forall. intros h Hh. rewrite forallb_forall in H. now apply simple_plain, H.
Qed.
Definition c103_tests (text : str) : list (str * list (str * nat)) :=
  match build_gherkin_model (fun _ => true) (s "a.feature") text None with Ok (RSuite su, _) => map (fun t => (rt_name t, map (fun c => (rc_name c, length (rc_args c))) (rt_calls t))) (rs_tests su) | _ => [] end.
Example C103_case : is_markdown (s "a.feature") = false /\ read_file (s "a.feature") c103_text = Ok c103_d /\ gd_feature c103_d = Some c103_f /\ plain_headers c103_d /\ no_placeholders c103_f /\
  feature_text (spread c103_f) = text_of_lines [s "# language: en"; s "Feature: f"; s "Scenario: one"; s "Given a"; s "| x |"; s "And c"; s "Scenario: none"; s "Scenario Outline: two <n>"; s "Given a"; s "| x |"; s "But d <n>"; s "Examples: "; s "| n |"; s "| 1 |"; s "| 2 |";
    s "Rule: r"; s "Example: three"; s "Given a"; s "| x |"; s "When e"; s "Then g"] /\
  c103_tests c103_text = [(s "one", [(s "Given a", 1); (s "And c", 0)]); (s "none", []); (s "two 1 n = 1", [(s "Given a", 1); (s "But d 1", 0)]); (s "two 2 n = 2", [(s "Given a", 1); (s "But d 2", 0)]); (s "three", [(s "Given a", 1); (s "When e", 0); (s "Then g", 0)])] /\
  c103_tests (feature_text (spread c103_f)) = c103_tests c103_text.
Proof.
  split; [reflexivity|]. split; [vm_compute; reflexivity|]. split; [reflexivity|]. split; [apply simple_headers; vm_compute; reflexivity|]. split; [apply no_angle; vm_compute; reflexivity|]. split; [vm_compute; reflexivity|]. split; vm_compute; reflexivity.
Qed.
(** placeholders in the steps of a background are not filled in; in those of a scenario they are *)
Definition c103_bad : str := text_of_lines [s "Feature: f"; s "Background: b"; s "Given a <n>"; s "Scenario Outline: two"; s "When d"; s "Examples:"; s "| n |"; s "| 1 |"].
Definition c103_bad_f : feature := Eval vm_compute in match read_file (s "a.feature") c103_bad with Ok d => match gd_feature d with Some f => f | _ => c103_f end | _ => c103_f end.
Theorem C103_placeholders_differ : exists d, read_file (s "a.feature") c103_bad = Ok d /\ gd_feature d = Some c103_bad_f /\ plain_headers d /\ ~ no_placeholders c103_bad_f /\
  c103_tests c103_bad = [(s "two n = 1", [(s "Given a <n>", 0); (s "When d", 0)])] /\ c103_tests (feature_text (spread c103_bad_f)) = [(s "two n = 1", [(s "Given a 1", 0); (s "When d", 0)])].
Proof.
  eexists. split; [vm_compute; reflexivity|]. split; [reflexivity|]. split; [apply simple_headers; vm_compute; reflexivity|]. split; [|split; vm_compute; reflexivity].
  intros N. refine (N (hd (mkOrigin None (mkScenario 0 [] (mkLoc 0 None) None None [] [] []) None) (feature_origins c103_bad_f)) (s "n") (hd (mkStep 0 (mkLoc 0 None) None None None ANone) (spread_steps c103_bad_f)) (s "a <n>") _ _ _ _ (s "a ") [] _); vm_compute; tauto.
Qed.
