(** * A step line before a step adds exactly one call: C86 *)
From Verif Require Import PyStr PyStrFacts Types Regex Line DialectData Matcher Ast Parser Compiler Scan LineSpec LangSpec LangFacts DocSpec PartsSpec PropLine PropParse PropDoc PropDocString PickleSpec PickleFacts PickleTotal WfDoc PropMdParse PropCompile Glob Robot RobotSpec SuiteSpec RobotFacts PropRobot WriteSpec WriteRead PropWrite EssenceSpec EssenceFacts PropEssence PropAppend MiddleSpec Renumber Units PropMiddle ExampleSpec ExampleChange PropExampleRow PartSpec PartChange PropScenarioTags.
Import PickleSpec WriteSpec.

(** the step of a step line on line [n] *)
Definition new_step (dl : dialect) (n : nat) (x kw text : str) : step := mkStep 0 (mkLoc n (Some (indent_of x + 1))) (Some kw) (Some (LineSpec.step_type dl kw)) (Some text) ANone.
Lemma step_line_some f n : background_line f n \/ scenario_line f n -> forall cs, some_step (step_on n) (mkGdoc (Some f) cs).
Proof.
  intros H cs. unfold some_step, some_part. cbn [gd_feature]. destruct H as [[st [Hs Hn]]|[st [Hs Hn]]]; apply in_flat_map in Hs as [x [Hx Hs]].
  - unfold feature_backgrounds in Hx. apply in_app_or in Hx as [Hx|Hx].
    + left. destruct (fe_background f) as [y|]; [|destruct Hx]. destruct Hx as [<-|[]]. apply Exists_exists. eauto.
    + right. right. apply in_flat_map in Hx as [r [Hr Hx]]. apply Exists_exists. exists r. split; [exact Hr|]. left. destruct (ru_background r) as [y|]; [|destruct Hx]. destruct Hx as [<-|[]]. apply Exists_exists. eauto.
  - unfold feature_scenarios in Hx. apply in_app_or in Hx as [Hx|Hx].
    + right. left. apply Exists_exists. exists x. split; [exact Hx|]. apply Exists_exists. eauto.
    + right. right. apply in_flat_map in Hx as [r [Hr Hx]]. apply Exists_exists. exists r. split; [exact Hr|]. right. apply Exists_exists. exists x. split; [exact Hx|]. apply Exists_exists. eauto.
Qed.
Lemma exists_step_map (h : step -> step) n n' l : (forall x, step_on n x -> step_on n' (h x)) -> Exists (step_on n) l -> Exists (step_on n') (map h l).
Proof. intros H K. apply exists_map. eapply Exists_impl; [|exact K]. exact H. Qed.

(** C86.  Line [n] of a text is a step.  Then with a step line before it, the text is the document with this step before that one. *)
Theorem C86_document : forall stop lang a m b d f l dl x kw text, supported lang -> one_line_between a m b -> split_lines m = [x] ->
  parse_with stop false lang (a ++ b) = Ok d -> gd_feature d = Some f -> fe_language f = Some l -> for_name l = Some dl -> step_line dl x kw text ->
  let n := S (line_count a) in background_line f n \/ scenario_line f n ->
  exists d', parse_with stop false lang (a ++ m ++ b) = Ok d' /\ no_ids d' = step_added n (new_step dl n x kw text) (no_ids d).
Proof.
  intros stop lang a m b d f l dl x kw text S H Sx P F L D T n K. set (k := line_count a) in *. assert (A : stands_for lang (numbered_lines (split_lines (a ++ b))) (no_ids d)) by (apply (C04_parse_iff stop lang _ _ S); eauto).
  apply (n_stands (moved_down k 1)) in A.
  assert (K2 : some_step (step_on (Datatypes.S n)) (ren_gdoc (moved_down k 1) (no_ids d))).
  { assert (K1 : some_step (step_on n) d) by (destruct d as [fo cs]; cbn [gd_feature] in F; subst fo; now apply step_line_some).
    assert (Mv : moved_down k 1 n = Datatypes.S n) by (unfold moved_down, n; rewrite (proj2 (Nat.ltb_lt _ _) (Nat.lt_succ_diag_r _)); lia).
    apply (part_ren (sc_steps_some (step_on n)) _ (bg_steps_some (step_on n))).
    - intros y Hy. unfold sc_steps_some. cbn [ren_scenario sc_steps]. eapply exists_step_map; [|exact Hy]. intros z Hz. unfold step_on in *. cbn [ren_step st_loc ren_loc l_line]. now rewrite Hz.
    - intros y Hy. unfold bg_steps_some. cbn [ren_background bg_steps]. eapply exists_step_map; [|exact Hy]. intros z Hz. unfold step_on in *. cbn [ren_step st_loc ren_loc l_line]. now rewrite Hz.
    - apply (part_no_ids (sc_steps_some (step_on n)) _ (bg_steps_some (step_on n))); [| |exact K1]; intros y Hy; unfold sc_steps_some, bg_steps_some in *; cbn [no_id_scenario no_id_background sc_steps bg_steps]; (eapply exists_step_map; [|exact Hy]); intros z Hz; exact Hz. }
  destruct (stands_parts _ _ (before_other (Datatypes.S n) (n, x)) _ (sc_more_steps (Datatypes.S n) (new_step dl n x kw text)) _ (bg_more_steps (Datatypes.S n) (new_step dl n x kw text)) _ _ _ A (moved_nodup k _) K2) as [I B].
  - intros f2 l2 dl2 F2 L2 D2. assert (dl2 = dl). { unfold ren_gdoc, no_ids in F2. cbn [gd_feature] in F2. rewrite F in F2. cbn [option_map] in F2. injection F2 as <-. cbn [ren_feature no_id_feature fe_language] in L2. congruence. } subst dl2.
    split; [apply (scenario_steps_change (Datatypes.S n) (n, x) dl kw text T) | apply (background_steps_change (Datatypes.S n) (n, x) dl kw text T)].
  - unfold n, k in B, I. rewrite (before_lines a m b x H Sx (moved_in _ _ I)) in B. apply (C04_parse_iff stop lang _ _ S) in B as [d' [P' E]]. exists d'. split; [exact P'|]. rewrite E. unfold step_added, n. rewrite Nat.sub_succ, Nat.sub_0_r. reflexivity.
Qed.
Print Assumptions C86_document.

(** ** Steps and their pickle steps *)
Lemma f2_fun {A B K} (R R' : A -> B -> Prop) (k : A -> K) : (forall a a' b b', k a = k a' -> R a b -> R' a' b' -> b = b') ->
  forall l l' m m', map k l = map k l' -> Forall2 R l m -> Forall2 R' l' m' -> m = m'.
Proof.
  intros H l l' m m' E F. revert l' m' E. induction F as [|a b l m Ha F IH]; intros l' m' E F'; inversion F' as [|a' b' l2 m2 Ha' F2]; subst; try discriminate E; [reflexivity|]. cbn [map] in E.
  f_equal; [apply (H a a'); [congruence | exact Ha | exact Ha'] | apply (IH l2); [congruence | exact F2]].
Qed.
Section Same.
Context (v w v' w' : list cell) (Ev : map cell_value v = map cell_value v') (Ew : map cell_value w = map cell_value w').
Lemma same_text x y y' : interpolate x v w = Ok y -> interpolate x v' w' = Ok y' -> y = y'.
Proof. intros H H'. rewrite (interpolate_values v v' w w' x Ev Ew) in H. congruence. Qed.
Lemma arg_rel_fun a a' x x' : argument_essence a = argument_essence a' -> arg_rel v w a x -> arg_rel v' w' a' x' -> x = x'.
Proof.
  intros Ea A A'.
  destruct A as [|t rows H|dd c m H1 H2], A' as [|t' rows' H'|dd' c' m' H1' H2']; try discriminate Ea; [reflexivity| |]; cbn [argument_essence] in Ea.
  - do 2 f_equal. eapply (f2_fun _ _ values_of); [|instantiate (1 := dt_rows t'); instantiate (1 := dt_rows t); congruence | exact H | exact H']. intros r r' vs vs' Er F F'. eapply (f2_fun _ _ cell_value); [|exact Er | exact F | exact F'].
    intros ce ce' y y' Ec Y Y'. cbn beta in Y, Y'. rewrite Ec in Y. eapply same_text; eauto.
  - assert (E1 : ds_content dd = ds_content dd') by congruence. assert (E2 : ds_media dd = ds_media dd') by congruence. rewrite E1 in H1. rewrite E2 in H2. rewrite (same_text _ _ _ H1 H1'). do 2 f_equal.
    destruct (ds_media dd') as [z|], m as [y|], m' as [y'|]; try contradiction; [|reflexivity]. f_equal. eapply same_text; eauto.
Qed.
Lemma step_rel_fun st st' q q' : step_essence st = step_essence st' -> step_rel v w st q -> step_rel v' w' st' q' -> ps_text q = ps_text q' /\ ps_arg q = ps_arg q'.
Proof.
  unfold step_essence. intros E [[x [T1 T2]] A] [[x' [T1' T2']] A']. assert (x' = x) by congruence. subst x'. split; [eapply same_text; eauto|]. eapply arg_rel_fun; [|exact A | exact A']. congruence.
Qed.
End Same.

Lemma ci_app n new a a' b b' : calls_inserted n new a a' -> calls_inserted n new b b' -> calls_inserted n new (a ++ b) (a' ++ b').
Proof. induction 1; intros; [assumption| |]; cbn [app]; constructor; auto. Qed.
Section More.
Context (pr : char -> bool) (n : nat) (N : 0 < n) (new : step).
Let g := moved_down (n - 1) 1.
Notation moved L := (map (ren_step g) (map no_id_step L)).
Context (v w v' w' : list cell) (Ev : map cell_value v = map cell_value v') (Ew : map cell_value w = map cell_value w').
Lemma call_same st st' q q' c c' : no_id_step st' = ren_step g (no_id_step st) -> call_of st q c -> call_of st' q' c' -> step_rel v w st q -> step_rel v' w' st' q' -> ps_type q = ps_type q' ->
  exact_args pr q c -> exact_args pr q' c' -> c' = ren_call g c.
Proof.
  intros E [[kw [K1 K2]] [_ [C1 [col [C2 C3]]]]] [[kw' [K1' K2']] [_ [C1' [col' [C2' C3']]]]] R R' Ty X X'.
  assert (Es : step_essence st = step_essence st') by (rewrite <- (b_step_e st'), E, g_step_e, b_step_e; reflexivity). destruct (step_rel_fun v w v' w' Ev Ew _ _ _ _ Es R R') as [Tx Ar].
  pose proof (f_equal st_keyword E) as Ek. pose proof (f_equal st_loc E) as El. cbn [no_id_step ren_step st_keyword st_loc] in Ek, El. unfold exact_args in *. rewrite El in C1', C2'. cbn [ren_loc l_line l_col] in C1', C2'.
  destruct c as [nm ar li co], c' as [nm' ar' li' co']. unfold ren_call. cbn [rc_name rc_args rc_line rc_col] in *. assert (kw' = kw) by congruence. assert (col' = col) by congruence. subst kw' col'. f_equal; [|congruence|congruence|congruence]. rewrite K2, K2', Ty, Tx. reflexivity.
Qed.
Context (NC : rcall -> Prop) (nk : option ktype) (Nk : st_ktype new = nk).
Lemma calls_more L Q C : Forall3 call_of L Q C -> Forall2 (step_rel v w) L Q -> Forall2 (exact_args pr) Q C -> forall last L' Q' C',
  Forall3 call_of L' Q' C' -> Forall2 (step_rel v' w') L' Q' -> Forall2 (exact_args pr) Q' C' ->
  map no_id_step L' = more_steps (S n) new (moved L) -> map ps_type Q = types_from last (map st_ktype L) -> map ps_type Q' = types_from last (map st_ktype L') ->
  (nk = Some KtConjunction \/ forall st, In st L -> step_on n st -> st_ktype st <> Some KtConjunction) ->
  (forall st', In st' L -> step_on n st' -> forall st q c, no_id_step st = new -> call_of st q c -> step_rel v' w' st q -> exact_args pr q c -> (forall k, nk = Some k -> k <> KtConjunction -> ps_type q = Some k) -> NC c) ->
  calls_inserted n NC C C' /\ last_type last (map st_ktype L) = last_type last (map st_ktype L').
Proof.
  intros F. induction F as [|st q c L Q C H F IH]; intros R X last L' Q' C' F' R' X' E Ty Ty' K HN.
  - cbn [map more_steps flat_map] in E. destruct L' as [|y L']; [|discriminate E]. inversion F'; subst. split; [constructor | reflexivity].
  - inversion R as [|? ? ? ? R1 R2]; inversion X as [|? ? ? ? X1 X2]; subst. cbn [map] in E. unfold more_steps in E. cbn [flat_map] in E. fold (more_steps (S n) new (moved L)) in E. change (l_line (st_loc (ren_step g (no_id_step st)))) with (moved_down (n - 1) 1 (l_line (st_loc st))) in E. rewrite (moved_title n _ N) in E.
    cbn [map types_from] in Ty. assert (Ty1 : ps_type q = match st_ktype st with Some KtConjunction => last | _ => st_ktype st end) by congruence. assert (Ty2 : map ps_type Q = types_from (match st_ktype st with Some KtConjunction => last | _ => st_ktype st end) (map st_ktype L)) by congruence. clear Ty.
    assert (K' : st_ktype new = Some KtConjunction \/ forall st, In st L -> step_on n st -> st_ktype st <> Some KtConjunction) by (destruct K as [K|K]; [now left | right; intros; apply K; [now right | assumption]]).
    assert (HN' : forall st', In st' L -> step_on n st' -> forall st q c, no_id_step st = new -> call_of st q c -> step_rel v' w' st q -> exact_args pr q c -> (forall k, st_ktype new = Some k -> k <> KtConjunction -> ps_type q = Some k) -> NC c) by (intros st' Hst; apply (HN st'); now right).
    destruct (l_line (st_loc st) =? n) eqn:En.
    + apply Nat.eqb_eq in En. change (step_on n st) in En. cbn [app] in E. destruct L' as [|s1 [|s2 L']]; try discriminate E. cbn [map] in E. assert (E1 : no_id_step s1 = new) by congruence. assert (E2 : no_id_step s2 = ren_step g (no_id_step st)) by congruence.
      assert (E3 : map no_id_step L' = more_steps (S n) new (moved L)) by congruence. clear E.
      inversion F' as [|? q1 c1 ? Q1 C1 H1 F1]; subst. inversion F1 as [|? q2 c2 ? Q2 C2 H2 F2]; subst. inversion R' as [|? ? ? ? R1' R2']; subst. inversion R2' as [|? ? ? ? R3' R4']; subst. inversion X' as [|? ? ? ? X1' X2']; subst. inversion X2' as [|? ? ? ? X3' X4']; subst.
      pose proof (f_equal st_ktype E2) as Ek. cbn [no_id_step ren_step st_ktype] in Ek. cbn [map types_from] in Ty'. rewrite Ek in Ty'.
      assert (Eq : match st_ktype st with Some KtConjunction => match st_ktype s1 with Some KtConjunction => last | _ => st_ktype s1 end | _ => st_ktype st end = match st_ktype st with Some KtConjunction => last | _ => st_ktype st end).
      { destruct K as [K|K]; [cbn [no_id_step st_ktype] in K; rewrite K; reflexivity|]. specialize (K st (or_introl eq_refl) En). destruct (st_ktype st) as [[]|]; try reflexivity. now destruct K. }
      rewrite Eq in Ty'. assert (Tq2 : ps_type q2 = match st_ktype st with Some KtConjunction => last | _ => st_ktype st end) by congruence. assert (Tq1 : ps_type q1 = match st_ktype s1 with Some KtConjunction => last | _ => st_ktype s1 end) by congruence.
      destruct (IH R2 X2 _ L' Q2 C2 F2 R4' X4' E3 Ty2 ltac:(congruence) K' HN') as [G1 G2]. split.
      * rewrite (call_same st s2 q q2 c c2 E2 H H2 R1 R3' ltac:(congruence) X1 X3'). apply ci_here; [|apply (HN st (or_introl eq_refl) En s1 q1 c1 eq_refl H1 R1' X1')|exact G1].
        -- destruct H as [_ [_ [Hl _]]]. unfold step_on in En. congruence.
        -- intros k Kk Kc. cbn [no_id_step st_ktype] in Kk. rewrite Tq1, Kk. destruct k; try reflexivity. now destruct Kc.
      * cbn [map last_type]. rewrite Ek, Eq. exact G2.
    + apply Nat.eqb_neq in En. cbn [app] in E. destruct L' as [|s2 L']; try discriminate E. cbn [map] in E. assert (E2 : no_id_step s2 = ren_step g (no_id_step st)) by congruence.
      assert (E3 : map no_id_step L' = more_steps (S n) new (moved L)) by congruence. clear E. inversion F' as [|? q2 c2 ? Q2 C2 H2 F2]; subst. inversion R' as [|? ? ? ? R3' R4']; subst. inversion X' as [|? ? ? ? X3' X4']; subst.
      pose proof (f_equal st_ktype E2) as Ek. cbn [no_id_step ren_step st_ktype] in Ek. cbn [map types_from] in Ty'. rewrite Ek in Ty'.
      destruct (IH R2 X2 _ L' Q2 C2 F2 R4' X4' E3 Ty2 ltac:(congruence) K' HN') as [G1 G2]. split.
      * rewrite (call_same st s2 q q2 c c2 E2 H H2 R1 R3' ltac:(congruence) X1 X3'). apply ci_other; [|exact G1]. destruct H as [_ [_ [Hl _]]]. congruence.
      * cbn [map last_type]. rewrite Ek. exact G2.
Qed.
End More.

(** ** Tests *)
Lemma f3_app {A B C} (R : A -> B -> C -> Prop) a1 : forall a2 b c, Forall3 R (a1 ++ a2) b c -> exists b1 b2 c1 c2, b = b1 ++ b2 /\ c = c1 ++ c2 /\ Forall3 R a1 b1 c1 /\ Forall3 R a2 b2 c2.
Proof.
  induction a1 as [|x a1 IH]; intros a2 b c F; [exists [], b, [], c; repeat split; auto; constructor|]. cbn [app] in F. inversion F as [|? y z ? b' c' H F']; subst. destruct (IH _ _ _ F') as [b1 [b2 [c1 [c2 [-> [-> [F1 F2]]]]]]].
  exists (y :: b1), b2, (z :: c1), c2. repeat split; auto. now constructor.
Qed.
Lemma f3_len {A B C} (R : A -> B -> C -> Prop) a b c : Forall3 R a b c -> length b = length a /\ length c = length b.
Proof. induction 1 as [|x y z a b c H F [I1 I2]]; [auto|]. cbn [length]. split; congruence. Qed.
Lemma f2_len {A B} (R : A -> B -> Prop) a b : Forall2 R a b -> length b = length a.
Proof. induction 1; cbn [length]; congruence. Qed.
Lemma f2_split {A B} (R : A -> B -> Prop) a1 a2 b1 b2 : length a1 = length b1 -> Forall2 R (a1 ++ a2) (b1 ++ b2) -> Forall2 R a1 b1 /\ Forall2 R a2 b2.
Proof.
  revert b1. induction a1 as [|x a1 IH]; intros [|y b1] L F; try discriminate L; [split; [constructor | exact F]|]. cbn [app] in F. inversion F; subst. destruct (IH b1) as [F1 F2]; [now injection L | assumption|]. split; [now constructor | exact F2].
Qed.
Lemma app_same {A} (a a' b b' : list A) : length a = length a' -> a ++ b = a' ++ b' -> a = a' /\ b = b'.
Proof. revert a'. induction a as [|x a IH]; intros [|y a'] L E; try discriminate L; [auto|]. cbn [app] in E. destruct (IH a') as [-> ->]; [now injection L | congruence|]. split; [congruence | reflexivity]. Qed.
Lemma more_steps_app n new a b : more_steps n new (a ++ b) = more_steps n new a ++ more_steps n new b.
Proof. apply flat_map_app. Qed.
Lemma more_steps_nil n new l : more_steps n new l = [] <-> l = [].
Proof. split; [|now intros ->]. destruct l as [|x l]; [auto|]. unfold more_steps. cbn [flat_map]. destruct (_ =? _); discriminate. Qed.
Lemma origin_scenario f o : In o (feature_origins f) -> In (o_scenario o) (feature_scenarios f) /\ match o_rule o with Some r => In r (fe_rules f) | None => True end.
Proof.
  assert (A : forall ru sc, In o (scenario_origins ru sc) -> o_rule o = ru /\ o_scenario o = sc).
  { intros ru sc. unfold scenario_origins. destruct (sc_examples sc) as [|e es]; [intros [<-|[]]; auto|]. intros H. apply in_flat_map in H as [ex [_ H]]. unfold examples_origins in H. destruct (ex_header ex); [|destruct H]. apply in_map_iff in H as [r2 [<- _]]. auto. }
  unfold feature_origins, feature_scenarios. intros H. apply in_app_or in H as [H|H].
  - apply in_flat_map in H as [sc [Hs H]]. apply A in H as [-> ->]. split; [apply in_or_app; now left | exact I].
  - apply in_flat_map in H as [r [Hr H]]. apply in_flat_map in H as [sc [Hs H]]. apply A in H as [-> ->]. split; [|exact Hr]. apply in_or_app. right. apply in_flat_map. eauto.
Qed.
Lemma inherited_background f o st : In o (feature_origins f) -> In st (inherited_steps f o) -> In st (flat_map bg_steps (feature_backgrounds f)).
Proof.
  intros H Hs. apply origin_scenario in H as [_ H]. unfold inherited_steps in Hs. destruct (sc_steps (o_scenario o)); [destruct Hs|]. unfold feature_backgrounds. rewrite flat_map_app. apply in_or_app. apply in_app_or in Hs as [Hs|Hs]; [left | right].
  - destruct (fe_background f); [cbn; rewrite app_nil_r; exact Hs | destruct Hs].
  - destruct (o_rule o) as [r|]; [|destruct Hs]. apply in_flat_map. destruct (ru_background r) as [y|] eqn:E; [|destruct Hs]. exists y. split; [|exact Hs]. apply in_flat_map. exists r. split; [exact H|]. rewrite E. now left.
Qed.
Section Suite.
Context (n : nat) (N : 0 < n) (dl : dialect) (x kw text : str).
Notation new := (new_step dl n x kw text).
Notation hs := (sc_more_steps (S n) new).
Notation hb := (bg_more_steps (S n) new).
Let g := moved_down (n - 1) 1.
Notation moved L := (map (ren_step g) (map no_id_step L)).
Lemma more_bg o : background_steps (option_map hb o) = more_steps (S n) new (background_steps o).
Proof. destruct o; reflexivity. Qed.
Lemma inherited_more f f' o o' : no_id_feature f' = parts_feature hs hb (ren_feature g (no_id_feature f)) -> b_origin o' = part_origin hs hb (g_origin g (b_origin o)) ->
  map no_id_step (inherited_steps f' o') = more_steps (S n) new (moved (inherited_steps f o)) /\ map no_id_step (sc_steps (o_scenario o')) = more_steps (S n) new (moved (sc_steps (o_scenario o))).
Proof.
  intros Ef Eo. assert (Sc : map no_id_step (sc_steps (o_scenario o')) = more_steps (S n) new (moved (sc_steps (o_scenario o)))) by (pose proof (f_equal (fun z => sc_steps (o_scenario z)) Eo) as Q; cbn [part_origin g_origin b_origin o_scenario sc_more_steps ren_scenario no_id_scenario sc_steps] in Q; exact Q).
  split; [|exact Sc]. unfold inherited_steps.
  pose proof (f_equal fe_background Ef) as Q1. cbn [no_id_feature parts_feature ren_feature fe_background] in Q1. apply (f_equal background_steps) in Q1. rewrite b_bg, more_bg, g_bg, b_bg in Q1.
  assert (Q2 : map no_id_step (match o_rule o' with None => [] | Some ru => background_steps (ru_background ru) end) = more_steps (S n) new (moved (match o_rule o with None => [] | Some ru => background_steps (ru_background ru) end))).
  { pose proof (f_equal o_rule Eo) as Q2. cbn [part_origin g_origin b_origin o_rule] in Q2. destruct (o_rule o') as [r'|], (o_rule o) as [r|]; cbn [option_map] in Q2; try discriminate Q2; [|reflexivity]. assert (Q3 : no_id_rule r' = parts_rule hs hb (ren_rule g (no_id_rule r))) by congruence.
    apply (f_equal ru_background) in Q3. cbn [no_id_rule parts_rule ren_rule ru_background] in Q3. apply (f_equal background_steps) in Q3. rewrite b_bg, more_bg, g_bg, b_bg in Q3. exact Q3. }
  destruct (sc_steps (o_scenario o)) as [|y l] eqn:E.
  - destruct (sc_steps (o_scenario o')); [reflexivity | discriminate Sc].
  - destruct (sc_steps (o_scenario o')) as [|y' l']; [exfalso; symmetry in Sc; apply (proj1 (more_steps_nil _ _ _)) in Sc; discriminate Sc|]. rewrite !map_app, more_steps_app, Q1, Q2. reflexivity.
Qed.
Lemma steps_test pr f f' o o' p p' t t' : In o (feature_origins f) -> no_id_feature f' = parts_feature hs hb (ren_feature g (no_id_feature f)) -> b_origin o' = part_origin hs hb (g_origin g (b_origin o)) ->
  test_of f o p t -> test_of f' o' p' t' -> calls_exact pr p t -> calls_exact pr p' t' -> pickle_rel f o p -> pickle_rel f' o' p' -> Forall PickleSpec.plain (header_names o) ->
  (LineSpec.step_type dl kw = KtConjunction \/ forall st, In st (feature_steps f) -> step_on n st -> st_ktype st <> Some KtConjunction) ->
  test_inserted n (new_call f n (indent_of x) kw (LineSpec.step_type dl kw) text (columns o)) t t'.
Proof.
  intros Io Ef Eo T T' X X' P P' Pl K. destruct (inherited_more f f' o o' Ef Eo) as [Ei Es]. destruct T as [T1 [T2 [T3 [T4 [T5 [co [T6 T7]]]]]]], T' as [T1' [T2' [T3' [T4' [T5' [co' [T6' T7']]]]]]].
  pose proof (pr_types _ _ _ P) as Ty. pose proof (pr_types _ _ _ P') as Ty'. destruct (pr_steps _ _ _ P) as [q1 [q2 [Eq [S1 S2]]]], (pr_steps _ _ _ P') as [q1' [q2' [Eq' [S1' S2']]]].
  pose proof (f_equal o_scenario Eo) as R2. pose proof (f_equal o_row Eo) as R3. cbn [part_origin g_origin b_origin o_scenario o_row] in R2, R3.
  assert (Vv : map cell_value (vars_of o) = map cell_value (vars_of o') /\ map cell_value (vals_of o) = map cell_value (vals_of o')).
  { unfold vars_of, vals_of. destruct (o_row o) as [[[ex h] r]|], (o_row o') as [[[ex' h'] r']|]; try discriminate R3; [|auto]. assert (A : no_id_row h' = ren_row g (no_id_row h)) by congruence. assert (B : no_id_row r' = ren_row g (no_id_row r)) by congruence. split.
    - change (map cell_value (row_cells h)) with (values_of h). change (map cell_value (row_cells h')) with (values_of h'). rewrite <- (b_values h'), A, g_values, b_values. reflexivity.
    - change (map cell_value (row_cells r)) with (values_of r). change (map cell_value (row_cells r')) with (values_of r'). rewrite <- (b_values r'), B, g_values, b_values. reflexivity. }
  destruct Vv as [Ev Ew].
  assert (It : init_type o' = init_type o) by (unfold init_type; destruct (o_row o) as [[[ex h] r]|], (o_row o') as [[[ex' h'] r']|]; try discriminate R3; reflexivity).
  unfold calls_exact in X, X'. unfold origin_steps in T4, T4', Ty, Ty'. rewrite Eq in T4, X, Ty. rewrite Eq' in T4', X', Ty'. rewrite !map_app, types_from_app in Ty, Ty'.
  destruct (f3_app _ _ _ _ _ T4) as [b1 [b2 [c1 [c2 [Eb [Ec [A1 A2]]]]]]]. destruct (f3_app _ _ _ _ _ T4') as [b1' [b2' [c1' [c2' [Eb' [Ec' [A1' A2']]]]]]]. rewrite Ec in X. rewrite Ec' in X'.
  pose proof (f2_len _ _ _ S1) as L1. pose proof (f2_len _ _ _ S1') as L1'. destruct (f3_len _ _ _ _ A1) as [M1 M2], (f3_len _ _ _ _ A1') as [M1' M2'].
  destruct (app_same q1 b1 q2 b2) as [<- <-]; [congruence | exact Eb|]. destruct (app_same q1' b1' q2' b2') as [<- <-]; [congruence | exact Eb'|].
  destruct (f2_split (exact_args pr) q1 q2 c1 c2) as [X1 X2]; [congruence | exact X|]. destruct (f2_split (exact_args pr) q1' q2' c1' c2') as [X1' X2']; [congruence | exact X'|].
  apply app_same in Ty as [Y1 Y2]; [|rewrite types_from_length, !map_length; exact L1]. apply app_same in Ty' as [Y1' Y2']; [|rewrite types_from_length, !map_length; exact L1']. rewrite It in Y1', Y2'.
  assert (Kt : forall L, (forall st, In st L -> In st (feature_steps f)) -> Some (LineSpec.step_type dl kw) = Some KtConjunction \/ forall st, In st L -> step_on n st -> st_ktype st <> Some KtConjunction) by (intros L HL; destruct K as [K|K]; [left; congruence | right; auto]).
  assert (HB : forall st, In st (inherited_steps f o) -> In st (flat_map bg_steps (feature_backgrounds f))) by (intros st; now apply inherited_background).
  assert (HS : forall st, In st (sc_steps (o_scenario o)) -> In st (flat_map sc_steps (feature_scenarios f))) by (intros st Hst; apply in_flat_map; exists (o_scenario o); split; [now apply origin_scenario | exact Hst]).
  assert (NCall : forall st q c text', no_id_step st = new -> call_of st q c -> exact_args pr q c -> ps_arg q = None -> ps_text q = text' -> (forall k, Some (LineSpec.step_type dl kw) = Some k -> k <> KtConjunction -> ps_type q = Some k) ->
     background_line f n /\ text' = text \/ scenario_line f n /\ filled (columns o) text text' -> new_call f n (indent_of x) kw (LineSpec.step_type dl kw) text (columns o) c).
  { intros st q c text' E [[kw' [C1 C2]] [C3 [C4 [col [C5 C6]]]]] Ca Ea Et Hk Hl. pose proof (f_equal st_keyword E) as Ek. pose proof (f_equal st_loc E) as El. cbn [new_step no_id_step st_keyword st_loc] in Ek, El. rewrite El in C4, C5. cbn [l_line l_col] in C4, C5.
    split; [exact C4|]. split; [assert (Z : col = indent_of x + 1) by congruence; rewrite C6, Z; lia|]. split; [rewrite Ea in C3; exact C3|]. exists text'. split; [exact Hl|]. assert (kw' = kw) by congruence. subst kw'. rewrite Et in C2.
    destruct (LineSpec.step_type dl kw) eqn:Ekt; try (rewrite (Hk _ eq_refl) in C2 by discriminate; exact C2). rewrite C2. destruct (ps_type q) as [[]|]; [left | left | left | left | right | left]; reflexivity. }
  destruct (calls_more pr n N new [] [] [] [] eq_refl eq_refl (new_call f n (indent_of x) kw (LineSpec.step_type dl kw) text (columns o)) (Some (LineSpec.step_type dl kw)) eq_refl _ _ _ A1 S1 X1 (init_type o) _ _ _ A1' S1' X1' Ei Y1 Y1') as [G1 G2].
  { apply Kt. intros st Hst. unfold feature_steps. apply in_or_app. left. auto. }
  { intros st' Hst Hon st q c E C [[z [Z1 Z2]] Za] Ca Hk. pose proof (f_equal st_text E) as Ex. pose proof (f_equal st_arg E) as Eg. cbn [new_step no_id_step st_text st_arg] in Ex, Eg. apply (NCall st q c text E C Ca); [|cbn in Z2; congruence | exact Hk | left; split; [exists st'; auto | reflexivity]].
    destruct (st_arg st); try discriminate Eg. inversion Za. reflexivity. }
  rewrite <- G2 in Y2'.
  destruct (calls_more pr n N new _ _ _ _ Ev Ew (new_call f n (indent_of x) kw (LineSpec.step_type dl kw) text (columns o)) (Some (LineSpec.step_type dl kw)) eq_refl _ _ _ A2 S2 X2 _ _ _ _ A2' S2' X2' Es Y2 Y2') as [G3 _].
  { apply Kt. intros st Hst. unfold feature_steps. apply in_or_app. right. auto. }
  { intros st' Hst Hon st q c E C [[z [Z1 Z2]] Za] Ca Hk. pose proof (f_equal st_text E) as Ex. pose proof (f_equal st_arg E) as Eg. cbn [new_step no_id_step st_text st_arg] in Ex, Eg. assert (z = text) by congruence. subst z. apply (NCall st q c (ps_text q) E C Ca); [|reflexivity | exact Hk | right; split; [exists st'; auto|]].
    - destruct (st_arg st); try discriminate Eg. inversion Za. reflexivity.
    - rewrite <- (interpolate_values _ _ _ _ text Ev Ew) in Z2. assert (Cc : columns o = cols_of (vars_of o) (vals_of o)) by (unfold columns, cols_of, vars_of, vals_of; destruct (o_row o) as [[[ex h] r]|]; reflexivity). rewrite Cc. apply interpolate_filled; [rewrite <- header_cells; exact Pl | exact Z2]. }
  split; [rewrite Ec, Ec'; now apply ci_app|].
  (* the rest of the test *)
  pose proof (f_equal sc_loc R2) as Ql. pose proof (f_equal sc_name R2) as Qn. pose proof (f_equal sc_desc R2) as Qd. cbn [sc_more_steps no_id_scenario ren_scenario sc_loc sc_name sc_desc] in Ql, Qn, Qd. rewrite Ql in T5', T6'. rewrite Qd in T2'. cbn [ren_loc l_line l_col] in T5', T6'.
  destruct (pr_name _ _ _ P) as [nm [N1 N2]], (pr_name _ _ _ P') as [nm' [N1' N2']]. assert (nm' = nm) by congruence. subst nm'. pose proof (same_text _ _ _ _ Ev Ew _ _ _ N2 N2') as En.
  assert (Cols : columns o' = columns o) by (rewrite <- (b_columns o'), Eo; transitivity (columns (g_origin g (b_origin o))); [reflexivity | rewrite g_columns, b_columns; reflexivity]).
  assert (Lt : names_of (lower_tags o') = names_of (lower_tags o)) by (rewrite <- (b_lower o'), Eo; transitivity (names_of (lower_tags (g_origin g (b_origin o)))); [unfold lower_tags; cbn [part_origin o_rule o_scenario o_row sc_more_steps sc_tags]; destruct (o_rule (g_origin g (b_origin o))); reflexivity | rewrite g_lower, b_lower; reflexivity]).
  assert (Tg : rt_tags t' = rt_tags t) by (apply cons_inj; unfold test_tags in T3, T3'; unfold names_of in Lt; congruence).
  assert (Nm : rt_name t' = rt_name t).
  { rewrite T1, T1', En, Cols. f_equal. destruct (o_row o) as [[[ex h] r]|], (o_row o') as [[[ex' h'] r']|]; try discriminate R3; [|reflexivity]. assert (A : no_id_examples ex' = ren_examples g (no_id_examples ex)) by congruence. apply (f_equal ex_keyword) in A. cbn [no_id_examples ren_examples ex_keyword] in A. now rewrite A. }
  fold g. destruct t as [tn td tt tc tl tcl], t' as [tn' td' tt' tc' tl' tcl']. unfold with_calls, ren_test. cbn [rt_name rt_doc rt_tags rt_calls rt_line rt_col] in *. f_equal; congruence.
Qed.
Lemma steps_tests pr f f' : no_id_feature f' = parts_feature hs hb (ren_feature g (no_id_feature f)) ->
  (LineSpec.step_type dl kw = KtConjunction \/ forall st, In st (feature_steps f) -> step_on n st -> st_ktype st <> Some KtConjunction) ->
  forall os os', Forall2 (fun o o' => b_origin o' = part_origin hs hb (g_origin g (b_origin o))) os os' -> (forall o, In o os -> In o (feature_origins f)) -> Forall (fun o => Forall PickleSpec.plain (header_names o)) os ->
  forall ps ts ps' ts', cert pr f os ps ts -> cert pr f' os' ps' ts' -> Forall2 (pickle_rel f) os ps -> Forall2 (pickle_rel f') os' ps' ->
  Forall3 (fun o => test_inserted n (new_call f n (indent_of x) kw (LineSpec.step_type dl kw) text (columns o))) os ts ts'.
Proof.
  intros Ef K os os' Oo. induction Oo as [|o o' os os' H Oo IH]; intros Al Ph ps ts ps' ts' [S2 S3] [S2' S3'] Pr Pr'.
  - inversion S2; inversion S2'; subst. constructor.
  - inversion Ph as [|? ? Ph1 Ph2]; inversion S2 as [|? p t ? ps2 ts2 T F2]; subst. inversion S2' as [|? p' t' ? ps2' ts2' T' F2']; subst. inversion S3 as [|? ? ? ? X1 X2]; inversion S3' as [|? ? ? ? X1' X2']; subst. inversion Pr as [|? ? ? ? P1 P2]; inversion Pr' as [|? ? ? ? P1' P2']; subst.
    constructor; [apply (steps_test pr f f' o o' p p' t t'); auto; apply Al; now left|]. apply (IH ltac:(intros z Hz; apply Al; now right) Ph2 ps2 ts2 ps2' ts2'); try assumption; split; assumption.
Qed.
End Suite.

(** C86.  Line [n] of a file is a step, and the file a suite.  Then so is the file with a step line before line [n], if that line is an And (or a But) or the step
    on line [n] is none: in the tests that have a call for line [n], there is one call more before it; nothing else is changed, but for the lines that are moved
    down. *)
Theorem C86_suite : forall printable name dir a m b x k d f l dl line kw text, is_markdown name = false -> one_line_between a m b -> split_lines m = [line] ->
  read_file name (a ++ b) = Ok d -> gd_feature d = Some f -> fe_language f = Some l -> for_name l = Some dl -> step_line dl line kw text ->
  let n := S (line_count a) in background_line f n \/ scenario_line f n ->
  LineSpec.step_type dl kw = KtConjunction \/ (forall st, In st (feature_steps f) -> step_on n st -> st_ktype st <> Some KtConjunction) ->
  plain_headers d -> build_gherkin_model printable name (a ++ b) dir = Ok (RSuite x, k) ->
  exists x', build_gherkin_model printable name (a ++ m ++ b) dir = Ok (RSuite x', k) /\ same_settings x x' /\
    Forall3 (fun o => test_inserted n (new_call f n (indent_of line) kw (LineSpec.step_type dl kw) text (columns o))) (origins d) (rs_tests x) (rs_tests x').
Proof.
  intros pr name dir a m b x k d f l dl line kw text M O Sl R F L D St n K Kt Ph B. assert (P : parse_with false false (s "en") (a ++ b) = Ok d) by (unfold read_file in R; now rewrite M in R).
  destruct (C86_document false (s "en") a m b d f l dl line kw text en_supported O Sl P F L D St K) as [d' [P' Q]]. fold n in Q. set (new := new_step dl n line kw text) in Q. set (g := moved_down (n - 1) 1).
  assert (R' : read_file name (a ++ m ++ b) = Ok d') by (unfold read_file; now rewrite M). assert (N : 0 < n) by (unfold n; lia).
  destruct (gd_feature d') as [f'|] eqn:F'; [|unfold step_added, on_parts, ren_gdoc, no_ids in Q; rewrite F, F' in Q; discriminate Q].
  assert (Qf : no_id_feature f' = parts_feature (sc_more_steps (S n) new) (bg_more_steps (S n) new) (ren_feature g (no_id_feature f))).
  { pose proof (f_equal gd_feature Q) as Q2. unfold no_ids, step_added, ren_gdoc, on_parts in Q2. cbn [gd_feature] in Q2. rewrite F, F' in Q2. cbn [option_map] in Q2. fold g in Q2. congruence. }
  pose proof (origins_changed (sc_more_steps (S n) new) (bg_more_steps (S n) new) g f f' ltac:(reflexivity) Qf) as Oo.
  assert (Hh : forall o o', b_origin o' = part_origin (sc_more_steps (S n) new) (bg_more_steps (S n) new) (g_origin g (b_origin o)) -> header_names o' = header_names o).
  { intros o o' Eo. pose proof (f_equal o_row Eo) as R3. cbn [part_origin g_origin b_origin o_row] in R3. unfold header_names. destruct (o_row o) as [[[ex h] r]|], (o_row o') as [[[ex' h'] r']|]; try discriminate R3; [|reflexivity]. assert (A : no_id_row h' = ren_row g (no_id_row h)) by congruence.
    change (values_of h' = values_of h). rewrite <- (b_values h'), A, g_values, b_values. reflexivity. }
  unfold plain_headers, origins in Ph. rewrite F in Ph. assert (Ph' : plain_headers d').
  { unfold plain_headers, origins. rewrite F'. clear - Oo Ph Hh. induction Oo as [|o o' os os' H Oo IH]; [constructor|]. inversion Ph; subst. constructor; [rewrite (Hh o o' H); assumption | auto]. }
  destruct (C28_plain_headers false false (s "en") _ d' 0 en_supported P' Ph') as [ps' [i' C']].
  pose proof (build_eq pr name (a ++ b) dir) as B1. pose proof (build_eq pr name (a ++ m ++ b) dir) as B2. rewrite R, F in B1. rewrite R', F', C' in B2.
  destruct (compile d 0) as [[ps i]|er] eqn:C; [|rewrite B1 in B; discriminate B]. destruct B1 as [su [W1 [S1 [S2 S3]]]]. destruct B2 as [su' [W2 [S1' [S2' S3']]]]. assert (su = x) by congruence. subst su. exists su'.
  split; [rewrite W2; rewrite W1 in B; assert (Ek : fe_name f = k) by congruence; assert (En : fe_name f' = fe_name f) by (change (fe_name f') with (fe_name (no_id_feature f')); rewrite Qf; reflexivity); rewrite En, Ek; reflexivity|]. split.
  - destruct S1 as [D1 [D2 [D3 [D4 D5]]]], S1' as [D1' [D2' [D3' [D4' D5']]]].
    assert (De : fe_desc f' = fe_desc f) by (change (fe_desc f') with (fe_desc (no_id_feature f')); rewrite Qf; reflexivity).
    assert (Tg : map tag_name (fe_tags f') = map tag_name (fe_tags f)).
    { assert (T : map tag_name (fe_tags (no_id_feature f')) = map tag_name (fe_tags f)) by (rewrite Qf; cbn; now rewrite !map_map). cbn in T. rewrite !map_map in T. exact T. }
    assert (TT : rs_test_tags su' = rs_test_tags x) by (apply cons_inj; now rewrite D4, D4').
    split; [now rewrite D1, D1', De|]. split; [congruence|]. split; [congruence|]. split; [|exact TT].
    rewrite D5, D5', TT. destruct (fe_tags f), (fe_tags f'); try discriminate Tg; reflexivity.
  - destruct (compile_pickles d f 0 ps i F C) as [Pr _]. destruct (compile_pickles d' f' 0 ps' i' F' C') as [Pr' _]. unfold origins in *. rewrite F in *. rewrite F' in *.
    apply (steps_tests n N dl line kw text pr f f' Qf Kt _ _ Oo ltac:(auto) Ph ps (rs_tests x) ps' (rs_tests su') (Logic.conj S2 S3) (Logic.conj S2' S3') Pr Pr').
Qed.
Print Assumptions C86_suite.

(** ** Concrete cases: a step in the background of an outline and a step in the outline *)
Definition c86_lines : list str := [s "Feature: f"; s "  Background:"; s "    Given x"; s "  Scenario Outline: o"; s "    When <v>"; s "      | a |"; s "    And c"; s "    Examples:"; s "      | v |"; s "      | 1 |"; s "      | 2 |"].
Definition c86_calls (x : str) : list (list (str * list str * nat * nat)) :=
  match build_gherkin_model (fun _ => true) (s "a.feature") x None with Ok (RSuite su, _) => map (fun t => map (fun c => (rc_name c, rc_args c, rc_line c, rc_col c)) (rt_calls t)) (rs_tests su) | _ => [] end.
Definition c86_a : str := text_of_lines (firstn 6 c86_lines).
Definition c86_b : str := text_of_lines (skipn 6 c86_lines).
Definition c86_line : str := s "     But not <v>" ++ [ch_nl].
Definition c86_d : gdoc := Eval vm_compute in doc_of (c86_a ++ c86_b).
Definition c86_f : feature := match gd_feature c86_d with Some f => f | None => mkFeature [] (mkLoc 0 None) None None None [] None [] [] end.
Definition c86_dl : dialect := match for_name (s "en") with Some d => d | None => mkDialect [] [] [] [] [] [] [] [] [] [] [] end.
Example C86_case : one_line_between c86_a c86_line c86_b /\ split_lines c86_line = [c86_line] /\ line_count c86_a = 6 /\ read_file (s "a.feature") (c86_a ++ c86_b) = Ok c86_d /\
  gd_feature c86_d = Some c86_f /\ fe_language c86_f = Some (s "en") /\ for_name (s "en") = Some c86_dl /\ step_line c86_dl c86_line (s "But ") (s "not <v>") /\ LineSpec.step_type c86_dl (s "But ") = KtConjunction /\
  scenario_line c86_f 7 /\ ~ background_line c86_f 7 /\ background_line c86_f 3 /\ plain_headers c86_d.
Proof.
  split; [split; [exists (removelast c86_a); vm_compute; reflexivity|]; split; [vm_compute; reflexivity|]; left; exists (removelast (c86_a ++ c86_line)); vm_compute; reflexivity|]. do 6 (split; [vm_compute; reflexivity|]).
  split; [|split; [vm_compute; reflexivity|]; split; [|split; [|split]]].
  - exists [s "* "; s "Given "; s "* "; s "When "; s "* "; s "Then "; s "* "; s "And "; s "* "]. eexists. exists (s "not <v>" ++ [ch_nl]). split; [vm_compute; reflexivity|]. split; [repeat constructor; intros C; vm_compute in C; discriminate C | vm_compute; auto].
  - eexists. split; [right; left; reflexivity | reflexivity].
  - intros [st [[<-|[]] H]]. vm_compute in H. discriminate H.
  - eexists. split; [left; reflexivity | reflexivity].
  - unfold plain_headers. apply (proj2 (Forall_forall _ _)). intros o [<-|[<-|[]]]; (constructor; [|constructor]); (split; [intros c [<-|[]]; unfold metachar; vm_compute; intuition discriminate | intros [p [c [q [E H]]]]; destruct p as [|z [|? ?]]; discriminate E]).
Qed.
Example C86_case_suites : c86_calls (c86_a ++ c86_b) =
    [[(s "Given x", [], 3, 4); (s "When 1", [s "&{{{'rows': [{'cells': [{'value': 'a'}]}]}}}"], 5, 4); (s "And c", [], 7, 4)]; [(s "Given x", [], 3, 4); (s "When 2", [s "&{{{'rows': [{'cells': [{'value': 'a'}]}]}}}"], 5, 4); (s "And c", [], 7, 4)]] /\
  c86_calls (c86_a ++ c86_line ++ c86_b) =
    [[(s "Given x", [], 3, 4); (s "When 1", [s "&{{{'rows': [{'cells': [{'value': 'a'}]}]}}}"], 5, 4); (s "But not 1", [], 7, 5); (s "And c", [], 8, 4)]; [(s "Given x", [], 3, 4); (s "When 2", [s "&{{{'rows': [{'cells': [{'value': 'a'}]}]}}}"], 5, 4); (s "But not 2", [], 7, 5); (s "And c", [], 8, 4)]].
Proof. split; vm_compute; reflexivity. Qed.
(** why the new step must be an And if the step on line [n] is one: the call of an And depends on the step before it *)
Example C86_and : c86_calls (text_of_lines [s "Feature: f"; s "Scenario: s"; s "And y"]) = [[(s "y", [], 3, 0)]] /\ c86_calls (text_of_lines [s "Feature: f"; s "Scenario: s"; s "Given x"; s "And y"]) = [[(s "Given x", [], 3, 0); (s "And y", [], 4, 0)]].
Proof. split; vm_compute; reflexivity. Qed.
