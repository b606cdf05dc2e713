(** * Rewording a step changes the calls of that step, renaming a scenario the names of its tests, and nothing else: C87, C88 *)
From Verif Require Import PyStr PyStrFacts Types Regex Line DialectData Matcher Ast Parser Compiler Scan LineSpec LangSpec LangFacts DocSpec PartsSpec PropLine PropParse PropDoc PropDocString PickleSpec PickleFacts PickleTotal WfDoc PropMdParse PropCompile Glob Robot RobotSpec SuiteSpec RobotFacts PropRobot WriteSpec WriteRead PropWrite EssenceSpec EssenceFacts PropEssence PropAppend MiddleSpec Renumber Units PropMiddle ExampleSpec ExampleChange PropExampleRow PartSpec PartChange PropScenarioTags PropStepMore WordSpec.
Import PickleSpec WriteSpec.

(** ** One line replaced *)
Definition swap_line (n : nat) (x : str) (l : nline) : list nline := if fst l =? n then [(n, x)] else [l].
Lemma swap_other n x l : fst l <> n -> swap_line n x l = [l].
Proof. intros H. unfold swap_line. destruct (fst l =? n) eqn:E; [apply Nat.eqb_eq in E; contradiction | reflexivity]. Qed.
Lemma swap_here n x l : fst l = n -> swap_line n x l = [(n, x)].
Proof. intros H. unfold swap_line. now rewrite (proj2 (Nat.eqb_eq _ _) H). Qed.
Lemma swap_lines a m m' b x : one_line_between a m b -> one_line_between a m' b -> split_lines m' = [x] ->
  flat_map (swap_line (S (line_count a)) x) (numbered_lines (split_lines (a ++ m ++ b))) = numbered_lines (split_lines (a ++ m' ++ b)).
Proof.
  intros H H' Sx. destruct (between_lines a m b H) as [y [S N]]. destruct (between_lines a m' b H') as [x' [S' N']]. rewrite S' in Sx. injection Sx as ->.
  pose proof (numbers_nodup (split_lines (a ++ m ++ b))) as D. rewrite N in D. rewrite N, N'. change ((Datatypes.S (line_count a), y) :: map (ren_line (moved_down (line_count a) 1)) (lines_after a b)) with ([(Datatypes.S (line_count a), y)] ++ map (ren_line (moved_down (line_count a) 1)) (lines_after a b)) in D |- *.
  destruct (chg_mid _ _ (swap_other (Datatypes.S (line_count a)) x) _ _ _ D (or_introl eq_refl)) as [G _]. etransitivity; [exact G|]. cbn [flat_map]. rewrite swap_here by reflexivity. reflexivity.
Qed.
Section Swap.
Context (n : nat) (x : str) (d : dialect).
Notation loc := (here (n, x)).
Lemma reword_change kw text : step_line d x kw text -> changes n (swap_line n x) (step_block d) (step_on n) (reword_step n loc kw (LineSpec.step_type d kw) text).
Proof.
  intros T ls st cs [l [noise [arg [k [t [a [e1 [e2 [-> [_ [H2 [H3 [-> ->]]]]]]]]]]]]]. unfold step_on, reword_step. cbn [st_loc here l_line st_id st_arg]. change (l :: noise ++ arg) with ([] ++ [l] ++ (noise ++ arg)). split; [|split].
  - intros K. apply in_mid. left. exact K.
  - intros K. apply out_mid in K. destruct (fst l =? n) eqn:E; [|reflexivity]. apply Nat.eqb_eq in E. exfalso. apply K. left. exact E.
  - intros N K. destruct (chg_mid n _ (swap_other n x) _ _ _ N (or_introl K)) as [G _]. rewrite G. cbn [flat_map]. rewrite (swap_here n x l K), (proj2 (Nat.eqb_eq _ _) K). exists (n, x), noise, arg, kw, text, a, e1, e2. repeat (split; [assumption || reflexivity|]). reflexivity.
Qed.
Lemma rename_change kw name : title_line (scenario_keywords d) x kw name -> changes n (swap_line n x) (scenario_block d) (titled n) (rename n loc kw name).
Proof.
  intros T ls sc cs [tl [l [dl [sl [el [tags [kw' [nm [desc [steps [exs [c0 [c1 [c2 [c3 [-> [H0 [H1 [H2 [H3 [H4 [-> ->]]]]]]]]]]]]]]]]]]]]]].
  change (tl ++ l :: dl ++ sl ++ el) with (tl ++ [l] ++ dl ++ sl ++ el). unfold titled, rename. cbn [sc_loc here l_line sc_id sc_tags sc_keyword sc_name sc_desc sc_steps sc_examples]. split; [|split].
  - intros K. apply in_mid. left. exact K.
  - intros K. apply out_mid in K. destruct (fst l =? n) eqn:E; [|reflexivity]. apply Nat.eqb_eq in E. exfalso. apply K. left. exact E.
  - intros N K. destruct (chg_mid n _ (swap_other n x) _ _ _ N (or_introl K)) as [G _]. rewrite G. cbn [flat_map]. rewrite (swap_here n x l K), (proj2 (Nat.eqb_eq _ _) K).
    exists tl, (n, x), dl, sl, el, tags, kw, name, desc, steps, exs, c0, c1, c2, c3. repeat (split; [assumption || reflexivity|]). reflexivity.
Qed.
Section Steps.
Context (Q : step -> Prop) (h : step -> step) (C : changes n (swap_line n x) (step_block d) Q h).
Lemma scenario_reword_change : changes n (swap_line n x) (scenario_block d) (sc_steps_some Q) (sc_reword h).
Proof.
  intros ls sc cs [tl [l [dl [sl [el [tags [kw' [name [desc [steps [exs [c0 [c1 [c2 [c3 [-> [H0 [H1 [H2 [H3 [H4 [-> ->]]]]]]]]]]]]]]]]]]]]]].
  assert (S : tl ++ l :: dl ++ sl ++ el = (tl ++ l :: dl) ++ sl ++ el) by (repeat (rewrite <- app_assoc; cbn [app]); reflexivity). rewrite S.
  destruct (blocks_change n _ (swap_other n x) _ _ _ C _ _ _ H3) as [E1 [E2 E3]]. unfold sc_steps_some, sc_reword. cbn [sc_id sc_tags sc_loc sc_keyword sc_name sc_desc sc_steps sc_examples]. split; [|split].
  - intros K. apply in_mid. apply E1. exact K.
  - intros K. apply out_mid in K. now rewrite E2.
  - intros N K. destruct (chg_mid n _ (swap_other n x) _ _ _ N (E1 K)) as [G Nb]. rewrite G. exists tl, l, dl, (flat_map (swap_line n x) sl), el, tags, kw', name, desc, (map h steps), exs, c0, c1, c2, c3.
    split; [repeat (rewrite <- app_assoc; cbn [app]); reflexivity|]. do 3 (split; [assumption|]). split; [now apply E3|]. split; [assumption|]. split; reflexivity.
Qed.
Lemma background_reword_change : changes n (swap_line n x) (background_block d) (bg_steps_some Q) (bg_reword h).
Proof.
  intros ls bg cs [l [dl [sl [kw' [name [desc [steps [c1 [c2 [-> [H1 [H2 [H3 [-> ->]]]]]]]]]]]]]].
  assert (S : l :: dl ++ sl = (l :: dl) ++ sl ++ []) by (rewrite app_nil_r; reflexivity). rewrite S.
  destruct (blocks_change n _ (swap_other n x) _ _ _ C _ _ _ H3) as [E1 [E2 E3]]. unfold bg_steps_some, bg_reword. cbn [bg_id bg_loc bg_keyword bg_name bg_desc bg_steps]. split; [|split].
  - intros K. apply in_mid. apply E1. exact K.
  - intros K. apply out_mid in K. now rewrite E2.
  - intros N K. destruct (chg_mid n _ (swap_other n x) _ _ _ N (E1 K)) as [G Nb]. rewrite G. exists l, dl, (flat_map (swap_line n x) sl), kw', name, desc, (map h steps), c1, c2.
    split; [rewrite app_nil_r; reflexivity|]. do 2 (split; [assumption|]). split; [now apply E3|]. split; reflexivity.
Qed.
End Steps.
End Swap.
Lemma feature_dialect d f l dl : gd_feature d = Some f -> fe_language f = Some l -> for_name l = Some dl -> forall f2 l2 dl2, gd_feature (no_ids d) = Some f2 -> fe_language f2 = Some l2 -> for_name l2 = Some dl2 -> dl2 = dl.
Proof. intros F L D f2 l2 dl2 F2 L2 D2. unfold no_ids in F2. cbn [gd_feature] in F2. rewrite F in F2. cbn [option_map] in F2. injection F2 as <-. cbn [no_id_feature fe_language] in L2. congruence. Qed.

(** C87.  Line [n] of a text is a step.  Then with another step line in its place, the text is the document with that step reworded. *)
Theorem C87_document : forall stop lang a m m' b d f l dl x kw text, supported lang -> one_line_between a m b -> one_line_between a m' b -> split_lines m' = [x] ->
  parse_with stop false lang (a ++ m ++ b) = Ok d -> gd_feature d = Some f -> fe_language f = Some l -> for_name l = Some dl -> step_line dl x kw text ->
  let n := S (line_count a) in background_line f n \/ scenario_line f n ->
  exists d', parse_with stop false lang (a ++ m' ++ b) = Ok d' /\ no_ids d' = step_reworded n (mkLoc n (Some (indent_of x + 1))) kw (LineSpec.step_type dl kw) text (no_ids d).
Proof.
  intros stop lang a m m' b d f l dl x kw text S H H' Sx P F L D T n K. assert (A : stands_for lang (numbered_lines (split_lines (a ++ m ++ b))) (no_ids d)) by (apply (C04_parse_iff stop lang _ _ S); eauto).
  assert (K2 : some_step (step_on n) (no_ids d)).
  { assert (K1 : some_step (step_on n) d) by (destruct d as [fo cs]; cbn [gd_feature] in F; subst fo; now apply step_line_some).
    apply (part_no_ids (sc_steps_some (step_on n)) _ (bg_steps_some (step_on n))); [| |exact K1]; intros y Hy; unfold sc_steps_some, bg_steps_some in *; cbn [no_id_scenario no_id_background sc_steps bg_steps]; (eapply exists_step_map; [|exact Hy]); intros z Hz; exact Hz. }
  destruct (stands_parts _ _ (swap_other n x) _ (sc_reword (reword_step n (here (n, x)) kw (LineSpec.step_type dl kw) text)) _ (bg_reword (reword_step n (here (n, x)) kw (LineSpec.step_type dl kw) text)) _ _ _ A (numbers_nodup _) K2) as [_ B].
  - intros f2 l2 dl2 F2 L2 D2. rewrite (feature_dialect d f l dl F L D f2 l2 dl2 F2 L2 D2). split; [apply scenario_reword_change | apply background_reword_change]; now apply reword_change.
  - unfold n in B. rewrite (swap_lines a m m' b x H H' Sx) in B. apply (C04_parse_iff stop lang _ _ S) in B as [d' [P' E]]. exists d'. split; [exact P' | exact E].
Qed.
Print Assumptions C87_document.
(** C88.  Line [n] of a text is the title of a scenario.  Then with another such title in its place, the text is the document with that scenario renamed. *)
Theorem C88_document : forall stop lang a m m' b d f l dl x kw name, supported lang -> one_line_between a m b -> one_line_between a m' b -> split_lines m' = [x] ->
  parse_with stop false lang (a ++ m ++ b) = Ok d -> gd_feature d = Some f -> fe_language f = Some l -> for_name l = Some dl -> title_line (scenario_keywords dl) x kw name ->
  let n := S (line_count a) in some_part (titled n) (fun _ => False) d ->
  exists d', parse_with stop false lang (a ++ m' ++ b) = Ok d' /\ no_ids d' = scenario_renamed n (mkLoc n (Some (indent_of x + 1))) kw name (no_ids d).
Proof.
  intros stop lang a m m' b d f l dl x kw name S H H' Sx P F L D T n K. assert (A : stands_for lang (numbered_lines (split_lines (a ++ m ++ b))) (no_ids d)) by (apply (C04_parse_iff stop lang _ _ S); eauto).
  assert (K2 : some_part (titled n) (fun _ => False) (no_ids d)) by (apply (part_no_ids (titled n) _ (fun _ => False)); auto).
  destruct (stands_parts _ _ (swap_other n x) (titled n) (rename n (here (n, x)) kw name) (fun _ => False) (fun b => b) _ _ _ A (numbers_nodup _) K2) as [_ B].
  - intros f2 l2 dl2 F2 L2 D2. rewrite (feature_dialect d f l dl F L D f2 l2 dl2 F2 L2 D2). split; [now apply rename_change | apply no_change].
  - unfold n in B. rewrite (swap_lines a m m' b x H H' Sx) in B. apply (C04_parse_iff stop lang _ _ S) in B as [d' [P' E]]. exists d'. split; [exact P' | exact E].
Qed.
Print Assumptions C88_document.

(** ** Tests *)
Lemma origins_swapped hs hb f f' : (forall x, sc_examples (hs x) = sc_examples x) -> no_id_feature f' = parts_feature hs hb (no_id_feature f) ->
  Forall2 (fun o o' => b_origin o' = part_origin hs hb (b_origin o)) (feature_origins f) (feature_origins f').
Proof.
  intros He E. assert (Q : map b_origin (feature_origins f') = map (fun o => part_origin hs hb (b_origin o)) (feature_origins f)) by (rewrite <- b_fo, E, parts_fo, b_fo, map_map by exact He; reflexivity).
  clear E. revert Q. generalize (feature_origins f') as l'. induction (feature_origins f) as [|o l IH]; intros [|o' l'] Q; try discriminate Q; constructor; cbn [map] in Q; [congruence | apply IH; congruence].
Qed.
Definition typed (st : step) (q : pstep) : Prop := st_ktype st <> Some KtConjunction -> ps_type q = st_ktype st.
Lemma types_typed L : forall Q last, map ps_type Q = types_from last (map st_ktype L) -> Forall2 typed L Q.
Proof.
  induction L as [|st L IH]; intros [|q Q] last E; try discriminate E; constructor; cbn [map types_from] in E; [|eapply IH; injection E as _ E; exact E].
  intros N. injection E as E _. rewrite E. destruct (st_ktype st) as [[]|]; try reflexivity. now destruct N.
Qed.
Lemma f3_f2 {A B C} (R : B -> C -> Prop) (a : list A) b c : Forall3 (fun _ => R) a b c -> Forall2 R b c.
Proof. induction 1; constructor; auto. Qed.
Section Calls.
Context (pr : char -> bool) (v w v' w' : list cell) (h : step -> step) (Rel : step -> rcall -> rcall -> Prop).
Lemma calls_swapped L Q C : Forall3 call_of L Q C -> Forall2 (step_rel v w) L Q -> Forall2 (exact_args pr) Q C -> forall L' Q' C',
  Forall3 call_of L' Q' C' -> Forall2 (step_rel v' w') L' Q' -> Forall2 (exact_args pr) Q' C' -> map no_id_step L' = map (fun st => h (no_id_step st)) L -> map ps_type Q' = map ps_type Q ->
  (forall st q c st' q' c', In st L -> no_id_step st' = h (no_id_step st) -> call_of st q c -> call_of st' q' c' -> step_rel v w st q -> step_rel v' w' st' q' -> exact_args pr q c -> exact_args pr q' c' -> ps_type q' = ps_type q -> typed st q -> Rel st c c') ->
  Forall2 typed L Q -> Forall3 Rel L C C'.
Proof.
  intros F. induction F as [|st q c L Q C H F IH]; intros R X L' Q' C' F' R' X' E Ty HR Td.
  - destruct L' as [|y L']; [|discriminate E]. inversion F'; subst. constructor.
  - destruct L' as [|st' L']; [discriminate E|]. inversion R as [|? ? ? ? R1 R2]; inversion X as [|? ? ? ? X1 X2]; subst. inversion F' as [|? q' c' ? Q1 C1 H' F1]; subst. inversion R' as [|? ? ? ? R1' R2']; inversion X' as [|? ? ? ? X1' X2']; subst. inversion Td as [|? ? ? ? D1 D2]; subst. cbn [map] in E, Ty.
    constructor; [apply (HR st q c st' q' c'); auto; [now left | congruence | congruence]|]. apply (IH R2 X2 L' Q1 C1 F1 R2' X2'); [congruence | congruence| |exact D2]. intros; eapply HR; eauto. now right.
Qed.
End Calls.
Section Tests.
Context (hs : scenario -> scenario) (hb : background -> background) (h : step -> step)
  (Hbg : forall b, bg_steps (hb b) = map h (bg_steps b)) (Hsc : forall x, sc_steps (hs x) = map h (sc_steps x)) (Htg : forall x, sc_tags (hs x) = sc_tags x) (Hds : forall x, sc_desc (hs x) = sc_desc x).
Lemma bg_map o : background_steps (option_map hb o) = map h (background_steps o).
Proof. destruct o; [apply Hbg | reflexivity]. Qed.
Lemma steps_swapped f f' o o' : no_id_feature f' = parts_feature hs hb (no_id_feature f) -> b_origin o' = part_origin hs hb (b_origin o) ->
  map no_id_step (inherited_steps f' o') = map (fun st => h (no_id_step st)) (inherited_steps f o) /\ map no_id_step (sc_steps (o_scenario o')) = map (fun st => h (no_id_step st)) (sc_steps (o_scenario o)).
Proof.
  intros Ef Eo. assert (Sc : map no_id_step (sc_steps (o_scenario o')) = map (fun st => h (no_id_step st)) (sc_steps (o_scenario o))) by (pose proof (f_equal (fun z => sc_steps (o_scenario z)) Eo) as Q; cbn [part_origin b_origin o_scenario] in Q; rewrite Hsc in Q; cbn [no_id_scenario sc_steps] in Q; rewrite map_map in Q; exact Q).
  split; [|exact Sc]. unfold inherited_steps.
  pose proof (f_equal fe_background Ef) as Q1. cbn [no_id_feature parts_feature fe_background] in Q1. apply (f_equal background_steps) in Q1. rewrite b_bg, bg_map, b_bg, map_map in Q1.
  assert (Q2 : map no_id_step (match o_rule o' with None => [] | Some ru => background_steps (ru_background ru) end) = map (fun st => h (no_id_step st)) (match o_rule o with None => [] | Some ru => background_steps (ru_background ru) end)).
  { pose proof (f_equal o_rule Eo) as Q2. cbn [part_origin b_origin o_rule] in Q2. destruct (o_rule o') as [r'|], (o_rule o) as [r|]; cbn [option_map] in Q2; try discriminate Q2; [|reflexivity]. assert (Q3 : no_id_rule r' = parts_rule hs hb (no_id_rule r)) by congruence.
    apply (f_equal ru_background) in Q3. cbn [no_id_rule parts_rule ru_background] in Q3. apply (f_equal background_steps) in Q3. rewrite b_bg, bg_map, b_bg, map_map in Q3. exact Q3. }
  destruct (sc_steps (o_scenario o)) as [|y l]; destruct (sc_steps (o_scenario o')) as [|y' l']; try discriminate Sc; [reflexivity|]. rewrite !map_app, Q1, Q2. reflexivity.
Qed.
(** the two tests of an origin: their calls are related one by one, their tags and documentation are the same, and their names are names of the scenarios, filled in, with
    the same text after them *)
Lemma test_swapped pr f f' o o' p p' t t' (RelB RelS : step -> rcall -> rcall -> Prop) : no_id_feature f' = parts_feature hs hb (no_id_feature f) -> b_origin o' = part_origin hs hb (b_origin o) ->
  test_of f o p t -> test_of f' o' p' t' -> calls_exact pr p t -> calls_exact pr p' t' -> pickle_rel f o p -> pickle_rel f' o' p' -> map st_ktype (origin_steps f' o') = map st_ktype (origin_steps f o) ->
  (forall st q c st' q' c', In st (inherited_steps f o) -> no_id_step st' = h (no_id_step st) -> call_of st q c -> call_of st' q' c' -> step_rel [] [] st q -> step_rel [] [] st' q' -> exact_args pr q c -> exact_args pr q' c' -> ps_type q' = ps_type q -> typed st q -> RelB st c c') ->
  (forall v' w', map cell_value (vars_of o) = map cell_value v' -> map cell_value (vals_of o) = map cell_value w' -> forall st q c st' q' c', In st (sc_steps (o_scenario o)) -> no_id_step st' = h (no_id_step st) -> call_of st q c -> call_of st' q' c' -> step_rel (vars_of o) (vals_of o) st q -> step_rel v' w' st' q' -> exact_args pr q c -> exact_args pr q' c' -> ps_type q' = ps_type q -> typed st q -> RelS st c c') ->
  (exists c1 c2 c1' c2', rt_calls t = c1 ++ c2 /\ rt_calls t' = c1' ++ c2' /\ Forall3 RelB (inherited_steps f o) c1 c1' /\ Forall3 RelS (sc_steps (o_scenario o)) c2 c2') /\ rt_doc t' = rt_doc t /\ rt_tags t' = rt_tags t /\
  (exists nm nm' rest, sc_name (o_scenario o) = Some nm /\ sc_name (o_scenario o') = Some nm' /\ rt_name t = pk_name p ++ rest /\ rt_name t' = pk_name p' ++ rest /\
    interpolate nm (vars_of o) (vals_of o) = Ok (pk_name p) /\ interpolate nm' (vars_of o) (vals_of o) = Ok (pk_name p')).
Proof.
  intros Ef Eo T T' X X' P P' Hk HB HS. destruct (steps_swapped f f' o o' Ef Eo) as [Ei Es]. destruct T as [T1 [T2 [T3 [T4 [T5 [co [T6 T7]]]]]]], T' as [T1' [T2' [T3' [T4' [T5' [co' [T6' T7']]]]]]].
  pose proof (pr_types _ _ _ P) as Ty. pose proof (pr_types _ _ _ P') as Ty'. destruct (pr_steps _ _ _ P) as [q1 [q2 [Eq [S1 S2]]]], (pr_steps _ _ _ P') as [q1' [q2' [Eq' [S1' S2']]]].
  pose proof (f_equal o_scenario Eo) as R2. pose proof (f_equal o_row Eo) as R3. cbn [part_origin b_origin o_scenario o_row] in R2, R3.
  assert (Vv : map cell_value (vars_of o) = map cell_value (vars_of o') /\ map cell_value (vals_of o) = map cell_value (vals_of o')).
  { unfold vars_of, vals_of. destruct (o_row o) as [[[ex r1] r]|], (o_row o') as [[[ex' r1'] r']|]; try discriminate R3; [|auto]. assert (A : no_id_row r1' = no_id_row r1) by congruence. assert (B : no_id_row r' = no_id_row r) by congruence. split.
    - change (values_of r1 = values_of r1'). rewrite <- (b_values r1'), A, b_values. reflexivity.
    - change (values_of r = values_of r'). rewrite <- (b_values r'), B, b_values. reflexivity. }
  destruct Vv as [Ev Ew].
  assert (It : init_type o' = init_type o) by (unfold init_type; destruct (o_row o) as [[[ex r1] r]|], (o_row o') as [[[ex' r1'] r']|]; try discriminate R3; reflexivity).
  assert (Tq : map ps_type (pk_steps p') = map ps_type (pk_steps p)) by (rewrite Ty, Ty', It, Hk; reflexivity). pose proof (types_typed _ _ _ Ty) as Td. unfold origin_steps in Td. rewrite Eq in Td. destruct (f2_split typed _ _ _ _ (eq_sym (f2_len _ _ _ S1)) Td) as [Z1 Z2].
  unfold calls_exact in X, X'. unfold origin_steps in T4, T4'. rewrite Eq in T4, X, Tq. rewrite Eq' in T4', X', Tq. rewrite !map_app in Tq.
  destruct (f3_app _ _ _ _ _ T4) as [b1 [b2 [c1 [c2 [Eb [Ec [A1 A2]]]]]]]. destruct (f3_app _ _ _ _ _ T4') as [b1' [b2' [c1' [c2' [Eb' [Ec' [A1' A2']]]]]]]. rewrite Ec in X. rewrite Ec' in X'.
  pose proof (f2_len _ _ _ S1) as L1. pose proof (f2_len _ _ _ S1') as L1'. destruct (f3_len _ _ _ _ A1) as [M1 M2], (f3_len _ _ _ _ A1') as [M1' M2'].
  destruct (app_same q1 b1 q2 b2) as [<- <-]; [congruence | exact Eb|]. destruct (app_same q1' b1' q2' b2') as [<- <-]; [congruence | exact Eb'|].
  destruct (f2_split (exact_args pr) q1 q2 c1 c2) as [X1 X2]; [congruence | exact X|]. destruct (f2_split (exact_args pr) q1' q2' c1' c2') as [X1' X2']; [congruence | exact X'|].
  assert (Li : length (inherited_steps f' o') = length (inherited_steps f o)) by (apply (f_equal (@length _)) in Ei; rewrite !map_length in Ei; exact Ei).
  apply app_same in Tq as [Y1 Y2]; [|rewrite !map_length; congruence]. split; [|split; [|split]].
  - exists c1, c2, c1', c2'. split; [exact Ec|]. split; [exact Ec'|]. split.
    + apply (calls_swapped pr [] [] [] [] h RelB _ _ _ A1 S1 X1 _ _ _ A1' S1' X1' Ei Y1 HB Z1).
    + apply (calls_swapped pr _ _ _ _ h RelS _ _ _ A2 S2 X2 _ _ _ A2' S2' X2' Es Y2 (HS _ _ Ev Ew) Z2).
  - pose proof (f_equal sc_desc R2) as Qd. rewrite Hds in Qd. cbn [no_id_scenario sc_desc] in Qd. now rewrite T2, T2', Qd.
  - assert (Lt : names_of (lower_tags o') = names_of (lower_tags o)) by (rewrite <- (b_lower o'), Eo; transitivity (names_of (lower_tags (b_origin o))); [unfold lower_tags; cbn [part_origin o_rule o_scenario o_row]; rewrite Htg; destruct (o_rule (b_origin o)); reflexivity | apply b_lower]).
    apply cons_inj. unfold test_tags in T3, T3'. unfold names_of in Lt. congruence.
  - destruct (pr_name _ _ _ P) as [nm [N1 N2]], (pr_name _ _ _ P') as [nm' [N1' N2']]. exists nm, nm', (match o_row o with
    | None => []
    | Some (ex, _, _) => match ex_keyword ex with Some kw => if str_eqb kw (s "Examples") then suffix_of (columns o) else [] | None => [] end
    end). split; [exact N1|]. split; [exact N1'|]. split; [exact T1|]. split; [|split; [exact N2 | rewrite (interpolate_values _ _ _ _ nm' Ev Ew); exact N2']].
    assert (Cols : columns o' = columns o) by (rewrite <- (b_columns o'), Eo; transitivity (columns (b_origin o)); [reflexivity | apply b_columns]).
    rewrite T1', Cols. f_equal. destruct (o_row o) as [[[ex r1] r]|], (o_row o') as [[[ex' r1'] r']|]; try discriminate R3; [|reflexivity]. assert (A : no_id_examples ex' = no_id_examples ex) by congruence. apply (f_equal ex_keyword) in A. cbn [no_id_examples ex_keyword] in A. now rewrite A.
Qed.
End Tests.
Lemma swapped_suite pr name dir text text' d d' f x k hs hb (Rel : origin -> rtest -> rtest -> Prop) : is_markdown name = false -> read_file name text = Ok d -> read_file name text' = Ok d' -> gd_feature d = Some f ->
  no_ids d' = on_parts hs hb (no_ids d) -> (forall x, sc_examples (hs x) = sc_examples x) -> plain_headers d ->
  (forall f' o o' p p' t t', In o (feature_origins f) -> no_id_feature f' = parts_feature hs hb (no_id_feature f) -> b_origin o' = part_origin hs hb (b_origin o) -> test_of f o p t -> test_of f' o' p' t' ->
    calls_exact pr p t -> calls_exact pr p' t' -> pickle_rel f o p -> pickle_rel f' o' p' -> Forall PickleSpec.plain (header_names o) -> Rel o t t') ->
  build_gherkin_model pr name text dir = Ok (RSuite x, k) ->
  exists x', build_gherkin_model pr name text' dir = Ok (RSuite x', k) /\ same_settings x x' /\ Forall3 Rel (origins d) (rs_tests x) (rs_tests x').
Proof.
  intros M R R' F Q He Ph HR B. assert (P' : parse_with false false (s "en") text' = Ok d') by (unfold read_file in R'; now rewrite M in R').
  destruct (gd_feature d') as [f'|] eqn:F'; [|unfold on_parts, no_ids in Q; rewrite F, F' in Q; discriminate Q].
  assert (Qf : no_id_feature f' = parts_feature hs hb (no_id_feature f)).
  { pose proof (f_equal gd_feature Q) as Q2. unfold no_ids, on_parts in Q2. cbn [gd_feature] in Q2. rewrite F, F' in Q2. cbn [option_map] in Q2. congruence. }
  pose proof (origins_swapped hs hb f f' He Qf) as Oo.
  assert (Hh : forall o o', b_origin o' = part_origin hs hb (b_origin o) -> header_names o' = header_names o).
  { intros o o' Eo. pose proof (f_equal o_row Eo) as R3. cbn [part_origin b_origin o_row] in R3. unfold header_names. destruct (o_row o) as [[[ex r1] r]|], (o_row o') as [[[ex' r1'] r']|]; try discriminate R3; [|reflexivity]. assert (A : no_id_row r1' = no_id_row r1) by congruence.
    change (values_of r1' = values_of r1). rewrite <- (b_values r1'), A, b_values. reflexivity. }
  unfold plain_headers, origins in Ph. rewrite F in Ph. assert (Ph' : plain_headers d').
  { unfold plain_headers, origins. rewrite F'. clear - Oo Ph Hh. induction Oo as [|o o' os os' H Oo IH]; [constructor|]. inversion Ph; subst. constructor; [rewrite (Hh o o' H); assumption | auto]. }
  destruct (C28_plain_headers false false (s "en") _ d' 0 en_supported P' Ph') as [ps' [i' C']].
  pose proof (build_eq pr name text dir) as B1. pose proof (build_eq pr name text' dir) as B2. rewrite R, F in B1. rewrite R', F', C' in B2.
  destruct (compile d 0) as [[ps i]|er] eqn:C; [|rewrite B1 in B; discriminate B]. destruct B1 as [su [W1 [S1 [S2 S3]]]]. destruct B2 as [su' [W2 [S1' [S2' S3']]]]. assert (su = x) by congruence. subst su. exists su'.
  split; [rewrite W2; rewrite W1 in B; assert (Ek : fe_name f = k) by congruence; assert (En : fe_name f' = fe_name f) by (change (fe_name f') with (fe_name (no_id_feature f')); rewrite Qf; reflexivity); rewrite En, Ek; reflexivity|]. split.
  - destruct S1 as [D1 [D2 [D3 [D4 D5]]]], S1' as [D1' [D2' [D3' [D4' D5']]]].
    assert (De : fe_desc f' = fe_desc f) by (change (fe_desc f') with (fe_desc (no_id_feature f')); rewrite Qf; reflexivity).
    assert (Tg : map tag_name (fe_tags f') = map tag_name (fe_tags f)).
    { assert (T : map tag_name (fe_tags (no_id_feature f')) = map tag_name (fe_tags f)) by (rewrite Qf; cbn; now rewrite !map_map). cbn in T. rewrite !map_map in T. exact T. }
    assert (TT : rs_test_tags su' = rs_test_tags x) by (apply cons_inj; now rewrite D4, D4').
    split; [now rewrite D1, D1', De|]. split; [congruence|]. split; [congruence|]. split; [|exact TT].
    rewrite D5, D5', TT. destruct (fe_tags f), (fe_tags f'); try discriminate Tg; reflexivity.
  - destruct (compile_pickles d f 0 ps i F C) as [Pr _]. destruct (compile_pickles d' f' 0 ps' i' F' C') as [Pr' _]. unfold origins in *. rewrite F in *. rewrite F' in *.
    assert (G : forall os os', Forall2 (fun o o' => b_origin o' = part_origin hs hb (b_origin o)) os os' -> (forall o, In o os -> In o (feature_origins f)) -> Forall (fun o => Forall PickleSpec.plain (header_names o)) os ->
      forall ps ts ps' ts', Forall3 (test_of f) os ps ts -> Forall2 (calls_exact pr) ps ts -> Forall3 (test_of f') os' ps' ts' -> Forall2 (calls_exact pr) ps' ts' -> Forall2 (pickle_rel f) os ps -> Forall2 (pickle_rel f') os' ps' -> Forall3 Rel os ts ts').
    { clear - HR Qf. intros os os' Oo. induction Oo as [|o o' os os' H Oo IH]; intros Al Ph ps ts ps' ts' S2 S3 S2' S3' Pr Pr'.
      - inversion S2; inversion S2'; subst. constructor.
      - inversion Ph as [|? ? Ph1 Ph2]; inversion S2 as [|? p t ? ps2 ts2 T F2]; subst. inversion S2' as [|? p' t' ? ps2' ts2' T' F2']; subst. inversion S3 as [|? ? ? ? X1 X2]; inversion S3' as [|? ? ? ? X1' X2']; subst. inversion Pr as [|? ? ? ? P1 P2]; inversion Pr' as [|? ? ? ? P1' P2']; subst.
        constructor; [apply (HR f' o o' p p' t t'); auto; apply Al; now left|]. apply (IH ltac:(intros z Hz; apply Al; now right) Ph2 ps2 ts2 ps2' ts2'); assumption. }
    apply (G _ _ Oo ltac:(auto) Ph _ _ _ _ S2 S3 S2' S3' Pr Pr').
Qed.
Lemma call_kept pr v w v' w' st q c st' q' c' : map cell_value v = map cell_value v' -> map cell_value w = map cell_value w' -> no_id_step st' = no_id_step st -> call_of st q c -> call_of st' q' c' ->
  step_rel v w st q -> step_rel v' w' st' q' -> exact_args pr q c -> exact_args pr q' c' -> ps_type q' = ps_type q -> c' = c.
Proof.
  intros Ev Ew E [[kw [K1 K2]] [_ [C1 [col [C2 C3]]]]] [[kw' [K1' K2']] [_ [C1' [col' [C2' C3']]]]] R R' X X' Ty.
  assert (Es : step_essence st = step_essence st') by (rewrite <- (b_step_e st'), E, b_step_e; reflexivity). destruct (step_rel_fun v w v' w' Ev Ew _ _ _ _ Es R R') as [Tx Ar].
  pose proof (f_equal st_keyword E) as Ek. pose proof (f_equal st_loc E) as El. cbn [no_id_step st_keyword st_loc] in Ek, El. unfold exact_args in *. rewrite El in C1', C2'.
  destruct c as [nm ar li co], c' as [nm' ar' li' co']. cbn [rc_name rc_args rc_line rc_col] in *. assert (kw' = kw) by congruence. assert (col' = col) by congruence. subst kw' col'. f_equal; [|congruence|congruence|congruence]. rewrite K2, K2', Ty, Tx. reflexivity.
Qed.
Lemma f2_eq {A} (l l' : list A) : Forall2 (fun a b => b = a) l l' -> l' = l.
Proof. induction 1; congruence. Qed.

(** C88.  Line [n] of a file is the title of a scenario, and the file a suite.  Then so is the file with another such title in that place: the tests of that scenario
    are named after the new title; nothing else is changed. *)
Theorem C88_suite : forall printable name dir a m m' b x k d f l dl line kw new, is_markdown name = false -> one_line_between a m b -> one_line_between a m' b -> split_lines m' = [line] ->
  read_file name (a ++ m ++ b) = Ok d -> gd_feature d = Some f -> fe_language f = Some l -> for_name l = Some dl -> title_line (scenario_keywords dl) line kw new ->
  let n := S (line_count a) in some_part (titled n) (fun _ => False) d -> plain_headers d -> build_gherkin_model printable name (a ++ m ++ b) dir = Ok (RSuite x, k) ->
  exists x', build_gherkin_model printable name (a ++ m' ++ b) dir = Ok (RSuite x', k) /\ same_settings x x' /\ Forall3 (test_renamed n (indent_of line) new) (origins d) (rs_tests x) (rs_tests x').
Proof.
  intros pr name dir a m m' b x k d f l dl line kw new M O O' Sl R F L D T n K Ph B. assert (P : parse_with false false (s "en") (a ++ m ++ b) = Ok d) by (unfold read_file in R; now rewrite M in R).
  destruct (C88_document false (s "en") a m m' b d f l dl line kw new en_supported O O' Sl P F L D T K) as [d' [P' Q]]. fold n in Q. assert (R' : read_file name (a ++ m' ++ b) = Ok d') by (unfold read_file; now rewrite M).
  set (loc := mkLoc n (Some (indent_of line + 1))) in Q. unfold scenario_renamed in Q.
  apply (swapped_suite pr name dir (a ++ m ++ b) (a ++ m' ++ b) d d' f x k (rename n loc kw new) (fun b => b) _ M R R' F Q); [intros y; unfold rename; destruct (_ =? n); reflexivity | exact Ph | | exact B].
  intros f' o o' p p' t t' Io Ef Eo Tt Tt' X X' Pk Pk' Pl.
  assert (Hkt : map st_ktype (origin_steps f' o') = map st_ktype (origin_steps f o)).
  { destruct (steps_swapped (rename n loc kw new) (fun b => b) (fun st => st) ltac:(intros; now rewrite map_id) ltac:(intros y; rewrite map_id; unfold rename; destruct (_ =? n); reflexivity) f f' o o' Ef Eo) as [E1 E2].
    apply (f_equal (map st_ktype)) in E1. apply (f_equal (map st_ktype)) in E2. rewrite !map_map in E1, E2. unfold origin_steps. rewrite !map_app. f_equal; assumption. }
  destruct (test_swapped (rename n loc kw new) (fun b => b) (fun st => st) ltac:(intros; now rewrite map_id) ltac:(intros y; rewrite map_id; unfold rename; destruct (_ =? n); reflexivity)
    ltac:(intros y; unfold rename; destruct (_ =? n); reflexivity) ltac:(intros y; unfold rename; destruct (_ =? n); reflexivity) pr f f' o o' p p' t t' (fun _ c c' => c' = c) (fun _ c c' => c' = c) Ef Eo Tt Tt' X X' Pk Pk' Hkt)
    as [[c1 [c2 [c1' [c2' [Ec [Ec' [G1 G2]]]]]]] [Ed [Eg [nm [nm' [rest [N1 [N2 [N3 [N4 [N5 N6]]]]]]]]]]].
  { intros st q c st' q' c' _ E C C' Sr Sr' Xa Xa' Ty _. apply (call_kept pr [] [] [] [] st q c st' q' c'); auto. }
  { intros v' w' Ev Ew st q c st' q' c' _ E C C' Sr Sr' Xa Xa' Ty _. apply (call_kept pr (vars_of o) (vals_of o) v' w' st q c st' q' c'); auto. }
  apply f3_f2 in G1. apply f3_f2 in G2. apply f2_eq in G1. apply f2_eq in G2. assert (Cc : rt_calls t' = rt_calls t) by congruence.
  pose proof (f_equal o_scenario Eo) as R2. cbn [part_origin b_origin o_scenario] in R2. destruct Tt as [_ [_ [_ [_ [T5 [co [T6 T7]]]]]]], Tt' as [_ [_ [_ [_ [T5' [co' [T6' T7']]]]]]].
  unfold test_renamed. unfold rename in R2. cbn [no_id_scenario sc_loc] in R2. rewrite <- T5 in R2. destruct (rt_line t =? n) eqn:En.
  - apply Nat.eqb_eq in En. pose proof (f_equal sc_loc R2) as Ql. pose proof (f_equal sc_name R2) as Qn. cbn [no_id_scenario sc_loc sc_name] in Ql, Qn. rewrite Ql in T5', T6'. unfold loc in T5', T6'. cbn [l_line l_col] in T5', T6'. rewrite N2 in Qn. assert (nm' = new) by congruence. subst nm'.
    assert (Cl : columns o = cols_of (vars_of o) (vals_of o)) by (unfold columns, cols_of, vars_of, vals_of; destruct (o_row o) as [[[ex r1] r]|]; reflexivity). rewrite header_cells in Pl.
    exists nm, (pk_name p), (pk_name p'), rest. split; [exact N1|]. rewrite Cl. split; [apply interpolate_filled; assumption|]. split; [apply interpolate_filled; assumption|]. split; [exact N3|].
    destruct t as [tn td tt tc tl tcl], t' as [tn' td' tt' tc' tl' tcl']. cbn [rt_name rt_doc rt_tags rt_calls rt_line rt_col] in *. assert (Z : co' = indent_of line + 1) by congruence. rewrite T7', Z. f_equal; [congruence | congruence | congruence | congruence | congruence | lia].
  - pose proof (f_equal sc_loc R2) as Ql. pose proof (f_equal sc_name R2) as Qn. cbn [no_id_scenario sc_loc sc_name] in Ql, Qn. rewrite Ql in T5', T6'. assert (nm' = nm) by congruence. subst nm'. assert (Np : pk_name p' = pk_name p) by congruence.
    destruct t as [tn td tt tc tl tcl], t' as [tn' td' tt' tc' tl' tcl']. cbn [rt_name rt_doc rt_tags rt_calls rt_line rt_col] in *. assert (Z : co' = co) by congruence. f_equal; congruence.
Qed.
Print Assumptions C88_suite.

(** C87.  Line [n] of a file is a step, and the file a suite.  Then so is the file with another step line of the same type in that place: the calls for that step have
    the keyword and text of the new line, and their arguments as before; nothing else is changed. *)
Theorem C87_suite : forall printable name dir a m m' b x k d f l dl line kw text, is_markdown name = false -> one_line_between a m b -> one_line_between a m' b -> split_lines m' = [line] ->
  read_file name (a ++ m ++ b) = Ok d -> gd_feature d = Some f -> fe_language f = Some l -> for_name l = Some dl -> step_line dl line kw text ->
  let n := S (line_count a) in background_line f n \/ scenario_line f n -> (forall st, In st (feature_steps f) -> step_on n st -> st_ktype st = Some (LineSpec.step_type dl kw)) ->
  plain_headers d -> build_gherkin_model printable name (a ++ m ++ b) dir = Ok (RSuite x, k) ->
  exists x', build_gherkin_model printable name (a ++ m' ++ b) dir = Ok (RSuite x', k) /\ same_settings x x' /\
    Forall3 (fun o => test_reworded n (call_reworded f n (indent_of line) kw (LineSpec.step_type dl kw) text (columns o))) (origins d) (rs_tests x) (rs_tests x').
Proof.
  intros pr name dir a m m' b x k d f l dl line kw text M O O' Sl R F L D T n K Kt Ph B. assert (P : parse_with false false (s "en") (a ++ m ++ b) = Ok d) by (unfold read_file in R; now rewrite M in R).
  destruct (C87_document false (s "en") a m m' b d f l dl line kw text en_supported O O' Sl P F L D T K) as [d' [P' Q]]. fold n in Q. assert (R' : read_file name (a ++ m' ++ b) = Ok d') by (unfold read_file; now rewrite M).
  set (loc := mkLoc n (Some (indent_of line + 1))) in Q. unfold step_reworded in Q. set (kt := LineSpec.step_type dl kw) in *. set (h := reword_step n loc kw kt text) in Q.
  apply (swapped_suite pr name dir (a ++ m ++ b) (a ++ m' ++ b) d d' f x k (sc_reword h) (bg_reword h) _ M R R' F Q); [reflexivity | exact Ph | | exact B].
  intros f' o o' p p' t t' Io Ef Eo Tt Tt' X X' Pk Pk' Pl.
  assert (HB : forall st, In st (inherited_steps f o) -> In st (flat_map bg_steps (feature_backgrounds f))) by (intros st; now apply inherited_background).
  assert (HS : forall st, In st (sc_steps (o_scenario o)) -> In st (flat_map sc_steps (feature_scenarios f))) by (intros st Hst; apply in_flat_map; exists (o_scenario o); split; [now apply origin_scenario | exact Hst]).
  assert (Hk1 : forall st, In st (feature_steps f) -> st_ktype (h (no_id_step st)) = st_ktype st).
  { intros st Hst. unfold h, reword_step. cbn [no_id_step st_loc]. destruct (l_line (st_loc st) =? n) eqn:E; [|reflexivity]. apply Nat.eqb_eq in E. cbn [st_ktype]. symmetry. now apply Kt. }
  assert (Hkt : map st_ktype (origin_steps f' o') = map st_ktype (origin_steps f o)).
  { destruct (steps_swapped (sc_reword h) (bg_reword h) h ltac:(reflexivity) ltac:(reflexivity) f f' o o' Ef Eo) as [E1 E2].
    apply (f_equal (map st_ktype)) in E1. apply (f_equal (map st_ktype)) in E2. rewrite !map_map in E1, E2. unfold origin_steps. rewrite !map_app. f_equal; [etransitivity; [exact E1|] | etransitivity; [exact E2|]]; apply map_ext_in; intros st Hst; apply Hk1; unfold feature_steps; apply in_or_app; auto. }
  assert (Cl : columns o = cols_of (vars_of o) (vals_of o)) by (unfold columns, cols_of, vars_of, vals_of; destruct (o_row o) as [[[ex r1] r]|]; reflexivity). rewrite header_cells in Pl.
  set (Rel := fun c c' => if rc_line c =? n then call_reworded f n (indent_of line) kw kt text (columns o) c c' else c' = c).
  assert (One : forall v w v' w', map cell_value v = map cell_value v' -> map cell_value w = map cell_value w' -> forall st q c st' q' c', In st (feature_steps f) -> no_id_step st' = h (no_id_step st) -> call_of st q c -> call_of st' q' c' -> step_rel v w st q -> step_rel v' w' st' q' ->
    exact_args pr q c -> exact_args pr q' c' -> ps_type q' = ps_type q -> (forall text', step_on n st -> interpolate text v w = Ok text' -> background_line f n /\ text' = text \/ scenario_line f n /\ filled (columns o) text text') ->
    typed st q -> Rel c c').
  { intros v w v' w' Ev Ew st q c st' q' c' Hst E C C' Sr Sr' Xa Xa' Ty Hl Hq. unfold Rel. pose proof C as [_ [_ [Cln _]]]. rewrite Cln. unfold h, reword_step in E. cbn [no_id_step st_loc] in E. destruct (l_line (st_loc st) =? n) eqn:En.
    - apply Nat.eqb_eq in En. destruct C' as [[kw' [K1 K2]] [_ [C1 [col [C2 C3]]]]]. pose proof (f_equal st_keyword E) as Ek. pose proof (f_equal st_loc E) as El. pose proof (f_equal st_text E) as Et. pose proof (f_equal st_arg E) as Ea. cbn [no_id_step st_keyword st_loc st_text st_arg] in Ek, El, Et, Ea.
      rewrite El in C1, C2. unfold loc in C1, C2. cbn [l_line l_col] in C1, C2. destruct Sr as [_ Ar], Sr' as [[z [Z1 Z2]] Ar']. assert (z = text) by congruence. subst z. assert (kw' = kw) by congruence. subst kw'.
      split; [exact C1|]. split; [assert (Z : col = indent_of line + 1) by congruence; rewrite C3, Z; lia|]. split.
      + unfold exact_args in *. rewrite Xa, Xa'. f_equal. symmetry. apply (arg_rel_fun v w v' w' Ev Ew (st_arg st) (st_arg st')); [|exact Ar | exact Ar']. assert (Eb : argument_essence (st_arg (no_id_step st')) = argument_essence (st_arg (no_id_step st))) by (cbn [no_id_step st_arg]; congruence).
        pose proof (b_step_e st) as B1. pose proof (b_step_e st') as B2. unfold step_essence in B1, B2. congruence.
      + exists (ps_text q'). split; [apply Hl; [exact En | rewrite (interpolate_values v v' w w' text Ev Ew); exact Z2]|]. rewrite K2, Ty. assert (Hq' : forall k, kt = k -> k <> KtConjunction -> ps_type q = Some k) by (intros k0 Ek0 Nk0; rewrite Hq; rewrite (Kt st Hst En); congruence). clear Hq. rename Hq' into Hq. destruct kt eqn:Ekt; try (rewrite (Hq _ eq_refl) by discriminate; reflexivity). destruct (ps_type q) as [[]|]; [left | left | left | left | right | left]; reflexivity.
    - apply (call_kept pr v w v' w' st q c st' q' c'); auto. }
  destruct (test_swapped (sc_reword h) (bg_reword h) h ltac:(reflexivity) ltac:(reflexivity) ltac:(reflexivity) ltac:(reflexivity) pr f f' o o' p p' t t' (fun _ => Rel) (fun _ => Rel) Ef Eo Tt Tt' X X' Pk Pk' Hkt)
    as [[c1 [c2 [c1' [c2' [Ec [Ec' [G1 G2]]]]]]] [Ed [Eg [nm [nm' [rest [N1 [N2 [N3 [N4 [N5 N6]]]]]]]]]]].
  { intros st q c st' q' c' Hst E C C' Sr Sr' Xa Xa' Ty Td. apply (One [] [] [] [] eq_refl eq_refl st q c st' q' c'); auto; [unfold feature_steps; apply in_or_app; left; auto|]. intros text' Hon Et. left. split; [exists st; auto | cbn in Et; congruence]. }
  { intros v' w' Ev Ew st q c st' q' c' Hst E C C' Sr Sr' Xa Xa' Ty Td. apply (One (vars_of o) (vals_of o) v' w' Ev Ew st q c st' q' c'); auto; [unfold feature_steps; apply in_or_app; right; auto|]. intros text' Hon Et. right. split; [exists st; auto | rewrite Cl; apply interpolate_filled; assumption]. }
  apply f3_f2 in G1. apply f3_f2 in G2. split; [rewrite Ec, Ec'; apply Forall2_app; assumption|].
  pose proof (f_equal o_scenario Eo) as R2. cbn [part_origin b_origin o_scenario] in R2. destruct Tt as [_ [_ [_ [_ [T5 [co [T6 T7]]]]]]], Tt' as [_ [_ [_ [_ [T5' [co' [T6' T7']]]]]]].
  pose proof (f_equal sc_loc R2) as Ql. pose proof (f_equal sc_name R2) as Qn. cbn [sc_reword no_id_scenario sc_loc sc_name] in Ql, Qn. rewrite Ql in T5', T6'. assert (nm' = nm) by congruence. subst nm'. assert (Np : pk_name p' = pk_name p) by congruence.
  destruct t as [tn td tt tc tl tcl], t' as [tn' td' tt' tc' tl' tcl']. unfold with_calls. cbn [rt_name rt_doc rt_tags rt_calls rt_line rt_col] in *. assert (Z : co' = co) by congruence. f_equal; congruence.
Qed.
Print Assumptions C87_suite.

(** ** Concrete cases: the second line of the steps of an outline, which has a table, and the title of the outline *)
Definition c87_a : str := text_of_lines (firstn 4 c86_lines).
Definition c87_m : str := text_of_lines [s "    When <v>"].
Definition c87_b : str := text_of_lines (skipn 5 c86_lines).
Definition c87_line : str := s "  When I <v>!" ++ [ch_nl].
Example C87_case : c87_a ++ c87_m ++ c87_b = c86_a ++ c86_b /\ one_line_between c87_a c87_m c87_b /\ one_line_between c87_a c87_line c87_b /\ split_lines c87_line = [c87_line] /\ line_count c87_a = 4 /\
  step_line c86_dl c87_line (s "When ") (s "I <v>!") /\ scenario_line c86_f 5 /\ (forall st, In st (feature_steps c86_f) -> step_on 5 st -> st_ktype st = Some (LineSpec.step_type c86_dl (s "When "))).
Proof.
  split; [vm_compute; reflexivity|]. split; [split; [exists (removelast c87_a); vm_compute; reflexivity|]; split; [vm_compute; reflexivity|]; left; exists (removelast (c87_a ++ c87_m)); vm_compute; reflexivity|].
  split; [split; [exists (removelast c87_a); vm_compute; reflexivity|]; split; [vm_compute; reflexivity|]; left; exists (removelast (c87_a ++ c87_line)); vm_compute; reflexivity|]. do 2 (split; [vm_compute; reflexivity|]). split; [|split].
  - exists [s "* "; s "Given "; s "* "]. eexists. exists (s "I <v>!" ++ [ch_nl]). split; [vm_compute; reflexivity|]. split; [repeat constructor; intros C; vm_compute in C; discriminate C | vm_compute; auto].
  - eexists. split; [left; reflexivity | reflexivity].
  - intros st [<-|[<-|[<-|[]]]] H; vm_compute in H; try discriminate H. vm_compute. reflexivity.
Qed.
Example C87_case_suite : c86_calls (c87_a ++ c87_line ++ c87_b) =
    [[(s "Given x", [], 3, 4); (s "When I 1!", [s "&{{{'rows': [{'cells': [{'value': 'a'}]}]}}}"], 5, 2); (s "And c", [], 7, 4)]; [(s "Given x", [], 3, 4); (s "When I 2!", [s "&{{{'rows': [{'cells': [{'value': 'a'}]}]}}}"], 5, 2); (s "And c", [], 7, 4)]].
Proof. vm_compute. reflexivity. Qed.
(** why the type must stay: the call of an And depends on the step before it *)
Example C87_and : c86_calls (text_of_lines [s "Feature: f"; s "Scenario: s"; s "* x"; s "And y"]) = [[(s "x", [], 3, 0); (s "y", [], 4, 0)]] /\ c86_calls (text_of_lines [s "Feature: f"; s "Scenario: s"; s "Given x"; s "And y"]) = [[(s "Given x", [], 3, 0); (s "And y", [], 4, 0)]].
Proof. split; vm_compute; reflexivity. Qed.
Definition c88_a : str := text_of_lines (firstn 3 c86_lines).
Definition c88_m : str := text_of_lines [s "  Scenario Outline: o"].
Definition c88_b : str := text_of_lines (skipn 4 c86_lines).
Definition c88_line : str := s "Scenario Template: is <v>" ++ [ch_nl].
Example C88_case : c88_a ++ c88_m ++ c88_b = c86_a ++ c86_b /\ one_line_between c88_a c88_m c88_b /\ one_line_between c88_a c88_line c88_b /\ split_lines c88_line = [c88_line] /\ line_count c88_a = 3 /\
  title_line (scenario_keywords c86_dl) c88_line (s "Scenario Template") (s "is <v>") /\ some_part (titled 4) (fun _ => False) c86_d.
Proof.
  split; [vm_compute; reflexivity|]. split; [split; [exists (removelast c88_a); vm_compute; reflexivity|]; split; [vm_compute; reflexivity|]; left; exists (removelast (c88_a ++ c88_m)); vm_compute; reflexivity|].
  split; [split; [exists (removelast c88_a); vm_compute; reflexivity|]; split; [vm_compute; reflexivity|]; left; exists (removelast (c88_a ++ c88_line)); vm_compute; reflexivity|]. do 2 (split; [vm_compute; reflexivity|]). split.
  - split; [vm_compute; tauto | exists (s " is <v>" ++ [ch_nl]); vm_compute; auto].
  - right. left. left. reflexivity.
Qed.
Definition c88_tests (x : str) : list (str * nat * nat) :=
  match build_gherkin_model (fun _ => true) (s "a.feature") x None with Ok (RSuite su, _) => map (fun t => (rt_name t, rt_line t, rt_col t)) (rs_tests su) | _ => [] end.
Example C88_case_suites : c88_tests (c88_a ++ c88_m ++ c88_b) = [(s "o v = 1", 4, 2); (s "o v = 2", 4, 2)] /\ c88_tests (c88_a ++ c88_line ++ c88_b) = [(s "is 1 v = 1", 4, 0); (s "is 2 v = 2", 4, 0)].
Proof. split; vm_compute; reflexivity. Qed.
