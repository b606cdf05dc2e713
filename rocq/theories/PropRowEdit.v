(** * Another row in the place of a row of a step's table changes the argument of that step and nothing else: C89 *)
From Verif Require Import PyStr PyStrFacts Types Regex Line DialectData Matcher Ast Parser Compiler Scan LineSpec LangSpec LangFacts DocSpec PartsSpec PropLine PropParse PropDoc PropDocString PickleSpec PickleFacts PickleTotal WfDoc PropMdParse PropCompile Glob Robot RobotSpec SuiteSpec RobotFacts PropRobot WriteSpec WriteRead PropWrite EssenceSpec EssenceFacts PropEssence PropAppend MiddleSpec Renumber Units PropMiddle ExampleSpec ExampleChange PropExampleRow PartSpec PartChange PropScenarioTags PropStepMore WordSpec PropReword ArgSpec.
Import PickleSpec WriteSpec.

Section Row.
Context (n : nat) (x : str) (items : list mitem) (T : row_line x items).
Notation r0 := (row_of_line n x items).
Lemma new_row : row_at_line (n, x) r0.
Proof. exists items. split; [exact T | reflexivity]. Qed.
Notation er := (fun y : row => if l_line (row_loc y) =? n then r0 else y).
Lemma row_here l r : row_at_line l r -> row_loc r = here l.
Proof. intros [i [_ ->]]. reflexivity. Qed.
Lemma row_swapped l r : row_at_line l r -> exists l', swap_line n x l = [l'] /\ row_at_line l' (er r).
Proof.
  intros H. pose proof (row_here _ _ H) as E. cbn beta. rewrite E. cbn [here l_line]. unfold swap_line. destruct (fst l =? n); [exists (n, x); split; [reflexivity | apply new_row] | exists l; auto].
Qed.
Lemma row_lines_off ls rows cs : row_lines ls rows cs -> ~ In n (nums ls) -> map er rows = rows.
Proof.
  induction 1 as [|l ls r rs cs H R IH|l ls rs cs H R IH|l ls rs cs H R IH]; intros N; [reflexivity | | |]; cbn [nums map] in N.
  - cbn [map]. f_equal; [|apply IH; intros K; apply N; now right]. rewrite (row_here _ _ H). cbn [here l_line]. destruct (fst l =? n) eqn:E; [|reflexivity]. apply Nat.eqb_eq in E. exfalso. apply N. now left.
  - apply IH. intros K. apply N. now right.
  - apply IH. intros K. apply N. now right.
Qed.
Lemma row_lines_in ls rows cs : row_lines ls rows cs -> Exists (on_line n) rows -> In n (nums ls).
Proof.
  induction 1 as [|l ls r rs cs H R IH|l ls rs cs H R IH|l ls rs cs H R IH]; intros N; [inversion N | | |].
  - inversion N as [? ? N1|? ? N1]; subst; [left | right; auto]. unfold on_line in N1. rewrite (row_here _ _ H) in N1. exact N1.
  - right. auto.
  - right. auto.
Qed.
(** the lines, where line [n] is a row or is not among them *)
Lemma row_lines_swap ls rows cs : row_lines ls rows cs -> NoDup (nums ls) -> Exists (on_line n) rows \/ ~ In n (nums ls) -> row_lines (flat_map (swap_line n x) ls) (map er rows) cs.
Proof.
  induction 1 as [|l ls r rs cs H R IH|l ls rs cs H R IH|l ls rs cs H R IH]; intros N K; [constructor | | |]; cbn [flat_map map]; cbn [nums map] in N; inversion N as [|? ? N1 N2]; subst.
  - destruct (row_swapped _ _ H) as [l' [E1 E2]]. rewrite E1. cbn [app]. apply rw_row; [exact E2|]. apply IH; [exact N2|]. destruct K as [K|K]; [|right; intros Z; apply K; now right]. inversion K as [? ? K1|? ? K1]; subst; [|now left].
    right. unfold on_line in K1. rewrite (row_here _ _ H) in K1. cbn [here l_line] in K1. rewrite <- K1. exact N1.
  - rewrite swap_other; [cbn [app]; apply rw_blank; [exact H|]; apply IH; [exact N2|]; destruct K as [K|K]; [now left | right; intros Z; apply K; now right]|].
    intros E. destruct K as [K|K]; [apply (row_lines_in _ _ _ R) in K; rewrite <- E in K; contradiction | apply K; now left].
  - rewrite swap_other; [cbn [app]; apply rw_comment; [exact H|]; apply IH; [exact N2|]; destruct K as [K|K]; [now left | right; intros Z; apply K; now right]|].
    intros E. destruct K as [K|K]; [apply (row_lines_in _ _ _ R) in K; rewrite <- E in K; contradiction | apply K; now left].
Qed.
Lemma row_change d : changes n (swap_line n x) (step_block d) (row_fits n (length items)) (edit_step n r0).
Proof.
  intros ls st cs [l [noise [arg [kw [text [a [e1 [e2 [-> [H1 [H2 [H3 [-> ->]]]]]]]]]]]]]. unfold row_fits, has_row, edit_step. cbn [st_arg st_id st_loc st_keyword st_ktype st_text].
  assert (Z : l :: noise ++ arg = (l :: noise) ++ arg ++ []) by (rewrite app_nil_r; reflexivity). rewrite Z.
  destruct H3 as [[-> [-> ->]]|[[l1 [ls' [rows [-> [[[l2 [ls2 [r [rs [E [R1 [R2 ->]]]]]]] Rc] ->]]]]]|[ds [Hd ->]]]].
  - split; [intros [K _]; inversion K|]. split; [reflexivity|]. intros _ [K _]. inversion K.
  - injection E as <- <-. cbn [rows_of dt_rows edit_arg edit_table dt_loc]. assert (RL : row_lines (l1 :: ls') (r :: rs) e2) by (now apply rw_row). split; [|split].
    + intros [K _]. apply in_mid. now apply (row_lines_in _ _ _ RL).
    + intros K. apply out_mid in K. unfold edit_table. cbn [dt_loc dt_rows]. rewrite (row_lines_off _ _ _ RL K). cbn [here l_line]. destruct (fst l1 =? n) eqn:En; [|reflexivity]. apply Nat.eqb_eq in En. exfalso. apply K. now left.
    + intros N [K Kw]. assert (I : In n (nums (l1 :: ls'))) by (now apply (row_lines_in _ _ _ RL)). destruct (chg_mid n _ (swap_other n x) _ _ _ N I) as [G Nb]. rewrite G.
      assert (Nb' : ~ In (fst l1) (nums ls') /\ NoDup (nums ls')) by (inversion Nb; auto). destruct Nb' as [N1 N2].
      assert (RL' : row_lines (flat_map (swap_line n x) ls') (map er rs) e2).
      { apply row_lines_swap; [exact R2 | exact N2|]. inversion K as [? ? K1|? ? K1]; subst; [|now left]. right. unfold on_line in K1. rewrite (row_here _ _ R1) in K1. cbn [here l_line] in K1. rewrite <- K1. exact N1. }
      destruct (row_swapped _ _ R1) as [l1' [E1 E2]]. cbn [flat_map]. rewrite E1. cbn [app].
      exists l, noise, (l1' :: flat_map (swap_line n x) ls'), kw, text, (ATable (edit_table n r0 (mkTable (here l1) (r :: rs)))), e1, e2. rewrite app_nil_r. split; [reflexivity|]. do 2 (split; [assumption|]). split; [|split; reflexivity].
      right. left. exists l1', (flat_map (swap_line n x) ls'), (map er (r :: rs)). split; [reflexivity|]. split.
      * split; [exists l1', (flat_map (swap_line n x) ls'), (er r), (map er rs); auto|]. 
        assert (W : forall y, In y (map er (r :: rs)) -> length (row_cells y) = length items); [|intros y y' Hy Hy'; now rewrite (W y Hy), (W y' Hy')].
        intros y Hy. apply in_map_iff in Hy as [z [<- Hz]]. cbn beta. destruct (l_line (row_loc z) =? n) eqn:Ez; [cbn [row_of_line row_cells]; apply map_length|]. rewrite Forall_forall in Kw. destruct (Kw z Hz) as [Q|Q]; [|exact Q]. unfold on_line in Q. apply Nat.eqb_neq in Ez. contradiction.
      * unfold edit_table. cbn [dt_loc dt_rows]. do 2 f_equal. unfold swap_line in E1. cbn [here l_line]. destruct (fst l1 =? n); injection E1 as <-; reflexivity.
  - cbn [rows_of edit_arg]. split; [intros [K _]; inversion K|]. split; [reflexivity|]. intros _ [K _]. inversion K.
Qed.
End Row.

Lemma steps_some (Q : step -> Prop) f st cs : In st (feature_steps f) -> Q st -> some_step Q (mkGdoc (Some f) cs).
Proof.
  intros H K. unfold some_step, some_part. cbn [gd_feature]. unfold feature_steps in H. apply in_app_or in H as [Hs|Hs]; apply in_flat_map in Hs as [x [Hx Hs]].
  - unfold feature_backgrounds in Hx. apply in_app_or in Hx as [Hx|Hx].
    + left. destruct (fe_background f) as [y|]; [|destruct Hx]. destruct Hx as [<-|[]]. apply Exists_exists. eauto.
    + right. right. apply in_flat_map in Hx as [r [Hr Hx]]. apply Exists_exists. exists r. split; [exact Hr|]. left. destruct (ru_background r) as [y|]; [|destruct Hx]. destruct Hx as [<-|[]]. apply Exists_exists. eauto.
  - unfold feature_scenarios in Hx. apply in_app_or in Hx as [Hx|Hx].
    + right. left. apply Exists_exists. exists x. split; [exact Hx|]. apply Exists_exists. eauto.
    + right. right. apply in_flat_map in Hx as [r [Hr Hx]]. apply Exists_exists. exists r. split; [exact Hr|]. right. apply Exists_exists. exists x. split; [exact Hx|]. apply Exists_exists. eauto.
Qed.
Lemma no_id_rows a : rows_of (no_id_arg a) = map no_id_row (rows_of a).
Proof. destruct a; reflexivity. Qed.
Lemma row_fits_no_id n k x : row_fits n k x -> row_fits n k (no_id_step x).
Proof.
  intros [H K]. unfold row_fits, has_row. cbn [no_id_step st_arg]. rewrite no_id_rows. split.
  - apply exists_map. eapply Exists_impl; [|exact H]. intros r Hr. exact Hr.
  - apply Forall_forall. intros r Hr. apply in_map_iff in Hr as [r' [<- Hr]]. rewrite Forall_forall in K. destruct (K r' Hr) as [Q|Q]; [left; exact Q | right]. cbn [no_id_row row_cells]. exact Q.
Qed.

(** C89.  Line [n] of a text is a row of the table of a step.  Then with another row in its place, with as many cells as the other rows of that table have, the text is
    the document with that row replaced. *)
Theorem C89_document : forall stop lang a m m' b d f st x items, supported lang -> one_line_between a m b -> one_line_between a m' b -> split_lines m' = [x] ->
  parse_with stop false lang (a ++ m ++ b) = Ok d -> gd_feature d = Some f -> row_line x items -> In st (feature_steps f) ->
  let n := S (line_count a) in row_fits n (length items) st ->
  exists d', parse_with stop false lang (a ++ m' ++ b) = Ok d' /\ no_ids d' = row_replaced n (row_of_line n x items) (no_ids d).
Proof.
  intros stop lang a m m' b d f st x items S H H' Sx P F T Hs n K. assert (A : stands_for lang (numbered_lines (split_lines (a ++ m ++ b))) (no_ids d)) by (apply (C04_parse_iff stop lang _ _ S); eauto).
  assert (K2 : some_step (row_fits n (length items)) (no_ids d)).
  { assert (K1 : some_step (row_fits n (length items)) d) by (destruct d as [fo cs]; cbn [gd_feature] in F; subst fo; eapply steps_some; eauto).
    apply (part_no_ids (sc_steps_some (row_fits n (length items))) _ (bg_steps_some (row_fits n (length items)))); [| |exact K1]; intros y Hy; unfold sc_steps_some, bg_steps_some in *; cbn [no_id_scenario no_id_background sc_steps bg_steps]; apply exists_map; (eapply Exists_impl; [|exact Hy]); intros z Hz; now apply row_fits_no_id. }
  destruct (stands_parts _ _ (swap_other n x) _ (sc_reword (edit_step n (row_of_line n x items))) _ (bg_reword (edit_step n (row_of_line n x items))) _ _ _ A (numbers_nodup _) K2) as [_ B].
  - intros f2 l2 dl2 F2 L2 D2. split; [apply scenario_reword_change | apply background_reword_change]; now apply row_change.
  - unfold n in B. rewrite (swap_lines a m m' b x H H' Sx) in B. apply (C04_parse_iff stop lang _ _ S) in B as [d' [P' E]]. exists d'. split; [exact P' | exact E].
Qed.
Print Assumptions C89_document.

(** ** Suites *)
Lemma edit_off n r a : ~ Exists (on_line n) (rows_of a) -> argument_essence (edit_arg n r a) = argument_essence a.
Proof.
  destruct a as [|t|ds]; [reflexivity| |reflexivity]. cbn [rows_of edit_arg argument_essence edit_table dt_rows]. intros N. do 2 f_equal. unfold edit_table. cbn [dt_rows]. rewrite map_map. apply map_ext_in. intros y Hy.
  destruct (l_line (row_loc y) =? n) eqn:E; [|reflexivity]. exfalso. apply N. apply Exists_exists. exists y. split; [exact Hy | now apply Nat.eqb_eq].
Qed.
Lemma edit_no_id n x items a : no_id_arg (edit_arg n (row_of_line n x items) a) = edit_arg n (row_of_line n x items) (no_id_arg a).
Proof.
  destruct a as [|t|ds]; [reflexivity| |reflexivity]. cbn [edit_arg no_id_arg]. f_equal. unfold edit_table. cbn [dt_loc dt_rows]. f_equal. rewrite !map_map. apply map_ext. intros y. cbn [no_id_row row_loc]. destruct (l_line (row_loc y) =? n); reflexivity.
Qed.
(** the argument of a call, from a step with the same argument *)
Lemma arg_rel_essence v w v' w' a a' x : map cell_value v = map cell_value v' -> map cell_value w = map cell_value w' -> argument_essence a = argument_essence a' -> arg_rel v' w' a' x -> arg_rel v w a x.
Proof.
  intros Ev Ew E H. destruct H as [|t rows H|dd c m H1 H2], a as [|t'|dd']; try discriminate E; [constructor | |]; cbn [argument_essence] in E.
  - constructor. assert (E' : map values_of (dt_rows t') = map values_of (dt_rows t)) by congruence. clear E. revert E'. generalize (dt_rows t') as l. induction H as [|r vs rl vl Hr H IH]; intros [|r' l] E; try discriminate E; constructor; cbn [map] in E.
    + assert (Er : values_of r' = values_of r) by congruence. unfold values_of in Er. clear -Hr Er Ev Ew. revert Er. generalize (row_cells r') as cs. induction Hr as [|ce y cl yl Hc Hr IH]; intros [|c' cs] Er; try discriminate Er; constructor; cbn [map] in Er.
      * assert (Ec : cell_value c' = cell_value ce) by congruence. cbn beta. rewrite Ec, (interpolate_values v v' w w' _ Ev Ew). exact Hc.
      * apply IH. congruence.
    + apply IH. congruence.
  - assert (E1 : ds_content dd' = ds_content dd) by congruence. assert (E2 : ds_media dd' = ds_media dd) by congruence. constructor; [rewrite E1, (interpolate_values v v' w w' _ Ev Ew); exact H1|]. rewrite E2. destruct (ds_media dd), m; auto. rewrite (interpolate_values v v' w w' _ Ev Ew). exact H2.
Qed.
Lemma no_id_argument a : argument_essence (no_id_arg a) = argument_essence a.
Proof. destruct a as [|t|ds]; [reflexivity| |reflexivity]. cbn [no_id_arg argument_essence dt_rows]. do 2 f_equal. rewrite map_map. apply map_ext. intros y. apply b_values. Qed.
Lemma arg_filled_rel v w a x : Forall PickleSpec.plain (map cell_value v) -> arg_rel v w a x -> arg_filled (cols_of v w) a x.
Proof.
  intros P A. inversion A as [E F|t rows H E F|dd c m H1 H2 E F].
  - constructor.
  - constructor. eapply Forall2_imp; [|exact H]. intros r vs Hr. eapply Forall2_imp; [|exact Hr]. intros. now apply interpolate_filled.
  - constructor; [now apply interpolate_filled|]. destruct (ds_media dd), m; auto. now apply interpolate_filled.
Qed.

(** C89.  Line [n] of a file is a row of the table of a step, and the file a suite.  Then so is the file with another row in its place, with as many cells as the other rows of that
    table have: the calls for that step have the table with the new row as their argument; nothing else is changed. *)
Theorem C89_suite : forall printable name dir a m m' b x k d f st line items, is_markdown name = false -> one_line_between a m b -> one_line_between a m' b -> split_lines m' = [line] ->
  read_file name (a ++ m ++ b) = Ok d -> gd_feature d = Some f -> row_line line items -> In st (feature_steps f) ->
  let n := S (line_count a) in row_fits n (length items) st -> plain_headers d -> build_gherkin_model printable name (a ++ m ++ b) dir = Ok (RSuite x, k) ->
  exists x', build_gherkin_model printable name (a ++ m' ++ b) dir = Ok (RSuite x', k) /\ same_settings x x' /\
    Forall3 (test_argued f (has_row n) (fun st => edit_arg n (row_of_line n line items) (st_arg st))) (origins d) (rs_tests x) (rs_tests x').
Proof.
  intros pr name dir a m m' b x k d f st0 line items M O O' Sl R F T Hst n K Ph B. assert (P : parse_with false false (s "en") (a ++ m ++ b) = Ok d) by (unfold read_file in R; now rewrite M in R).
  destruct (C89_document false (s "en") a m m' b d f st0 line items en_supported O O' Sl P F T Hst K) as [d' [P' Q]]. fold n in Q. assert (R' : read_file name (a ++ m' ++ b) = Ok d') by (unfold read_file; now rewrite M).
  set (r := row_of_line n line items) in *. unfold row_replaced in Q. set (h := edit_step n r) in Q.
  apply (swapped_suite pr name dir (a ++ m ++ b) (a ++ m' ++ b) d d' f x k (sc_reword h) (bg_reword h) _ M R R' F Q); [reflexivity | exact Ph | | exact B].
  intros f' o o' p p' t t' Io Ef Eo Tt Tt' X X' Pk Pk' Pl.
  assert (Hkt : map st_ktype (origin_steps f' o') = map st_ktype (origin_steps f o)).
  { destruct (steps_swapped (sc_reword h) (bg_reword h) h ltac:(reflexivity) ltac:(reflexivity) f f' o o' Ef Eo) as [E1 E2].
    apply (f_equal (map st_ktype)) in E1. apply (f_equal (map st_ktype)) in E2. rewrite !map_map in E1, E2. unfold origin_steps. rewrite !map_app. f_equal; assumption. }
  rewrite header_cells in Pl. pose proof (columns_cells o) as Cl.
  assert (One : forall v w v' w', map cell_value v = map cell_value v' -> map cell_value w = map cell_value w' -> Forall PickleSpec.plain (map cell_value v) -> forall st q c st' q' c', no_id_step st' = h (no_id_step st) -> call_of st q c -> call_of st' q' c' -> step_rel v w st q -> step_rel v' w' st' q' ->
    exact_args pr q c -> exact_args pr q' c' -> ps_type q' = ps_type q -> call_argued (has_row n) (fun st => edit_arg n r (st_arg st)) (cols_of v w) st c c').
  { intros v w v' w' Ev Ew Pv st q c st' q' c' E C C' [[tx [Sx1 Sx2]] Ar] [[tx' [Sx1' Sx2']] Ar'] Xa Xa' Ty.
    destruct C as [[kw [K1 K2]] [Ca [C1 [col [C2 C3]]]]], C' as [[kw' [K1' K2']] [Ca' [C1' [col' [C2' C3']]]]].
    pose proof (f_equal st_keyword E) as Ek. pose proof (f_equal st_loc E) as El. pose proof (f_equal st_text E) as Et. pose proof (f_equal st_arg E) as Ea. unfold h, edit_step in Ek, El, Et, Ea. cbn [no_id_step st_keyword st_loc st_text st_arg] in Ek, El, Et, Ea. rewrite El in C1', C2'.
    assert (kw' = kw) by congruence. assert (col' = col) by congruence. assert (tx' = tx) by congruence. subst kw' col' tx'. pose proof (same_text v w v' w' Ev Ew _ _ _ Sx2 Sx2') as Ex.
    assert (Nm : rc_name c' = rc_name c) by (rewrite K2, K2', Ty, Ex; reflexivity). assert (Ln : rc_line c' = rc_line c) by congruence. assert (Co : rc_col c' = rc_col c) by congruence.
    assert (Es : argument_essence (edit_arg n r (st_arg st)) = argument_essence (st_arg st')) by (rewrite <- (no_id_argument (st_arg st')), Ea; unfold r; rewrite <- edit_no_id; symmetry; apply no_id_argument).
    split.
    - intros _. do 3 (split; [assumption|]). exists (ps_arg q'). split; [|exact Ca']. apply arg_filled_rel; [exact Pv|]. apply (arg_rel_essence v w v' w' _ (st_arg st') _ Ev Ew); assumption.
    - intros N. rewrite (edit_off n r _ N) in Es. pose proof (arg_rel_fun v w v' w' Ev Ew _ _ _ _ Es Ar Ar') as Eg. unfold exact_args in *. destruct c as [nm ar li co], c' as [nm' ar' li' co']. cbn [rc_name rc_args rc_line rc_col] in *. congruence. }
  destruct (test_swapped (sc_reword h) (bg_reword h) h ltac:(reflexivity) ltac:(reflexivity) ltac:(reflexivity) ltac:(reflexivity) pr f f' o o' p p' t t'
    (call_argued (has_row n) (fun st => edit_arg n r (st_arg st)) []) (call_argued (has_row n) (fun st => edit_arg n r (st_arg st)) (columns o)) Ef Eo Tt Tt' X X' Pk Pk' Hkt)
    as [[c1 [c2 [c1' [c2' [Ec [Ec' [G1 G2]]]]]]] [Ed [Eg [nm [nm' [rest [N1 [N2 [N3 [N4 [N5 N6]]]]]]]]]]].
  { intros st q c st' q' c' _ E C C' Sr Sr' Xa Xa' Ty _. apply (One [] [] [] [] eq_refl eq_refl (Forall_nil _) st q c st' q' c'); auto. }
  { intros v' w' Ev Ew st q c st' q' c' _ E C C' Sr Sr' Xa Xa' Ty _. rewrite Cl. apply (One (vars_of o) (vals_of o) v' w' Ev Ew Pl st q c st' q' c'); auto. }
  exists c1, c2, c1', c2'. split; [exact Ec|]. split; [|split; assumption].
  pose proof (f_equal o_scenario Eo) as R2. cbn [part_origin b_origin o_scenario] in R2. destruct Tt as [_ [_ [_ [_ [T5 [co [T6 T7]]]]]]], Tt' as [_ [_ [_ [_ [T5' [co' [T6' T7']]]]]]].
  pose proof (f_equal sc_loc R2) as Ql. pose proof (f_equal sc_name R2) as Qn. cbn [sc_reword no_id_scenario sc_loc sc_name] in Ql, Qn. rewrite Ql in T5', T6'. assert (nm' = nm) by congruence. subst nm'. assert (Np : pk_name p' = pk_name p) by congruence.
  destruct t as [tn td tt tc tl tcl], t' as [tn' td' tt' tc' tl' tcl']. unfold with_calls. cbn [rt_name rt_doc rt_tags rt_calls rt_line rt_col] in *. assert (Z : co' = co) by congruence. f_equal; congruence.
Qed.
Print Assumptions C89_suite.

(** ** A concrete case: the row of the table of the outline's first step (C86_case), now with two cells and a placeholder *)
Definition c89_a : str := text_of_lines (firstn 5 c86_lines).
Definition c89_m : str := text_of_lines [s "      | a |"].
Definition c89_b : str := text_of_lines (skipn 6 c86_lines).
Definition c89_line : str := s "  | b | <v>\n | " ++ [ch_nl].
Definition c89_items : list mitem := [mkItem 5 (s "b"); mkItem 9 (s "<v>" ++ [ch_nl])].
Example C89_case : c89_a ++ c89_m ++ c89_b = c86_a ++ c86_b /\ one_line_between c89_a c89_m c89_b /\ one_line_between c89_a c89_line c89_b /\ split_lines c89_line = [c89_line] /\ line_count c89_a = 5 /\
  row_line c89_line c89_items /\ exists st, In st (feature_steps c86_f) /\ row_fits 6 (length c89_items) st.
Proof.
  split; [vm_compute; reflexivity|]. split; [split; [exists (removelast c89_a); vm_compute; reflexivity|]; split; [vm_compute; reflexivity|]; left; exists (removelast (c89_a ++ c89_m)); vm_compute; reflexivity|].
  split; [split; [exists (removelast c89_a); vm_compute; reflexivity|]; split; [vm_compute; reflexivity|]; left; exists (removelast (c89_a ++ c89_line)); vm_compute; reflexivity|]. do 2 (split; [vm_compute; reflexivity|]). split.
  - exists (s "  "), [s " b "; s " <v>\n "], (s " " ++ [ch_nl]). split; [vm_compute; reflexivity|]. split; [repeat constructor|]. split; [repeat constructor; vm_compute; discriminate|]. split; [vm_compute; discriminate | vm_compute; reflexivity].
  - eexists. split; [right; left; reflexivity|]. split; [left; reflexivity|]. constructor; [left; reflexivity | constructor].
Qed.
Example C89_case_suite : c86_calls (c89_a ++ c89_line ++ c89_b) =
    [[(s "Given x", [], 3, 4); (s "When 1", [s "&{{{'rows': [{'cells': [{'value': 'b'}, {'value': '1\\n'}]}]}}}"], 5, 4); (s "And c", [], 7, 4)]; [(s "Given x", [], 3, 4); (s "When 2", [s "&{{{'rows': [{'cells': [{'value': 'b'}, {'value': '2\\n'}]}]}}}"], 5, 4); (s "And c", [], 7, 4)]].
Proof. vm_compute. reflexivity. Qed.
(** why the row must fit: a row with another number of cells is refused *)
Example C89_misfit : c86_calls (text_of_lines [s "Feature: f"; s "Scenario: s"; s "* x"; s "|a|"; s "|b|"]) = [[(s "x", [s "&{{{'rows': [{'cells': [{'value': 'a'}]}, {'cells': [{'value': 'b'}]}]}}}"], 3, 0)]] /\
  c86_calls (text_of_lines [s "Feature: f"; s "Scenario: s"; s "* x"; s "|a|"; s "|b|c|"]) = [].
Proof. split; vm_compute; reflexivity. Qed.
