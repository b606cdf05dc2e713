(** * The argument of a step replaced, removed or added changes the arguments of the calls of that step and nothing else: C99 *)
From Verif Require Import PyStr PyStrFacts Types Regex Line DialectData Matcher Ast Parser Compiler Scan LineSpec LangSpec LangFacts DocSpec PartsSpec PropLine PropParse PropDoc PropDocString PickleSpec PickleFacts PickleTotal WfDoc PropMdParse PropCompile Glob Robot RobotSpec SuiteSpec RobotFacts PropRobot WriteSpec WriteRead PropWrite EssenceSpec EssenceFacts PropEssence PropAppend MiddleSpec Renumber Units PropMiddle ExampleSpec ExampleChange PropExampleRow PartSpec PartChange PropScenarioTags PropStepMore TitleSpec PropView LabelSpec PropLabel ArgOnlySpec PropArgOnly WordSpec PropStepMore PropReword ProseSpec ProseChange PropTitle LabelSpec LabelChange PropLabel PropLabelLine PropPlain PropProseLine DocEditSpec DocChange PropDocEdit ArgEditSpec ArgChange.
Import PickleSpec WriteSpec.
From Coq Require Import Sorting.Sorted.

(** ** Numbers *)
Lemma sorted_seq k n : StronglySorted lt (seq k n).
Proof. revert k. induction n as [|n IH]; intros k; constructor; [apply IH|]. apply Forall_forall. intros j I. apply List.in_seq in I. lia. Qed.
Lemma rising_numbered xs : rising (numbered_lines xs).
Proof. unfold rising. assert (E : nums (numbered_lines xs) = seq 1 (length xs)); [|rewrite E; apply sorted_seq]. change (numbered_lines xs) with (lines_from 1 xs). generalize 1. induction xs as [|x xs IH]; intros n; [reflexivity|]. unfold lines_from. cbn [length seq combine map fst]. f_equal. apply IH. Qed.
Lemma rising_ren g (ls : list nline) : (forall i j, i < j -> g i < g j) -> rising ls -> rising (map (ren_line g) ls).
Proof.
  intros G. unfold rising. assert (E : nums (map (ren_line g) ls) = map g (nums ls)) by (rewrite !map_map; reflexivity). rewrite E. clear E. induction (nums ls) as [|x l IH]; [constructor|]. intros H. inversion H as [|? ? H1 H2]; subst. cbn [map]. constructor; [auto|].
  rewrite Forall_map. eapply Forall_impl; [|exact H2]. auto.
Qed.
(** an argument whose lines stay *)
Lemma arg_still g n xs a : argument_lines n xs a -> (forall l, n <= l -> l < n + length xs -> g l = l) -> ren_arg g a = a.
Proof.
  intros D G. destruct D as [[ds [D ->]]|[r [rows [[T Re] ->]]]]; cbn [ren_arg].
  - destruct D as [sep [op [ct [cl [-> [_ [_ [_ [_ ->]]]]]]]]]. unfold ren_docstring, ren_loc. cbn [ds_loc ds_content ds_delimiter ds_media ren_loc l_line]. rewrite G; [reflexivity | lia | cbn [length]; lia].
  - assert (F : forall y, In y (r :: rows) -> ren_row g y = y).
    { clear Re. revert G. generalize dependent (r :: rows). clear r rows. intros rows T. unfold lines_from in T. revert n rows T. induction xs as [|x xs IH]; intros n rows T G y I; inversion T as [|l y0 ? ys T1 T2]; subst; [destruct I|]. destruct I as [<-|I].
      - destruct T1 as [items [_ ->]]. unfold ren_row. cbn [row_id row_loc row_cells fst]. assert (Gn : g n = n) by (apply G; cbn [length]; lia). f_equal; [unfold ren_loc, here; cbn [l_line fst]; now rewrite Gn|]. rewrite map_map. apply map_ext. intros i. unfold ren_cell, ren_loc, at_col. cbn [cell_loc cell_value l_line fst]. now rewrite Gn.
      - apply (IH (S n) ys T2); [|exact I]. intros l L1 L2. apply G; cbn [length]; lia. }
    cbn [dt_loc dt_rows]. f_equal. rewrite (map_ext_in _ (fun y => y) (r :: rows) F), map_id. f_equal. assert (Q : ren_row g r = r) by (apply F; now left). apply (f_equal row_loc) in Q. exact Q.
Qed.
Lemma arg_nonempty n xs a : argument_lines n xs a -> 0 < length xs.
Proof. intros [[ds [[? [? [? [? [-> _]]]]] _]]|[r [rows [[T _] _]]]]; [cbn; lia|]. destruct xs; [inversion T | cbn; lia]. Qed.
Lemma arg_piece_self n k xs a : n = S k -> argument_lines n xs a -> arg_piece n (length xs) a (lines_numbered k xs).
Proof.
  intros -> [[ds [D ->]]|[r [rows [[T _] ->]]]]; cbn [arg_piece]; [exact (proj1 (piece_of _ _ _ k eq_refl D))|]. destruct xs as [|x xs]; [inversion T|]. rewrite numbered_cons. split; [|reflexivity]. cbn [length]. f_equal. rewrite <- (map_length (@snd nat str)). now rewrite numbered_texts.
Qed.
Lemma app_same {A} (a b c d : list A) : a ++ b = c ++ d -> length a = length c -> a = c /\ b = d.
Proof. revert c. induction a as [|x a IH]; intros [|y c] E L; try discriminate L; [auto|]. cbn [app] in E. injection E as -> E. destruct (IH c E ltac:(cbn in L; congruence)) as [-> ->]. auto. Qed.
Lemma arg_found n k a p old q A M B : arg_piece n k a old -> arg_piece n k a M -> once n (A ++ M ++ B) -> A ++ M ++ B = p ++ old ++ q -> p = A /\ q = B.
Proof.
  destruct a as [|t|ds]; cbn [arg_piece]; [intros [] | | apply piece_found]. intros [L H] [L' H'] O E. destruct old as [|x old]; [destruct H|]. destruct M as [|y M]; [destruct H'|]. cbn [app] in E, O.
  destruct (once_split n A y (M ++ B) p x (old ++ q) O E H' H) as [-> [-> E2]]. destruct (app_same M B old q E2) as [_ ->]; [cbn in L, L'; congruence | auto].
Qed.
(** renumbered twice *)
Section Twice.
Context (g g' g2 : nat -> nat) (G : forall l, g (g' l) = g2 l).
Lemma tw_loc x : ren_loc g (ren_loc g' x) = ren_loc g2 x.
Proof. unfold ren_loc. cbn. now rewrite G. Qed.
Lemma tw_tag x : ren_tag g (ren_tag g' x) = ren_tag g2 x.
Proof. unfold ren_tag. cbn. now rewrite tw_loc. Qed.
Lemma tw_row x : ren_row g (ren_row g' x) = ren_row g2 x.
Proof. unfold ren_row. cbn [row_id row_loc row_cells]. rewrite tw_loc, map_map. f_equal. apply map_ext. intros c. unfold ren_cell. cbn [cell_loc cell_value]. now rewrite tw_loc. Qed.
Lemma tw_step x : ren_step g (ren_step g' x) = ren_step g2 x.
Proof.
  unfold ren_step. cbn [st_id st_loc st_keyword st_ktype st_text st_arg]. rewrite tw_loc. f_equal. destruct (st_arg x) as [|t|ds]; cbn [ren_arg]; [reflexivity | |].
  - cbn [dt_loc dt_rows]. rewrite tw_loc, map_map. do 2 f_equal. apply map_ext, tw_row.
  - unfold ren_docstring. cbn [ds_loc ds_content ds_delimiter ds_media]. now rewrite tw_loc.
Qed.
Lemma tw_background x : ren_background g (ren_background g' x) = ren_background g2 x.
Proof. unfold ren_background. cbn [bg_id bg_loc bg_keyword bg_name bg_desc bg_steps]. rewrite tw_loc, map_map. f_equal. apply map_ext, tw_step. Qed.
Lemma tw_examples x : ren_examples g (ren_examples g' x) = ren_examples g2 x.
Proof.
  unfold ren_examples. cbn [ex_id ex_tags ex_loc ex_keyword ex_name ex_desc ex_header ex_body]. rewrite tw_loc, !map_map. f_equal; [apply map_ext, tw_tag | | apply map_ext, tw_row]. destruct (ex_header x); [|reflexivity]. cbn [option_map]. now rewrite tw_row.
Qed.
Lemma tw_scenario x : ren_scenario g (ren_scenario g' x) = ren_scenario g2 x.
Proof. unfold ren_scenario. cbn [sc_id sc_tags sc_loc sc_keyword sc_name sc_desc sc_steps sc_examples]. rewrite tw_loc, !map_map. f_equal; apply map_ext; [exact tw_tag | exact tw_step | exact tw_examples]. Qed.
Lemma tw_rule x : ren_rule g (ren_rule g' x) = ren_rule g2 x.
Proof.
  unfold ren_rule. cbn [ru_id ru_tags ru_loc ru_keyword ru_name ru_desc ru_background ru_scenarios]. rewrite tw_loc, !map_map. f_equal; [apply map_ext, tw_tag | | apply map_ext, tw_scenario]. destruct (ru_background x); [|reflexivity]. cbn [option_map]. now rewrite tw_background.
Qed.
Lemma tw_gdoc d : ren_gdoc g (ren_gdoc g' d) = ren_gdoc g2 d.
Proof.
  unfold ren_gdoc. cbn [gd_feature gd_comments]. rewrite map_map. f_equal; [|apply map_ext; intros c; unfold ren_comment; cbn; now rewrite tw_loc]. destruct (gd_feature d) as [f|]; [|reflexivity]. cbn [option_map]. f_equal.
  unfold ren_feature. cbn [fe_tags fe_loc fe_language fe_keyword fe_name fe_desc fe_background fe_scenarios fe_rules]. rewrite tw_loc, !map_map. f_equal; [apply map_ext, tw_tag | | apply map_ext, tw_scenario | apply map_ext, tw_rule]. destruct (fe_background f); [|reflexivity]. cbn [option_map]. now rewrite tw_background.
Qed.
End Twice.
(** edits of steps and new numbers *)
Lemma ren_edit g h d : (forall x, ren_step g (h x) = h (ren_step g x)) -> ren_gdoc g (on_steps h d) = on_steps h (ren_gdoc g d).
Proof.
  intros E. assert (Es : forall l, map (ren_step g) (map h l) = map h (map (ren_step g) l)) by (intros l; rewrite !map_map; apply map_ext, E).
  assert (Eb : forall o, option_map (ren_background g) (option_map (bg_reword h) o) = option_map (bg_reword h) (option_map (ren_background g) o)).
  { intros [b|]; [|reflexivity]. cbn [option_map]. unfold ren_background, bg_reword. cbn [bg_id bg_loc bg_keyword bg_name bg_desc bg_steps]. now rewrite Es. }
  assert (Ec : forall l, map (ren_scenario g) (map (sc_reword h) l) = map (sc_reword h) (map (ren_scenario g) l)).
  { intros l. rewrite !map_map. apply map_ext. intros x. unfold ren_scenario, sc_reword. cbn [sc_id sc_tags sc_loc sc_keyword sc_name sc_desc sc_steps sc_examples]. now rewrite Es. }
  unfold on_steps, on_parts, ren_gdoc. cbn [gd_feature gd_comments]. f_equal. destruct (gd_feature d) as [f|]; [|reflexivity]. cbn [option_map]. f_equal.
  unfold ren_feature, parts_feature. cbn [fe_tags fe_loc fe_language fe_keyword fe_name fe_desc fe_background fe_scenarios fe_rules]. rewrite Eb, Ec. f_equal. rewrite !map_map. apply map_ext. intros r. unfold ren_rule, parts_rule. cbn [ru_id ru_tags ru_loc ru_keyword ru_name ru_desc ru_background ru_scenarios]. now rewrite Eb, Ec.
Qed.
Lemma for_arg_ren g n a x : ren_arg g a = a -> (forall l, (g l =? n) = (l =? n)) -> ren_step g (for_arg n a x) = for_arg n a (ren_step g x).
Proof.
  intros Ha G. unfold for_arg. cbn [ren_step st_arg]. destruct (st_arg x) as [|t|ds] eqn:E; cbn [arg_line ren_arg dt_loc ren_docstring ds_loc ren_loc l_line]; [reflexivity | |]; rewrite G; (destruct (_ =? n); [|reflexivity]); unfold ren_step, with_arg; cbn [st_id st_loc st_keyword st_ktype st_text st_arg]; now rewrite Ha.
Qed.
(** a text, the numbers of the lines after [m] raised by [new] *)
Definition raised (k new l : nat) : nat := if k <? l then l + new else l.
Lemma lines_raised a m b new : lines_between a m b ->
  map (ren_line (raised (line_count a + line_count m) new)) (numbered_lines (split_lines (a ++ m ++ b))) =
  numbered_lines (split_lines a) ++ lines_numbered (line_count a) (split_lines m) ++ map (ren_line (moved_down (line_count a) (line_count m + new))) (lines_after a b).
Proof.
  intros H. rewrite (many_lines a m b H), !map_app. f_equal; [|f_equal].
  - apply ren_still. intros l I. pose proof (before_numbers a) as B. rewrite Forall_forall in B. unfold raised. rewrite (proj2 (Nat.ltb_ge _ _)); [reflexivity|]. specialize (B l I). lia.
  - apply ren_still. intros l I. apply numbered_in in I. unfold raised. rewrite (proj2 (Nat.ltb_ge _ _)); [reflexivity|]. unfold line_count at 2. lia.
  - rewrite map_map. apply map_ext_in. intros [i x] I. unfold ren_line. cbn [fst snd]. f_equal. pose proof (after_numbers a b (proj1 H)) as B. rewrite Forall_forall in B. specialize (B _ I). cbn [fst] in B. unfold raised, moved_down. rewrite (proj2 (Nat.ltb_lt _ _) B). destruct (_ <? i + line_count m) eqn:E; [lia | apply Nat.ltb_ge in E; lia].
Qed.

(** ** Documents *)
Lemma has_arg_no_ids a d : some_step (has_arg a) d -> some_step (fun x => st_arg x = a) (no_ids d).
Proof. apply step_no_ids. intros x H. exact H. Qed.
(** C99.  The lines [m] of a text, from line [n] on, are the argument of a step.  Then with another argument in their place, the text is the document with that
    argument, and with the lines below it moved. *)
Theorem C99_replaced_document : forall stop lang a m m' b d arg arg', supported lang -> lines_between a m b -> lines_between a m' b ->
  let n := S (line_count a) in argument_lines n (split_lines m) arg -> argument_lines n (split_lines m') arg' ->
  parse_with stop false lang (a ++ m ++ b) = Ok d -> some_step (has_arg arg) d ->
  exists d', parse_with stop false lang (a ++ m' ++ b) = Ok d' /\
    no_ids d' = on_steps (for_arg n arg') (ren_gdoc (shifted (line_count a) (line_count m) (line_count m')) (no_ids d)).
Proof.
  intros stop lang a m m' b d arg arg' S H H' n D D' P K. assert (A : stands_for lang (numbered_lines (split_lines (a ++ m ++ b))) (no_ids d)) by (apply (C04_parse_iff stop lang _ _ S); eauto).
  set (k := line_count a) in *. set (g1 := raised (k + line_count m) (line_count m')). set (g2 := fun l => if k + line_count m + line_count m' <? l then l - line_count m else l).
  pose proof (arg_nonempty _ _ _ D) as Pm. pose proof (arg_nonempty _ _ _ D') as Pm'. fold (line_count m) in Pm. fold (line_count m') in Pm'.
  assert (G1 : forall i j, i < j -> g1 i < g1 j) by (intros i j L; unfold g1, raised; destruct (_ <? i) eqn:E1, (_ <? j) eqn:E2; rewrite ?Nat.ltb_lt, ?Nat.ltb_ge in *; lia).
  apply (n_stands g1) in A. pose proof (rising_ren g1 _ G1 (rising_numbered (split_lines (a ++ m ++ b)))) as Ri. pose proof (lines_raised a m b (line_count m') H) as Z. fold k in Z. fold g1 in Z.
  assert (K2 : some_step (fun x => st_arg x = arg) (ren_gdoc g1 (no_ids d))).
  { apply (step_ren (fun x => st_arg x = arg)); [|now apply has_arg_no_ids]. intros x E. cbn [ren_step st_arg]. rewrite E. apply (arg_still g1 n (split_lines m) arg D). intros l L1 L2. unfold g1, raised. rewrite (proj2 (Nat.ltb_ge _ _)); [reflexivity|]. unfold n, line_count in *. lia. }
  destruct (stands_swaps n rising rising_l rising_r (rising_u n) _ _ _ lang _ _ A Ri K2 (fun _ _ dl _ _ _ => arg_swap n dl _ arg _ arg' D D')) as [ls' [[p [old [new [q [E [E' [To ->]]]]]]] B]].
  apply (rising_once n) in Ri. rewrite Z in E, Ri. destruct (arg_found n _ arg p old q _ _ _ To (arg_piece_self n k _ _ eq_refl D) Ri E) as [-> ->]. subst ls'. apply (n_stands g2) in B.
  assert (Y : map (ren_line g2) (numbered_lines (split_lines a) ++ lines_numbered k (split_lines m') ++ map (ren_line (moved_down k (line_count m + line_count m'))) (lines_after a b)) = numbered_lines (split_lines (a ++ m' ++ b))).
  { rewrite (many_lines a m' b H'), !map_app. fold k. f_equal; [|f_equal].
    - apply ren_still. intros l I. pose proof (before_numbers a) as Bn. rewrite Forall_forall in Bn. unfold g2. rewrite (proj2 (Nat.ltb_ge _ _)); [reflexivity|]. specialize (Bn l I). fold k in Bn. lia.
    - apply ren_still. intros l I. apply numbered_in in I. fold (line_count m') in I. unfold g2. rewrite (proj2 (Nat.ltb_ge _ _)); [reflexivity|]. lia.
    - rewrite map_map. apply map_ext_in. intros [i x] I. unfold ren_line. cbn [fst snd]. f_equal. pose proof (after_numbers a b (proj1 H)) as Bn. rewrite Forall_forall in Bn. specialize (Bn _ I). cbn [fst] in Bn. fold k in Bn. unfold g2, moved_down. rewrite (proj2 (Nat.ltb_lt _ _) Bn), (proj2 (Nat.ltb_lt _ _)) by lia. lia. }
  assert (B' : stands_for lang (numbered_lines (split_lines (a ++ m' ++ b))) (ren_gdoc g2 (on_steps (for_arg n arg') (ren_gdoc g1 (no_ids d))))) by (rewrite <- Y; exact B).
  apply (C04_parse_iff stop lang _ _ S) in B' as [d' [P' Q]]. exists d'. split; [exact P'|]. rewrite Q, ren_edit, (tw_gdoc g2 g1 (shifted k (line_count m) (line_count m'))); [reflexivity | |].
  - intros l. unfold g2, g1, raised, shifted. destruct (k + line_count m <? l) eqn:E1; rewrite ?Nat.ltb_lt, ?Nat.ltb_ge in E1; destruct (_ <? _) eqn:E2; rewrite ?Nat.ltb_lt, ?Nat.ltb_ge in E2; lia.
  - intros x. apply for_arg_ren.
    + apply (arg_still g2 n (split_lines m') arg' D'). intros l L1 L2. fold (line_count m') in L2. unfold g2. rewrite (proj2 (Nat.ltb_ge _ _)); [reflexivity|]. unfold n in *. lia.
    + intros l. unfold g2, n. destruct (_ <? l) eqn:E1; rewrite ?Nat.ltb_lt, ?Nat.ltb_ge in E1; [|reflexivity]. rewrite !(proj2 (Nat.eqb_neq _ _)) by lia. reflexivity.
Qed.
Print Assumptions C99_replaced_document.
(** C99.  Without these lines, the text is the document without that argument. *)
Theorem C99_removed_document : forall stop lang a m b d arg, supported lang -> lines_between a m b ->
  let n := S (line_count a) in argument_lines n (split_lines m) arg ->
  parse_with stop false lang (a ++ m ++ b) = Ok d -> some_step (has_arg arg) d ->
  exists d', parse_with stop false lang (a ++ b) = Ok d' /\ no_ids d' = ren_gdoc (shifted (line_count a) (line_count m) 0) (on_steps (for_arg n ANone) (no_ids d)).
Proof.
  intros stop lang a m b d arg S H n D P K. assert (A : stands_for lang (numbered_lines (split_lines (a ++ m ++ b))) (no_ids d)) by (apply (C04_parse_iff stop lang _ _ S); eauto).
  set (k := line_count a) in *. pose proof (rising_numbered (split_lines (a ++ m ++ b))) as Ri. apply has_arg_no_ids in K.
  destruct (stands_swaps n rising rising_l rising_r (rising_u n) _ _ _ lang _ _ A Ri K (fun _ _ dl _ _ _ => arg_removed n dl _ arg D)) as [ls' [[p [old [new [q [E [E' [To ->]]]]]]] B]].
  apply (rising_once n) in Ri. rewrite (many_lines a m b H) in E, Ri. fold k in E, Ri. destruct (arg_found n _ arg p old q _ _ _ To (arg_piece_self n k _ _ eq_refl D) Ri E) as [-> ->]. subst ls'. apply (n_stands (shifted k (line_count m) 0)) in B. cbn [app] in B.
  assert (La : ended a) by exact (proj1 H).
  assert (Y : map (ren_line (shifted k (line_count m) 0)) (numbered_lines (split_lines a) ++ map (ren_line (moved_down k (line_count m))) (lines_after a b)) = numbered_lines (split_lines (a ++ b))).
  { rewrite map_app, lines_split by exact La. f_equal.
    - apply ren_still. intros l I. pose proof (before_numbers a) as Bn. rewrite Forall_forall in Bn. apply shifted_still. specialize (Bn l I). fold k in Bn. lia.
    - rewrite map_map. transitivity (map (fun l : nline => l) (lines_after a b)); [|apply map_id]. apply map_ext_in. intros [i x] I. unfold ren_line. cbn [fst snd]. f_equal. pose proof (after_numbers a b La) as Bn. rewrite Forall_forall in Bn. specialize (Bn _ I). cbn [fst] in Bn. fold k in Bn. rewrite shifted_down by exact Bn. unfold moved_down. destruct (k <? i); lia. }
  assert (B' : stands_for lang (numbered_lines (split_lines (a ++ b))) (ren_gdoc (shifted k (line_count m) 0) (on_steps (for_arg n ANone) (no_ids d)))) by (rewrite <- Y; exact B).
  apply (C04_parse_iff stop lang _ _ S) in B' as [d' [P' Q]]. exists d'. auto.
Qed.
Print Assumptions C99_removed_document.
(** C99.  Line [n] of a text is a step without argument.  Then with the lines of an argument below it, the text is the document with this argument for that step. *)
Theorem C99_added_document : forall stop lang a m b d arg, supported lang -> lines_between a m b ->
  let n := line_count a in argument_lines (S n) (split_lines m) arg ->
  parse_with stop false lang (a ++ b) = Ok d -> some_step (bare_on n) d ->
  exists d', parse_with stop false lang (a ++ m ++ b) = Ok d' /\ no_ids d' = on_steps (for_step n arg) (ren_gdoc (moved_down n (line_count m)) (no_ids d)).
Proof.
  intros stop lang a m b d arg S H n D P K. assert (A : stands_for lang (numbered_lines (split_lines (a ++ b))) (no_ids d)) by (apply (C04_parse_iff stop lang _ _ S); eauto).
  set (g := moved_down n (line_count m)). assert (La : ended a) by exact (proj1 H). apply (n_stands g) in A.
  assert (G1 : forall i j, i < j -> g i < g j) by (intros i j L; unfold g, moved_down; destruct (_ <? i) eqn:E1, (_ <? j) eqn:E2; rewrite ?Nat.ltb_lt, ?Nat.ltb_ge in *; lia).
  assert (Gn : g n = n) by (unfold g, moved_down; now rewrite Nat.ltb_irrefl). pose proof (rising_ren g _ G1 (rising_numbered (split_lines (a ++ b)))) as O.
  assert (Z : map (ren_line g) (numbered_lines (split_lines (a ++ b))) = numbered_lines (split_lines a) ++ map (ren_line g) (lines_after a b)) by (rewrite lines_split, map_app by exact La; f_equal; apply lines_still).
  assert (K2 : some_step (bare_on n) (ren_gdoc g (no_ids d))).
  { apply (step_ren (bare_on n)); [|apply (step_no_ids (bare_on n)); [|exact K]]; intros x [L R]; split; unfold step_on in *; cbn [ren_step no_id_step st_loc ren_loc l_line st_arg]; try (rewrite R; reflexivity); congruence. }
  (* the last line of [a] *)
  pose proof (ended_lines a La) as P0. fold n in P0. assert (Ea : exists xs x, split_lines a = xs ++ [x] /\ length xs = pred n).
  { unfold n, line_count in *. destruct (split_lines a) as [|y l] eqn:E using rev_ind; [cbn in P0; lia|]. exists l, y. split; [reflexivity|]. rewrite app_length. cbn. lia. }
  destruct Ea as [xs [x [Ea Lx]]]. assert (Na : numbered_lines (split_lines a) = numbered_lines xs ++ [(n, x)]).
  { rewrite Ea. change (lines_numbered 0 (xs ++ [x]) = lines_numbered 0 xs ++ [(n, x)]). rewrite numbered_app. f_equal. unfold lines_numbered. cbn [length seq combine]. do 2 f_equal. lia. }
  destruct (stands_swaps n rising rising_l rising_r (rising_u n) _ _ _ lang _ _ A O K2 (fun _ _ dl _ _ _ => arg_added n dl _ arg D)) as [ls' [[p [old [new [q [E [E' [l [L1 [-> ->]]]]]]]]] B]].
  apply (rising_once n) in O. cbn [app] in E. pose proof E as E0. rewrite E0 in O. rewrite Z, Na, <- app_assoc in E. cbn [app] in E. destruct (once_split n p l q (numbered_lines xs) (n, x) (map (ren_line g) (lines_after a b)) O (eq_sym E) L1 eq_refl) as [-> [-> ->]]. subst ls'.
  assert (Y : numbered_lines xs ++ ((n, x) :: ArgEditSpec.lines_from (Datatypes.S n) (split_lines m)) ++ map (ren_line g) (lines_after a b) = numbered_lines (split_lines (a ++ m ++ b))) by (rewrite (many_lines a m b H), Na, <- app_assoc; reflexivity).
  assert (B' : stands_for lang (numbered_lines (split_lines (a ++ m ++ b))) (on_steps (for_step n arg) (ren_gdoc g (no_ids d)))) by (rewrite <- Y; exact B).
  apply (C04_parse_iff stop lang _ _ S) in B' as [d' [P' Q]]. exists d'. auto.
Qed.
Print Assumptions C99_added_document.

(** ** Suites *)
Lemma for_arg_args n a x : argless_step (for_arg n a x) = argless_step x.
Proof. unfold for_arg. destruct (arg_line (st_arg x)); [|reflexivity]. destruct (_ =? n); reflexivity. Qed.
Lemma for_arg_off n a x : ~ arg_on n x -> for_arg n a x = x.
Proof. intros N. unfold for_arg, arg_on in *. destruct (arg_line (st_arg x)) as [l|]; [|reflexivity]. destruct (l =? n) eqn:E; [|reflexivity]. apply Nat.eqb_eq in E. subst l. now destruct N. Qed.
Lemma arg_on_dec n x : arg_on n x \/ ~ arg_on n x.
Proof. unfold arg_on. destruct (arg_line (st_arg x)) as [l|]; [|right; discriminate]. destruct (Nat.eq_dec l n) as [->|E]; [now left | right; congruence]. Qed.
Lemma arg_line_no_id x : arg_line (no_id_arg x) = arg_line x.
Proof. now destruct x. Qed.
Lemma arg_line_ren g x : arg_line (ren_arg g x) = option_map g (arg_line x).
Proof. now destruct x. Qed.
(** C99.  A file that gives a suite.  With another argument in the place of one, it gives the same suite, the lines below moved, but for arguments of the calls of that step. *)
Theorem C99_replaced : forall printable name dir a m m' b d f arg arg' x k, is_markdown name = false -> lines_between a m b -> lines_between a m' b ->
  let n := S (line_count a) in argument_lines n (split_lines m) arg -> argument_lines n (split_lines m') arg' ->
  read_file name (a ++ m ++ b) = Ok d -> gd_feature d = Some f -> some_step (has_arg arg) d -> plain_headers d -> build_gherkin_model printable name (a ++ m ++ b) dir = Ok (RSuite x, k) ->
  exists x', build_gherkin_model printable name (a ++ m' ++ b) dir = Ok (RSuite x', k) /\ same_settings x x' /\
    Forall3 (test_but_calls (shifted (line_count a) (line_count m) (line_count m')) (arg_on n) f) (origins d) (rs_tests x) (rs_tests x').
Proof.
  intros pr name dir a m m' b d f arg arg' x k M H H' n D D' R F K Ph W. assert (P : parse_with false false (s "en") (a ++ m ++ b) = Ok d) by (unfold read_file in R; now rewrite M in R).
  destruct (C99_replaced_document false (s "en") a m m' b d arg arg' en_supported H H' D D' P K) as [d' [P' Q]]. assert (R' : read_file name (a ++ m' ++ b) = Ok d') by (unfold read_file; now rewrite M).
  destruct (edit_moved _ _ d d' f (for_arg_args n _) F Q) as [f' [F' [E [En Se]]]]. apply (edited_suite pr _ (arg_on n) _ name (a ++ m ++ b) (a ++ m' ++ b) dir d d' f f' x k R R' F F' E En Se); [|exact Ph | exact W].
  intros st. destruct (arg_on_dec n st) as [Y|Y]; [now right | left]. rewrite for_arg_off; [rewrite g_step_e, b_step_e; reflexivity|]. unfold arg_on in *. cbn [ren_step no_id_step st_arg]. rewrite arg_line_ren, arg_line_no_id. intros L. apply Y. destruct (arg_line (st_arg st)) as [l|]; [|discriminate L]. cbn [option_map] in L. injection L as L. f_equal.
  pose proof (arg_nonempty _ _ _ D'). unfold shifted in L. destruct (line_count a + line_count m <? l) eqn:B; [|exact L]. apply Nat.ltb_lt in B. unfold n, line_count in *. lia.
Qed.
Print Assumptions C99_replaced.
(** C99.  Without the argument, the same. *)
Theorem C99_removed : forall printable name dir a m b d f arg x k, is_markdown name = false -> lines_between a m b ->
  let n := S (line_count a) in argument_lines n (split_lines m) arg ->
  read_file name (a ++ m ++ b) = Ok d -> gd_feature d = Some f -> some_step (has_arg arg) d -> plain_headers d -> build_gherkin_model printable name (a ++ m ++ b) dir = Ok (RSuite x, k) ->
  exists x', build_gherkin_model printable name (a ++ b) dir = Ok (RSuite x', k) /\ same_settings x x' /\
    Forall3 (test_but_calls (shifted (line_count a) (line_count m) 0) (arg_on n) f) (origins d) (rs_tests x) (rs_tests x').
Proof.
  intros pr name dir a m b d f arg x k M H n D R F K Ph W. assert (P : parse_with false false (s "en") (a ++ m ++ b) = Ok d) by (unfold read_file in R; now rewrite M in R).
  destruct (C99_removed_document false (s "en") a m b d arg en_supported H D P K) as [d' [P' Q]]. assert (R' : read_file name (a ++ b) = Ok d') by (unfold read_file; now rewrite M).
  destruct (moved_edit _ _ d d' f (for_arg_args n _) F Q) as [f' [F' [E [En Se]]]]. apply (edited_suite pr _ (arg_on n) _ name (a ++ m ++ b) (a ++ b) dir d d' f f' x k R R' F F' E En Se); [|exact Ph | exact W].
  intros st. destruct (arg_on_dec n st) as [Y|Y]; [now right | left]. rewrite g_step_e, for_arg_off; [apply b_step_e|]. unfold arg_on in *. cbn [no_id_step st_arg]. now rewrite arg_line_no_id.
Qed.
Print Assumptions C99_removed.
(** C99.  With an argument below a step without one, the same. *)
Theorem C99_added : forall printable name dir a m b d f arg x k, is_markdown name = false -> lines_between a m b ->
  let n := line_count a in argument_lines (S n) (split_lines m) arg ->
  read_file name (a ++ b) = Ok d -> gd_feature d = Some f -> some_step (bare_on n) d -> plain_headers d -> build_gherkin_model printable name (a ++ b) dir = Ok (RSuite x, k) ->
  exists x', build_gherkin_model printable name (a ++ m ++ b) dir = Ok (RSuite x', k) /\ same_settings x x' /\
    Forall3 (test_but_calls (moved_down n (line_count m)) (step_on n) f) (origins d) (rs_tests x) (rs_tests x').
Proof.
  intros pr name dir a m b d f arg x k M H n D R F K Ph W. assert (P : parse_with false false (s "en") (a ++ b) = Ok d) by (unfold read_file in R; now rewrite M in R).
  destruct (C99_added_document false (s "en") a m b d arg en_supported H D P K) as [d' [P' Q]]. assert (R' : read_file name (a ++ m ++ b) = Ok d') by (unfold read_file; now rewrite M).
  destruct (edit_moved _ _ d d' f (for_step_arg _ _) F Q) as [f' [F' [E [En Se]]]]. apply (edited_suite pr _ (step_on n) _ name (a ++ b) (a ++ m ++ b) dir d d' f f' x k R R' F F' E En Se); [|exact Ph | exact W].
  intros st. unfold step_on. destruct (Nat.eq_dec (l_line (st_loc st)) n) as [Y|Y]; [now right | left]. unfold for_step. cbn [ren_step no_id_step st_loc ren_loc l_line]. fold n. destruct (moved_down n (line_count m) (l_line (st_loc st)) =? n) eqn:B; [|now rewrite g_step_e, b_step_e].
  apply Nat.eqb_eq in B. unfold moved_down in B. destruct (n <? l_line (st_loc st)) eqn:B2; [apply Nat.ltb_lt in B2; lia | contradiction].
Qed.
Print Assumptions C99_added.

(** ** A concrete case: the table of a step of an outline, for a table with other columns, for a doc string, and for nothing *)
Definition c99_a : str := text_of_lines [s "Feature: f"; s "  Scenario Outline: o"; s "    Given b"; s "    # about b"].
Definition c99_m : str := text_of_lines [s "    | a | <x> |"; s "    | c | d |"].
Definition c99_m1 : str := text_of_lines [s "  |<x>|"].
Definition c99_m2 : str := text_of_lines [s "    ```"; s "    <x> | y"; s "    ```"].
Definition c99_b : str := text_of_lines [[]; s "    # more"; s "    When w"; s "  Examples:"; s "    | x |"; s "    | 1 |"].
Definition c99_d : gdoc := Eval vm_compute in match read_file (s "a.feature") (c99_a ++ c99_m ++ c99_b) with Ok d => d | _ => mkGdoc None [] end.
Definition c99_f : feature := Eval vm_compute in match gd_feature c99_d with Some f => f | _ => mkFeature [] (mkLoc 0 None) None None None [] None [] [] end.
Lemma row_from l raws ind tail : snd l = ind ++ row_text raws ++ tail -> all_space ind -> Forall (fun r => unescape_cell r <> None) raws -> unescape_cell (rstrip tail) <> None ->
  row_at_line l (mkRow 0 (here l) (map (fun i => mkCell (at_col l (i_column i)) (i_text i)) (cells_at (length ind + 1) raws))).
Proof. intros. exists (cells_at (length ind + 1) raws). split; [exists ind, raws, tail; auto 6 | reflexivity]. Qed.
Example C99_case : lines_between c99_a c99_m c99_b /\ lines_between c99_a c99_m1 c99_b /\ lines_between c99_a c99_m2 c99_b /\
  (exists arg, argument_lines 5 (split_lines c99_m) arg /\ some_step (has_arg arg) c99_d /\ match arg with ATable t => map (fun r => map cell_value (row_cells r)) (dt_rows t) = [[s "a"; s "<x>"]; [s "c"; s "d"]] | _ => False end) /\
  (exists arg, argument_lines 5 (split_lines c99_m1) arg /\ match arg with ATable t => map (fun r => map cell_value (row_cells r)) (dt_rows t) = [[s "<x>"]] | _ => False end) /\
  (exists arg, argument_lines 5 (split_lines c99_m2) arg /\ match arg with ADoc ds => ds_content ds = s "<x> | y" | _ => False end) /\
  line_count c99_a = 4 /\ read_file (s "a.feature") (c99_a ++ c99_m ++ c99_b) = Ok c99_d /\ gd_feature c99_d = Some c99_f /\ plain_headers c99_d.
Proof.
  assert (E : forall l, l <> [] -> ended (text_of_lines l)).
  { intros l H. destruct l as [|z l] using rev_ind; [now destruct H|]. exists (text_of_lines l ++ z). unfold text_of_lines. rewrite flat_map_app. cbn [flat_map]. rewrite app_nil_r. now rewrite app_assoc. }
  assert (E2 : forall l l', l <> [] -> ended (text_of_lines l ++ text_of_lines l')) by (intros l l' H; unfold text_of_lines; rewrite <- flat_map_app; apply E; destruct l; [now destruct H | discriminate]).
  do 3 (split; [split; [apply E | left; apply E2]; discriminate|]). split; [|split; [|split; [|split; [|split; [|split]]]]].
  - eexists. split; [|split].
    + right. eexists _, [_]. split; [split|reflexivity].
      * constructor; [|constructor; [|constructor]].
        -- apply (row_from _ [s " a "; s " <x> "] (s "    ") [ch_nl]); [reflexivity | repeat constructor | repeat constructor; discriminate | discriminate].
        -- apply (row_from _ [s " c "; s " d "] (s "    ") [ch_nl]); [reflexivity | repeat constructor | repeat constructor; discriminate | discriminate].
      * intros r1 r2 [<-|[<-|[]]] [<-|[<-|[]]]; reflexivity.
    + right. left. left. left. vm_compute. reflexivity.
    + vm_compute. reflexivity.
  - eexists. split.
    + right. eexists _, []. split; [split|reflexivity].
      * constructor; [|constructor]. apply (row_from _ [s "<x>"] (s "  ") [ch_nl]); [reflexivity | repeat constructor | repeat constructor; discriminate | discriminate].
      * intros r1 r2 [<-|[]] [<-|[]]; reflexivity.
    + vm_compute. reflexivity.
  - eexists. split.
    + left. eexists. split; [|reflexivity]. exists (s "```"). eexists _, [_], _. split; [vm_compute; reflexivity|]. split; [now right|]. split; [vm_compute; reflexivity|]. split; [vm_compute; reflexivity|]. split; [repeat constructor; apply not_begins; vm_compute; reflexivity|]. reflexivity.
    + vm_compute. reflexivity.
  - vm_compute. reflexivity.
  - vm_compute. reflexivity.
  - reflexivity.
  - unfold plain_headers. cbn. repeat (constructor; [apply plain_word; vm_compute; reflexivity|] || constructor).
Qed.
Definition c99_calls (text : str) : list (str * list (str * list str * nat)) :=
  match build_gherkin_model (fun _ => true) (s "a.feature") text None with Ok (RSuite su, _) => map (fun t => (rt_name t, map (fun c => (rc_name c, rc_args c, rc_line c)) (rt_calls t))) (rs_tests su) | _ => [] end.
Example C99_case_suites :
  c99_calls (c99_a ++ c99_m ++ c99_b) = [(s "o x = 1", [(s "Given b", [s "&{{{'rows': [{'cells': [{'value': 'a'}, {'value': '1'}]}, {'cells': [{'value': 'c'}, {'value': 'd'}]}]}}}"], 3); (s "When w", [], 9)])] /\
  c99_calls (c99_a ++ c99_m1 ++ c99_b) = [(s "o x = 1", [(s "Given b", [s "&{{{'rows': [{'cells': [{'value': '1'}]}]}}}"], 3); (s "When w", [], 8)])] /\
  c99_calls (c99_a ++ c99_m2 ++ c99_b) = [(s "o x = 1", [(s "Given b", [s "&{{{'content': '1 | y'}}}"], 3); (s "When w", [], 10)])] /\
  c99_calls (c99_a ++ c99_b) = [(s "o x = 1", [(s "Given b", [], 3); (s "When w", [], 7)])].
Proof. repeat split; vm_compute; reflexivity. Qed.
