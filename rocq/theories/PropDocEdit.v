(** * A doc string replaced, removed or added changes the arguments of the calls of that step and nothing else: C98 *)
From Verif Require Import PyStr PyStrFacts Types Regex Line DialectData Matcher Ast Parser Compiler Scan LineSpec LangSpec LangFacts DocSpec PartsSpec PropLine PropParse PropDoc PropDocString PickleSpec PickleFacts PickleTotal WfDoc PropMdParse PropCompile Glob Robot RobotSpec SuiteSpec RobotFacts PropRobot WriteSpec WriteRead PropWrite EssenceSpec EssenceFacts PropEssence PropAppend MiddleSpec Renumber Units PropMiddle ExampleSpec ExampleChange PropExampleRow PartSpec PartChange PropScenarioTags PropStepMore TitleSpec PropView LabelSpec PropLabel ArgOnlySpec PropArgOnly WordSpec PropStepMore PropReword ProseSpec ProseChange PropTitle LabelSpec LabelChange PropLabel PropLabelLine PropPlain PropProseLine DocEditSpec DocChange.
Import PickleSpec WriteSpec.

(** ** Texts *)
(** [m] is a number of lines of [a ++ m ++ b], maybe the last ones *)
Definition lines_between (a m b : str) : Prop := ended a /\ (ended (a ++ m) \/ b = []).
Definition lines_numbered (k : nat) (xs : list str) : list nline := combine (seq (S k) (length xs)) xs.
Lemma many_lines a m b : lines_between a m b ->
  numbered_lines (split_lines (a ++ m ++ b)) = numbered_lines (split_lines a) ++ lines_numbered (line_count a) (split_lines m) ++ map (ren_line (moved_down (line_count a) (line_count m))) (lines_after a b).
Proof.
  intros [E F]. assert (M : lines_after a m = lines_numbered (line_count a) (split_lines m)) by (rewrite lines_after_eq by exact E; reflexivity). destruct F as [F| ->].
  - rewrite app_assoc, lines_split by exact F. rewrite lines_split by exact E. rewrite M, <- app_assoc, lines_moved by assumption. reflexivity.
  - rewrite app_nil_r, lines_split, M by exact E. rewrite lines_after_eq by exact E. now rewrite app_nil_r.
Qed.
Lemma numbered_in k xs l : In l (lines_numbered k xs) -> k < fst l /\ fst l <= k + length xs.
Proof. unfold lines_numbered. destruct l as [i x]. intros H. apply in_combine_l, List.in_seq in H. cbn [fst]. lia. Qed.
Lemma numbered_texts k xs : map snd (lines_numbered k xs) = xs.
Proof. unfold lines_numbered. generalize (S k). induction xs as [|x xs IH]; intros i; [reflexivity|]. cbn [length seq combine map snd]. f_equal. apply IH. Qed.
Lemma shifted_down k old new l : k < l -> shifted k old new (moved_down k old l) = moved_down k new l.
Proof. intros H. unfold shifted, moved_down. rewrite (proj2 (Nat.ltb_lt _ _) H). destruct (k + old <? l + old) eqn:E; [lia | apply Nat.ltb_ge in E; lia]. Qed.
Lemma shifted_still k old new l : l <= k + old -> shifted k old new l = l.
Proof. intros H. unfold shifted. rewrite (proj2 (Nat.ltb_ge _ _) H). reflexivity. Qed.
Lemma ren_still g (ls : list nline) : (forall l, In l ls -> g (fst l) = fst l) -> map (ren_line g) ls = ls.
Proof. intros H. transitivity (map (fun l : nline => l) ls); [|apply map_id]. apply map_ext_in. intros [i x] I. unfold ren_line. cbn [fst snd]. f_equal. exact (H _ I). Qed.
Lemma lines_shifted a m b new : lines_between a m b -> let k := line_count a in let old := line_count m in
  map (ren_line (shifted k old new)) (numbered_lines (split_lines (a ++ m ++ b))) =
  numbered_lines (split_lines a) ++ lines_numbered k (split_lines m) ++ map (ren_line (moved_down k new)) (lines_after a b).
Proof.
  intros H k old. rewrite (many_lines a m b H), !map_app. f_equal; [|f_equal].
  - apply ren_still. intros l I. pose proof (before_numbers a) as B. rewrite Forall_forall in B. apply shifted_still. specialize (B l I). fold k in B. lia.
  - apply ren_still. intros l I. apply numbered_in in I. apply shifted_still. fold k old in I. unfold old, line_count. lia.
  - rewrite map_map. apply map_ext_in. intros [i x] I. unfold ren_line. cbn [fst snd]. f_equal. apply shifted_down. pose proof (after_numbers a b (proj1 H)) as B. rewrite Forall_forall in B. exact (B _ I).
Qed.
(** number [k + 1] is that of one line only *)
Lemma once_at n (p q : list nline) x : ~ In n (nums p) -> ~ In n (nums q) -> once n (p ++ x :: q).
Proof.
  intros Hp Hq a b E Ia Ib. revert a E Ia. induction p as [|y p IH]; intros [|z a] E Ia; try (destruct Ia; fail); cbn [app] in E; injection E as <- E.
  - subst q. apply Hq. rewrite nums_app. apply in_or_app. now right.
  - assert (Np : ~ In n (nums p)) by (intros J; apply Hp; now right). destruct Ia as [Ia|Ia]; [apply Hp; now left | exact (IH Np a E Ia)].
Qed.
Lemma below a n : line_count a < n -> ~ In n (nums (numbered_lines (split_lines a))).
Proof. intros H I. apply in_map_iff in I as [l [E I]]. pose proof (before_numbers a) as B. rewrite Forall_forall in B. specialize (B l I). lia. Qed.
Lemma above a b k n : ended a -> n <= line_count a + k -> ~ In n (nums (map (ren_line (moved_down (line_count a) k)) (lines_after a b))).
Proof.
  intros E H I. apply in_map_iff in I as [l [<- I]]. apply in_map_iff in I as [l0 [<- I]]. pose proof (after_numbers a b E) as B. rewrite Forall_forall in B. specialize (B l0 I). cbn [ren_line fst] in H. unfold moved_down in H. rewrite (proj2 (Nat.ltb_lt _ _) B) in H. lia.
Qed.
Lemma numbered_cons k x xs : lines_numbered k (x :: xs) = (S k, x) :: lines_numbered (S k) xs.
Proof. reflexivity. Qed.
Lemma numbered_app k xs ys : lines_numbered k (xs ++ ys) = lines_numbered k xs ++ lines_numbered (k + length xs) ys.
Proof. revert k. induction xs as [|x xs IH]; intros k; [cbn [app length]; now rewrite Nat.add_0_r|]. cbn [app length]. rewrite !numbered_cons, IH. cbn [app]. do 3 f_equal. lia. Qed.

(** ** A doc string is delimited by its own lines *)
Lemma one_separator a b x : separator a -> separator b -> begins a x -> begins b x -> a = b.
Proof. unfold begins. intros [->| ->] [->| ->] H K; try reflexivity; destruct (lstrip x) as [|c l]; try discriminate H; cbn in H, K; apply andb_prop in H as [H _]; apply andb_prop in K as [K _]; (destruct c as [|pc]; [discriminate H|]); apply Pos.eqb_eq in H; apply Pos.eqb_eq in K; congruence. Qed.
Lemma first_begins sep (p q : list nline) x y r t : Forall (fun l : nline => ~ begins sep (snd l)) p -> Forall (fun l : nline => ~ begins sep (snd l)) q -> begins sep (snd x) -> begins sep (snd y) -> p ++ x :: r = q ++ y :: t -> p = q /\ x = y /\ r = t.
Proof.
  intros Hp. revert q. induction Hp as [|z p Hz Hp IH]; intros q Hq Hx Hy E; destruct Hq as [|w q Hw Hq]; cbn [app] in E.
  - injection E as -> ->. auto.
  - injection E as -> ->. contradiction.
  - injection E as -> <-. contradiction.
  - injection E as -> E. destruct (IH q Hq Hx Hy E) as [-> [-> ->]]. auto.
Qed.
(** the lines of a doc string *)
Lemma piece_of n xs ds k : n = S k -> doc_lines n xs ds -> doc_piece n (lines_numbered k xs) /\ 2 <= length xs /\ match lines_numbered k xs with l :: _ => fst l = n | [] => False end.
Proof.
  intros -> [sep [op [ct [cl [-> [H1 [H2 [H3 [H4 _]]]]]]]]]. rewrite numbered_cons. split; [|split; [cbn [length]; rewrite app_length; cbn; lia | reflexivity]].
  exists sep, (S k, op), (lines_numbered (S k) ct), (S (S k + length ct), cl). split; [now rewrite numbered_app|]. split; [reflexivity|]. split; [exact H1|]. split; [exact H2|]. split; [exact H3|].
  apply Forall_forall. intros l I. assert (J : In (snd l) ct) by (rewrite <- (numbered_texts (S k) ct); now apply in_map). rewrite Forall_forall in H4. exact (H4 _ J).
Qed.
Lemma piece_found n p old q A M B : doc_piece n old -> doc_piece n M -> once n (A ++ M ++ B) -> A ++ M ++ B = p ++ old ++ q -> p = A /\ q = B.
Proof.
  intros [sep [op [ct [cl [-> [H1 [H2 [H3 [H4 H5]]]]]]]]] [sep' [op' [ct' [cl' [-> [K1 [K2 [K3 [K4 K5]]]]]]]]] O E. cbn [app] in E, O; repeat (rewrite <- app_assoc in E; cbn [app] in E). destruct (once_split n A op' ((ct' ++ [cl']) ++ B) p op (ct ++ cl :: q) O) as [-> [-> E2]]; auto; [rewrite <- E; repeat (rewrite <- app_assoc; cbn [app]); reflexivity|].
  pose proof (one_separator _ _ _ H2 K2 H3 K3) as <-. rewrite <- app_assoc in E2. cbn [app] in E2. destruct (first_begins sep ct' ct cl' cl B q) as [_ [_ ->]]; auto.
Qed.

(** ** Documents *)
Section Parts.
Context (P P' : step -> Prop).
Lemma step_ren g d : (forall x, P x -> P' (ren_step g x)) -> some_step P d -> some_step P' (ren_gdoc g d).
Proof.
  intros H. apply part_ren; intros y Hy; unfold sc_steps_some, bg_steps_some in *; cbn [ren_scenario ren_background sc_steps bg_steps]; apply exists_map; (eapply Exists_impl; [|exact Hy]); auto.
Qed.
Lemma step_no_ids d : (forall x, P x -> P' (no_id_step x)) -> some_step P d -> some_step P' (no_ids d).
Proof.
  intros H. apply part_no_ids; intros y Hy; unfold sc_steps_some, bg_steps_some in *; cbn [no_id_scenario no_id_background sc_steps bg_steps]; apply exists_map; (eapply Exists_impl; [|exact Hy]); auto.
Qed.
End Parts.
Lemma doc_at_ren g n x : g n = n -> doc_at n x -> doc_at n (ren_step g x).
Proof. intros G [ds [E L]]. exists (ren_docstring g ds). cbn [ren_step st_arg]. rewrite E. split; [reflexivity|]. cbn [ren_docstring ds_loc ren_loc l_line]. congruence. Qed.
Lemma doc_at_no_id n x : doc_at n x -> doc_at n (no_id_step x).
Proof. intros [ds [E L]]. exists ds. cbn [no_id_step st_arg]. now rewrite E. Qed.

(** C98.  The lines [m] of a text, from line [n] on, are the doc string of a step.  Then with another doc string in their place, the text is the document with that doc
    string, and with the lines below it moved. *)
Theorem C98_replaced_document : forall stop lang a m m' b d ds ds', supported lang -> lines_between a m b -> lines_between a m' b ->
  let n := S (line_count a) in doc_lines n (split_lines m) ds -> doc_lines n (split_lines m') ds' ->
  parse_with stop false lang (a ++ m ++ b) = Ok d -> some_step (doc_at n) d ->
  exists d', parse_with stop false lang (a ++ m' ++ b) = Ok d' /\
    no_ids d' = on_steps (for_doc n (ADoc ds')) (ren_gdoc (shifted (line_count a) (line_count m) (line_count m')) (no_ids d)).
Proof.
  intros stop lang a m m' b d ds ds' S H H' n D D' P K. assert (A : stands_for lang (numbered_lines (split_lines (a ++ m ++ b))) (no_ids d)) by (apply (C04_parse_iff stop lang _ _ S); eauto).
  set (k := line_count a) in *. destruct (piece_of n _ _ k eq_refl D) as [D1 [D2 D3]], (piece_of n _ _ k eq_refl D') as [D1' [D2' D3']]. set (g := shifted k (line_count m) (line_count m')).
  apply (n_stands g) in A. assert (Z : map (ren_line g) (numbered_lines (split_lines (a ++ m ++ b))) = numbered_lines (split_lines a) ++ lines_numbered k (split_lines m) ++ map (ren_line (moved_down k (line_count m'))) (lines_after a b)) by exact (lines_shifted a m b (line_count m') H).
  assert (A2 : stands_for lang (numbered_lines (split_lines a) ++ lines_numbered k (split_lines m) ++ map (ren_line (moved_down k (line_count m'))) (lines_after a b)) (ren_gdoc g (no_ids d))) by (rewrite <- Z; exact A).
  assert (O : once n (numbered_lines (split_lines a) ++ lines_numbered k (split_lines m) ++ map (ren_line (moved_down k (line_count m'))) (lines_after a b))).
  { destruct (split_lines m) as [|x xs]; [destruct D3|]. rewrite numbered_cons. cbn [app]. apply once_at; [apply below; unfold n, k; lia|]. intros I. rewrite nums_app in I. apply in_app_or in I as [I|I].
    - apply in_map_iff in I as [l [E I]]. apply numbered_in in I. unfold n in E. lia.
    - revert I. apply above; [exact (proj1 H) | unfold n, k, line_count; lia]. }
  assert (Gn : g n = n) by (apply shifted_still; unfold n, line_count; lia).
  assert (K2 : some_step (doc_at n) (ren_gdoc g (no_ids d))) by (apply (step_ren (doc_at n)); [intros x; now apply doc_at_ren|]; apply (step_no_ids (doc_at n)); [apply doc_at_no_id | exact K]).
  destruct (stands_swaps n (once n) (once_l n) (once_r n) (once_u n) _ _ _ lang _ _ A2 O K2 (fun _ _ dl _ _ _ => doc_swap n dl _ ds' (lines_numbered k (split_lines m')) D' (numbered_texts _ _) D3')) as [ls' [[p [old [new [q [E [E' [To ->]]]]]]] B]].
  destruct (piece_found n p old q _ _ _ To D1 O E) as [-> ->]. subst ls'. unfold k in B. assert (B' : stands_for lang (numbered_lines (split_lines (a ++ m' ++ b))) (on_steps (for_doc n (ADoc ds')) (ren_gdoc g (no_ids d)))) by (rewrite (many_lines a m' b H'); exact B).
  apply (C04_parse_iff stop lang _ _ S) in B' as [d' [P' Q]]. exists d'. auto.
Qed.
Print Assumptions C98_replaced_document.
(** C98.  Without these lines, the text is the document without that doc string. *)
Theorem C98_removed_document : forall stop lang a m b d ds, supported lang -> lines_between a m b ->
  let n := S (line_count a) in doc_lines n (split_lines m) ds ->
  parse_with stop false lang (a ++ m ++ b) = Ok d -> some_step (doc_at n) d ->
  exists d', parse_with stop false lang (a ++ b) = Ok d' /\ no_ids d' = ren_gdoc (shifted (line_count a) (line_count m) 0) (on_steps (for_doc n ANone) (no_ids d)).
Proof.
  intros stop lang a m b d ds S H n D P K. assert (A : stands_for lang (numbered_lines (split_lines (a ++ m ++ b))) (no_ids d)) by (apply (C04_parse_iff stop lang _ _ S); eauto).
  set (k := line_count a) in *. destruct (piece_of n _ _ k eq_refl D) as [D1 [D2 D3]]. pose proof (numbers_nodup (split_lines (a ++ m ++ b))) as N. apply (nodup_once n) in N.
  assert (K2 : some_step (doc_at n) (no_ids d)) by (apply (step_no_ids (doc_at n)); [apply doc_at_no_id | exact K]).
  destruct (stands_swaps n (once n) (once_l n) (once_r n) (once_u n) _ _ _ lang _ _ A N K2 (fun _ _ dl _ _ _ => doc_removed n dl)) as [ls' [[p [old [new [q [E [E' [To ->]]]]]]] B]].
  rewrite (many_lines a m b H) in E, N. fold k in E, N. destruct (piece_found n p old q _ _ _ To D1 N E) as [-> ->]. subst ls'. apply (n_stands (shifted k (line_count m) 0)) in B. cbn [app] in B.
  pose proof (lines_shifted a m b 0 H) as Z. cbv zeta in Z. rewrite (many_lines a m b H), !map_app in Z. fold k in Z. assert (La : ended a) by exact (proj1 H).
  assert (Y : map (ren_line (shifted k (line_count m) 0)) (numbered_lines (split_lines a) ++ map (ren_line (moved_down k (line_count m))) (lines_after a b)) = numbered_lines (split_lines (a ++ b))).
  { rewrite map_app, lines_split by exact La. f_equal.
    - apply ren_still. intros l I. pose proof (before_numbers a) as Bn. rewrite Forall_forall in Bn. apply shifted_still. specialize (Bn l I). fold k in Bn. lia.
    - rewrite map_map. transitivity (map (fun l : nline => l) (lines_after a b)); [|apply map_id]. apply map_ext_in. intros [i x] I. unfold ren_line. cbn [fst snd]. f_equal. pose proof (after_numbers a b La) as Bn. rewrite Forall_forall in Bn. specialize (Bn _ I). cbn [fst] in Bn. fold k in Bn. rewrite shifted_down by exact Bn. unfold moved_down. destruct (k <? i); lia. }
  assert (B' : stands_for lang (numbered_lines (split_lines (a ++ b))) (ren_gdoc (shifted k (line_count m) 0) (on_steps (for_doc n ANone) (no_ids d)))) by (rewrite <- Y; exact B).
  apply (C04_parse_iff stop lang _ _ S) in B' as [d' [P' Q]]. exists d'. auto.
Qed.
Print Assumptions C98_removed_document.
(** C98.  Line [n] of a text is a step without argument.  Then with the lines of a doc string below it, the text is the document with this doc string for that step. *)
Theorem C98_added_document : forall stop lang a m b d ds, supported lang -> lines_between a m b ->
  let n := line_count a in doc_lines (S n) (split_lines m) ds ->
  parse_with stop false lang (a ++ b) = Ok d -> some_step (bare_on n) d ->
  exists d', parse_with stop false lang (a ++ m ++ b) = Ok d' /\ no_ids d' = on_steps (for_step n (ADoc ds)) (ren_gdoc (moved_down n (line_count m)) (no_ids d)).
Proof.
  intros stop lang a m b d ds S H n D P K. assert (A : stands_for lang (numbered_lines (split_lines (a ++ b))) (no_ids d)) by (apply (C04_parse_iff stop lang _ _ S); eauto).
  destruct (piece_of (Datatypes.S n) _ _ n eq_refl D) as [D1 [D2 D3]]. set (g := moved_down n (line_count m)). assert (La : ended a) by exact (proj1 H). apply (n_stands g) in A.
  assert (Gn : g n = n) by (unfold g, moved_down; now rewrite Nat.ltb_irrefl).
  assert (Z : map (ren_line g) (numbered_lines (split_lines (a ++ b))) = numbered_lines (split_lines a) ++ map (ren_line g) (lines_after a b)) by (rewrite lines_split, map_app by exact La; f_equal; apply lines_still).
  assert (K2 : some_step (bare_on n) (ren_gdoc g (no_ids d))).
  { apply (step_ren (bare_on n)); [|apply (step_no_ids (bare_on n)); [|exact K]]; intros x [L R]; split; unfold step_on in *; cbn [ren_step no_id_step st_loc ren_loc l_line st_arg]; try (rewrite R; reflexivity); congruence. }
  (* the last line of [a] *)
  pose proof (ended_lines a La) as P0. fold n in P0. assert (Ea : exists xs x, split_lines a = xs ++ [x] /\ length xs = pred n).
  { unfold n, line_count in *. destruct (split_lines a) as [|y l] eqn:E using rev_ind; [cbn in P0; lia|]. exists l, y. split; [reflexivity|]. rewrite app_length. cbn. lia. }
  destruct Ea as [xs [x [Ea Lx]]]. assert (Na : numbered_lines (split_lines a) = numbered_lines xs ++ [(n, x)]).
  { rewrite Ea. change (lines_numbered 0 (xs ++ [x]) = lines_numbered 0 xs ++ [(n, x)]). rewrite numbered_app. f_equal. unfold lines_numbered. cbn [length seq combine]. do 2 f_equal. lia. }
  assert (O : once n (map (ren_line g) (numbered_lines (split_lines (a ++ b))))).
  { rewrite Z, Na, <- app_assoc. cbn [app]. apply once_at; [|apply above; [exact La | fold n; lia]]. intros I. apply in_map_iff in I as [l [E I]]. change (In l (lines_numbered 0 xs)) in I. apply numbered_in in I. lia. }
  destruct (stands_swaps n (once n) (once_l n) (once_r n) (once_u n) _ _ _ lang _ _ A O K2 (fun _ _ dl _ _ _ => doc_added n dl _ ds (lines_numbered n (split_lines m)) D (numbered_texts _ _) D3)) as [ls' [[p [old [new [q [E [E' [l [L1 [-> ->]]]]]]]]] B]].
  cbn [app] in E. pose proof E as E0. rewrite E0 in O. rewrite Z, Na, <- app_assoc in E. cbn [app] in E. destruct (once_split n p l q (numbered_lines xs) (n, x) (map (ren_line g) (lines_after a b)) O (eq_sym E) L1 eq_refl) as [-> [-> ->]]. subst ls'.
  assert (Y : numbered_lines xs ++ ((n, x) :: lines_numbered n (split_lines m)) ++ map (ren_line g) (lines_after a b) = numbered_lines (split_lines (a ++ m ++ b))) by (rewrite (many_lines a m b H), Na, <- app_assoc; reflexivity).
  assert (B' : stands_for lang (numbered_lines (split_lines (a ++ m ++ b))) (on_steps (for_step n (ADoc ds)) (ren_gdoc g (no_ids d)))) by (rewrite <- Y; exact B).
  apply (C04_parse_iff stop lang _ _ S) in B' as [d' [P' Q]]. exists d'. auto.
Qed.
Print Assumptions C98_added_document.

(** ** Suites *)
Lemma a_no_id f : argless (no_id_feature f) = no_id_feature (argless f).
Proof.
  assert (Ht : forall l, map argless_step (map no_id_step l) = map no_id_step (map argless_step l)) by (intros l; rewrite !map_map; reflexivity).
  assert (Hb : forall o, option_map argless_background (option_map no_id_background o) = option_map no_id_background (option_map argless_background o)) by (intros [b|]; [|reflexivity]; unfold argless_background, no_id_background; cbn; now rewrite Ht).
  assert (Hs : forall l, map argless_scenario (map no_id_scenario l) = map no_id_scenario (map argless_scenario l)) by (intros l; rewrite !map_map; apply map_ext; intros x; unfold argless_scenario, no_id_scenario; cbn [sc_id sc_tags sc_loc sc_keyword sc_name sc_desc sc_steps sc_examples]; now rewrite Ht).
  unfold argless, no_id_feature. cbn [fe_tags fe_loc fe_language fe_keyword fe_name fe_desc fe_background fe_scenarios fe_rules]. rewrite Hb, Hs. f_equal. rewrite !map_map. apply map_ext. intros r. unfold argless_rule, no_id_rule. cbn [ru_id ru_tags ru_loc ru_keyword ru_name ru_desc ru_background ru_scenarios]. now rewrite Hb, Hs.
Qed.
Section Edit.
Context (h : step -> step) (Ha : forall x, argless_step (h x) = argless_step x).
Notation edit := (parts_feature (sc_reword h) (bg_reword h)).
Notation edit_o := (part_origin (sc_reword h) (bg_reword h)).
Lemma a_edit f : argless (edit f) = argless f.
Proof.
  assert (Ht : forall l, map argless_step (map h l) = map argless_step l) by (intros l; rewrite map_map; apply map_ext; exact Ha).
  assert (Hb : forall o, option_map argless_background (option_map (bg_reword h) o) = option_map argless_background o) by (intros [b|]; [|reflexivity]; unfold argless_background, bg_reword; cbn; now rewrite Ht).
  assert (Hs : forall l, map argless_scenario (map (sc_reword h) l) = map argless_scenario l) by (intros l; rewrite !map_map; apply map_ext; intros x; unfold argless_scenario, sc_reword; cbn [sc_id sc_tags sc_loc sc_keyword sc_name sc_desc sc_steps sc_examples]; now rewrite Ht).
  unfold argless, parts_feature. cbn [fe_tags fe_loc fe_language fe_keyword fe_name fe_desc fe_background fe_scenarios fe_rules]. rewrite Hb, Hs. f_equal. rewrite !map_map. apply map_ext. intros r. unfold argless_rule, parts_rule. cbn [ru_id ru_tags ru_loc ru_keyword ru_name ru_desc ru_background ru_scenarios]. now rewrite Hb, Hs.
Qed.
Lemma e_steps f o : origin_steps (edit f) (edit_o o) = map h (origin_steps f o).
Proof.
  unfold origin_steps, inherited_steps. cbn [parts_feature part_origin sc_reword fe_background o_scenario o_rule sc_steps]. rewrite map_app. f_equal.
  destruct (sc_steps (o_scenario o)); [reflexivity|]. assert (Hb : forall o, background_steps (option_map (bg_reword h) o) = map h (background_steps o)) by (intros [b|]; reflexivity). cbn [map]. rewrite Hb, map_app. destruct (o_rule o); cbn [option_map parts_rule ru_background]; [now rewrite Hb | reflexivity].
Qed.
Lemma e_fo f : feature_origins (edit f) = map edit_o (feature_origins f).
Proof. apply parts_fo. reflexivity. Qed.
End Edit.
(** the steps of the origins of [f'] are those of [f], edited, but for ids *)
Definition steps_edited (H : step -> step) (f f' : feature) : Prop :=
  Forall2 (fun o o' => map no_id_step (origin_steps f' o') = map H (origin_steps f o)) (feature_origins f) (feature_origins f').
Lemma from_origins (H : step -> step) (k : origin -> origin) f f' X : feature_origins X = map k (feature_origins f) -> (forall o, origin_steps X (k o) = map H (origin_steps f o)) -> no_id_feature f' = X -> steps_edited H f f'.
Proof.
  intros E S <-. rewrite b_fo in E. unfold steps_edited. assert (G : forall os os', map b_origin os' = map k os -> Forall2 (fun o o' => map no_id_step (origin_steps f' o') = map H (origin_steps f o)) os os'); [|now apply G].
  induction os as [|o os IH]; intros [|o' os'] Q; try discriminate Q; constructor; cbn [map] in Q; [|apply IH; congruence]. rewrite <- b_steps, <- S. f_equal. congruence.
Qed.
Lemma calls_count pr name content dir d f x k : read_file name content = Ok d -> gd_feature d = Some f -> build_gherkin_model pr name content dir = Ok (RSuite x, k) ->
  Forall2 (fun o t => length (rt_calls t) = length (origin_steps f o)) (feature_origins f) (rs_tests x).
Proof.
  intros R F W. pose proof (build_eq pr name content dir) as B. rewrite R, F in B. destruct (compile d 0) as [[ps i]|e]; [|congruence]. destruct B as [su [W1 [_ [S2 _]]]]. assert (su = x) by congruence. subst su. clear - S2 F. unfold origins in S2. rewrite F in S2.
  induction S2 as [|o p t os ps ts H S2 IH]; [constructor|]. constructor; [|exact IH]. destruct H as [_ [_ [_ [H _]]]]. destruct (f3_len _ _ _ _ H) as [L1 L2]. congruence.
Qed.
Lemma edited_suite pr g (P : step -> Prop) (H : step -> step) name text text' dir d d' f f' x k : read_file name text = Ok d -> read_file name text' = Ok d' -> gd_feature d = Some f -> gd_feature d' = Some f' ->
  same_but_args g f f' -> fe_name f' = fe_name f -> steps_edited H f f' -> (forall st, step_essence (H st) = step_essence st \/ P st) -> plain_headers d -> build_gherkin_model pr name text dir = Ok (RSuite x, k) ->
  exists x', build_gherkin_model pr name text' dir = Ok (RSuite x', k) /\ same_settings x x' /\ Forall3 (test_but_calls g P f) (origins d) (rs_tests x) (rs_tests x').
Proof.
  intros R R' F F' E En Se HP Ph W. destruct (C97_suites pr g name name text text' dir d d' f f' R R' F F' E Ph) as [x0 [x' [W0 W']]].
  destruct (C97_arguments_only pr g name name text text' dir d d' f f' x k x' (fe_name f') R R' F F' E W W') as [Ek [_ [Set_ [T Ar]]]]. exists x'. split; [rewrite W', En, Ek; reflexivity|]. split; [exact Set_|].
  pose proof (calls_count pr name text dir d f x k R F W) as C. pose proof (calls_count pr name text' dir d' f' x' _ R' F' W') as C'. unfold origins in *. rewrite F in *. rewrite F' in *. unfold steps_edited in Se.
  revert Se T Ar C C'. generalize (feature_origins f) (feature_origins f') (rs_tests x) (rs_tests x'). clear - HP. intros os os' ts ts' Se. revert ts ts'. induction Se as [|o o' os os' S Se IH]; intros ts ts' T Ar C C'.
  - inversion C; inversion C'; subst. constructor.
  - inversion C as [|? t ? ts2 C1 C2]; inversion C' as [|? t' ? ts2' C1' C2']; subst. inversion T as [|? ? ? ? T1 T2]; subst. cbn [combine] in Ar. inversion Ar as [|? ? ? ? A1 A2]; subst. constructor; [|now apply IH]. destruct T1 as [T1 T1']. split; [exact T1|]. unfold same_args_kept in A1. cbn [fst snd] in A1.
    clear - S HP A1 C1 C1' T1'. revert A1 C1 C1'. generalize dependent (origin_steps f' o'). generalize (origin_steps f o). induction T1' as [|c c' cs cs' K T1' IH]; intros L L' S A L1 L1'.
    + destruct L; [constructor | discriminate L1].
    + destruct L as [|st L]; [discriminate L1|]. destruct L' as [|st' L']; [discriminate L1'|]. cbn [map combine length] in *. inversion A as [|? ? ? ? A1 A2]; subst. cbn [fst snd] in A1. constructor; [|apply (IH L L'); [congruence | exact A2 | congruence | congruence]].
      split; [exact K|]. destruct (HP st) as [Q|Q]; [left | right; exact Q]. apply A1. assert (Q1 : no_id_step st' = H st) by congruence. assert (Q2 : step_essence st' = step_essence st) by (rewrite <- (b_step_e st'), Q1, Q; reflexivity). unfold step_essence in Q2. congruence.
Qed.
Lemma for_doc_arg n a x : argless_step (for_doc n a x) = argless_step x.
Proof. unfold for_doc. destruct (st_arg x); try reflexivity. destruct (l_line (ds_loc d) =? n); reflexivity. Qed.
Lemma for_step_arg n a x : argless_step (for_step n a x) = argless_step x.
Proof. unfold for_step. destruct (l_line (st_loc x) =? n); reflexivity. Qed.
(** edited after the lines were moved *)
Lemma edit_moved h g d d' f : (forall x, argless_step (h x) = argless_step x) -> gd_feature d = Some f -> no_ids d' = on_steps h (ren_gdoc g (no_ids d)) ->
  exists f', gd_feature d' = Some f' /\ same_but_args g f f' /\ fe_name f' = fe_name f /\ steps_edited (fun x => h (ren_step g (no_id_step x))) f f'.
Proof.
  intros Ha F Q. destruct (gd_feature d') as [f'|] eqn:F'; [|unfold on_steps, on_parts, ren_gdoc, no_ids in Q; rewrite F, F' in Q; discriminate Q]. exists f'. split; [reflexivity|].
  assert (Qf : no_id_feature f' = parts_feature (sc_reword h) (bg_reword h) (ren_feature g (no_id_feature f))).
  { pose proof (f_equal gd_feature Q) as Q2. unfold on_steps, no_ids, on_parts, ren_gdoc in Q2. cbn [gd_feature] in Q2. rewrite F, F' in Q2. cbn [option_map] in Q2. congruence. }
  split; [|split].
  - unfold same_but_args. rewrite <- (kept_no_ids (argless f')), <- a_no_id, Qf, a_edit, ren_no_ids, a_no_id, kept_no_ids by exact Ha. reflexivity.
  - change (fe_name f') with (fe_name (no_id_feature f')). rewrite Qf. reflexivity.
  - refine (from_origins _ (fun o => part_origin (sc_reword h) (bg_reword h) (g_origin g (b_origin o))) f f' _ _ _ Qf); [|intros o].
    + rewrite e_fo, g_fo, b_fo, !map_map. reflexivity.
    + rewrite e_steps, g_steps, b_steps, !map_map. reflexivity.
Qed.
(** edited before the lines are moved *)
Lemma moved_edit h g d d' f : (forall x, argless_step (h x) = argless_step x) -> gd_feature d = Some f -> no_ids d' = ren_gdoc g (on_steps h (no_ids d)) ->
  exists f', gd_feature d' = Some f' /\ same_but_args g f f' /\ fe_name f' = fe_name f /\ steps_edited (fun x => ren_step g (h (no_id_step x))) f f'.
Proof.
  intros Ha F Q. destruct (gd_feature d') as [f'|] eqn:F'; [|unfold on_steps, on_parts, ren_gdoc, no_ids in Q; rewrite F, F' in Q; discriminate Q]. exists f'. split; [reflexivity|].
  assert (Qf : no_id_feature f' = ren_feature g (parts_feature (sc_reword h) (bg_reword h) (no_id_feature f))).
  { pose proof (f_equal gd_feature Q) as Q2. unfold on_steps, no_ids, on_parts, ren_gdoc in Q2. cbn [gd_feature] in Q2. rewrite F, F' in Q2. cbn [option_map] in Q2. congruence. }
  split; [|split].
  - unfold same_but_args. rewrite <- (kept_no_ids (argless f')), <- a_no_id, Qf, a_ren, a_edit, a_no_id, ren_no_ids, kept_no_ids, a_ren by exact Ha. reflexivity.
  - change (fe_name f') with (fe_name (no_id_feature f')). rewrite Qf. reflexivity.
  - refine (from_origins _ (fun o => g_origin g (part_origin (sc_reword h) (bg_reword h) (b_origin o))) f f' _ _ _ Qf); [|intros o].
    + rewrite g_fo, e_fo, b_fo, !map_map. reflexivity.
    + rewrite g_steps, e_steps, b_steps, !map_map. reflexivity.
Qed.
Lemma for_doc_off n a x : ~ doc_at n x -> for_doc n a x = x.
Proof. intros N. unfold for_doc. destruct (st_arg x) as [|t|ds] eqn:E; try reflexivity. destruct (l_line (ds_loc ds) =? n) eqn:L; [|reflexivity]. apply Nat.eqb_eq in L. exfalso. apply N. exists ds. auto. Qed.
Lemma doc_at_dec n x : doc_at n x \/ ~ doc_at n x.
Proof. unfold doc_at. destruct (st_arg x) as [|t|ds]; [right; intros [ds [E _]]; discriminate E | right; intros [ds [E _]]; discriminate E |]. destruct (Nat.eq_dec (l_line (ds_loc ds)) n) as [E|E]; [left; eauto | right; intros [ds2 [Q L]]; congruence]. Qed.

(** C98.  A file that gives a suite.  With another doc string in the place of one, it gives the same suite, the lines below moved, but for arguments of the calls of that step. *)
Theorem C98_replaced : forall printable name dir a m m' b d f ds ds' x k, is_markdown name = false -> lines_between a m b -> lines_between a m' b ->
  let n := S (line_count a) in doc_lines n (split_lines m) ds -> doc_lines n (split_lines m') ds' ->
  read_file name (a ++ m ++ b) = Ok d -> gd_feature d = Some f -> some_step (doc_at n) d -> plain_headers d -> build_gherkin_model printable name (a ++ m ++ b) dir = Ok (RSuite x, k) ->
  exists x', build_gherkin_model printable name (a ++ m' ++ b) dir = Ok (RSuite x', k) /\ same_settings x x' /\
    Forall3 (test_but_calls (shifted (line_count a) (line_count m) (line_count m')) (doc_at n) f) (origins d) (rs_tests x) (rs_tests x').
Proof.
  intros pr name dir a m m' b d f ds ds' x k M H H' n D D' R F K Ph W. assert (P : parse_with false false (s "en") (a ++ m ++ b) = Ok d) by (unfold read_file in R; now rewrite M in R).
  destruct (C98_replaced_document false (s "en") a m m' b d ds ds' en_supported H H' D D' P K) as [d' [P' Q]]. assert (R' : read_file name (a ++ m' ++ b) = Ok d') by (unfold read_file; now rewrite M).
  destruct (edit_moved _ _ d d' f (for_doc_arg n _) F Q) as [f' [F' [E [En Se]]]]. apply (edited_suite pr _ (doc_at n) _ name (a ++ m ++ b) (a ++ m' ++ b) dir d d' f f' x k R R' F F' E En Se); [|exact Ph | exact W].
  intros st. destruct (doc_at_dec n st) as [Y|Y]; [now right | left]. rewrite for_doc_off; [rewrite g_step_e, b_step_e; reflexivity|]. intros [dz [Z L]]. apply Y. cbn [ren_step no_id_step st_arg] in Z. destruct (st_arg st) as [|t|dq] eqn:St; try discriminate Z. exists dq. split; [exact St|].
  cbn [no_id_arg ren_arg] in Z. injection Z as <-. cbn [ren_docstring ds_loc ren_loc l_line] in L. destruct (piece_of n _ _ _ eq_refl D') as [_ [D2 _]]. unfold shifted in L. destruct (line_count a + line_count m <? l_line (ds_loc dq)) eqn:B; [|exact L]. apply Nat.ltb_lt in B. unfold n, line_count in *. lia.
Qed.
Print Assumptions C98_replaced.
(** C98.  Without the doc string, the same. *)
Theorem C98_removed : forall printable name dir a m b d f ds x k, is_markdown name = false -> lines_between a m b ->
  let n := S (line_count a) in doc_lines n (split_lines m) ds ->
  read_file name (a ++ m ++ b) = Ok d -> gd_feature d = Some f -> some_step (doc_at n) d -> plain_headers d -> build_gherkin_model printable name (a ++ m ++ b) dir = Ok (RSuite x, k) ->
  exists x', build_gherkin_model printable name (a ++ b) dir = Ok (RSuite x', k) /\ same_settings x x' /\
    Forall3 (test_but_calls (shifted (line_count a) (line_count m) 0) (doc_at n) f) (origins d) (rs_tests x) (rs_tests x').
Proof.
  intros pr name dir a m b d f ds x k M H n D R F K Ph W. assert (P : parse_with false false (s "en") (a ++ m ++ b) = Ok d) by (unfold read_file in R; now rewrite M in R).
  destruct (C98_removed_document false (s "en") a m b d ds en_supported H D P K) as [d' [P' Q]]. assert (R' : read_file name (a ++ b) = Ok d') by (unfold read_file; now rewrite M).
  destruct (moved_edit _ _ d d' f (for_doc_arg n _) F Q) as [f' [F' [E [En Se]]]]. apply (edited_suite pr _ (doc_at n) _ name (a ++ m ++ b) (a ++ b) dir d d' f f' x k R R' F F' E En Se); [|exact Ph | exact W].
  intros st. destruct (doc_at_dec n st) as [Y|Y]; [now right | left]. rewrite g_step_e, for_doc_off; [apply b_step_e|]. intros [dz [Z L]]. apply Y. cbn [no_id_step st_arg] in Z. destruct (st_arg st) as [|t|dq] eqn:St; try discriminate Z. exists dq. split; [exact St|]. cbn [no_id_arg] in Z. congruence.
Qed.
Print Assumptions C98_removed.
(** C98.  With a doc string below a step without argument, the same. *)
Theorem C98_added : forall printable name dir a m b d f ds x k, is_markdown name = false -> lines_between a m b ->
  let n := line_count a in doc_lines (S n) (split_lines m) ds ->
  read_file name (a ++ b) = Ok d -> gd_feature d = Some f -> some_step (bare_on n) d -> plain_headers d -> build_gherkin_model printable name (a ++ b) dir = Ok (RSuite x, k) ->
  exists x', build_gherkin_model printable name (a ++ m ++ b) dir = Ok (RSuite x', k) /\ same_settings x x' /\
    Forall3 (test_but_calls (moved_down n (line_count m)) (step_on n) f) (origins d) (rs_tests x) (rs_tests x').
Proof.
  intros pr name dir a m b d f ds x k M H n D R F K Ph W. assert (P : parse_with false false (s "en") (a ++ b) = Ok d) by (unfold read_file in R; now rewrite M in R).
  destruct (C98_added_document false (s "en") a m b d ds en_supported H D P K) as [d' [P' Q]]. assert (R' : read_file name (a ++ m ++ b) = Ok d') by (unfold read_file; now rewrite M).
  destruct (edit_moved _ _ d d' f (for_step_arg _ _) F Q) as [f' [F' [E [En Se]]]]. apply (edited_suite pr _ (step_on n) _ name (a ++ b) (a ++ m ++ b) dir d d' f f' x k R R' F F' E En Se); [|exact Ph | exact W].
  intros st. unfold step_on. destruct (Nat.eq_dec (l_line (st_loc st)) n) as [Y|Y]; [now right | left]. unfold for_step. cbn [ren_step no_id_step st_loc ren_loc l_line]. fold n. destruct (moved_down n (line_count m) (l_line (st_loc st)) =? n) eqn:B; [|now rewrite g_step_e, b_step_e].
  apply Nat.eqb_eq in B. unfold moved_down in B. destruct (n <? l_line (st_loc st)) eqn:B2; [apply Nat.ltb_lt in B2; lia | contradiction].
Qed.
Print Assumptions C98_added.

(** ** A concrete case: the doc string of a step of a background, with a media type and an indented closing line, for another one *)
Definition c98_a : str := text_of_lines [s "Feature: f"; s "  Background:"; s "    Given b"; s "    # about b"].
Definition c98_m : str := text_of_lines [s "    ``` md"; s "    one"; s "      two"; s "  ``` "].
Definition c98_m' : str := text_of_lines [s "      """""""; s "      # x ``` y"; s "      """""""].
Definition c98_b : str := text_of_lines [[]; s "  Scenario: one"; s "    * c"; s "      ```"; s "      ```"].
Definition c98_d : gdoc := Eval vm_compute in match read_file (s "a.feature") (c98_a ++ c98_m ++ c98_b) with Ok d => d | _ => mkGdoc None [] end.
Definition c98_f : feature := Eval vm_compute in match gd_feature c98_d with Some f => f | _ => mkFeature [] (mkLoc 0 None) None None None [] None [] [] end.
Lemma not_begins sep x : startswith sep (lstrip x) = false -> ~ begins sep x.
Proof. unfold begins. congruence. Qed.
Example C98_case : lines_between c98_a c98_m c98_b /\ lines_between c98_a c98_m' c98_b /\
  (exists ds, doc_lines 5 (split_lines c98_m) ds /\ ds_content ds = s "one" ++ [ch_nl] ++ s "  two" /\ ds_media ds = Some (s "md")) /\
  (exists ds, doc_lines 5 (split_lines c98_m') ds /\ ds_content ds = s "# x ``` y" /\ ds_media ds = None) /\
  line_count c98_a = 4 /\ read_file (s "a.feature") (c98_a ++ c98_m ++ c98_b) = Ok c98_d /\ gd_feature c98_d = Some c98_f /\ some_step (doc_at 5) c98_d /\ plain_headers c98_d.
Proof.
  assert (E : forall l, l <> [] -> ended (text_of_lines l)).
  { intros l H. destruct l as [|z l] using rev_ind; [now destruct H|]. exists (text_of_lines l ++ z). unfold text_of_lines. rewrite flat_map_app. cbn [flat_map]. rewrite app_nil_r. now rewrite app_assoc. }
  assert (E2 : forall l l', l <> [] -> ended (text_of_lines l ++ text_of_lines l')) by (intros l l' H; unfold text_of_lines; rewrite <- flat_map_app; apply E; destruct l; [now destruct H | discriminate]).
  split; [split; [apply E | left; apply E2]; discriminate|]. split; [split; [apply E | left; apply E2]; discriminate|]. split; [|split].
  - eexists. split; [|split].
    + exists (s "```"). eexists _, [_; _], _. split; [vm_compute; reflexivity|]. split; [now right|]. split; [vm_compute; reflexivity|]. split; [vm_compute; reflexivity|]. split; [repeat constructor; apply not_begins; vm_compute; reflexivity|]. reflexivity.
    + vm_compute. reflexivity.
    + vm_compute. reflexivity.
  - eexists. split; [|split].
    + exists (s """"""""). eexists _, [_], _. split; [vm_compute; reflexivity|]. split; [now left|]. split; [vm_compute; reflexivity|]. split; [vm_compute; reflexivity|]. split; [repeat constructor; apply not_begins; vm_compute; reflexivity|]. reflexivity.
    + vm_compute. reflexivity.
    + vm_compute. reflexivity.
  - split; [vm_compute; reflexivity|]. split; [vm_compute; reflexivity|]. split; [reflexivity|]. split; [|repeat constructor]. left. cbn. left. eexists. split; vm_compute; reflexivity.
Qed.
Definition c98_calls (text : str) : list (str * list (str * nat * nat)) :=
  match build_gherkin_model (fun _ => true) (s "a.feature") text None with Ok (RSuite su, _) => map (fun t => (rt_name t, map (fun c => (rc_name c, length (rc_args c), rc_line c)) (rt_calls t))) (rs_tests su) | _ => [] end.
Definition c98_first (text : str) : list (list str) :=
  match build_gherkin_model (fun _ => true) (s "a.feature") text None with Ok (RSuite su, _) => map (fun t => flat_map rc_args (firstn 1 (rt_calls t))) (rs_tests su) | _ => [] end.
Example C98_case_suites :
  c98_calls (c98_a ++ c98_m ++ c98_b) = [(s "one", [(s "Given b", 1, 3); (s "c", 1, 11)])] /\
  c98_calls (c98_a ++ c98_m' ++ c98_b) = [(s "one", [(s "Given b", 1, 3); (s "c", 1, 10)])] /\
  c98_calls (c98_a ++ c98_b) = [(s "one", [(s "Given b", 0, 3); (s "c", 1, 7)])] /\
  c98_first (c98_a ++ c98_m' ++ c98_b) = [[s "&{{{'content': '# x ``` y'}}}"]].
Proof. repeat split; vm_compute; reflexivity. Qed.
