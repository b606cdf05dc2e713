(** * Scenarios and rules in the middle of a feature file: C77 *)
From Verif Require Import PyStr PyStrFacts Types Regex Line DialectData Matcher Ast Parser Compiler Scan LineSpec LangSpec LangFacts DocSpec PartsSpec PropLine PropParse PropDoc PropDocString PickleSpec PickleFacts PickleTotal WfDoc PropMdParse PropCompile Glob Robot RobotSpec SuiteSpec RobotFacts PropRobot WriteSpec WriteRead PropWrite EssenceSpec EssenceFacts PropEssence PropAppend MiddleSpec Renumber Units.
Import PickleSpec WriteSpec.

(** ** Specification *)
(** the lines stand for these scenarios and rules, one after the other *)
Definition additions_block (d : dialect) : list nline -> list addition -> list comment -> Prop := blocks (addition_block d).
Definition ren_addition (g : nat -> nat) (a : addition) : addition :=
  match a with AddScenario x => AddScenario (ren_scenario g x) | AddRule x => AddRule (ren_rule g x) end.
(** the scenarios of [bs] belong to the same rules, whether [ms] is before them or not: [ms] has no rules, or [bs] does not
    begin with a scenario ([only_scenarios], [own_rules] in Units.v) *)
Definition keeps_rules (ms bs : list addition) : Prop := only_scenarios ms \/ own_rules bs.
Definition additions_tests (l : list addition) : nat := list_sum (map addition_tests l).

(** ** Lines *)
Definition line_count (text : str) : nat := length (split_lines text).
Lemma count_app a m : ended a -> line_count (a ++ m) = line_count a + line_count m.
Proof. intros [t ->]. unfold line_count. now rewrite split_lines_ended, app_length. Qed.
Lemma moved_seq n k : forall l i, n < i -> map (moved_down n k) (seq i l) = seq (i + k) l.
Proof.
  induction l as [|l IH]; intros i H; [reflexivity|]. cbn [seq map]. f_equal; [|apply (IH (S i)); lia].
  unfold moved_down. destruct (n <? i) eqn:E; [reflexivity|]. apply Nat.ltb_ge in E. lia.
Qed.
Lemma still_seq n k : forall l i, i + l <= S n -> map (moved_down n k) (seq i l) = seq i l.
Proof.
  induction l as [|l IH]; intros i H; [reflexivity|]. cbn [seq map]. f_equal; [|apply (IH (S i)); lia].
  unfold moved_down. destruct (n <? i) eqn:E; [|reflexivity]. apply Nat.ltb_lt in E. lia.
Qed.
Lemma ren_combine g : forall ns (ls : list str), map (ren_line g) (combine ns ls) = combine (map g ns) ls.
Proof. induction ns as [|n ns IH]; intros [|x ls]; try reflexivity. cbn [combine map]. f_equal. apply IH. Qed.
Lemma lines_moved a m b : ended a -> ended (a ++ m) ->
  lines_after (a ++ m) b = map (ren_line (moved_down (line_count a) (line_count m))) (lines_after a b).
Proof.
  intros E E'. rewrite !lines_after_eq by assumption. rewrite ren_combine, moved_seq by (unfold line_count; lia). fold (line_count (a ++ m)). rewrite count_app by exact E. reflexivity.
Qed.
Lemma lines_still a k : map (ren_line (moved_down (line_count a) k)) (numbered_lines (split_lines a)) = numbered_lines (split_lines a).
Proof. unfold numbered_lines. rewrite ren_combine, still_seq by (unfold line_count; lia). reflexivity. Qed.

(** ** C77: the document *)
Lemma stands_mores d name lang : for_name name = Some d -> forall M l cs', additions_block d M l cs' -> forall ls f cs, fe_language f = Some name -> stands_for lang ls (mkGdoc (Some f) cs) ->
  stands_for lang (ls ++ M) (mkGdoc (Some (features_with l f)) (cs ++ cs')).
Proof.
  intros D M l cs' H. induction H as [|l1 x c1 l2 xs c2 H _ IH]; intros ls f cs L S; [now rewrite !app_nil_r|].
  rewrite !app_assoc. apply (IH (ls ++ l1) (feature_with x f) (cs ++ c1)); [exact L|]. eapply stands_more; eauto.
Qed.
Lemma n_additions g d M l cs : additions_block d M l cs -> additions_block d (map (ren_line g) M) (map (ren_addition g) l) (map (ren_comment g) cs).
Proof. apply n_blocks. intros ls [x|x] c H; [now apply n_scenario | now apply n_rule]. Qed.
Lemma blocks_more {A} (B : list nline -> A -> list comment -> Prop) L xs cs : blocks B L xs cs -> forall L' xs' cs', blocks B L' xs' cs' -> blocks B (L ++ L') (xs ++ xs') (cs ++ cs').
Proof. induction 1 as [|l1 x c1 l2 xs c2 H _ IH]; intros L' xs' cs' H'; [exact H'|]. rewrite <- !app_assoc. cbn [app]. constructor; auto. Qed.

(** the text before [b] is ended, or there is no [b] *)
Definition fits (am b : str) (bs : list addition) (cb : list comment) : Prop := ended am \/ (b = [] /\ bs = [] /\ cb = []).
Lemma middle_document : forall stop lang a m b d f name dl ms cm bs cb, supported lang -> ended a -> fits (a ++ m) b bs cb ->
  parse_with stop false lang a = Ok d -> gd_feature d = Some f -> fe_language f = Some name -> for_name name = Some dl ->
  additions_block dl (lines_after a m) ms cm -> additions_block dl (lines_after a b) bs cb ->
  let down := moved_down (line_count a) (line_count m) in
  exists d', parse_with stop false lang (a ++ m ++ b) = Ok d' /\
    no_ids d' = mkGdoc (Some (features_with (ms ++ map (ren_addition down) bs) (no_id_feature f))) (gd_comments d ++ cm ++ map (ren_comment down) cb).
Proof.
  intros stop lang a m b d f name dl ms cm bs cb S E E' P F L D H1 H2 down.
  assert (A : stands_for lang (numbered_lines (split_lines a)) (no_ids d)) by (apply (C04_parse_iff stop lang a _ S); eauto).
  unfold no_ids in A. rewrite F in A. cbn [option_map] in A. destruct E' as [E'|[-> [-> ->]]].
  - apply (n_additions down) in H2. unfold down in H2. rewrite <- lines_moved in H2 by assumption.
    pose proof (stands_mores dl name lang D _ _ _ (blocks_more _ _ _ _ H1 _ _ _ H2) _ (no_id_feature f) _ L A) as R. rewrite app_assoc, <- lines_split, <- lines_split, <- app_assoc in R by assumption.
    apply (C04_parse_iff stop lang (a ++ m ++ b) _ S) in R. exact R.
  - cbn [map]. rewrite !app_nil_r. pose proof (stands_mores dl name lang D _ _ _ H1 _ (no_id_feature f) _ L A) as R. rewrite <- lines_split in R by assumption.
    apply (C04_parse_iff stop lang (a ++ m) _ S) in R. exact R.
Qed.
(** C77.  A text [a] with a feature; scenarios and rules in [b], and in [m], that can follow it.  Then [a], [m], [b] one after the other are the
    feature of [a] with those of [m] and of [b]: those of [b] as they follow [a] directly, but some lines further down. *)
Theorem C77_document : forall stop lang a m b d f name dl ms cm bs cb, supported lang -> ended a -> ended (a ++ m) ->
  parse_with stop false lang a = Ok d -> gd_feature d = Some f -> fe_language f = Some name -> for_name name = Some dl ->
  additions_block dl (lines_after a m) ms cm -> additions_block dl (lines_after a b) bs cb ->
  let down := moved_down (line_count a) (line_count m) in
  exists d', parse_with stop false lang (a ++ m ++ b) = Ok d' /\
    no_ids d' = mkGdoc (Some (features_with (ms ++ map (ren_addition down) bs) (no_id_feature f))) (gd_comments d ++ cm ++ map (ren_comment down) cb).
Proof. intros stop lang a m b d f name dl ms cm bs cb S E E' P F L D H1 H2. apply middle_document with (dl := dl) (name := name); auto. now left. Qed.
Print Assumptions C77_document.

(** ** Tests by their origin *)
Lemma ren_loc_id l : ren_loc (fun n => n) l = l.
Proof. now destruct l. Qed.
Lemma ren_view_id {A} (v : A * location * list location) : ren_view (fun n => n) v = v.
Proof. destruct v as [[x l] ls]. unfold ren_view. cbn [fst snd]. rewrite ren_loc_id. f_equal. rewrite <- (map_id ls) at 2. apply map_ext. apply ren_loc_id. Qed.
Lemma ren_test_id t : ren_test (fun n => n) t = t.
Proof. destruct t as [n d g cs l c]. unfold ren_test. cbn. f_equal. rewrite <- (map_id cs) at 2. apply map_ext. now intros []. Qed.
Definition cert (pr : char -> bool) (f : feature) (os : list origin) (ps : list pickle) (ts : list rtest) : Prop :=
  Forall3 (test_of f) os ps ts /\ Forall2 (calls_exact pr) ps ts.
Lemma calls_placed g : forall sts qs cs, Forall3 call_of sts qs cs -> forall sts' qs' cs', Forall3 call_of sts' qs' cs' -> map st_loc sts' = map (ren_loc g) (map st_loc sts) -> map call_shape cs = map call_shape cs' ->
  cs' = map (ren_call g) cs.
Proof.
  intros sts qs cs F. induction F as [|st q c sts qs cs H F IH]; intros sts' qs' cs' F' E1 E2.
  - destruct F'; [reflexivity | discriminate E1].
  - destruct F' as [|st' q' c' sts' qs' cs' H' F']; [discriminate E1|]. cbn [map] in *. assert (A : st_loc st' = ren_loc g (st_loc st)) by congruence. assert (A2 : map st_loc sts' = map (ren_loc g) (map st_loc sts)) by congruence.
    assert (B : call_shape c = call_shape c') by congruence. assert (B2 : map call_shape cs = map call_shape cs') by congruence. f_equal; [|eapply IH; eauto].
    destruct H as [_ [_ [H1 [col [H2 H3]]]]], H' as [_ [_ [H1' [col' [H2' H3']]]]]. rewrite A in H1', H2'. cbn in H1', H2'. unfold call_shape in B. destruct c as [n ar l c], c' as [n' ar' l' c']. unfold ren_call. cbn in *.
    assert (col' = col) by congruence. f_equal; congruence.
Qed.
Lemma test_placed g pr f f' o o' p p' t t' : test_of f o p t -> test_of f' o' p' t' -> calls_exact pr p t -> calls_exact pr p' t' ->
  pview f' o' = ren_view g (pview f o) -> pickle_essence p = pickle_essence p' -> t' = ren_test g t.
Proof.
  intros T T' X X' V E. unfold pview, ren_view in V. cbn [fst snd] in V. assert (V1 : o_view f o = o_view f' o') by congruence.
  assert (V2 : sc_loc (o_scenario o') = ren_loc g (sc_loc (o_scenario o))) by congruence. assert (V3 : map st_loc (origin_steps f' o') = map (ren_loc g) (map st_loc (origin_steps f o))) by congruence. clear V.
  pose proof (view_test f f' o o' p p' t t' pr T T' X X' V1 E) as Sh. destruct T as [_ [_ [_ [T1 [T2 [col [T3 T4]]]]]]], T' as [_ [_ [_ [T1' [T2' [col' [T3' T4']]]]]]].
  unfold test_shape in Sh. assert (S4 : map call_shape (rt_calls t) = map call_shape (rt_calls t')) by congruence. pose proof (calls_placed g _ _ _ T1 _ _ _ T1' V3 S4) as C.
  rewrite V2 in T2', T3'. cbn in T2', T3'. assert (col' = col) by congruence. destruct t as [n dd gg cs l c], t' as [n' dd' gg' cs' l' c']. unfold ren_test. cbn in *. f_equal; congruence.
Qed.
Lemma tests_placed g pr f f' : forall os ps ts, cert pr f os ps ts -> forall os' ps' ts', cert pr f' os' ps' ts' -> map (pview f') os' = map (ren_view g) (map (pview f) os) -> map pickle_essence ps = map pickle_essence ps' ->
  ts' = map (ren_test g) ts.
Proof.
  intros os ps ts [F X]. revert X. induction F as [|o p t os ps ts H F IH]; intros X os' ps' ts' [F' X'] E1 E2.
  - destruct F'; [reflexivity | discriminate E1].
  - destruct F' as [|o' p' t' os' ps' ts' H' F']; [discriminate E1|]. inversion X as [|? ? ? ? X1 X2]; inversion X' as [|? ? ? ? X1' X2']; subst. cbn [map] in *.
    assert (A1 : pview f' o' = ren_view g (pview f o)) by congruence. assert (A2 : map (pview f') os' = map (ren_view g) (map (pview f) os)) by congruence.
    assert (B1 : pickle_essence p = pickle_essence p') by congruence. assert (B2 : map pickle_essence ps = map pickle_essence ps') by congruence.
    f_equal; [eapply test_placed; eauto | eapply IH; eauto; split; assumption].
Qed.
Lemma cert_split pr f os1 : forall os2 ps ts, cert pr f (os1 ++ os2) ps ts -> exists ps1 ps2 ts1 ts2, ps = ps1 ++ ps2 /\ ts = ts1 ++ ts2 /\ cert pr f os1 ps1 ts1 /\ cert pr f os2 ps2 ts2.
Proof.
  induction os1 as [|o os1 IH]; intros os2 ps ts [F X].
  - exists [], ps, [], ts. repeat split; auto; constructor.
  - cbn [app] in F. inversion F as [|? p t ? ps' ts' H F']; subst. inversion X as [|? ? ? ? X1 X2]; subst. destruct (IH os2 ps' ts' (Logic.conj F' X2)) as [p1 [p2 [t1 [t2 [-> [-> [[C1 C2] C3]]]]]]].
    exists (p :: p1), p2, (t :: t1), t2. split; [reflexivity|]. split; [reflexivity|]. split; [split; constructor; assumption | exact C3].
Qed.
Lemma cert_length pr f os ps ts : cert pr f os ps ts -> length ps = length os /\ length ts = length os.
Proof. intros [F _]. induction F; cbn; [auto|]. destruct IHF. auto. Qed.

(** ** The units of the two documents *)
Lemma still_doc stop lang a d k : supported lang -> parse_with stop false lang a = Ok d -> ren_gdoc (moved_down (line_count a) k) (no_ids d) = no_ids d.
Proof.
  intros S P. assert (A : stands_for lang (numbered_lines (split_lines a)) (no_ids d)) by (apply (C04_parse_iff stop lang a _ S); eauto).
  apply (n_stands (moved_down (line_count a) k)) in A. rewrite lines_still in A. apply (C04_parse_iff stop lang a _ S) in A as [d' [P' E]]. congruence.
Qed.
Lemma still_feature stop lang a d f k : supported lang -> parse_with stop false lang a = Ok d -> gd_feature d = Some f -> ren_feature (moved_down (line_count a) k) (no_id_feature f) = no_id_feature f.
Proof. intros S P F. pose proof (still_doc stop lang a d k S P) as E. apply (f_equal gd_feature) in E. unfold no_ids in E. rewrite F in E. cbn [ren_gdoc gd_feature option_map] in E. congruence. Qed.
Lemma g_added g bs : forall c, added_units (option_map (ren_rule g) c) (map (ren_addition g) bs) = map (g_unit g) (added_units c bs).
Proof.
  induction bs as [|[x|x] bs IH]; intros c; [reflexivity | |]; cbn [map added_units ren_addition].
  - unfold g_unit at 1. cbn [fst snd]. f_equal. apply IH.
  - rewrite map_app. f_equal; [|apply (IH (Some (cut x)))]. unfold rule_units. cbn [ren_rule ru_scenarios]. now rewrite !map_map.
Qed.
Lemma g_last g f : ren_feature g f = f -> option_map (ren_rule g) (last_rule f) = last_rule f.
Proof.
  intros E. apply (f_equal last_rule) in E. rewrite <- E at 2. unfold last_rule. cbn [ren_feature fe_rules]. rewrite <- map_rev. destruct (rev (fe_rules f)); reflexivity.
Qed.
Lemma middle_units g f ms bs : ren_feature g f = f -> keeps_rules ms bs ->
  kunits (features_with (ms ++ map (ren_addition g) bs) f) = kunits f ++ added_units (last_rule f) ms ++ map (g_unit g) (added_units (last_rule f) bs).
Proof.
  intros E K. rewrite units_with, added_app. f_equal. f_equal. rewrite added_place.
  - rewrite <- g_added. now rewrite (g_last g f E).
  - destruct K as [K|K]; [now left | right]. destruct bs as [|[x|x] bs]; [exact I | exact K | exact I].
Qed.
Lemma views_bg f f' us : fe_background f' = fe_background f -> uviews f' us = uviews f us.
Proof.
  intros E. unfold uviews. apply flat_map_ext. intros u. apply map_ext. intros o. unfold pview, o_view, origin_steps, inherited_steps. now rewrite E.
Qed.
Lemma views_app f us us' : uviews f (us ++ us') = uviews f us ++ uviews f us'.
Proof. apply flat_map_app. Qed.
Lemma true_views f l f0 : no_id_feature f = features_with l f0 -> map (pview f) (feature_origins f) = uviews f0 (kunits (features_with l f0)).
Proof.
  intros E. rewrite pviews, <- b_views, <- b_units, E. apply views_bg. exact (proj1 (proj2 (with_same l f0))).
Qed.
Lemma origin_count u : length (unit_origins u) = scenario_tests (snd u).
Proof.
  destruct u as [ru sc]. unfold unit_origins, scenario_origins, scenario_tests. cbn [fst snd]. destruct (sc_examples sc) as [|e es]; [reflexivity|]. generalize (e :: es). intros l. clear.
  induction l as [|e l IH]; [reflexivity|]. cbn [flat_map map]. rewrite app_length, IH. unfold examples_origins. destruct (ex_header e); [rewrite map_length|]; reflexivity.
Qed.
Definition units_tests (us : list unit_) : nat := list_sum (map (fun u : unit_ => scenario_tests (snd u)) us).
Lemma views_count f us : length (uviews f us) = units_tests us.
Proof.
  unfold uviews, units_tests. induction us as [|u us IH]; [reflexivity|]. cbn [flat_map map]. rewrite app_length, map_length, origin_count, IH. reflexivity.
Qed.
Lemma tests_app us us' : units_tests (us ++ us') = units_tests us + units_tests us'.
Proof. unfold units_tests. rewrite map_app. induction us as [|u us IH]; [reflexivity|]. cbn [map app]. change (scenario_tests (snd u) + list_sum (map (fun u : unit_ => scenario_tests (snd u)) us ++ map (fun u : unit_ => scenario_tests (snd u)) us') = scenario_tests (snd u) + list_sum (map (fun u : unit_ => scenario_tests (snd u)) us) + list_sum (map (fun u : unit_ => scenario_tests (snd u)) us')). rewrite IH. lia. Qed.
Lemma tests_added l : forall c, units_tests (added_units c l) = additions_tests l.
Proof.
  induction l as [|[x|x] l IH]; intros c; [reflexivity | |]; cbn [added_units].
  - change (scenario_tests x + units_tests (added_units c l) = scenario_tests x + additions_tests l). now rewrite IH.
  - rewrite tests_app, IH. unfold additions_tests. cbn [map]. change (units_tests (rule_units x) + list_sum (map addition_tests l) = addition_tests (AddRule x) + list_sum (map addition_tests l)). f_equal.
    unfold units_tests, rule_units. rewrite map_map. reflexivity.
Qed.

(** ** The pickles of the two documents *)
Definition unit_wf (f : feature) (u : unit_) : Prop := Forall step_complete (bg_steps_of (fe_background f) ++ unit_bg u) /\ scenario_wf (snd u).
Lemma units_wf f : feature_wf f -> Forall (unit_wf f) (kunits f).
Proof.
  intros [_ [Hb [Hs Hr]]]. apply bg_complete in Hb. unfold kunits. apply Forall_app. split.
  - apply Forall_map. eapply Forall_impl; [|exact Hs]. intros sc H. split; [|exact H]. unfold unit_bg. cbn [fst]. now rewrite app_nil_r.
  - apply Forall_forall. intros u Hu. apply in_flat_map in Hu as [ru [H1 H2]]. rewrite Forall_forall in Hr. destruct (Hr ru H1) as [H3 [H4 _]]. apply in_map_iff in H2 as [sc [<- H2]].
    split; [apply Forall_app; split; [exact Hb | now apply bg_complete]|]. rewrite Forall_forall in H4. now apply H4.
Qed.
Lemma units_fine f lang us i : Forall (unit_wf f) us -> Forall (fun u : unit_ => Forall PickleSpec.plain (scenario_headers (snd u))) us -> exists q, compile_seq (ucompile f lang) us i = Ok q.
Proof.
  intros W H. match goal with |- exists q, ?r = Ok q => assert (F : fine True r); [|destruct r; [eauto | now destruct F as [F _]; elim F]] end.
  rewrite Forall_forall in W, H. apply compile_seq_fine. intros u j Hu. destruct (W u Hu) as [W1 W2]. apply (one_fine True None); [exact W1 | exact W2|]. intros _. apply headers_of. now apply H.
Qed.
Lemma added_headers l : forall c, Forall PickleSpec.plain (flat_map addition_headers l) -> Forall (fun u : unit_ => Forall PickleSpec.plain (scenario_headers (snd u))) (added_units c l).
Proof.
  induction l as [|[x|x] l IH]; intros c H; [constructor | |]; cbn [flat_map addition_headers] in H; apply Forall_app in H as [H1 H2]; cbn [added_units].
  - constructor; [exact H1 | now apply IH].
  - apply Forall_app. split; [|now apply IH]. unfold rule_units. apply Forall_map, Forall_forall. intros sc Hs. cbn [snd]. apply Forall_forall. intros n Hn. rewrite Forall_forall in H1. apply H1. apply in_flat_map. eauto.
Qed.
Lemma units_same g f lang us : ren_feature g f = f -> forall i j, same_pickles (compile_seq (ucompile f lang) us i) (compile_seq (ucompile f lang) (map (g_unit g) us) j).
Proof.
  intros E. apply seq_same. induction us as [|u us IH]; [constructor|]. cbn [map]. constructor; [|exact IH]. intros i j. unfold ucompile. apply one_same.
  - unfold unit_tags, g_unit. cbn [fst]. apply names_app; [reflexivity|]. destruct (fst u); [|reflexivity]. cbn. symmetry. apply g_names.
  - unfold unit_bg, g_unit. cbn [fst]. apply steps_app; [reflexivity|]. destruct (fst u) as [ru|]; [|reflexivity]. cbn. destruct (ru_background ru); [|reflexivity]. cbn. symmetry. apply g_steps_e.
  - symmetry. apply g_scenario_e.
Qed.
Lemma units_count f lang us i q : compile_seq (ucompile f lang) us i = Ok q -> length (fst q) = units_tests us.
Proof. apply seq_length_. intros u j q'. apply one_length. Qed.
Lemma then_ok r h q : then_ r h = Ok q -> exists q1 q2, r = Ok q1 /\ h (snd q1) = Ok q2 /\ fst q = fst q1 ++ fst q2.
Proof.
  unfold then_. intros H. apply rbind_ok in H as [q1 [H1 H]]. apply rbind_ok in H as [q2 [H2 H]]. injection H as <-. exists q1, q2. repeat split; assumption.
Qed.
Lemma then_do r h q1 q2 : r = Ok q1 -> h (snd q1) = Ok q2 -> exists n, then_ r h = Ok (fst q1 ++ fst q2, n).
Proof. intros -> H. unfold then_. cbn [rbind]. rewrite H. cbn [rbind]. eauto. Qed.
(** the pickles of [u1 ++ u2], and those of [u1 ++ um ++ u2'] where [u2'] is [u2] further down *)
Lemma middle_seq g f lang u1 um u2 ps i ps' j : ren_feature g f = f ->
  compile_seq (ucompile f lang) (u1 ++ u2) 0 = Ok (ps, i) -> compile_seq (ucompile f lang) (u1 ++ um ++ map (g_unit g) u2) 0 = Ok (ps', j) ->
  exists p1 p2 pm p2', ps = p1 ++ p2 /\ ps' = p1 ++ pm ++ p2' /\ map pickle_essence p2' = map pickle_essence p2 /\ length p1 = units_tests u1 /\ length pm = units_tests um.
Proof.
  intros E C C'. rewrite seq_app_ in C, C'. apply then_ok in C as [q1 [q2 [C1 [C2 C3]]]]. apply then_ok in C' as [q1' [qq [C1' [C2' C3']]]]. cbn [fst] in C3, C3'.
  assert (q1' = q1) by congruence. subst q1'. rewrite seq_app_ in C2'. apply then_ok in C2' as [qm [q2' [Cm [C4 C5]]]].
  pose proof (units_same g f lang u2 E (snd q1) (snd qm)) as Sm. rewrite C2, C4 in Sm. destruct q2 as [p2 n2], q2' as [p2' n2']. cbn [same_pickles fst] in *.
  exists (fst q1), p2, (fst qm), p2'. split; [exact C3|]. split; [now rewrite C3', C5|]. split; [now symmetry|]. split; [eapply units_count; eauto | eapply units_count; eauto].
Qed.
Lemma middle_in g f lang u1 um u2 q : ren_feature g f = f -> Forall (unit_wf f) um -> Forall (fun u : unit_ => Forall PickleSpec.plain (scenario_headers (snd u))) um ->
  compile_seq (ucompile f lang) (u1 ++ u2) 0 = Ok q -> exists q', compile_seq (ucompile f lang) (u1 ++ um ++ map (g_unit g) u2) 0 = Ok q'.
Proof.
  intros E W H C. rewrite seq_app_ in C. apply then_ok in C as [q1 [q2 [C1 [C2 _]]]]. destruct (units_fine f lang um (snd q1) W H) as [qm Cm].
  pose proof (units_same g f lang u2 E (snd q1) (snd qm)) as Sm. rewrite C2 in Sm. destruct q2 as [p2 n2]. destruct (compile_seq (ucompile f lang) (map (g_unit g) u2) (snd qm)) as [[p2' n2']|e] eqn:C4; [|contradiction Sm].
  destruct (then_do _ (compile_seq (ucompile f lang) (map (g_unit g) u2)) _ _ Cm C4) as [j Cj]. rewrite <- seq_app_ in Cj.
  destruct (then_do _ (compile_seq (ucompile f lang) (um ++ map (g_unit g) u2)) _ _ C1 Cj) as [k Ck]. rewrite <- seq_app_ in Ck. eauto.
Qed.
Lemma middle_out g f lang u1 um u2 q : ren_feature g f = f -> compile_seq (ucompile f lang) (u1 ++ um ++ map (g_unit g) u2) 0 = Ok q -> exists q', compile_seq (ucompile f lang) (u1 ++ u2) 0 = Ok q'.
Proof.
  intros E C. rewrite seq_app_ in C. apply then_ok in C as [q1 [q2 [C1 [C2 _]]]]. rewrite seq_app_ in C2. apply then_ok in C2 as [qm [q3 [Cm [C4 _]]]].
  pose proof (units_same g f lang u2 E (snd q1) (snd qm)) as Sm. rewrite C4 in Sm. destruct q3 as [p2 n2]. destruct (compile_seq (ucompile f lang) u2 (snd q1)) as [[p2' n2']|e] eqn:C5; [|contradiction Sm].
  destruct (then_do _ (compile_seq (ucompile f lang) u2) _ _ C1 C5) as [j Cj]. rewrite <- seq_app_ in Cj. eauto.
Qed.
Lemma compile_with d f0 l lang i : gd_feature d = Some (features_with l f0) -> fe_language f0 = Some lang -> compile d i = compile_seq (ucompile f0 lang) (kunits (features_with l f0)) i.
Proof.
  intros F L. destruct (with_same l f0) as [S1 [S2 [S3 _]]]. rewrite (compile_units d _ lang i F) by now rewrite S3. apply seq_ext. intros u j _. unfold ucompile. now rewrite S1, S2.
Qed.

(** ** The suites *)
Lemma cert_views pr f os ps ts A B : cert pr f os ps ts -> map (pview f) os = A ++ B -> exists os1 os2 ps1 ps2 ts1 ts2, ps = ps1 ++ ps2 /\ ts = ts1 ++ ts2 /\
  cert pr f os1 ps1 ts1 /\ cert pr f os2 ps2 ts2 /\ map (pview f) os1 = A /\ map (pview f) os2 = B /\ length ps1 = length A /\ length ts1 = length A /\ length ts2 = length B.
Proof.
  intros C E. apply map_eq_app in E as [os1 [os2 [-> [E1 E2]]]]. destruct (cert_split pr f os1 os2 ps ts C) as [p1 [p2 [t1 [t2 [-> [-> [C1 C2]]]]]]].
  exists os1, os2, p1, p2, t1, t2. pose proof (cert_length _ _ _ _ _ C1) as [L1 L2]. pose proof (cert_length _ _ _ _ _ C2) as [L3 L4]. subst A B. rewrite !map_length. repeat split; try assumption; try apply C1; apply C2.
Qed.
Lemma app_eq_len {A} (a b a' b' : list A) : a ++ b = a' ++ b' -> length a = length a' -> a = a' /\ b = b'.
Proof. revert a'. induction a as [|x a IH]; intros [|y a'] E L; try discriminate L; [now split|]. cbn [app] in E. injection E as -> E. destruct (IH a' E) as [-> ->]; [now injection L | now split]. Qed.

Definition same_settings (x x' : rsuite) : Prop :=
  rs_doc x' = rs_doc x /\ rs_library x' = rs_library x /\ rs_resources x' = rs_resources x /\ rs_metadata_tags x' = rs_metadata_tags x /\ rs_test_tags x' = rs_test_tags x.
(** the suite [x'] is [x] with the last tests of the suite [y] put in before the last tests of [x], which are moved down; the tests before them, and the
    rest of the suite, are the same in all three *)
Definition with_tests (ms bs : list addition) (down : nat -> nat) (x y x' : rsuite) : Prop :=
  (exists t1 t2 new, rs_tests x = t1 ++ t2 /\ rs_tests y = t1 ++ new /\ rs_tests x' = t1 ++ new ++ map (ren_test down) t2 /\ length new = additions_tests ms /\ length t2 = additions_tests bs) /\
  same_settings x x' /\ same_settings y x'.
Definition with_some (ms bs : list addition) (down : nat -> nat) (x x' : rsuite) : Prop :=
  (exists t1 t2 new, rs_tests x = t1 ++ t2 /\ rs_tests x' = t1 ++ new ++ map (ren_test down) t2 /\ length new = additions_tests ms /\ length t2 = additions_tests bs) /\ same_settings x x'.

Lemma app_eq_end {A} (a b a' b' : list A) : a ++ b = a' ++ b' -> length b = length b' -> a' = a /\ b' = b.
Proof. intros E L. symmetry in E. apply app_eq_len; [exact E|]. apply (f_equal (@length A)) in E. rewrite !app_length in E. lia. Qed.
Section Between.
Context (pr : char -> bool) (name : str) (dir : option (list (str * entry))) (a m b : str) (d : gdoc) (f : feature) (lang : str) (dl : dialect) (ms : list addition) (cm : list comment) (bs : list addition) (cb : list comment)
  (M : is_markdown name = false) (E : ended a) (E' : fits (a ++ m) b bs cb) (R : read_file name a = Ok d) (F : gd_feature d = Some f) (L : fe_language f = Some lang) (D : for_name lang = Some dl)
  (H1 : additions_block dl (lines_after a m) ms cm) (H2 : additions_block dl (lines_after a b) bs cb) (K : keeps_rules ms bs).
Let g := moved_down (line_count a) (line_count m).
Let f0 := no_id_feature f.
Let um := added_units (last_rule f0) ms.
Let u2 := added_units (last_rule f0) bs.
Lemma P_ : parse_with false false (s "en") a = Ok d.
Proof. unfold read_file in R. now rewrite M in R. Qed.
Lemma G_ : ren_feature g f0 = f0.
Proof. unfold g, f0. eapply still_feature; eauto; [exact en_supported | exact P_]. Qed.
Lemma short_ : exists e fe, read_file name (a ++ b) = Ok e /\ gd_feature e = Some fe /\ no_id_feature fe = features_with bs f0 /\ same_pickles (compile e 0) (compile_seq (ucompile f0 lang) (kunits f0 ++ u2) 0).
Proof.
  assert (A : stands_for (s "en") (numbered_lines (split_lines a)) (no_ids d)) by (apply (C04_parse_iff false (s "en") a _ en_supported); exists d; split; [exact P_ | reflexivity]). unfold no_ids in A. rewrite F in A. cbn [option_map] in A. fold f0 in A.
  pose proof (stands_mores dl lang (s "en") D _ _ _ H2 _ f0 _ L A) as W. rewrite <- lines_split in W by exact E. apply (C04_parse_iff false (s "en") (a ++ b) _ en_supported) in W as [e [Pe Qe]].
  destruct (gd_feature e) as [fe|] eqn:Fe; [|unfold no_ids in Qe; rewrite Fe in Qe; discriminate Qe].
  exists e, fe. split; [unfold read_file; now rewrite M|]. split; [exact Fe|]. split; [unfold no_ids in Qe; rewrite Fe in Qe; cbn [option_map] in Qe; congruence|].
  pose proof (C61_pickles e (no_ids e) 0 0 (eq_sym (essence_no_ids e))) as C. rewrite (compile_with (no_ids e) f0 bs lang 0 (f_equal gd_feature Qe) L), units_with in C. exact C.
Qed.
Lemma long_ : exists d' f', read_file name (a ++ m ++ b) = Ok d' /\ gd_feature d' = Some f' /\ no_id_feature f' = features_with (ms ++ map (ren_addition g) bs) f0 /\ Forall (unit_wf f0) um /\
  same_pickles (compile d' 0) (compile_seq (ucompile f0 lang) (kunits f0 ++ um ++ map (g_unit g) u2) 0).
Proof.
  destruct (middle_document false (s "en") a m b d f lang dl ms cm bs cb en_supported E E' P_ F L D H1 H2) as [d' [P' Q]]. fold g f0 in Q.
  destruct (gd_feature d') as [f'|] eqn:F'; [|unfold no_ids in Q; rewrite F' in Q; discriminate Q].
  exists d', f'. split; [unfold read_file; now rewrite M|]. split; [exact F'|]. split; [unfold no_ids in Q; rewrite F' in Q; cbn [option_map] in Q; congruence|]. split.
  - pose proof (parsed_wf false false (s "en") (a ++ m ++ b) d' en_supported P') as Wf. apply wf_no_ids in Wf. unfold doc_wf in Wf. rewrite Q in Wf. cbn [gd_feature opt_wf] in Wf. apply units_wf in Wf.
    rewrite (middle_units g f0 ms bs G_ K) in Wf. apply Forall_app in Wf as [_ Wf]. apply Forall_app in Wf as [Wf _].
    eapply Forall_impl; [|exact Wf]. intros u. unfold unit_wf. now rewrite (proj1 (proj2 (with_same _ f0))).
  - pose proof (C61_pickles d' (no_ids d') 0 0 (eq_sym (essence_no_ids d'))) as C. rewrite (compile_with (no_ids d') f0 _ lang 0 (f_equal gd_feature Q) L), (middle_units g f0 ms bs G_ K) in C. exact C.
Qed.
Lemma both_ x n x' n' : build_gherkin_model pr name (a ++ b) dir = Ok (RSuite x, n) -> build_gherkin_model pr name (a ++ m ++ b) dir = Ok (RSuite x', n') -> n' = n /\ with_some ms bs g x x'.
Proof.
  intros B B'. destruct short_ as [e [fe [R1 [Fe [Qef C1]]]]], long_ as [d' [f' [R2 [F' [Qf [_ C2]]]]]].
  pose proof (build_eq pr name (a ++ b) dir) as B1. pose proof (build_eq pr name (a ++ m ++ b) dir) as B2. rewrite R1, Fe in B1. rewrite R2, F' in B2.
  destruct (compile e 0) as [[ps i]|er] eqn:Ce; [|rewrite B1 in B; discriminate B]. destruct (compile d' 0) as [[ps' i']|er]; [|rewrite B2 in B'; discriminate B'].
  destruct (compile_seq (ucompile f0 lang) (kunits f0 ++ u2) 0) as [[qs k]|er] eqn:Cq; [|contradiction C1]. destruct (compile_seq (ucompile f0 lang) (kunits f0 ++ um ++ map (g_unit g) u2) 0) as [[qs' k']|er] eqn:Cm; [|contradiction C2].
  destruct (middle_seq g f0 lang _ _ _ _ _ _ _ G_ Cq Cm) as [p1 [p2 [pm [p2' [-> [-> [Em [L1 Lm]]]]]]]]. cbn [same_pickles] in C1, C2.
  destruct B1 as [su [W1 [S1 [S2 S3]]]]. rewrite W1 in B. assert (su = x) by congruence. assert (En : fe_name fe = n) by congruence. subst su. clear B W1.
  destruct B2 as [su' [W2 [S1' [S2' S3']]]]. rewrite W2 in B'. assert (su' = x') by congruence. assert (En' : fe_name f' = n') by congruence. subst su'. clear B' W2.
  unfold origins in S2, S2'. rewrite Fe in S2. rewrite F' in S2'.
  pose proof (true_views fe _ f0 Qef) as V. pose proof (true_views f' _ f0 Qf) as V'. rewrite units_with in V. rewrite (middle_units g f0 ms bs G_ K) in V'. fold um u2 in V, V'. rewrite views_app in V. rewrite !views_app in V'.
  assert (Vg : uviews f0 (map (g_unit g) u2) = map (ren_view g) (uviews f0 u2)) by (rewrite <- g_views, G_; reflexivity). rewrite Vg in V'.
  destruct (cert_views pr fe _ _ _ _ _ (Logic.conj S2 S3) V) as [o1 [o2 [q1 [q2 [t1 [t2 [Ep [Et [T1 [T2 [V1 [V2 [N1 [N1t N2]]]]]]]]]]]]]].
  destruct (cert_views pr f' _ _ _ _ _ (Logic.conj S2' S3') V') as [o1' [om2 [q1' [qm2 [t1' [tm2 [Ep' [Et' [T1' [Tm2 [V1' [Vm2 [N1' [N1t' Nm2]]]]]]]]]]]]]].
  destruct (cert_views pr f' _ _ _ _ _ Tm2 Vm2) as [om [o2' [qm [q2' [tm [t2' [Epm [Etm [Tm [T2' [Vm [V2' [Nm [Nmt N2']]]]]]]]]]]]]].
  rewrite views_count in N1, N1', Nm, Nmt, N2. rewrite Ep, !map_app in C1. rewrite Ep', Epm, !map_app in C2.
  apply app_eq_len in C1 as [C1a C1b]; [|rewrite !map_length; congruence]. apply app_eq_len in C2 as [C2a C2b]; [|rewrite !map_length; congruence]. apply app_eq_len in C2b as [C2b C2c]; [|rewrite !map_length; congruence].
  assert (Z1 : t1' = map (ren_test (fun n => n)) t1).
  { apply (tests_placed (fun n => n) pr fe f' _ _ _ T1 _ _ _ T1'); [|congruence]. rewrite V1, V1'. rewrite <- (map_id (uviews f0 (kunits f0))) at 1. apply map_ext. intros v. symmetry. apply ren_view_id. }
  rewrite (map_ext _ (fun t => t) ren_test_id), map_id in Z1.
  assert (Z2 : t2' = map (ren_test g) t2) by (apply (tests_placed g pr fe f' _ _ _ T2 _ _ _ T2'); [now rewrite V2, V2' | congruence]).
  destruct (with_same bs f0) as [A1 [A2 [A3 [A4 A5]]]], (with_same (ms ++ map (ren_addition g) bs) f0) as [A1' [A2' [A3' [A4' A5']]]]. rewrite <- Qef in A1, A4, A5. rewrite <- Qf in A1', A4', A5'.
  assert (De : fe_desc f' = fe_desc fe) by (change (fe_desc f') with (fe_desc (no_id_feature f')); change (fe_desc fe) with (fe_desc (no_id_feature fe)); congruence).
  assert (Tg : map tag_name (fe_tags f') = map tag_name (fe_tags fe)).
  { assert (T : fe_tags (no_id_feature f') = fe_tags (no_id_feature fe)) by congruence. apply (f_equal (map tag_name)) in T. cbn in T. rewrite !map_map in T. exact T. }
  split; [rewrite <- En, <- En'; change (fe_name f') with (fe_name (no_id_feature f')); change (fe_name fe) with (fe_name (no_id_feature fe)); congruence|].
  split; [exists t1, t2, tm; split; [exact Et|]; split; [now rewrite Et', Etm, Z1, Z2|]; split; [rewrite Nmt; apply tests_added | rewrite N2; apply tests_added]|].
  destruct S1 as [D1 [D2 [D3 [D4 D5]]]], S1' as [D1' [D2' [D3' [D4' D5']]]].
  assert (TT : rs_test_tags x' = rs_test_tags x) by (apply cons_inj; now rewrite D4, D4').
  split; [now rewrite D1, D1', De|]. split; [congruence|]. split; [rewrite D3 in D3'; congruence|]. split; [|exact TT].
  rewrite D5, D5', TT. destruct (fe_tags fe), (fe_tags f'); try discriminate Tg; reflexivity.
Qed.
Lemma in_ x n : Forall PickleSpec.plain (flat_map addition_headers ms) -> build_gherkin_model pr name (a ++ b) dir = Ok (RSuite x, n) -> exists x' n', build_gherkin_model pr name (a ++ m ++ b) dir = Ok (RSuite x', n').
Proof.
  intros Pl B. destruct short_ as [e [fe [R1 [Fe [_ C1]]]]], long_ as [d' [f' [R2 [F' [_ [W C2]]]]]].
  pose proof (build_eq pr name (a ++ b) dir) as B1. pose proof (build_eq pr name (a ++ m ++ b) dir) as B2. rewrite R1, Fe in B1. rewrite R2, F' in B2.
  destruct (compile e 0) as [[ps i]|er] eqn:Ce; [|rewrite B1 in B; discriminate B]. destruct (compile_seq (ucompile f0 lang) (kunits f0 ++ u2) 0) as [[qs k]|er] eqn:Cq; [|contradiction C1].
  destruct (middle_in g f0 lang _ _ _ _ G_ W (added_headers ms _ Pl) Cq) as [[qs' k'] Cm]. rewrite Cm in C2. destruct (compile d' 0) as [[ps' i']|er]; [|contradiction C2]. destruct B2 as [su' [W2 _]]. eauto.
Qed.
Lemma out_ x n : build_gherkin_model pr name (a ++ m ++ b) dir = Ok (RSuite x, n) -> exists x' n', build_gherkin_model pr name (a ++ b) dir = Ok (RSuite x', n').
Proof.
  intros B. destruct short_ as [e [fe [R1 [Fe [_ C1]]]]], long_ as [d' [f' [R2 [F' [_ [_ C2]]]]]].
  pose proof (build_eq pr name (a ++ b) dir) as B1. pose proof (build_eq pr name (a ++ m ++ b) dir) as B2. rewrite R1, Fe in B1. rewrite R2, F' in B2.
  destruct (compile d' 0) as [[ps i]|er] eqn:Ce; [|rewrite B2 in B; discriminate B]. destruct (compile_seq (ucompile f0 lang) (kunits f0 ++ um ++ map (g_unit g) u2) 0) as [[qs k]|er] eqn:Cq; [|contradiction C2].
  destruct (middle_out g f0 lang _ _ _ _ G_ Cq) as [[qs' k'] Cm]. rewrite Cm in C1. destruct (compile e 0) as [[ps' i']|er]; [|contradiction C1]. destruct B1 as [su' [W2 _]]. eauto.
Qed.
End Between.

Lemma tests_ren g l : additions_tests (map (ren_addition g) l) = additions_tests l.
Proof.
  assert (S : forall x, scenario_tests (ren_scenario g x) = scenario_tests x).
  { intros x. unfold scenario_tests. cbn [ren_scenario sc_examples]. destruct (sc_examples x) as [|e es]; [reflexivity|]. cbn [map]. f_equal. f_equal.
    - cbn. destruct (ex_header e); [now rewrite map_length | reflexivity].
    - rewrite map_map. apply map_ext. intros k. cbn. destruct (ex_header k); [now rewrite map_length | reflexivity]. }
  unfold additions_tests. rewrite map_map. f_equal. apply map_ext. intros [x|x]; cbn [ren_addition addition_tests]; [apply S|]. cbn [ren_rule ru_scenarios]. rewrite map_map. f_equal. apply map_ext. exact S.
Qed.
(** the tests of the suite of [a] and [m] *)
Lemma first_ pr name dir a m b d f lang dl ms cm bs cb : is_markdown name = false -> ended a -> ended (a ++ m) -> read_file name a = Ok d -> gd_feature d = Some f -> fe_language f = Some lang -> for_name lang = Some dl ->
  additions_block dl (lines_after a m) ms cm -> additions_block dl (lines_after a b) bs cb ->
  forall x' n, build_gherkin_model pr name (a ++ m ++ b) dir = Ok (RSuite x', n) -> exists y last, build_gherkin_model pr name (a ++ m) dir = Ok (RSuite y, n) /\ rs_tests x' = rs_tests y ++ last /\ length last = additions_tests bs /\ same_settings y x'.
Proof.
  intros M E E' R F L D H1 H2 x' n B. pose proof R as P. unfold read_file in P. rewrite M in P.
  destruct (middle_document false (s "en") a m [] d f lang dl ms cm [] [] en_supported E (or_intror (Logic.conj eq_refl (Logic.conj eq_refl eq_refl))) P F L D H1) as [d1 [P1 Q1]]; [rewrite lines_after_eq by exact E; constructor|].
  rewrite !app_nil_r in P1. cbn [map] in Q1. rewrite !app_nil_r in Q1.
  destruct (gd_feature d1) as [f1|] eqn:F1; [|unfold no_ids in Q1; rewrite F1 in Q1; discriminate Q1].
  assert (Qf : no_id_feature f1 = features_with ms (no_id_feature f)) by (unfold no_ids in Q1; rewrite F1 in Q1; cbn [option_map] in Q1; congruence).
  assert (L1 : fe_language f1 = Some lang) by (change (fe_language (no_id_feature f1) = Some lang); rewrite Qf; destruct (with_same ms (no_id_feature f)) as [_ [_ [K _]]]; rewrite K; exact L).
  assert (R1 : read_file name (a ++ m) = Ok d1) by (unfold read_file; now rewrite M).
  apply (n_additions (moved_down (line_count a) (line_count m))) in H2. rewrite <- lines_moved in H2 by assumption.
  assert (N : additions_block dl (lines_after (a ++ m) []) [] []) by (rewrite lines_after_eq by exact E'; constructor).
  assert (Fi : fits ((a ++ m) ++ b) [] [] []) by (right; auto). assert (K : keeps_rules (map (ren_addition (moved_down (line_count a) (line_count m))) bs) []) by (right; exact I).
  assert (B' : build_gherkin_model pr name ((a ++ m) ++ b ++ []) dir = Ok (RSuite x', n)) by (now rewrite app_nil_r, <- app_assoc).
  destruct (out_ pr name dir (a ++ m) b [] d1 f1 lang dl _ _ [] [] M E' Fi R1 F1 L1 D H2 N K x' n B') as [y [n' By]].
  destruct (both_ pr name dir (a ++ m) b [] d1 f1 lang dl _ _ [] [] M E' Fi R1 F1 L1 D H2 N K y n' x' n By B') as [-> [[t1 [t2 [new [T1 [T2 [T3 T4]]]]]] Se]].
  destruct t2; [|discriminate T4]. cbn [map] in T2. rewrite app_nil_r in T1, T2, By. exists y, new. rewrite T1, T2, T3, tests_ren. auto.
Qed.

(** C77.  Put in: if [a] and [b] together are a suite, then so are [a] and [m], and [a], [m], [b]: its tests are exactly those of [a], then those of [m],
    exactly as in the suite of [a] and [m], then those of [b], exactly as in the suite of [a] and [b] but some lines further down.
    (The names of the columns in [m] are plain words, so that the compiler does not fail: C25.) *)
Theorem C77_suite : forall printable name dir a m b x n d f lang dl ms cm bs cb, is_markdown name = false -> ended a -> ended (a ++ m) ->
  read_file name a = Ok d -> gd_feature d = Some f -> fe_language f = Some lang -> for_name lang = Some dl ->
  additions_block dl (lines_after a m) ms cm -> additions_block dl (lines_after a b) bs cb -> keeps_rules ms bs ->
  Forall PickleSpec.plain (flat_map addition_headers ms) ->
  build_gherkin_model printable name (a ++ b) dir = Ok (RSuite x, n) ->
  exists y x', build_gherkin_model printable name (a ++ m) dir = Ok (RSuite y, n) /\ build_gherkin_model printable name (a ++ m ++ b) dir = Ok (RSuite x', n) /\
    with_tests ms bs (moved_down (line_count a) (line_count m)) x y x'.
Proof.
  intros pr name dir a m b x n d f lang dl ms cm bs cb M E E' R F L D H1 H2 K Pl B. assert (Fi : fits (a ++ m) b bs cb) by now left.
  destruct (in_ pr name dir a m b d f lang dl ms cm bs cb M E Fi R F L D H1 H2 K x n Pl B) as [x' [n' B']].
  destruct (both_ pr name dir a m b d f lang dl ms cm bs cb M E Fi R F L D H1 H2 K x n x' n' B B') as [-> [[t1 [t2 [new [T1 [T2 [T3 T4]]]]]] Se]].
  destruct (first_ pr name dir a m b d f lang dl ms cm bs cb M E E' R F L D H1 H2 x' n B') as [y [last [By [U1 [U2 U3]]]]].
  exists y, x'. split; [exact By|]. split; [exact B'|]. split; [|split; assumption]. exists t1, t2, new. rewrite T2, app_assoc in U1. apply app_eq_end in U1 as [U1 _]; [|now rewrite map_length, T4, U2]. auto.
Qed.
Print Assumptions C77_suite.
(** C77.  Taken out: if [a], [m], [b] are a suite, then so are [a] and [b], and [a] and [m], with the same tests but for those left out. *)
Theorem C77_removed : forall printable name dir a m b x' n d f lang dl ms cm bs cb, is_markdown name = false -> ended a -> ended (a ++ m) ->
  read_file name a = Ok d -> gd_feature d = Some f -> fe_language f = Some lang -> for_name lang = Some dl ->
  additions_block dl (lines_after a m) ms cm -> additions_block dl (lines_after a b) bs cb -> keeps_rules ms bs ->
  build_gherkin_model printable name (a ++ m ++ b) dir = Ok (RSuite x', n) ->
  exists x y, build_gherkin_model printable name (a ++ b) dir = Ok (RSuite x, n) /\ build_gherkin_model printable name (a ++ m) dir = Ok (RSuite y, n) /\
    with_tests ms bs (moved_down (line_count a) (line_count m)) x y x'.
Proof.
  intros pr name dir a m b x' n d f lang dl ms cm bs cb M E E' R F L D H1 H2 K B'. assert (Fi : fits (a ++ m) b bs cb) by now left.
  destruct (out_ pr name dir a m b d f lang dl ms cm bs cb M E Fi R F L D H1 H2 K x' n B') as [x [n' B]].
  destruct (both_ pr name dir a m b d f lang dl ms cm bs cb M E Fi R F L D H1 H2 K x n' x' n B B') as [-> [[t1 [t2 [new [T1 [T2 [T3 T4]]]]]] Se]].
  destruct (first_ pr name dir a m b d f lang dl ms cm bs cb M E E' R F L D H1 H2 x' n' B') as [y [last [By [U1 [U2 U3]]]]].
  exists x, y. split; [exact B|]. split; [exact By|]. split; [|split; assumption]. exists t1, t2, new. rewrite T2, app_assoc in U1. apply app_eq_end in U1 as [U1 _]; [|now rewrite map_length, T4, U2]. auto.
Qed.
Print Assumptions C77_removed.

(** ** A concrete case: an outline of another file put between a rule's scenario and the next rule *)
Definition c77_rule : str := text_of_lines [s "Feature: h"; s "  Rule: q"; s "    Background:"; s "      Given c"; s "    Scenario: last"; s "      Then z"].
Definition get {A} (x : A) (o : option A) : A := match o with Some y => y | None => x end.
Definition c77_f0 : feature := mkFeature [] (mkLoc 0 None) None None None [] None [] [].
Definition doc_of (t : str) : gdoc := match parse_with false false (s "en") t with Ok d => d | Err _ => mkGdoc None [] end.
Definition c77_d : gdoc := Eval vm_compute in doc_of c65_a.
Definition c77_dg : gdoc := Eval vm_compute in doc_of c65_b.
Definition c77_dh : gdoc := Eval vm_compute in doc_of c77_rule.
Definition c77_f : feature := Eval vm_compute in get c77_f0 (gd_feature c77_d).
Definition c77_g : feature := Eval vm_compute in get c77_f0 (gd_feature c77_dg).
Definition c77_h : feature := Eval vm_compute in get c77_f0 (gd_feature c77_dh).
Definition c77_sc : scenario := Eval vm_compute in get (mkScenario 0 [] (mkLoc 0 None) None None [] [] []) (hd_error (fe_scenarios c77_g)).
Definition c77_ru : rule_ast := Eval vm_compute in get (mkRule 0 [] (mkLoc 0 None) None None [] None []) (hd_error (fe_rules c77_h)).
Definition c77_dl : dialect := Eval vm_compute in get (mkDialect [] [] [] [] [] [] [] [] [] [] []) (for_name (s "en")).
Definition c77_m : str := Eval vm_compute in addition_text c77_dl (AddScenario c77_sc).
Definition c77_b : str := Eval vm_compute in addition_text c77_dl (AddRule c77_ru).
Lemma c77_pg : parse_with false false (s "en") c65_b = Ok c77_dg.
Proof. vm_compute. reflexivity. Qed.
Lemma c77_ph : parse_with false false (s "en") c77_rule = Ok c77_dh.
Proof. vm_compute. reflexivity. Qed.
Lemma c77_lang : for_name (s "en") = Some c77_dl.
Proof. vm_compute. reflexivity. Qed.
Lemma c77_ended : ended c65_a.
Proof. exists (removelast c65_a). vm_compute. reflexivity. Qed.
Lemma c77_m_eq : addition_text c77_dl (AddScenario c77_sc) = c77_m.
Proof. vm_compute. reflexivity. Qed.
Lemma c77_b_eq : addition_text c77_dl (AddRule c77_ru) = c77_b.
Proof. vm_compute. reflexivity. Qed.
Lemma c77_headers : scenario_headers c77_sc = [s "x"; s "y"].
Proof. vm_compute. reflexivity. Qed.
Lemma block_one d ls x : addition_block d ls x [] -> additions_block d ls [x] [].
Proof. intros H. unfold additions_block. rewrite <- (app_nil_r ls). change (@nil comment) with (@nil comment ++ @nil comment). constructor; [exact H | constructor]. Qed.
Lemma headers_plain sc sc' : plain_scenario sc' = plain_scenario sc -> scenario_headers sc' = scenario_headers sc.
Proof.
  intros Pa. apply (f_equal sc_examples) in Pa. cbn in Pa. unfold scenario_headers. revert Pa. generalize (sc_examples sc) (sc_examples sc'). intros l l'. revert l. clear.
  induction l' as [|x l' IH]; intros [|y l] E; try discriminate E; [reflexivity|]. cbn [map] in E. assert (E1 : plain_examples x = plain_examples y) by congruence. assert (E2 : map plain_examples l' = map plain_examples l) by congruence.
  cbn [flat_map]. rewrite (IH l E2). f_equal. apply (f_equal ex_header) in E1. cbn in E1. destruct (ex_header x) as [hx|], (ex_header y) as [hy|]; try discriminate E1; [|reflexivity]. cbn in E1. injection E1 as E1.
  apply (f_equal (map cell_value)) in E1. rewrite !map_map in E1. exact E1.
Qed.
Lemma c77_ms : exists ms, additions_block c77_dl (lines_after c65_a c77_m) ms [] /\ only_scenarios ms /\ Forall PickleSpec.plain (flat_map addition_headers ms).
Proof.
  destruct (C54_returned false (s "en") c65_b c77_dg c77_g en_supported c77_pg eq_refl) as [n [dl [L [D O]]]]. assert (n = s "en") by (now injection L as <-). subst n. rewrite c77_lang in D. injection D as <-.
  assert (I1 : stands_in (AddScenario c77_sc) c77_g) by (left; left; reflexivity).
  destruct (written_block (s "en") c77_dl c65_a (AddScenario c77_sc) c77_lang c77_ended (stands_ok c77_dl _ c77_g O I1)) as [[sc'|] [B P]]; [|discriminate P].
  exists [AddScenario sc']. rewrite c77_m_eq in B. split; [now apply block_one|]. split; [repeat constructor|]. cbn [flat_map addition_headers]. assert (P0 : plain_scenario sc' = plain_scenario c77_sc) by (exact (f_equal (fun a => match a with AddScenario x => x | AddRule _ => c77_sc end) P)). rewrite app_nil_r, (headers_plain c77_sc sc' P0). rewrite c77_headers.
  repeat (constructor; [apply plain_word; vm_compute; reflexivity|]). constructor.
Qed.
Lemma c77_bs : exists bs, additions_block c77_dl (lines_after c65_a c77_b) bs [] /\ own_rules bs.
Proof.
  destruct (C54_returned false (s "en") c77_rule c77_dh c77_h en_supported c77_ph eq_refl) as [n [dl [L [D O]]]]. assert (n = s "en") by (now injection L as <-). subst n. rewrite c77_lang in D. injection D as <-.
  assert (I1 : stands_in (AddRule c77_ru) c77_h) by (left; reflexivity).
  destruct (written_block (s "en") c77_dl c65_a (AddRule c77_ru) c77_lang c77_ended (stands_ok c77_dl _ c77_h O I1)) as [[|ru'] [B P]]; [discriminate P|].
  exists [AddRule ru']. rewrite c77_b_eq in B. split; [now apply block_one | exact I].
Qed.
Example C77_case : exists d f ms bs, read_file (s "a.feature") c65_a = Ok d /\ gd_feature d = Some f /\ fe_language f = Some (s "en") /\ for_name (s "en") = Some c77_dl /\
  ended c65_a /\ ended (c65_a ++ c77_m) /\ additions_block c77_dl (lines_after c65_a c77_m) ms [] /\ additions_block c77_dl (lines_after c65_a c77_b) bs [] /\ keeps_rules ms bs /\
  Forall PickleSpec.plain (flat_map addition_headers ms).
Proof.
  destruct c77_ms as [ms [M1 [M2 M3]]], c77_bs as [bs [B1 B2]]. exists c77_d, c77_f, ms, bs. split; [vm_compute; reflexivity|]. split; [reflexivity|]. split; [reflexivity|]. split; [exact c77_lang|]. split; [exact c77_ended|].
  split; [exists (removelast (c65_a ++ c77_m)); vm_compute; reflexivity|]. split; [exact M1|]. split; [exact B1|]. split; [now left | exact M3].
Qed.
Example C77_case_suites : exists x y, build_gherkin_model (fun _ => true) (s "a.feature") (c65_a ++ c77_b) None = Ok (RSuite x, Some (s "f")) /\ build_gherkin_model (fun _ => true) (s "a.feature") (c65_a ++ c77_m ++ c77_b) None = Ok (RSuite y, Some (s "f")) /\
  map (fun t => (rt_name t, rt_line t, map rc_line (rt_calls t))) (rs_tests x) = [(s "s", 6, [5; 7]); (s "e", 9, [5; 10]); (s "last", 16, [5; 15; 17])] /\
  map (fun t => (rt_name t, rt_line t)) (rs_tests y) = [(s "s", 6); (s "e", 9); (s "o 1 x = 1 y = 2", 14); (s "o 3 x = 3 y = 4", 14); (s "last", 29)].
Proof. do 2 eexists. split; [vm_compute; reflexivity|]. split; [vm_compute; reflexivity|]. split; vm_compute; reflexivity. Qed.
