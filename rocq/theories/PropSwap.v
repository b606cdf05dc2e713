(** * The order of the scenarios in a file: C80 *)
From Verif Require Import PyStr PyStrFacts Types Regex Line DialectData Matcher Ast Parser Compiler LineSpec LangSpec DocSpec PartsSpec Parts PickleSpec PickleFacts PropLine PropParse PropCompile PropDoc Glob Robot RobotSpec SuiteSpec RobotFacts PropRobot EssenceSpec EssenceFacts PropEssence WriteBack WriteRead PropWrite PropAppend MiddleSpec Renumber Units PropMiddle.

Section Swap.
Context (pr : char -> bool) (name : str) (dir : option (list (str * entry))) (a m b : str) (d : gdoc) (f : feature) (lang : str) (dl : dialect) (ms : list addition) (cm : list comment) (bs : list addition) (cb : list comment)
  (M : is_markdown name = false) (E : ended a) (Em : ended (a ++ m)) (Eb : ended (a ++ b)) (R : read_file name a = Ok d) (F : gd_feature d = Some f) (L : fe_language f = Some lang) (D : for_name lang = Some dl)
  (H1 : additions_block dl (lines_after a m) ms cm) (H2 : additions_block dl (lines_after a b) bs cb) (K : keeps_rules ms bs) (K' : keeps_rules bs ms).
Lemma swap_builds x n : build_gherkin_model pr name (a ++ m ++ b) dir = Ok (RSuite x, n) -> exists y n', build_gherkin_model pr name (a ++ b ++ m) dir = Ok (RSuite y, n').
Proof.
  intros B. destruct (long_ name a m b d f lang dl ms cm bs cb M E (or_introl Em) R F L D H1 H2 K) as [d' [f' [R2 [F' [_ [_ C2]]]]]].
  destruct (long_ name a b m d f lang dl bs cb ms cm M E (or_introl Eb) R F L D H2 H1 K') as [d3 [f3 [R3 [F3 [_ [_ C3]]]]]].
  pose proof (G_ name a m d f M R F) as G1. pose proof (G_ name a b d f M R F) as G2.
  pose proof (build_eq pr name (a ++ m ++ b) dir) as B2. pose proof (build_eq pr name (a ++ b ++ m) dir) as B3. rewrite R2, F' in B2. rewrite R3, F3 in B3.
  destruct (compile d' 0) as [[ps i]|er] eqn:Ce; [|rewrite B2 in B; discriminate B].
  match type of C2 with same_pickles _ ?z => destruct z as [[qs k]|er] eqn:Cq; [|contradiction C2] end.
  rewrite seq_app_ in Cq. apply then_ok in Cq as [q1 [q2 [C1 [Cq _]]]]. rewrite seq_app_ in Cq. apply then_ok in Cq as [qm [qb [Cm [Cb _]]]].
  pose proof (units_same _ _ lang (added_units (last_rule (no_id_feature f)) bs) G1 (snd q1) (snd qm)) as S1. rewrite Cb in S1. destruct qb as [pb nb].
  match type of S1 with same_pickles ?z _ => destruct z as [qb'|er] eqn:Cb'; [|contradiction S1] end.
  pose proof (units_same _ _ lang (added_units (last_rule (no_id_feature f)) ms) G2 (snd q1) (snd qb')) as S2. rewrite Cm in S2. destruct qm as [pm nm].
  match type of S2 with same_pickles _ ?z => destruct z as [qm'|er] eqn:Cm'; [|contradiction S2] end.
  destruct (then_do _ (compile_seq (ucompile (no_id_feature f) lang) (map (g_unit (moved_down (line_count a) (line_count b))) (added_units (last_rule (no_id_feature f)) ms))) _ _ Cb' Cm') as [j Cj]. rewrite <- seq_app_ in Cj.
  destruct (then_do _ (compile_seq (ucompile (no_id_feature f) lang) _) _ _ C1 Cj) as [k' Ck]. rewrite <- seq_app_ in Ck. rewrite Ck in C3.
  destruct (compile d3 0) as [[ps' i']|er]; [|contradiction C3]. destruct B3 as [su [W _]]. eauto.
Qed.
End Swap.

(** C80.  A text [a] with a feature; scenarios and rules in [m], and in [b], that can follow it (in either order without a scenario coming under
    another rule).  If [a], [m], [b] are a suite, then so are [a], [b], [m]: with the same settings and the same tests in
    the other order, only moved to other lines. *)
Theorem C80_order : forall printable name dir a m b x n d f lang dl ms cm bs cb, is_markdown name = false -> ended a -> ended (a ++ m) -> ended (a ++ b) ->
  read_file name a = Ok d -> gd_feature d = Some f -> fe_language f = Some lang -> for_name lang = Some dl ->
  additions_block dl (lines_after a m) ms cm -> additions_block dl (lines_after a b) bs cb -> keeps_rules ms bs -> keeps_rules bs ms ->
  build_gherkin_model printable name (a ++ m ++ b) dir = Ok (RSuite x, n) ->
  exists y t1 tm tb, build_gherkin_model printable name (a ++ b ++ m) dir = Ok (RSuite y, n) /\
    rs_tests x = t1 ++ tm ++ map (ren_test (moved_down (line_count a) (line_count m))) tb /\
    rs_tests y = t1 ++ tb ++ map (ren_test (moved_down (line_count a) (line_count b))) tm /\
    length tm = additions_tests ms /\ length tb = additions_tests bs /\ same_settings x y.
Proof.
  intros pr name dir a m b x n d f lang dl ms cm bs cb M E Em Eb R F L D H1 H2 K K' B.
  destruct (swap_builds pr name dir a m b d f lang dl ms cm bs cb M E Em Eb R F L D H1 H2 K K' x n B) as [y [n' B']].
  destruct (C77_removed pr name dir a m b x n d f lang dl ms cm bs cb M E Em R F L D H1 H2 K B) as [xb [xm [Bb [Bm [[t1 [tb [tm [T1 [T2 [T3 [T4 T5]]]]]]] [S1 S2]]]]]].
  destruct (C77_removed pr name dir a b m y n' d f lang dl bs cb ms cm M E Eb R F L D H2 H1 K' B') as [xm' [xb' [Bm' [Bb' [[u1 [um [ub [U1 [U2 [U3 [U4 U5]]]]]]] [V1 V2]]]]]].
  rewrite Bm in Bm'. injection Bm' as <- <-. rewrite Bb in Bb'. injection Bb' as <-.
  rewrite T1 in U2. apply app_eq_end in U2 as [-> ->]; [|congruence]. rewrite T2 in U1. apply app_eq_end in U1 as [_ ->]; [|congruence].
  exists y, t1, tm, tb. split; [exact B'|]. split; [exact T3|]. split; [exact U3|]. split; [exact T4|]. split; [exact T5|].
  destruct S1 as [? [? [? [? ?]]]], V2 as [? [? [? [? ?]]]]. repeat split; congruence.
Qed.
Print Assumptions C80_order.

(** ** A concrete case: an outline and a scenario change places *)
Definition c80_text : str := text_of_lines [s "Feature: k"; s "  @t"; s "  Scenario: other"; s "    When q"; s "      | 1 |"].
Definition c80_d : gdoc := Eval vm_compute in doc_of c80_text.
Definition c80_f : feature := Eval vm_compute in get c77_f0 (gd_feature c80_d).
Definition c80_sc : scenario := Eval vm_compute in get c77_sc (hd_error (fe_scenarios c80_f)).
Definition c80_b : str := Eval vm_compute in addition_text c77_dl (AddScenario c80_sc).
Lemma c80_p : parse_with false false (s "en") c80_text = Ok c80_d.
Proof. vm_compute. reflexivity. Qed.
Lemma c80_b_eq : addition_text c77_dl (AddScenario c80_sc) = c80_b.
Proof. vm_compute. reflexivity. Qed.
Lemma c80_bs : exists bs, additions_block c77_dl (lines_after c65_a c80_b) bs [] /\ only_scenarios bs.
Proof.
  destruct (C54_returned false (s "en") c80_text c80_d c80_f en_supported c80_p eq_refl) as [n [dl [L [D O]]]]. assert (n = s "en") by (now injection L as <-). subst n. rewrite c77_lang in D. injection D as <-.
  assert (I1 : stands_in (AddScenario c80_sc) c80_f) by (left; left; reflexivity).
  destruct (written_block (s "en") c77_dl c65_a (AddScenario c80_sc) c77_lang c77_ended (stands_ok c77_dl _ c80_f O I1)) as [[sc'|ru'] [B P]]; [|discriminate P].
  exists [AddScenario sc']. rewrite c80_b_eq in B. split; [now apply block_one | repeat constructor].
Qed.
Example C80_case : exists d f ms bs, read_file (s "a.feature") c65_a = Ok d /\ gd_feature d = Some f /\ fe_language f = Some (s "en") /\ for_name (s "en") = Some c77_dl /\
  ended c65_a /\ ended (c65_a ++ c77_m) /\ ended (c65_a ++ c80_b) /\ additions_block c77_dl (lines_after c65_a c77_m) ms [] /\ additions_block c77_dl (lines_after c65_a c80_b) bs [] /\ keeps_rules ms bs /\ keeps_rules bs ms.
Proof.
  destruct c77_ms as [ms [M1 [M2 _]]], c80_bs as [bs [B1 B2]]. exists c77_d, c77_f, ms, bs. split; [vm_compute; reflexivity|]. split; [reflexivity|]. split; [reflexivity|]. split; [exact c77_lang|]. split; [exact c77_ended|].
  split; [exists (removelast (c65_a ++ c77_m)); vm_compute; reflexivity|]. split; [exists (removelast (c65_a ++ c80_b)); vm_compute; reflexivity|]. split; [exact M1|]. split; [exact B1|]. split; now left.
Qed.
Example C80_case_suites : exists x y, build_gherkin_model (fun _ => true) (s "a.feature") (c65_a ++ c77_m ++ c80_b) None = Ok (RSuite x, Some (s "f")) /\ build_gherkin_model (fun _ => true) (s "a.feature") (c65_a ++ c80_b ++ c77_m) None = Ok (RSuite y, Some (s "f")) /\
  map (fun t => (rt_name t, rt_line t)) (rs_tests x) = [(s "s", 6); (s "e", 9); (s "o 1 x = 1 y = 2", 14); (s "o 3 x = 3 y = 4", 14); (s "other", 27)] /\
  map (fun t => (rt_name t, rt_line t)) (rs_tests y) = [(s "s", 6); (s "e", 9); (s "other", 14); (s "o 1 x = 1 y = 2", 18); (s "o 3 x = 3 y = 4", 18)].
Proof. do 2 eexists. split; [vm_compute; reflexivity|]. split; [vm_compute; reflexivity|]. split; vm_compute; reflexivity. Qed.
