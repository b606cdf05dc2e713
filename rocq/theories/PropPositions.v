(** * Positions in the Robot suite: C64 *)
From Verif Require Import PyStr PyStrFacts Types Regex Line DialectData Matcher Ast Parser Compiler LineSpec LangSpec DocSpec PartsSpec Parts PickleSpec PickleFacts PropLine PropParse PropCompile PropPlaces Glob Robot RobotSpec SuiteSpec RobotFacts PropRobot RelayFacts.

(** ** Specification *)
(** line [n] of the file [lines], counted from 1, has only white space before column [col], counted from 0, and there stands [rest],
    which begins with a visible character *)
Definition stands_at (lines : list nline) (n col : nat) (rest : str) : Prop :=
  exists ind, In (n, ind ++ rest) lines /\ length ind = col /\ all_space ind /\ lstrip rest = rest.
(** the keyword call [c] for the pickle step [q] is where a step begins, with its keyword (left out for the type Unknown); if the scenario has no
    examples, it also has the text of that line *)
Definition call_at (lines : list nline) (d : dialect) (outline : bool) (q : pstep) (c : rcall) : Prop :=
  exists kw rest text, stands_at lines (rc_line c) (rc_col c) (kw ++ rest) /\ In kw (all_step_keywords d) /\
    rc_name c = match ps_type q with Some KtUnknown => [] | _ => kw end ++ text /\ (outline = false -> text = strip rest).
(** the test [t] for the pickle [p] from [o] is where its scenario begins; without examples it has the name that stands there *)
Definition test_at (lines : list nline) (d : dialect) (o : origin) (p : pickle) (t : rtest) : Prop :=
  let outline := match o_row o with None => false | Some _ => true end in
  (exists kw rest, stands_at lines (rt_line t) (rt_col t) (kw ++ s ":" ++ rest) /\ In kw (scenario_keywords d) /\
     (outline = false -> rt_name t = strip rest)) /\
  Forall2 (call_at lines d outline) (pk_steps p) (rt_calls t).

Lemma here_at lines (l : nline) : In l lines -> stands_at lines (fst l) (indent_of (snd l) + 1 - 1) (lstrip (snd l)).
Proof.
  intros H. destruct (lead (snd l)) as [ind [E A]]. exists ind. split; [rewrite <- E; now destruct l|].
  split; [|split; [exact A | apply lstrip_idem]]. unfold indent_of. rewrite E at 1. rewrite app_length. lia.
Qed.
Lemma scenario_of_origin f o : In o (feature_origins f) -> In (o_scenario o) (feature_scenarios f).
Proof.
  intros H. apply origin_in_doc in H as [H _]. unfold feature_scenarios. apply in_or_app. destruct (o_rule o) as [ru|]; [|now left]. right. apply in_flat_map. exists ru. exact H.
Qed.
Lemma steps_of_origin f o st : In o (feature_origins f) -> In st (origin_steps f o) -> In st (feature_steps f).
Proof.
  intros H Hs. unfold feature_steps. unfold origin_steps in Hs. apply in_app_or in Hs as [Hs|Hs]; apply in_or_app.
  - left. apply in_flat_map. unfold inherited_steps in Hs. destruct (sc_steps (o_scenario o)); [destruct Hs|]. apply in_app_or in Hs as [Hs|Hs]; unfold feature_backgrounds.
    + unfold background_steps in Hs. destruct (fe_background f) as [b|]; [|destruct Hs]. exists b. split; [now left | exact Hs].
    + apply origin_in_doc in H as [H _]. destruct (o_rule o) as [ru|]; [|destruct Hs]. unfold background_steps in Hs. destruct (ru_background ru) as [b|] eqn:E; [|destruct Hs]. exists b. split; [|exact Hs].
      apply in_or_app. right. apply in_flat_map. exists ru. split; [now destruct H|]. rewrite E. now left.
  - right. apply in_flat_map. exists (o_scenario o). split; [now apply scenario_of_origin | exact Hs].
Qed.
Lemma step_keyword d x kw text : step_line d x kw text -> exists rest, lstrip x = kw ++ rest /\ text = strip rest /\ In kw (all_step_keywords d).
Proof. intros [before [after [rest [E [_ [E1 E2]]]]]]. exists rest. split; [exact E1|]. split; [exact E2|]. rewrite E. apply in_elt. Qed.
Lemma calls_at lines d f o : In o (feature_origins f) -> PropPlaces.located lines d f -> forall sts qs cs, incl sts (origin_steps f o) ->
  Forall3 call_of sts qs cs -> (o_row o = None -> Forall2 (step_filled []) sts qs) ->
  Forall2 (call_at lines d (match o_row o with None => false | Some _ => true end)) qs cs.
Proof.
  intros Ho L sts qs cs I F. induction F as [|st q c sts qs cs C F IH]; intros N; constructor.
  - destruct C as [[kw [K E]] [_ [Ln [col [Cl Cc]]]]]. destruct (loc_steps _ _ _ L st) as [l [kw' [text [Hl [S [Loc [K' T]]]]]]]; [eapply steps_of_origin; [exact Ho | apply I; now left]|].
    assert (kw' = kw) as -> by congruence. destruct (step_keyword _ _ _ _ S) as [rest [E1 [E2 E3]]]. rewrite Loc in Ln, Cl. cbn in Ln, Cl. injection Cl as <-.
    exists kw, rest, (ps_text q). split; [rewrite Ln, Cc, <- E1; now apply here_at|]. split; [exact E3|]. split; [exact E|]. intros O. destruct (o_row o); [discriminate O|].
    specialize (N eq_refl). inversion N as [|? ? ? ? [[x [Tx Fx]] _] _]; subst. apply filled_nil in Fx. congruence.
  - apply IH; [intros z Hz; apply I; now right|]. intros E. specialize (N E). now inversion N.
Qed.

(** C64.  In a suite built from a classic feature file, every test is placed where its scenario begins in the file, and
    every keyword call where its step begins. *)
Theorem C64_positions : forall printable name content dir su n, is_markdown name = false ->
  build_gherkin_model printable name content dir = Ok (RSuite su, n) ->
  exists doc f language d ps id', read_file name content = Ok doc /\ gd_feature doc = Some f /\ fe_language f = Some language /\ for_name language = Some d /\
    compile doc 0 = Ok (ps, id') /\ Forall3 (test_at (numbered_lines (split_lines content)) d) (origins doc) ps (rs_tests su).
Proof.
  intros pr name content dir su n M H. destruct (C30_tests_and_calls _ _ _ _ _ _ H) as [doc [f [ps [id' [E [F [C [_ [_ T]]]]]]]]].
  pose proof E as P. unfold read_file in P. rewrite M in P. destruct (C05_locations false (s "en") content doc f en_supported P F) as [language [d [D [Lf L]]]].
  exists doc, f, language, d, ps, id'. repeat (split; [assumption|]). pose proof (C24_placeholders_filled doc f 0 ps id' F C) as Fi.
  assert (I : incl (origins doc) (feature_origins f)) by (unfold origins; rewrite F; apply incl_refl). clear C H E.
  induction T as [|o p t os ps ts T1 T IH]; constructor; [|apply IH; [now inversion Fi | intros z Hz; apply I; now right]].
  assert (Ho : In o (feature_origins f)) by (apply I; now left). inversion Fi as [|? ? ? ? Fo _]; subst. destruct T1 as [Tn [_ [_ [Tc [Tl [col [Tcol Tcc]]]]]]].
  destruct (loc_scenarios _ _ _ L (o_scenario o) (scenario_of_origin _ _ Ho)) as [l [kw [nm [Hl [[Kin [rest [Er Es]]] [Loc [Kw Nm]]]]]]].
  split.
  - exists kw, rest. rewrite Loc in Tl, Tcol. cbn in Tl, Tcol. injection Tcol as <-. split; [rewrite Tl, Tcc; change (s ":" ++ rest) with (ch_colon :: rest); rewrite <- Er; now apply here_at|]. split; [exact Kin|].
    intros O. destruct (o_row o) as [|] eqn:Eo; [discriminate O|]. rewrite app_nil_r in Tn. destruct Fo as [[n' [N1 N2]] _]; [unfold header_names; rewrite Eo; constructor|].
    unfold columns in N2. rewrite Eo in N2. apply filled_nil in N2. congruence.
  - eapply calls_at; eauto; [apply incl_refl|]. intros Eo. destruct Fo as [_ [p1 [p2 [-> [F1 F2]]]]]; [unfold header_names; rewrite Eo; constructor|]. unfold columns in F2. rewrite Eo in F2.
    unfold origin_steps. now apply Forall2_app.
Qed.
Print Assumptions C64_positions.

Definition c64_text : str := text_of_lines [s "# c"; s "Feature: f"; s "  Background:"; s "     * b"; s "  Scenario:   s  "; s "    Given   x "; s "      | 1 |"; s "  Scenario Outline: o <h>"; s "	When <h>"; s "   Examples:"; s "     |h|"; s "     |v|"].
Example C64_case : exists su n, build_gherkin_model (fun _ => true) (s "a.feature") c64_text None = Ok (RSuite su, n) /\
  map (fun t => (rt_name t, (rt_line t, rt_col t), map (fun c => (rc_name c, (rc_line c, rc_col c))) (rt_calls t))) (rs_tests su) =
  [(s "s", (5, 2), [(s "b", (4, 5)); (s "Given x", (6, 4))]); (s "o v h = v", (8, 2), [(s "b", (4, 5)); (s "When v", (9, 1))])].
Proof. do 2 eexists. split; vm_compute; reflexivity. Qed.
