(** * Positions in the Robot suite of a Markdown file: C75 *)
From Verif Require Import PyStr PyStrFacts Types Regex Line DialectData Matcher Ast Parser Compiler LineSpec LangSpec DocSpec PartsSpec Parts PickleSpec PickleFacts PropLine PropParse PropCompile Glob Robot RobotSpec SuiteSpec RobotFacts PropRobot RelayFacts PropPositions MdSpec MdPlaceSpec PropMdPlaces.

(** ** Specification *)
(** the keyword call [c] for the pickle step [q]: in its line, after exactly [rc_col c] characters that form a bullet, stands a step keyword;
    the name of the call begins with it (left out for the type Unknown); if the scenario has no examples, the rest of the line follows *)
Definition md_call_at (lines : list nline) (d : dialect) (outline : bool) (q : pstep) (c : rcall) : Prop :=
  exists ind b gap kw rest e text, In (rc_line c, (ind ++ [b] ++ gap) ++ kw ++ rest ++ e) lines /\ length (ind ++ [b] ++ gap) = rc_col c /\
    all_space ind /\ In b (s "*+-") /\ all_space gap /\ line_end e /\ In kw (all_step_keywords d) /\
    rc_name c = match ps_type q with Some KtUnknown => [] | _ => kw end ++ text /\ (outline = false -> text = strip rest).
(** the test [t]: in its line, after exactly [rt_col t] characters that form the marks of a header, stands a keyword for scenarios and a colon;
    without examples the test has the name that follows *)
Definition md_test_at (lines : list nline) (d : dialect) (o : origin) (p : pickle) (t : rtest) : Prop :=
  let outline := match o_row o with None => false | Some _ => true end in
  (exists ind h c kw rest e, In (rt_line t, (ind ++ repeat ch_hash h ++ [c]) ++ kw ++ s ":" ++ rest ++ e) lines /\ length (ind ++ repeat ch_hash h ++ [c]) = rt_col t /\
     all_space ind /\ (1 <= h <= 6)%nat /\ is_space c = true /\ line_end e /\ In kw (scenario_keywords d) /\
     (outline = false -> rt_name t = strip rest)) /\
  Forall2 (md_call_at lines d outline) (pk_steps p) (rt_calls t).

Lemma md_calls_at lines d f o : In o (feature_origins f) -> md_located lines d f -> forall sts qs cs, incl sts (origin_steps f o) ->
  Forall3 call_of sts qs cs -> (o_row o = None -> Forall2 (step_filled []) sts qs) ->
  Forall2 (md_call_at lines d (match o_row o with None => false | Some _ => true end)) qs cs.
Proof.
  intros Ho L sts qs cs I F. induction F as [|st q c sts qs cs C F IH]; intros N; constructor.
  - destruct C as [[kw [K E]] [_ [Ln [col [Cl Cc]]]]]. destruct (mloc_steps _ _ _ L st) as [l [kw' [text [col' [Hl [S [Loc [K' [T _]]]]]]]]]; [eapply steps_of_origin; [exact Ho | apply I; now left]|].
    assert (kw' = kw) as -> by congruence. destruct S as [ind [b [gap [rest [before [after [y [e [[B1 [B2 [B3 [_ B5]]]] [Ke [R [_ [He [_ [Tx Ec]]]]]]]]]]]]]]]. rewrite Loc in Ln, Cl. cbn in Ln, Cl. injection Cl as <-.
    exists ind, b, gap, kw, y, e, (ps_text q). split; [rewrite Ln|].
    { assert (Ex : snd l = (ind ++ [b] ++ gap) ++ kw ++ y ++ e) by (rewrite B5, R, <- !app_assoc; reflexivity). destruct l as [m x]. cbn [fst snd] in *. rewrite <- Ex. exact Hl. }
    split; [rewrite Cc, Ec, !app_length; cbn [length]; lia|]. split; [exact B1|]. split; [cbn; intuition|]. split; [exact B3|]. split; [exact He|].
    split; [rewrite Ke; apply in_elt|]. split; [exact E|]. intros O. destruct (o_row o); [discriminate O|].
    specialize (N eq_refl). inversion N as [|? ? ? ? [[x [Tx' Fx]] _] _]; subst. apply filled_nil in Fx. congruence.
  - apply IH; [intros z Hz; apply I; now right|]. intros E. specialize (N E). now inversion N.
Qed.

(** C75.  In a suite built from a Markdown file, every test is placed at the keyword of its scenario's header, and every keyword call at
    the keyword of its step's bullet. *)
Theorem C75_markdown_positions : forall printable name content dir su n, is_markdown name = true ->
  build_gherkin_model printable name content dir = Ok (RSuite su, n) ->
  exists doc f d ps id', read_file name content = Ok doc /\ gd_feature doc = Some f /\ for_name (s "en") = Some d /\
    compile doc 0 = Ok (ps, id') /\ Forall3 (md_test_at (numbered_lines (split_lines content)) d) (origins doc) ps (rs_tests su).
Proof.
  intros pr name content dir su n M H. destruct (C30_tests_and_calls _ _ _ _ _ _ H) as [doc [f [ps [id' [E [F [C [_ [_ T]]]]]]]]].
  pose proof E as P. unfold read_file in P. rewrite M in P. destruct en_supported as [d D]. destruct (C74_markdown_locations false (s "en") d content doc f D P F) as [_ L].
  exists doc, f, d, ps, id'. repeat (split; [assumption|]). pose proof (C24_placeholders_filled doc f 0 ps id' F C) as Fi.
  assert (I : incl (origins doc) (feature_origins f)) by (unfold origins; rewrite F; apply incl_refl). clear C H E.
  induction T as [|o p t os ps ts T1 T IH]; constructor; [|apply IH; [now inversion Fi | intros z Hz; apply I; now right]].
  assert (Ho : In o (feature_origins f)) by (apply I; now left). inversion Fi as [|? ? ? ? Fo _]; subst. destruct T1 as [Tn [_ [_ [Tc [Tl [col [Tcol Tcc]]]]]]].
  destruct (mloc_scenarios _ _ _ L (o_scenario o) (scenario_of_origin _ _ Ho)) as [l [kw [nm [col' [Hl [Hd [Loc [Kw Nm]]]]]]]].
  split.
  - destruct Hd as [ind h c kw rest e A1 A2 A3 A4 A5 A6 A7]. exists ind, h, c, kw, rest, e. rewrite Loc in Tl, Tcol. cbn in Tl, Tcol. injection Tcol as <-. split; [rewrite Tl|].
    { assert (Ex : snd l = (ind ++ repeat ch_hash h ++ [c]) ++ kw ++ s ":" ++ rest ++ e) by (rewrite A7, <- !app_assoc; reflexivity). destruct l as [m x]. cbn [fst snd] in *. rewrite <- Ex. exact Hl. }
    split; [rewrite Tcc, !app_length, repeat_length; cbn [length]; lia|]. repeat (split; [assumption|]).
    intros O. destruct (o_row o) as [|] eqn:Eo; [discriminate O|]. rewrite app_nil_r in Tn. destruct Fo as [[n' [N1 N2]] _]; [unfold header_names; rewrite Eo; constructor|].
    unfold columns in N2. rewrite Eo in N2. apply filled_nil in N2. congruence.
  - eapply md_calls_at; eauto; [apply incl_refl|]. intros Eo. destruct Fo as [_ [p1 [p2 [-> [F1 F2]]]]]; [unfold header_names; rewrite Eo; constructor|]. unfold columns in F2. rewrite Eo in F2.
    unfold origin_steps. now apply Forall2_app.
Qed.
Print Assumptions C75_markdown_positions.

Definition c75_text : str := text_of_lines [s "# Feature: f"; s "## Background:"; s " -  Given b"; s "  ## Scenario:   s  "; s "* Given   x "; s "| 1 |"; s "### Scenario Outline: o <h>"; s "+ When <h>"; s "#### Examples:"; s "| h |"; s "| - |"; s "| v |"].
Example C75_case : exists su n, build_gherkin_model (fun _ => true) (s "a.feature.md") c75_text None = Ok (RSuite su, n) /\ is_markdown (s "a.feature.md") = true /\
  map (fun t => (rt_name t, (rt_line t, rt_col t), map (fun c => (rc_name c, (rc_line c, rc_col c))) (rt_calls t))) (rs_tests su) =
  [(s "s", (4, 5), [(s "Given b", (3, 4)); (s "Given x", (5, 2))]); (s "o v h = v", (7, 4), [(s "Given b", (3, 4)); (s "When v", (8, 2))])].
Proof. do 2 eexists. split; [vm_compute; reflexivity | split; vm_compute; reflexivity]. Qed.
