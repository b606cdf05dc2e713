(** * The order of the lines in Markdown: what holds of C43; and C51, which fails *)
From Coq Require Import Sorting.Sorted.
From Verif Require Import PyStr PyStrFacts Types Regex Line DialectData Matcher Ast ParserTable Parser Classify Table Scan Grammar Deriv Cert Cst LineSpec StepFacts MdSpec MdFacts MdRun MdTree AnyRun WeakTree PropLine PropParse PropMarkdown PropMdParse MdFirst MdOrder PropMdFirst.

(** the doc string delimiter a line begins with, white space apart *)
Inductive fence (x : str) : str -> Prop :=
| fence_quotes : startswith (s """""""") (lstrip x) = true -> fence x (s """""""")
| fence_four : startswith (s "````") (lstrip x) = true -> fence x (s "````")
| fence_three : startswith (s "```") (lstrip x) = true -> startswith (s "````") (lstrip x) = false -> fence x (s "```").
Lemma fence_ok D x : (forall E, fence x E -> E = D) -> delim_ok D x.
Proof.
  intros H E O. apply H. unfold opener in O. cbn [find delims] in O.
  destruct (startswith sep_quotes (lstrip x)) eqn:E1; [injection O as <-; now apply fence_quotes|].
  destruct (startswith sep_ticks4 (lstrip x)) eqn:E2; [injection O as <-; now apply fence_four|].
  destruct (startswith sep_ticks (lstrip x)) eqn:E3; [injection O as <-; now apply fence_three | discriminate O].
Qed.
(** C43, what holds: if no line has a tag and is also a scenario or examples header, and all doc strings have one kind of delimiter,
    the builder receives the lines in their order; and when the text is accepted, it receives all of them, and then the end of the text. *)
Theorem C43_order_partial : forall stop lang dl text D, for_name lang = Some dl ->
  (forall x, In x (split_lines text) -> has_md_tag x -> forall k n c, ~ header_line (d_scenario dl ++ d_scenarioOutline dl ++ d_examples dl) x k n c) ->
  In D [s """"""""; s "````"; s "```"] -> (forall x E, In x (split_lines text) -> fence x E -> E = D) ->
  exists ms, new_matcher true lang = Ok ms /\
    let r := parse_b fmt_builder stop [] ms (split_lines text) in
    StronglySorted lt (map t_loc_line (c_b (snd r))) /\
    (fst r = Ok tt -> map t_loc_line (c_b (snd r)) = seq 1 (S (length (split_lines text)))).
Proof.
  intros stop lang dl text D Hd Ht HD Hf. destruct (fresh_md_feature lang dl Hd) as [ms [E1 [E2 [E3 [E4 E5]]]]]. exists ms. split; [exact E1|]. cbn zeta.
  set (lines := split_lines text) in *. assert (Hl : lines_ok lines) by apply split_lines_nonempty. assert (Ho : Forall one_line lines) by apply split_lines_one.
  assert (Sp : ms_sep ms = None). { unfold ms_reset in E2. destruct (str_eqb _ _); cbn [rbind] in E2; [|destruct (change_dialect _ _ _); [|discriminate E2]]; cbn in E2; injection E2 as E2; rewrite <- E2; reflexivity. }
  unfold parse_b. rewrite E2.
  assert (A : do_act fmt_builder (new_token [] 0) (AStart RGherkinDocument) (init_ctx stop [] ms lines) = (Ok tt, init_ctx stop [] ms lines)) by (unfold do_act, handle_external, init_ctx; cbn; now destruct stop).
  rewrite A. pose proof (loop_ok lines Hl Ho lang dl Hd D HD) as P.
  specialize (P ltac:(apply Forall_forall; intros x Hx; apply fence_ok; intros E; now apply Hf)).
  specialize (P ltac:(apply Forall_forall; intros x Hx; now apply Ht) (S (length lines)) 0 (init_ctx stop [] ms lines) 0).
  specialize (P ltac:(split; [exact E3|]; split; [exact E5 | left; exact Sp]) ltac:(now right)).
  specialize (P ltac:(constructor; cbn; [reflexivity | reflexivity | intros [|i] t E; discriminate E | constructor]) ltac:(lia)).
  specialize (P ltac:(split; [constructor|]; split; [constructor | reflexivity])).
  destruct (parse_loop fmt_builder (S (length lines)) 0 (init_ctx stop [] ms lines)) as [[u|e] c2]; destruct P as [P1 P2]; cbn [fst snd] in *; [|split; [exact P1 | discriminate]].
  assert (A2 : do_act fmt_builder (new_token [] 0) (AEnd RGherkinDocument) c2 = (Ok tt, c2)) by (unfold do_act, handle_external; destruct c2 as [? ? ? ? ? ? []]; reflexivity).
  rewrite A2. destruct (c_errors c2) eqn:Ee; cbn [fst snd]; (split; [exact P1|]); [intros _; now apply (P2 u) | discriminate].
Qed.
Print Assumptions C43_order_partial.
Definition ordered : str := text_of_lines [s "# Feature: f"; s "`@t` `@u`"; s "## Scenario Outline: a"; s "* Given x"; s "  ```"; s "  d"; s "  ```"; s ""; s "`@v`"; s "prose"; s "`@w`"; s "### Examples:"; s "  | a |"; s "`@x`"; s "## Scenario: b"].
Example C43_partial_case : built_lines md_en ordered = seq 1 16 /\ fst (parse_b fmt_builder false [] md_en (split_lines ordered)) = Ok tt.
Proof. split; vm_compute; reflexivity. Qed.
(** its hypotheses hold of this text *)
Definition b_fence (x : str) : option str := opener x.
Lemma header_no kws x : (match lstrip x with c :: _ => N.eqb c ch_hash | [] => false end) = false -> forall k n c, ~ header_line kws x k n c.
Proof. intros H k n c X. apply header_hash in X as [y X]. rewrite X in H. discriminate H. Qed.
Example C43_partial_hyps : (forall x, In x (split_lines ordered) -> has_md_tag x -> forall k n c, ~ header_line (d_scenario (ms_dialect md_en) ++ d_scenarioOutline (ms_dialect md_en) ++ d_examples (ms_dialect md_en)) x k n c) /\
  (forall x E, In x (split_lines ordered) -> fence x E -> E = s "```") /\ Exists has_md_tag (split_lines ordered) /\ Exists (fun x => fence x (s "```")) (split_lines ordered).
Proof.
  assert (C : forallb (fun x => (negb (tag_in x) || negb (match lstrip x with c :: _ => N.eqb c ch_hash | [] => false end)) && match opener x with Some E => str_eqb E (s "```") | None => true end) (split_lines ordered) = true) by (vm_compute; reflexivity).
  rewrite forallb_forall in C. split; [|split; [|split]].
  - intros x Hx T. apply header_no. specialize (C x Hx). apply andb_true_iff in C as [C _]. apply tag_in_iff in T. rewrite T in C. cbn [negb orb] in C. now apply negb_true_iff in C.
  - intros x E Hx F. specialize (C x Hx). apply andb_true_iff in C as [_ C]. unfold opener, delims in C. cbn [find] in C. change sep_quotes with (s """""""") in C. change sep_ticks4 with (s "````") in C. change sep_ticks with (s "```") in C.
    destruct F as [F|F|F G].
    + rewrite F in C. vm_compute in C. discriminate C.
    + rewrite F in C. destruct (startswith (s """""""") (lstrip x)); vm_compute in C; discriminate C.
    + reflexivity.
  - apply Exists_exists. exists (nth 1 (split_lines ordered) []). split; [vm_compute; auto|]. apply tag_in_iff. vm_compute. reflexivity.
  - apply Exists_exists. exists (nth 4 (split_lines ordered) []). split; [vm_compute; auto 10|]. apply fence_three; vm_compute; reflexivity.
Qed.

(** C51.  The property fails: with a code block in the description of a scenario, the doc string of the step after it keeps its
    indentation; with another delimiter it is lost, silently. *)
Definition arguments (text : str) : result (list (list (option str * option str))) :=
  rbind (parse_with false true (s "en") text) (fun d => Ok (match gd_feature d with Some f =>
    map (fun sc => map (fun st => (st_text st, match st_arg st with ADoc a => Some (ds_content a) | _ => None end)) (sc_steps sc)) (fe_scenarios f) | None => [] end)).
Definition prose : list str := [s "```js"; s "code"; s "```"].
Definition with_prose (p q : list str) : str := text_of_lines ([s "# Feature: f"; s "## Scenario: a"] ++ p ++ [s "* Given x"] ++ q).
Definition doc_in (delim : str) : list str := [s "  " ++ delim; s "  d"; s "  " ++ delim].
Theorem C51_refuted :
  (arguments (with_prose [] (doc_in (s "```"))) = Ok [[(Some (s "x"), Some (s "d"))]] /\
   arguments (with_prose prose (doc_in (s "```"))) = Ok [[(Some (s "x"), Some (s "  d"))]]) /\
  (arguments (with_prose [] (doc_in (s """"""""))) = Ok [[(Some (s "x"), Some (s "d"))]] /\
   arguments (with_prose prose (doc_in (s """"""""))) = Ok [[(Some (s "x"), None)]]).
Proof. repeat split; vm_compute; reflexivity. Qed.
Print Assumptions C51_refuted.
(** what holds: a line that begins with no delimiter leaves the matcher as it was, whatever it is asked about the line *)
Definition settled (ms : mstate) : Prop := ms_feature ms = true /\ (forall E, ms_sep ms = Some E -> In E [s """"""""; s "````"; s "```"]).
Definition still (l : gline) (m : mstate -> token -> mret) : Prop := forall ms t, t_line t = l -> settled ms -> ms_of (m ms t) = ms.
Lemma still_or l m1 m2 : still l m1 -> (forall ms t, kept ms t (m1 ms t)) -> still l m2 -> still l (fun ms t => m_or (m1 ms t) m2).
Proof.
  intros S1 K S2 ms t E F. specialize (S1 ms t E F). pose proof (kp_line _ _ _ (K ms t)) as L. destruct (m1 ms t) as [[r m] t1]. cbn in S1, L. subst m.
  destruct r as [[|]|]; cbn [m_or]; try reflexivity. apply S2; congruence.
Qed.
Lemma still_title l p kws suf ty : still l (fun ms t => md_match_title p (kws (ms_dialect ms)) suf ty ms t).
Proof. intros ms t _ _. unfold md_match_title. now destruct (re_search _ _) as [[? ?]|]. Qed.
Lemma still_scenario l : still l md_match_ScenarioLine.
Proof. apply (still_or l (fun ms t => md_match_title md_header (d_scenario (ms_dialect ms)) [ch_colon] TkScenarioLine ms t)); [apply still_title | intros; apply kept_title | apply (still_title l md_header d_scenarioOutline)]. Qed.
Lemma still_feature l : still l md_match_FeatureLine.
Proof. intros ms t _ [F _]. unfold md_match_FeatureLine. now rewrite F. Qed.
Lemma no_fence x E : (forall E, ~ fence x E) -> In E [s """"""""; s "````"; s "```"] -> startswith E (lstrip x) = false.
Proof.
  intros H Hi. destruct (startswith E (lstrip x)) eqn:S; [|reflexivity]. exfalso. cbn in Hi. destruct Hi as [<-|[<-|[<-|[]]]].
  - apply (H (s """""""")). now apply fence_quotes.
  - apply (H (s "````")). now apply fence_four.
  - destruct (startswith (s "````") (lstrip x)) eqn:S4; [apply (H (s "````")); now apply fence_four|]. apply (H (s "```")). now apply fence_three.
Qed.
Lemma still_sep x n : (forall E, ~ fence x E) -> still (mkLine x n) md_match_DocStringSeparator.
Proof.
  intros H ms t E [F Hs]. unfold md_match_DocStringSeparator. destruct (ms_sep ms) as [sep|].
  - unfold match_separator, g_startswith, g_trimmed. rewrite E. cbn [g_text]. rewrite (no_fence x sep H (Hs sep eq_refl)). reflexivity.
  - unfold m_or, match_separator, g_startswith, g_trimmed. rewrite E. cbn [g_text]. 
    assert (F1 : startswith sep_quotes (lstrip x) = false) by (apply no_fence; [exact H | now left]). assert (F2 : startswith sep_ticks4 (lstrip x) = false) by (apply no_fence; [exact H | now right; left]).
    assert (F3 : startswith sep_ticks (lstrip x) = false) by (apply no_fence; [exact H | now right; right; left]). rewrite F1. cbn [negb]. rewrite ?E. cbn [g_text]. rewrite F2. cbn [negb]. rewrite ?E. cbn [g_text]. rewrite F3. reflexivity.
Qed.
Lemma still_tag l : still l md_match_TagLine.
Proof. intros ms t _ _. unfold md_match_TagLine. now destruct (md_tags_go _ _ _ _). Qed.
Lemma still_row l : still l md_match_TableRow.
Proof. intros ms t _ _. unfold md_match_TableRow. destruct (re_match _ _); [|reflexivity]. destruct (table_cells _) as [c|]; [|reflexivity]. now destruct (is_gfm_separator c). Qed.
Lemma still_comment l : still l md_match_Comment.
Proof. intros ms t _ _. unfold md_match_Comment. destruct (g_startswith _ _); [|reflexivity]. destruct (table_cells _) as [c|]; [|reflexivity]. now destruct (is_gfm_separator c). Qed.
Lemma still_eof l : still l match_EOF.
Proof. intros ms t _ _. unfold match_EOF. now destruct (t_eof t). Qed.
Lemma still_language l : still l md_match_Language.
Proof. intros ms t _ _. reflexivity. Qed.
Lemma still_empty x n : (forall E, ~ fence x E) -> still (mkLine x n) md_match_Empty.
Proof.
  intros H ms t E F. unfold md_match_Empty.
  match goal with |- context [match ?a with _ => _ end] => assert (A : ms_of a = ms) end.
  { revert ms t E F. change (still (mkLine x n) (fun ms t => m_or (m_or (m_or (m_or (m_or (m_or (m_or (m_or (m_or (m_or (m_or (md_match_TagLine ms t)
      md_match_FeatureLine) md_match_ScenarioLine) md_match_BackgroundLine) md_match_ExamplesLine) md_match_RuleLine) md_match_TableRow) md_match_Comment)
      md_match_Language) md_match_DocStringSeparator) match_EOF) md_match_StepLine)).
    assert (K : forall m1 m2 : mstate -> token -> mret, (still (mkLine x n) m1 /\ forall ms t, kept ms t (m1 ms t)) -> (still (mkLine x n) m2 /\ forall ms t, kept ms t (m2 ms t)) ->
      still (mkLine x n) (fun ms t => m_or (m1 ms t) m2) /\ forall ms t, kept ms t (m_or (m1 ms t) m2)).
    { intros m1 m2 [A1 A2] [B1 B2]. split; [now apply still_or|]. intros ms t. specialize (A2 ms t). destruct (m1 ms t) as [[[[|]|] m] t1]; cbn [m_or]; try exact A2. eapply kept_trans; [exact A2 | apply B2]. }
    match goal with |- still ?l ?m => enough (X : still l m /\ forall ms t, kept ms t (m ms t)) by apply X end.
      apply (K (fun ms t => m_or _ _) md_match_StepLine); [|split; [apply (still_title _ md_bullet step_keywords [] TkStepLine) | apply (kept_match TkStepLine)]];
      apply (K (fun ms t => m_or _ _) match_EOF); [|split; [apply still_eof | apply (kept_match TkEOF)]];
      apply (K (fun ms t => m_or _ _) md_match_DocStringSeparator); [|split; [now apply still_sep | apply (kept_match TkDocStringSeparator)]];
      apply (K (fun ms t => m_or _ _) md_match_Language); [|split; [apply still_language | apply (kept_match TkLanguage)]];
      apply (K (fun ms t => m_or _ _) md_match_Comment); [|split; [apply still_comment | apply (kept_match TkComment)]];
      apply (K (fun ms t => m_or _ _) md_match_TableRow); [|split; [apply still_row | apply (kept_match TkTableRow)]];
      apply (K (fun ms t => m_or _ _) md_match_RuleLine); [|split; [apply (still_title _ md_header d_rule) | apply (kept_match TkRuleLine)]];
      apply (K (fun ms t => m_or _ _) md_match_ExamplesLine); [|split; [apply (still_title _ md_header d_examples) | apply (kept_match TkExamplesLine)]];
      apply (K (fun ms t => m_or _ _) md_match_BackgroundLine); [|split; [apply (still_title _ md_header d_background) | apply (kept_match TkBackgroundLine)]];
      apply (K (fun ms t => m_or _ _) md_match_ScenarioLine); [|split; [apply still_scenario | apply (kept_match TkScenarioLine)]];
      apply (K md_match_TagLine md_match_FeatureLine); [split; [apply still_tag | apply (kept_match TkTagLine)] | split; [apply still_feature | apply (kept_match TkFeatureLine)]]. }
  match goal with |- context [match ?a with _ => _ end] => destruct a as [[[b|e] m1] t1] end; cbn in A; subst m1; [|reflexivity]. now destruct (negb b || g_is_empty (t_line t)).
Qed.
Theorem C51_prose_partial : forall k ms x n r ms' t', ms_md ms = true -> settled ms ->
  (forall E, ~ fence x E) -> do_match k ms (new_token x n) = (r, ms', t') -> ms' = ms.
Proof.
  intros k ms x n r ms' t' M S H E. unfold do_match in E. rewrite M in E.
  assert (A : still (mkLine x n) (md_match k)).
  { destruct k; cbn [md_match]; first [apply still_eof | now apply still_empty | apply still_comment | apply still_tag | apply still_feature | apply still_scenario | now apply still_sep | apply still_row | apply still_language
      | apply (still_title _ md_header d_rule) | apply (still_title _ md_header d_background) | apply (still_title _ md_header d_examples) | apply (still_title _ md_bullet step_keywords [] TkStepLine) | intros ? ? _ _; reflexivity]. }
  specialize (A ms (new_token x n) eq_refl S). rewrite E in A. exact A.
Qed.
Print Assumptions C51_prose_partial.
Example C51_prose_case : exists ms t, do_match TkFeatureLine md_en (new_token (s "f") 1) = (Ok true, ms, t) /\ settled ms /\ (forall E, ~ fence (s "some `code` and **text**") E).
Proof.
  eexists _, _. split; [vm_compute; reflexivity|]. split; [split; [reflexivity | cbn; discriminate]|]. intros E F. destruct F as [F|F|F _]; vm_compute in F; discriminate F.
Qed.
