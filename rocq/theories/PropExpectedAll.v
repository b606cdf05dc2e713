(** * The list of expected kinds is right in the other mode too, where errors are collected: C59 *)
From Verif Require Import PyStr PyStrFacts Types Regex Line DialectData Matcher Ast ParserTable Parser Classify Table Scan Grammar Deriv Cert LineSpec Cst Report Eval LangSpec LangFacts Complete DocSpec LineIff DocRun PropLine PropParse ErrorSpec ErrorFacts ExpectFacts PropErrors PropExpected PropLang PropExact EmptyScan PropEmpty.

Lemma unexpected_by_message lang lines e l names : explained lang lines e -> pe_msg e = pe_msg (unexpected_line_error l names) -> e = unexpected_line_error l names.
Proof.
  intros H E. destruct (explained_message _ _ _ H) as [loc [text [M [_ U]]]].
  assert (T : is_ut e = true) by (apply U; rewrite E in M; cbn [unexpected_line_error pe_msg] in M; apply PropEmpty.message_inj in M as [_ <-]; reflexivity).
  destruct H as [before l' after d names' H1 H2 H3 H4 H5 | names' H1 H2 | l' H1 H2 | l' name loc' H1 H2 H3 H4]; try discriminate T.
  cbn [unexpected_line_error pe_msg] in E. pose proof (PropExact.message_inj _ _ _ _ E) as [E1 E2]. cbn [here l_line l_col] in E1, E2.
  assert (Eh : here l' = here l) by (unfold here; congruence). unfold unexpected_line_error. rewrite E, Eh. reflexivity.
Qed.

(** C59, second half, unless the lines before end with tags, where errors are collected: a line of none of the listed kinds, put at that place, is reported as unexpected as well, with
    the same list, whatever follows it, unless the file has a malformed tag line or table row (see C10). *)
Theorem C59_only_collected_partial : forall lang text text' pre post y post' d names,
  supported lang -> split_lines text = pre ++ post -> split_lines text' = pre ++ y :: post' -> ~ ends_with_tags pre ->
  In (unexpected_at (S (length pre)) post names) (errors_of (parse_with false false lang text)) ->
  incl names (s "#EOF" :: line_names) -> names <> [] -> in_force lang pre d -> (forall name, In name names -> ~ kind_of_line d y name) ->
  (exists es, parse_with false false lang text' = Err (EComposite es) /\ In (unexpected_line_error (S (length pre), y) names) es) \/
  (exists x, In x (split_lines text') /\ (bad_tags x \/ bad_row x)).
Proof.
  intros lang text text' pre post y post' d names S E E' Nt H Hi Hn Hf Hno.
  pose proof (split_lines_nonempty text) as Hl. pose proof (split_lines_nonempty text') as Hl'. pose proof H as H0.
  apply parse_error_scan in H0 as [ms [D [M [Sp [H0 [Rs Nm]]]]]]; [|exact S|destruct post; discriminate|destruct post; discriminate].
  pose proof (C58_messages false lang text' S) as Xp.
  rewrite E in Hl, H0. rewrite E' in Hl'.
  apply error_at_place in H0; [|exact M|exact Sp|exact Hl|destruct post; reflexivity|destruct post; [now right | now left]].
  destruct H0 as [q [m [st [cs [es [G1 [G2 [G3 [G4 [G5 G6]]]]]]]]]].
  assert (Hp : Forall (fun x => x <> []) post) by (apply Forall_app in Hl; apply Hl).
  assert (Hy : y <> []) by (apply Forall_app in Hl' as [_ Hl'']; now inversion Hl'').
  destruct (expected_facts q st G2) as [_ [Ne _]]. apply list_recovered in G6; auto. subst names.
  pose proof (force_unique lang ms q m pre d (matcher_good _ M) D G4 Hf) as ->.
  assert (Hi0 : exists cs, st_inv 0 ms cs).
  { exists [(RGherkinDocument, [])]. exists [(RGherkinDocument, prod RGherkinDocument)]. split; [reflexivity|]. split.
    - cbn [sinv]. split; [reflexivity|]. split; [reflexivity|]. split; [apply leaves_ok_nil|]. split; [constructor | exact I].
    - split; [exact M|]. rewrite Sp. split; reflexivity. }
  destruct Hi0 as [cs0 Hi0].
  assert (Hpre : lines_ok pre) by (apply Forall_app in Hl; apply Hl).
  pose proof (go_same pre 0 ms 0 post (y :: post') cs0 Hpre ltac:(discriminate) Hi0 Nt) as Gs.
  destruct (go_inv ms pre 0 ms 0 post cs0 [] (matcher_good _ M) Hpre ltac:(discriminate) Hi0) as [_ Lo]; [left; auto|].
  pose proof (choose_none q st m cs (Datatypes.S (length pre)) y post' G2 G3 Hy) as Cn. specialize (Cn (fun k Hk => Hno _ (in_map shown_name _ _ Hk))).
  pose proof (scan_go pre 0 ms 0 post) as S1. pose proof (scan_go pre 0 ms 0 (y :: post')) as S2. rewrite <- Gs in S2. cbn [Nat.add] in S1, S2.
  destruct (go 0 ms 0 pre post) as [evs r0]. cbn [fst snd] in *. subst r0.
  destruct (scan q m (length pre) post) as [e2 r2]. cbn [scan] in S2. unfold scan_step in S2. rewrite G2, Cn in S2. cbn [map app] in S2.
  destruct (scan (st_self st) m (Datatypes.S (length pre)) post') as [e3 r3].
  assert (Tr : forall lines, Forall (ev_P (fun _ => True)) (fst (scan 0 ms 0 lines))) by (intros lines; apply Forall_forall; intros [v|v] _; cbn [ev_P]; [exact I | intros _; exact I]).
  destruct (run_doc_P (fun _ => True) ms (pre ++ post) 0 M Sp Hl (Tr _)) as [es1 [b1 [R1 _]]].
  destruct (run_doc_P (fun _ => True) ms (pre ++ y :: post') 0 M Sp Hl' (Tr _)) as [es2 [b2 [R2 [_ Fin]]]].
  pose proof (parse_b_outcome ast_builder ast_no_composite false (ab_reset 0) ms ms _ es1 (Ok tt) b1 Rs (matcher_good _ M) Hl R1) as [O1 O1'].
  pose proof (parse_b_outcome ast_builder ast_no_composite false (ab_reset 0) ms ms _ es2 (Ok tt) b2 Rs (matcher_good _ M) Hl' R2) as [O2 _].
  cbv zeta in O1, O2. rewrite S1 in R1, O1. rewrite S2 in R2, O2, Fin. cbn [snd] in Fin. unfold doc_evs in R1, R2. cbn [fst snd] in R1, R2, O1, O2.
  rewrite <- app_assoc, app_comm_cons in R1. rewrite <- app_assoc, app_comm_cons in R2. rewrite raw_evs_app in R1, R2.
  pose proof (raw_kind (EvAct no_leaf [AStart RGherkinDocument] :: evs) (ab_reset 0)) as Rk.
  unfold parse_with in H, Xp |- *. rewrite Nm in H, Xp |- *. cbn [rbind] in H, Xp |- *. rewrite E in H. rewrite E' in Xp |- *. unfold parse_lines in H, Xp |- *.
  destruct (raw_evs ast_builder (EvAct no_leaf [AStart RGherkinDocument] :: evs) (ab_reset 0)) as [[es0 [u|x]] b0]; [|discriminate R1]. cbn [fst] in Rk.
  match type of R1 with context [raw_evs ast_builder ?l ?b] => destruct (raw_evs ast_builder l b) as [[es1' r1'] b1'] end. injection R1 as R1 _ _.
  (* the errors before this line are not too many *)
  assert (Fe : exists errs, feed es0 [] = (false, errs)).
  { destruct (feed es0 []) as [[] errs] eqn:Fe; [|eauto]. exfalso. subst es1. unfold outcome in O1. rewrite feed_app, Fe in O1.
    destruct (parse_b ast_builder false (ab_reset 0) ms (pre ++ post)) as [pr pc]. cbn [fst] in O1. subst pr. cbn [fst errors_of] in H.
    assert (Fi : Forall (fun e => l_line (pe_loc e) <= length pre \/ pe_kind e = KAstBuilder) errs).
    { assert (HP : forall e, (l_line (pe_loc e) <= length pre \/ pe_kind e = KAstBuilder) -> (l_line (pe_loc (settled e)) <= length pre \/ pe_kind (settled e) = KAstBuilder)).
      { intros e [He|He]; [left | right]; unfold settled; destruct (pe_kind e) eqn:Ke; try assumption; discriminate He. }
      apply (feed_inv (fun e => l_line (pe_loc e) <= length pre \/ pe_kind e = KAstBuilder) HP es0 [] true errs Fe); [constructor | cbn; lia | constructor|].
      eapply Forall_impl; [|exact Rk]. intros e [He|He]; [left | now right]. destruct He as [He|He]; [discriminate|]. rewrite Forall_forall in Lo. destruct (Lo _ He) as [j [K1 K2]]. unfold ev_at in K2. lia. }
    rewrite Forall_forall in Fi. destruct (Fi _ H) as [Z|Z]; destruct post; cbn in Z; try discriminate Z; lia. }
  destruct Fe as [errs Fe].
  cbn [app raw_evs] in R2. match type of R2 with context [raw_evs ast_builder ?l ?b] => destruct (raw_evs ast_builder l b) as [[es2' r2'] b2'] end.
  injection R2 as R2 _ _. subst es2. rewrite unexpected_line_shown in O2 by exact Hy. match type of O2 with context [unexpected_line_error ?l ?n] => set (e' := unexpected_line_error l n) in O2 end.
  destruct (parse_b ast_builder false (ab_reset 0) ms (pre ++ y :: post')) as [pr pc]. cbn [fst] in O2. subst pr. cbn [fst] in Xp |- *.
  assert (Main : forall es0', (forall e, In e es0' -> explained lang (numbered_lines (pre ++ y :: post')) e) -> (exists e, In e es0' /\ pe_msg e = pe_msg e') -> In e' es0').
  { intros l Hx [e [He1 He2]]. rewrite (unexpected_by_message _ _ _ _ _ (Hx e He1) He2) in He1. exact He1. }
  unfold outcome in Xp |- *. rewrite feed_app, Fe in Xp. rewrite feed_app, Fe.
  assert (Got : exists e, In e (snd (feed (e' :: es2') errs)) /\ pe_msg e = pe_msg e').
  { destruct (feed (e' :: es2') errs) as [full errs'] eqn:F2. cbn [snd]. pose proof F2 as F3. change (e' :: es2') with ([e'] ++ es2') in F2. rewrite feed_app in F2. cbn [feed] in F2.
    destruct (existsb (fun e'0 => str_eqb (pe_msg e') (pe_msg e'0)) errs) eqn:Ex.
    - apply existsb_exists in Ex as [e [He1 He2]]. apply str_eqb_spec in He2. destruct (feed_keeps _ _ _ _ F2) as [more ->]. exists e. split; [apply in_or_app; now left | congruence].
    - destruct (Nat.ltb 10 (length (errs ++ [e']))) eqn:Lt; [injection F2 as <- <-; exists e'; split; [apply in_or_app; right; now left | reflexivity]|].
      destruct (feed_keeps _ _ _ _ F2) as [more ->]. exists (settled e'). split; [apply in_or_app; left; apply in_or_app; right; now left | reflexivity]. }
  destruct (feed (e' :: es2') errs) as [full errs']. cbn [snd] in Got.
  assert (Ne' : errs' <> []) by (intros ->; destruct Got as [? [[] _]]).
  destruct full; [left; exists errs'; split; [reflexivity|]; apply Main; [now apply Forall_forall | exact Got]|].
  destruct errs' as [|z errs']; [now destruct Ne'|]. destruct r3 as [u3|x3].
  - left. eexists. split; [reflexivity|]. apply Main; [now apply Forall_forall | exact Got].
  - right. destruct Fin as [z0 [Z1 Z2]]. apply raise_at_spec in Z2. exists z0. split; [exact Z1 | tauto].
Qed.
Print Assumptions C59_only_collected_partial.

(** A second wrong line, after a first: what stands in its place, if it is no step etc., is reported too, whatever follows. *)
Example C59_collected_case :
  let pre := [s "Feature: f" ++ [ch_nl]; s " Scenario: s" ++ [ch_nl]; s "  Given x" ++ [ch_nl]; s "junk" ++ [ch_nl]; s "  And z" ++ [ch_nl]] in
  let bad := text_of_lines [s "Feature: f"; s " Scenario: s"; s "  Given x"; s "junk"; s "  And z"; s "oops"] in
  let names := [s "#EOF"; s "#TableRow"; s "#DocStringSeparator"; s "#StepLine"; s "#TagLine"; s "#ExamplesLine"; s "#ScenarioLine"; s "#RuleLine"; s "#Comment"; s "#Empty"] in
  length (errors_of (parse_with false false (s "en") bad)) = 2 /\
  forall after, (exists es, parse_with false false (s "en") (text_of_lines [s "Feature: f"; s " Scenario: s"; s "  Given x"; s "junk"; s "  And z"; s "junk"] ++ after) = Err (EComposite es) /\
      In (unexpected_line_error (6, s "junk" ++ [ch_nl]) names) es) \/
    exists x : str, In x (split_lines (text_of_lines [s "Feature: f"; s " Scenario: s"; s "  Given x"; s "junk"; s "  And z"; s "junk"] ++ after)) /\ (bad_tags x \/ bad_row x).
Proof.
  intros pre bad names. destruct en_facts as [ms [G [D C]]]. cbn [map] in C. pose proof (f_equal (fun l => nth 0 l TkEOF) C) as C1; cbn [nth] in C1. pose proof (f_equal (fun l => nth 3 l TkEOF) C) as C4; cbn [nth] in C4.
  pose proof (f_equal (fun l => nth 4 l TkEOF) C) as C5; cbn [nth] in C5. pose proof (f_equal (fun l => nth 5 l TkEOF) C) as C6; cbn [nth] in C6. pose proof (f_equal (fun l => nth 6 l TkEOF) C) as C7; cbn [nth] in C7.
  assert (Sup : supported (s "en")) by (eexists; exact D).
  assert (Inc : incl names (s "#EOF" :: line_names)) by (intros x Hx; subst names; cbn [In line_names] in *; repeat (destruct Hx as [<-|Hx]; [tauto|]); destruct Hx).
  assert (Fo : in_force (s "en") pre (ms_dialect ms)) by (apply en_in_force; [exact G | exact D|]; repeat (constructor; [rewrite ?C1, ?C4, ?C5, ?C6, ?C7; discriminate|]); constructor).
  split; [vm_compute; reflexivity|]. intros after.
  apply (C59_only_collected_partial (s "en") bad _ pre [s "oops" ++ [ch_nl]] (s "junk" ++ [ch_nl]) (split_lines after) (ms_dialect ms) names Sup); [vm_compute; reflexivity | reflexivity | | | exact Inc | discriminate | exact Fo |].
  - intros [a [x [b [E [B F]]]]]. apply (cls_begins ms x TkTagLine ch_at G ltac:(discriminate) ltac:(discriminate) eq_refl) in B.
    assert (I : In x pre) by (rewrite E; apply in_elt). destruct I as [<-|[<-|[<-|[<-|[<-|[]]]]]]; congruence.
  - vm_compute. right. left. reflexivity.
  - intros name Hn K. subst names. cbn [In] in Hn.
    repeat (destruct Hn as [<-|Hn]; [first [apply (kind_cls ms _ TkEOF G) in K; exact K | apply (kind_cls ms _ TkTableRow G) in K; congruence | apply (kind_cls ms _ TkStepLine G) in K; congruence | apply (kind_cls ms _ TkTagLine G) in K; congruence
      | apply (kind_cls ms _ TkExamplesLine G) in K; congruence | apply (kind_cls ms _ TkScenarioLine G) in K; congruence | apply (kind_cls ms _ TkRuleLine G) in K; congruence
      | apply (kind_cls ms _ TkComment G) in K; congruence | apply (kind_cls ms _ TkEmpty G) in K; congruence
      | apply (kind_cls ms _ TkDocStringSeparator G) in K; destruct K as [sep [[-> | ->] K]]; vm_compute in K; discriminate K]|]).
    destruct Hn.
Qed.
