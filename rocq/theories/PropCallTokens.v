(** * What an editor marks for a keyword call: C79 *)
From Verif Require Import PyStr PyStrFacts Types Regex Line DialectData Matcher Ast Parser Compiler LineSpec LangSpec DocSpec PartsSpec Parts PickleSpec PickleFacts PropLine PropParse PropCompile PropPlaces Glob Robot RobotSpec SuiteSpec RobotFacts PropRobot RelayFacts PropPositions MdSpec MdPlaceSpec PropMdPlaces PropMdPositions Eol CallTokens.

(** ** Specification *)
(** the characters of line [n] of the file from column [a] (counted from 0) up to column [b] are [x] *)
Definition marked (lines : list nline) (n a b : nat) (x : str) : Prop :=
  exists before after, In (n, before ++ x ++ after) lines /\ length before = a /\ a + length x = b.
(** token [t] is in line [n] and begins at column [a] *)
Definition is_at (t : rtoken) (n a : nat) : Prop := rk_line t = Some n /\ rk_col t = Some a.

(** C79, first part.  All tokens of a call are in the line of its step.  There is one keyword token, with the name of the call, where the
    step begins; every token after it (so every argument) begins where the keyword token ends; the one before it at column 0.
    Their texts, joined, are the call as Robot Framework writes it. *)
Theorem C79_tokens : forall c, exists t0 t1 ts, call_tokens c = t0 :: t1 :: ts /\
  is_at t0 (rc_line c) 0 /\ is_at t1 (rc_line c) (rc_col c) /\ rk_type t1 = RtKeyword /\ rk_value t1 = rc_name c /\
  (forall t, In t ts -> rk_type t <> RtKeyword /\ is_at t (rc_line c) (rc_col c + length (rc_name c))) /\
  map rk_value (filter (fun t => rtype_eqb (rk_type t) RtArgument) ts) = rc_args c /\
  concat (map rk_value (t0 :: t1 :: ts)) = four_spaces ++ rc_name c ++ flat_map (fun a => four_spaces ++ a) (rc_args c) ++ [ch_nl].
Proof.
  intros [name args line col]. unfold call_tokens, from_params. cbn [rc_line rc_col rc_name rc_args app place_tokens new_token rtype_eqb rk_type rk_value].
  set (e := end_col col (mkRtoken RtKeyword name None None)). change (col + length name) with e.
  exists (mkRtoken RtSeparator four_spaces (Some line) (Some 0)), (mkRtoken RtKeyword name (Some line) (Some col)).
  exists (place_tokens line col e (flat_map (fun a => [mkRtoken RtSeparator four_spaces None None; mkRtoken RtArgument a None None]) args ++ [mkRtoken RtEol [ch_nl] None None])).
  split; [reflexivity|]. split; [now split|]. split; [now split|]. split; [reflexivity|]. split; [reflexivity|].
  cbn [map concat rk_value].
  induction args as [|a args [IH1 [IH2 IH3]]].
  - cbn [flat_map app place_tokens rtype_eqb rk_type rk_value filter map concat]. split; [intros t [<-|[]]; split; [discriminate | now split]|]. split; reflexivity.
  - cbn [flat_map app place_tokens rtype_eqb rk_type rk_value filter map concat]. split; [|split].
    + intros t [<-|[<-|Ht]]; [split; [discriminate | now split]..|]. now apply IH1.
    + now rewrite IH2.
    + apply app_inv_head in IH3. apply app_inv_head in IH3. rewrite IH3. now rewrite <- !app_assoc.
Qed.
Print Assumptions C79_tokens.

(** C79, second part.  What an editor marks for the keyword token of [c]: the columns from its beginning to its end. *)
Definition marks (lines : list nline) (c : rcall) : Prop := exists t, In t (call_tokens c) /\ rk_type t = RtKeyword /\
  forall n a, is_at t n a -> marked lines n a (end_col a t) (rk_value t).
Lemma marks_iff lines c : marks lines c <-> marked lines (rc_line c) (rc_col c) (rc_col c + length (rc_name c)) (rc_name c).
Proof.
  destruct (C79_tokens c) as [t0 [t1 [ts [E [A0 [[A1 B1] [T [V [O _]]]]]]]]]. unfold marks. rewrite E. split.
  - intros [t [[<-|[<-|H]] [K M]]].
    + cbv in E. injection E as E0 _. subst t0. discriminate K.
    + unfold end_col in M. rewrite V in M. apply M. now split.
    + now destruct (O t H).
  - intros M. exists t1. split; [right; now left|]. split; [exact T|]. intros n a [L C]. rewrite A1 in L. rewrite B1 in C. injection L as <-. injection C as <-. unfold end_col. now rewrite V.
Qed.
Lemma one_line ls n x y : In (n, x) (numbered_lines ls) -> In (n, y) (numbered_lines ls) -> x = y.
Proof. intros H1 H2. apply numbered_line in H1 as [_ H1]. apply numbered_line in H2 as [_ H2]. congruence. Qed.
Lemma app_len {A} (a b c d : list A) : a ++ b = c ++ d -> length a = length c -> b = d.
Proof. revert c. induction a as [|x a IH]; intros [|y c] E L; try discriminate L; [exact E|]. injection E as _ E. injection L as L. now apply (IH c). Qed.
Lemma marked_at ls n before rest x : In (n, before ++ rest) (numbered_lines ls) ->
  (marked (numbered_lines ls) n (length before) (length before + length x) x <-> exists after, rest = x ++ after).
Proof.
  intros H. split.
  - intros [b [after [H' [L' _]]]]. exists after. apply (app_len before _ b); [exact (one_line _ _ _ _ H H') | congruence].
  - intros [after ->]. exists before, after. now split.
Qed.
Lemma strip_begins (rest : str) : (exists after, rest = strip rest ++ after) <-> strip rest = [] \/ lstrip rest = rest.
Proof.
  split.
  - intros [after E]. destruct (lstrip rest) as [|c y] eqn:L; [left; unfold strip; now rewrite L|]. right.
    assert (Hc : is_space c = false) by (apply (drop_while_head is_space rest c y); exact L).
    assert (S : exists z, strip rest = c :: z). { unfold strip. rewrite L. unfold rstrip. rewrite rstrip_by_cons, Hc. destruct (forallb is_space y); eauto. }
    destruct S as [z S]. rewrite S in E. cbn [app] in E. rewrite <- L, E. unfold lstrip, lstrip_by. cbn. now rewrite Hc.
  - intros [E|E]; [exists rest; now rewrite E|]. unfold strip. rewrite E. unfold rstrip. destruct (rstrip_by_prefix is_space rest) as [p [H _]]. now exists p.
Qed.

(** the keyword call [c] for the pickle step [q] of a scenario without examples: the keyword of the step stands in its line where the keyword token
    begins; what is marked is the name of the call exactly if the line goes on with that name, that is, for a step whose type is not
    Unknown: exactly if no white space stands between the keyword and the text of the step *)
Definition call_marked (lines : list nline) (d : dialect) (q : pstep) (c : rcall) : Prop :=
  exists before kw rest, In (rc_line c, before ++ kw ++ rest) lines /\ length before = rc_col c /\ In kw (all_step_keywords d) /\
    rc_name c = match ps_type q with Some KtUnknown => [] | _ => kw end ++ strip rest /\
    (marks lines c <-> exists after, kw ++ rest = rc_name c ++ after) /\
    (ps_type q <> Some KtUnknown -> (marks lines c <-> strip rest = [] \/ lstrip rest = rest)).
Lemma call_marked_intro ls d q c before kw rest : In (rc_line c, before ++ kw ++ rest) (numbered_lines ls) -> length before = rc_col c -> In kw (all_step_keywords d) ->
  rc_name c = match ps_type q with Some KtUnknown => [] | _ => kw end ++ strip rest -> call_marked (numbered_lines ls) d q c.
Proof.
  intros H L K N. exists before, kw, rest. repeat (split; [assumption|]).
  assert (M : marks (numbered_lines ls) c <-> exists after, kw ++ rest = rc_name c ++ after).
  { rewrite marks_iff, <- L. now apply marked_at. }
  split; [exact M|]. intros T. rewrite M, <- strip_begins. assert (E : rc_name c = kw ++ strip rest) by (rewrite N; now destruct (ps_type q) as [[]|]).
  rewrite E. split; intros [after Ha]; exists after.
  - rewrite <- app_assoc in Ha. now apply app_inv_head in Ha.
  - rewrite <- app_assoc. now f_equal.
Qed.
Lemma line_end_space e : line_end e -> all_space e.
Proof. intros [->| ->]; reflexivity. Qed.

(** C79, second part (partial: the plain claim, that the marked columns are those of the step in the file, is false, see below).
    For the steps of scenarios without examples, in classic and in Markdown files: when the marked columns hold the name of the call. *)
Theorem C79_marks_partial : forall printable name content dir su n,
  build_gherkin_model printable name content dir = Ok (RSuite su, n) ->
  exists doc f language d ps id', read_file name content = Ok doc /\ gd_feature doc = Some f /\ fe_language f = Some language /\ for_name language = Some d /\
    compile doc 0 = Ok (ps, id') /\
    Forall3 (fun o p t => o_row o = None -> Forall2 (call_marked (numbered_lines (split_lines content)) d) (pk_steps p) (rt_calls t)) (origins doc) ps (rs_tests su).
Proof.
  intros pr name content dir su n H. destruct (is_markdown name) eqn:M.
  - destruct (C75_markdown_positions _ _ _ _ _ _ M H) as [doc [f [d [ps [id' [R [F [D [C T]]]]]]]]]. exists doc, f, (s "en"), d, ps, id'.
    split; [exact R|]. split; [exact F|]. split.
    { unfold read_file in R. rewrite M in R. exact (proj1 (C74_markdown_locations false (s "en") d content doc f D R F)). }
    repeat (split; [assumption|]). clear R C H. induction T as [|o p t os ps ts T1 T IH]; constructor; [|exact IH]. intros H0.
    destruct T1 as [_ T1]. rewrite H0 in T1. induction T1 as [|q c qs cs Q T1 IH1]; constructor; [|exact IH1].
    destruct Q as [ind [b [gap [kw [rest [e [text [I [L [_ [_ [_ [E [K [N Tx]]]]]]]]]]]]]]]. specialize (Tx eq_refl). subst text.
    apply (call_marked_intro _ _ _ _ (ind ++ [b] ++ gap) kw (rest ++ e)); [exact I | exact L | exact K |]. rewrite N. f_equal. symmetry. apply strip_tail, line_end_space, E.
  - destruct (C64_positions _ _ _ _ _ _ M H) as [doc [f [language [d [ps [id' [R [F [Lf [D [C T]]]]]]]]]]]. exists doc, f, language, d, ps, id'.
    repeat (split; [assumption|]). clear R C H. induction T as [|o p t os ps ts T1 T IH]; constructor; [|exact IH]. intros H0.
    destruct T1 as [_ T1]. rewrite H0 in T1. induction T1 as [|q c qs cs Q T1 IH1]; constructor; [|exact IH1].
    destruct Q as [kw [rest [text [[ind [I [L _]]] [K [N Tx]]]]]]. specialize (Tx eq_refl). subst text.
    now apply (call_marked_intro _ _ _ _ ind kw rest).
Qed.
Print Assumptions C79_marks_partial.

(** the plain claim is false: for a step with an asterisk the keyword token begins at the asterisk but is as long as the text without it;
    and blanks between keyword and text are not in the name.  With one blank it holds. *)
Definition c79_text : str := text_of_lines [s "Feature: f"; s "Scenario: a"; s "  * one two"; s "  Given   x"; s "  When yes"; s "    | 1 |"].
Example C79_case : exists su n t c1 c2 c3, build_gherkin_model (fun _ => true) (s "a.feature") c79_text None = Ok (RSuite su, n) /\ rs_tests su = [t] /\ rt_calls t = [c1; c2; c3] /\
  map (fun t => (rk_type t, rk_line t, rk_col t)) (call_tokens c3) =
    [(RtSeparator, Some 5, Some 0); (RtKeyword, Some 5, Some 2); (RtSeparator, Some 5, Some 10); (RtArgument, Some 5, Some 10); (RtEol, Some 5, Some 10)].
Proof. do 6 eexists. split; [vm_compute; reflexivity|]. split; [reflexivity|]. split; reflexivity. Qed.
Definition claim_C79 : Prop := forall printable name content dir su n t c, build_gherkin_model printable name content dir = Ok (RSuite su, n) ->
  In t (rs_tests su) -> In c (rt_calls t) -> marks (numbered_lines (split_lines content)) c.
Theorem C79_refuted : ~ claim_C79.
Proof.
  intros H. assert (G : forall su n t c, build_gherkin_model (fun _ => true) (s "a.feature") c79_text None = Ok (RSuite su, n) -> In t (rs_tests su) -> In c (rt_calls t) ->
     marks (numbered_lines (split_lines c79_text)) c) by (intros; eapply H; eauto). clear H.
  assert (E : exists su n t c, build_gherkin_model (fun _ => true) (s "a.feature") c79_text None = Ok (RSuite su, n) /\ In t (rs_tests su) /\ In c (rt_calls t) /\ c = mkCall (s "one two") [] 3 2).
  { do 4 eexists. split; [vm_compute; reflexivity|]. split; [now left|]. split; [now left | reflexivity]. }
  destruct E as [su [n [t [c [B [T [C ->]]]]]]]. specialize (G su n t _ B T C). apply marks_iff in G. cbn [rc_line rc_col rc_name] in G.
  apply (marked_at _ 3 (s "  ") (s "* one two" ++ [ch_nl]) (s "one two")) in G; [|vm_compute; tauto]. destruct G as [a G]. discriminate G.
Qed.
Print Assumptions C79_refuted.
