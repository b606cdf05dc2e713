(** * Stopping at the first error: C53 *)
From Verif Require Import PyStr PyStrFacts Types Regex Line DialectData Matcher Ast ParserTable Parser PropLine Report PropParse PropMdParse StopRun.

(** two reports of one error: the same, except that for an unsupported language the column may differ (C60) *)
Definition same_report (e e' : perr) : Prop :=
  pe_kind e = pe_kind e' /\ pe_msg e = pe_msg e' /\ l_line (pe_loc e) = l_line (pe_loc e') /\ (pe_kind e <> KNoSuchLanguage -> e = e').
Lemma settled_same e : same_report e (settled e).
Proof.
  unfold same_report. rewrite settled_kind, settled_msg, settled_line. do 3 (split; [reflexivity|]). unfold settled. destruct (pe_kind e); congruence.
Qed.

(** C53.  [parse_with stop md lang text]: a parse with [stop_at_first_error = stop], with the classic or the
    Markdown matcher.  For every text: both modes return the same document; or the first mode raises a parser
    error, and this is the first of the errors the other mode reports (if a later line does not raise one of the two
    Python errors of C01 in between); or both raise the same Python error.  In the other direction, if the errors
    are collected, the first of them is the one raised when stopping. *)
Theorem C53_first_error : forall md lang text, supported lang ->
  match parse_with true md lang text with
  | Ok d => parse_with false md lang text = Ok d
  | Err (EParser e) => (exists e' es, parse_with false md lang text = Err (EComposite (e' :: es)) /\ same_report e e') \/
      parse_with false md lang text = Err EAttributeError \/ parse_with false md lang text = Err ERuntimeError
  | Err x => parse_with false md lang text = Err x
  end.
Proof.
  intros md lang text [d Hd].
  assert (O : forall stop, match parse_with stop md lang text with
    | Ok _ | Err EAttributeError | Err ERuntimeError => True | Err (EComposite es) => stop = false | Err (EParser e) => stop = true | Err _ => False end).
  { intros stop. destruct md; [pose proof (C01_markdown stop lang text (ex_intro _ d Hd)) as O | pose proof (C01_defined_outcome stop lang text (ex_intro _ d Hd)) as O];
      destruct (parse_with stop _ lang text) as [?|[]]; auto. }
  assert (M : exists ms ms0, new_matcher md lang = Ok ms /\ ms_reset ms = Ok ms0).
  { unfold new_matcher. rewrite Hd. unfold ms_reset. cbn. assert (R : str_eqb lang lang = true) by now apply str_eqb_spec. rewrite R. cbn.
    eexists _, _. split; [reflexivity|]. cbn. rewrite R. reflexivity. }
  destruct M as [ms [ms0 [M1 M2]]].
  assert (P : forall stop, parse_with stop md lang text = let (r, c) := parse_b ast_builder stop (ab_reset 0) ms (split_lines text) in rbind r (fun _ => ab_get_result (c_b c))).
  { intros stop. unfold parse_with, parse_lines. rewrite M1. cbn [rbind]. now destruct (parse_b ast_builder stop _ ms _) as [r c]. }
  pose proof (parse_b_stop ast_builder (ab_reset 0) ms (split_lines text) ms0 M2) as X. pose proof (O true) as O1. pose proof (O false) as O2.
  rewrite P in O1, O2 |- *. rewrite (P false). clear P O M1 M2 Hd.
  destruct (parse_b ast_builder true (ab_reset 0) ms (split_lines text)) as [r1 c1], (parse_b ast_builder false (ab_reset 0) ms (split_lines text)) as [r2 c2].
  destruct r1 as [u|x]; cbn [rbind] in *.
  - destruct X as [c3 [X1 X2]]. injection X1 as -> ->. cbn [rbind] in *. rewrite X2 in *. destruct (ab_get_result (c_b c1)) as [d'|x]; [reflexivity|].
    destruct x; try reflexivity; try contradiction. discriminate.
  - destruct x; cbn [fst] in *; try contradiction; try discriminate O1; try (rewrite X; reflexivity).
    destruct r2 as [u|x]; [contradiction|]. cbn [rbind] in *. destruct x; try contradiction; auto; try discriminate O2.
    destruct es as [|e' es]; [discriminate|]. injection X as ->. left. eexists _, _. split; [reflexivity | apply settled_same].
Qed.
Print Assumptions C53_first_error.
Theorem C53_collected : forall md lang text e es, supported lang ->
  parse_with false md lang text = Err (EComposite (e :: es)) -> exists e', parse_with true md lang text = Err (EParser e') /\ same_report e' e.
Proof.
  intros md lang text e es H E. pose proof (C53_first_error md lang text H) as X. rewrite E in X.
  destruct (parse_with true md lang text) as [d|x] eqn:Q; [discriminate|].
  destruct x; try discriminate; [destruct X as [[e' [es' [X1 X2]]]|[X|X]]; [injection X1 as -> ->; eauto | discriminate | discriminate]|].
  exfalso. destruct md; [pose proof (C01_markdown true lang text H) as O | pose proof (C01_defined_outcome true lang text H) as O]; rewrite Q in O; discriminate.
Qed.
Print Assumptions C53_collected.
Theorem C53_accepted : forall md lang text d, supported lang ->
  parse_with false md lang text = Ok d -> parse_with true md lang text = Ok d.
Proof.
  intros md lang text d H E. pose proof (C53_first_error md lang text H) as X. rewrite E in X.
  destruct (parse_with true md lang text) as [d'|x]; [congruence|]. destruct x; try discriminate. destruct X as [[e' [es [X _]]]|[X|X]]; discriminate.
Qed.
Print Assumptions C53_accepted.

(* two errors; stopping raises the first; and a text where a Python error comes between *)
Example C53_case : exists e1 e2,
  parse_with false false (s "en") (text_of_lines [s "Feature: f"; s "Scenario: s"; s "Given x"; s "oops"; s "And y"; s "|a|"; s "|a|b|"]) = Err (EComposite [e1; e2]) /\
  parse_with true false (s "en") (text_of_lines [s "Feature: f"; s "Scenario: s"; s "Given x"; s "oops"; s "And y"; s "|a|"; s "|a|b|"]) = Err (EParser e1) /\
  l_line (pe_loc e1) = 4 /\ l_line (pe_loc e2) = 7.
Proof. eexists _, _. vm_compute. repeat split. Qed.
Example C53_case_python_error : exists e1,
  parse_with true false (s "en") (text_of_lines [s "oops"; s "@a b"]) = Err (EParser e1) /\
  parse_with false false (s "en") (text_of_lines [s "oops"; s "@a b"]) = Err EAttributeError.
Proof. eexists. vm_compute. split; reflexivity. Qed.

(* the one difference *)
Example C53_case_language : exists e e',
  parse_with true false (s "en") (s " # language: xx") = Err (EParser e) /\ parse_with false false (s "en") (s " # language: xx") = Err (EComposite [e']) /\
  pe_msg e = s "(1:2): Language not supported: xx" /\ pe_loc e = mkLoc 1 (Some 2) /\ pe_loc e' = mkLoc 1 (Some 1).
Proof. eexists _, _. vm_compute. repeat split. Qed.
