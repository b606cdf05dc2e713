(** * C48 and C50: texts with CR LF line ends *)
From Verif Require Import PyStr PyStrFacts Types Regex RegexFacts ReSem Line DialectData Matcher Ast ParserTable Parser LineSpec LangSpec LangFacts MdSpec MdFacts Rel PropParse Eol EolRun.

(** The text with every LF replaced by CR LF. *)
Definition to_crlf (text : str) : str := flat_map (fun c => if (c =? ch_nl)%N then [ch_cr; ch_nl] else [c]) text.

Lemma split_crlf text : Forall2 eol (split_lines text) (split_lines (to_crlf text)).
Proof.
  induction text as [|c x IH]; [constructor|]. unfold to_crlf in *. cbn [flat_map split_lines]. destruct (c =? ch_nl)%N eqn:E.
  - apply N.eqb_eq in E. subst c. cbn [app split_lines]. change (ch_cr =? ch_nl)%N with false. change (ch_nl =? ch_nl)%N with true. cbv iota. constructor; [|exact IH].
    exists [], [ch_nl], crnl. split; [intros []|]. unfold ends. do 4 (split; [auto|]). split; discriminate.
  - cbn [app split_lines]. rewrite E. destruct IH as [|l l' ls ls' H Hs].
    + constructor; [|constructor]. exists [c], [], []. split; [intros [F|[]]; subst; discriminate E|]. unfold ends. tauto.
    + constructor; [|exact Hs]. destruct H as [y [e [e' [N [Q [Q' [E1 [E2 _]]]]]]]]. exists (c :: y), e, e'. split; [intros [F|F]; [subst c; discriminate E | now apply N]|].
      do 2 (split; [assumption|]). rewrite E1, E2. do 2 (split; [reflexivity|]). split; discriminate.
Qed.

(** Whatever the line ends are: with the classic matcher the outcome is the same, errors and document included. *)
Lemma classic_eol stop lang text text' : Forall2 eol (split_lines text) (split_lines text') -> parse_with stop false lang text' = parse_with stop false lang text.
Proof.
  intros L. unfold parse_with. destruct (new_matcher false lang) as [ms|e] eqn:M; [|reflexivity]. cbn [rbind].
  assert (S : supported lang). { unfold new_matcher in M. destruct (for_name lang) as [d|] eqn:F; [now exists d | discriminate M]. }
  destruct (fresh_reset false lang S) as [m0 [E1 [_ E3]]]. rewrite M in E1. injection E1 as <-.
  pose proof (parse_lines_eol false lang stop 0 ms _ _ E3 L) as H.
  assert (U : forall d, unplace_d false d = d). { intros [[[]|] ?]; reflexivity. }
  destruct (fst (parse_lines stop 0 ms (split_lines text))), (fst (parse_lines stop 0 ms (split_lines text'))); cbn in H; rewrite ?U in H; congruence.
Qed.
(** C48: with the classic matcher the outcome is the same, errors and document included. *)
Theorem C48_crlf stop lang text : parse_with stop false lang (to_crlf text) = parse_with stop false lang text.
Proof. apply classic_eol, split_crlf. Qed.
Example C48_case : exists d f, parse_with false false (s "en") (to_crlf (s "Feature: a" ++ [ch_nl] ++ s " Scenario: b" ++ [ch_nl] ++ s "  Given x" ++ [ch_nl] ++ s "  | 1 | 2 |" ++ [ch_nl])) = Ok d /\ gd_feature d = Some f /\ length (fe_scenarios f) = 1.
Proof. vm_compute. eexists. eexists. repeat split. Qed.
Example C48_case_errors : exists es, parse_with false false (s "en") (to_crlf (s "Feature: a" ++ [ch_nl] ++ s "Scenario: b" ++ [ch_nl] ++ s " Given c" ++ [ch_nl] ++ s "what" ++ [ch_nl])) = Err (EComposite es) /\ length es = 1.
Proof. vm_compute. eexists. split; reflexivity. Qed.

(** C50: with the Markdown matcher the outcome is the same but for the column of the feature. *)
Definition without_column (f : feature) : feature :=
  mkFeature (fe_tags f) (mkLoc (l_line (fe_loc f)) None) (fe_language f) (fe_keyword f) (fe_name f) (fe_desc f) (fe_background f) (fe_scenarios f) (fe_rules f).
Inductive same_but_column : result gdoc -> result gdoc -> Prop :=
| SameErr e : same_but_column (Err e) (Err e)
| SameDoc f f' cs : option_map without_column f = option_map without_column f' -> same_but_column (Ok (mkGdoc f cs)) (Ok (mkGdoc f' cs)).
Lemma markdown_eol stop lang text text' : Forall2 eol (split_lines text) (split_lines text') -> same_but_column (parse_with stop true lang text') (parse_with stop true lang text).
Proof.
  intros L. unfold parse_with. destruct (new_matcher true lang) as [ms|e] eqn:M; [|constructor]. cbn [rbind].
  assert (S : supported lang). { unfold new_matcher in M. destruct (for_name lang) as [d|] eqn:F; [now exists d | discriminate M]. }
  destruct (fresh_reset true lang S) as [m0 [E1 [_ E3]]]. rewrite M in E1. injection E1 as <-.
  pose proof (parse_lines_eol true lang stop 0 ms _ _ E3 L) as H.
  destruct (fst (parse_lines stop 0 ms (split_lines text))) as [[f cs]|], (fst (parse_lines stop 0 ms (split_lines text'))) as [[f' cs']|]; cbn in H; try discriminate H.
  - injection H as H1 H2. subst cs'. apply SameDoc. destruct f as [f|], f' as [f'|]; try discriminate H1; [|reflexivity]. cbn in H1. unfold unplace_f, unplace in H1. injection H1 as H1. cbn. unfold without_column. congruence.
  - injection H as <-. constructor.
Qed.
Theorem C50_markdown_crlf_partial stop lang text : same_but_column (parse_with stop true lang (to_crlf text)) (parse_with stop true lang text).
Proof. apply markdown_eol, split_crlf. Qed.
(** ... and that column is not always the same: a text that begins with a blank line *)
Theorem C50_markdown_crlf_refuted : exists text, parse_with false true (s "en") (to_crlf text) <> parse_with false true (s "en") text.
Proof. exists [ch_nl]. vm_compute. discriminate. Qed.
Example C50_case : exists d f, parse_with false true (s "en") (to_crlf (s "# Feature: a" ++ [ch_nl] ++ s "## Scenario: b" ++ [ch_nl] ++ s "* Given x" ++ [ch_nl] ++ s "  | 1 | 2 |" ++ [ch_nl])) = Ok d /\ gd_feature d = Some f /\ length (fe_scenarios f) = 1.
Proof. vm_compute. eexists. eexists. repeat split. Qed.

(** A file is read with universal newlines: there the two texts are the same for both matchers. *)
Lemma universal_crlf text : ~ In ch_cr text -> universal_newlines (to_crlf text) = text /\ universal_newlines text = text.
Proof.
  induction text as [|c x IH]; intros N; [split; reflexivity|]. destruct IH as [A B]; [intros F; apply N; now right|]. unfold to_crlf in *. cbn [flat_map].
  assert (C : (c =? ch_cr)%N = false) by (apply N.eqb_neq; intros ->; apply N; now left).
  assert (U : universal_newlines (c :: x) = c :: x) by (cbn [universal_newlines]; rewrite C; now rewrite B).
  split; [|exact U]. destruct (c =? ch_nl)%N eqn:E.
  - apply N.eqb_eq in E. subst c. cbn [app universal_newlines]. change (ch_cr =? ch_cr)%N with true. change (ch_nl =? ch_nl)%N with true. cbv iota. now rewrite A.
  - cbn [app universal_newlines]. rewrite C. now rewrite A.
Qed.
Theorem C48_files stop md lang text : ~ In ch_cr text ->
  parse_with stop md lang (universal_newlines (to_crlf text)) = parse_with stop md lang (universal_newlines text).
Proof. intros N. destruct (universal_crlf text N) as [A B]. now rewrite A, B. Qed.
