(** * Files with any line ends: C92 *)
From Verif Require Import PyStr PyStrFacts Types Regex Line DialectData Matcher Ast Parser Compiler LineSpec PropLine PropCrlf.

(** ** Specification: [out] is [text] with each of its line feeds written as LF, CR LF or CR.  A CR that stands for a line feed is not followed by a
    LF, which would make it a CR LF. *)
Definition starts_lf (x : str) : Prop := exists y, x = ch_nl :: y.
Inductive with_ends : str -> str -> Prop :=
| we_nil : with_ends [] []
| we_char c x y : c <> ch_nl -> c <> ch_cr -> with_ends x y -> with_ends (c :: x) (c :: y)
| we_lf x y : with_ends x y -> with_ends (ch_nl :: x) (ch_nl :: y)
| we_crlf x y : with_ends x y -> with_ends (ch_nl :: x) (ch_cr :: ch_nl :: y)
| we_cr x y : with_ends x y -> ~ starts_lf y -> with_ends (ch_nl :: x) (ch_cr :: y).

Lemma universal_ends x y : with_ends x y -> universal_newlines y = x.
Proof.
  induction 1 as [|c x y N1 N2 H IH|x y H IH|x y H IH|x y H IH S]; [reflexivity| | | |].
  - cbn [universal_newlines]. rewrite (proj2 (N.eqb_neq _ _) N2). now rewrite IH.
  - cbn [universal_newlines]. change (ch_nl =? ch_cr)%N with false. cbv iota. now rewrite IH.
  - cbn [universal_newlines]. change (ch_cr =? ch_cr)%N with true. change (ch_nl =? ch_nl)%N with true. cbv iota. now rewrite IH.
  - destruct y as [|e y]; [cbn in IH; subst x; reflexivity|]. assert (E : (e =? ch_nl)%N = false) by (apply N.eqb_neq; intros ->; apply S; now exists y).
    change (universal_newlines (ch_cr :: e :: y)) with (if (e =? ch_nl)%N then ch_nl :: universal_newlines y else ch_nl :: universal_newlines (e :: y)). rewrite E. now rewrite IH.
Qed.
Lemma ends_universal : forall n y, length y <= n -> with_ends (universal_newlines y) y.
Proof.
  induction n as [|n IH]; intros [|c y] L; try (cbn in L; lia); try constructor. cbn [length] in L. destruct (c =? ch_cr)%N eqn:C.
  - apply N.eqb_eq in C. subst c. destruct y as [|e y]; [apply we_cr; [constructor | intros [z Z]; discriminate Z]|].
    change (universal_newlines (ch_cr :: e :: y)) with (if (e =? ch_nl)%N then ch_nl :: universal_newlines y else ch_nl :: universal_newlines (e :: y)). cbn [length] in L. destruct (e =? ch_nl)%N eqn:E.
    + apply N.eqb_eq in E. subst e. apply we_crlf, IH. lia.
    + apply N.eqb_neq in E. apply we_cr; [apply IH; cbn [length]; lia | intros [z Z]; congruence].
  - cbn [universal_newlines]. rewrite C. apply N.eqb_neq in C. destruct (N.eqb_spec c ch_nl) as [-> |E]; [apply we_lf, IH; lia | apply we_char; auto; apply IH; lia].
Qed.

(** C92.  A file, whose lines end in any of LF, CR LF and CR, is read as the text with LF for each of them: what is read stands for the file, has no CR, and
    is the only text that stands for it. *)
Theorem C92_read : forall content, with_ends (universal_newlines content) content /\ ~ In ch_cr (universal_newlines content) /\ forall text, with_ends text content -> text = universal_newlines content.
Proof.
  intros y. pose proof (ends_universal _ y (le_n _)) as H. split; [exact H|]. split; [|intros t Ht; symmetry; now apply universal_ends].
  clear - H. induction H as [|c x y N1 N2 H IH|x y H IH|x y H IH|x y H IH S]; [intros []| | | |]; (intros [K|K]; [|exact (IH K)]); first [congruence | discriminate K].
Qed.
Print Assumptions C92_read.
(** C92.  So two files that differ only in their line ends are the same document, or are refused with the same errors; classic or Markdown. *)
Theorem C92_files : forall stop md lang text file file', with_ends text file -> with_ends text file' ->
  parse_with stop md lang (universal_newlines file) = parse_with stop md lang (universal_newlines file').
Proof. intros stop md lang text x y H H'. now rewrite (universal_ends _ _ H), (universal_ends _ _ H'). Qed.
Print Assumptions C92_files.
(** ** Texts that are not read from a file: LF and CR LF may be mixed *)
Inductive lf_or_crlf : str -> str -> Prop :=
| lc_nil : lf_or_crlf [] []
| lc_char c x y : c <> ch_nl -> lf_or_crlf x y -> lf_or_crlf (c :: x) (c :: y)
| lc_lf x y : lf_or_crlf x y -> lf_or_crlf (ch_nl :: x) (ch_nl :: y)
| lc_crlf x y : lf_or_crlf x y -> lf_or_crlf (ch_nl :: x) (ch_cr :: ch_nl :: y).
Lemma split_mixed x y : lf_or_crlf x y -> Forall2 Eol.eol (split_lines x) (split_lines y).
Proof.
  induction 1 as [|c x y N H IH|x y H IH|x y H IH]; [constructor| | |].
  - cbn [split_lines]. rewrite (proj2 (N.eqb_neq _ _) N). destruct IH as [|l l' ls ls' E Es].
    + constructor; [|constructor]. exists [c], [], []. split; [intros [F|[]]; congruence|]. unfold Eol.ends. tauto.
    + constructor; [|exact Es]. destruct E as [z [e [e' [Nz [Q [Q' [E1 [E2 _]]]]]]]]. exists (c :: z), e, e'. split; [intros [F|F]; [congruence | now apply Nz]|]. do 2 (split; [assumption|]). rewrite E1, E2. do 2 (split; [reflexivity|]). split; discriminate.
  - cbn [split_lines]. change (ch_nl =? ch_nl)%N with true. cbv iota. constructor; [|exact IH]. exists [], [ch_nl], [ch_nl]. split; [intros []|]. unfold Eol.ends. do 4 (split; [auto|]). split; discriminate.
  - cbn [split_lines]. change (ch_cr =? ch_nl)%N with false. change (ch_nl =? ch_nl)%N with true. cbv iota. constructor; [|exact IH].
    exists [], [ch_nl], [ch_cr; ch_nl]. split; [intros []|]. unfold Eol.ends. do 4 (split; [auto|]). split; discriminate.
Qed.
(** C92.  With the classic matcher LF and CR LF may be mixed also in a text. *)
Theorem C92_mixed : forall stop lang text text', lf_or_crlf text text' -> parse_with stop false lang text' = parse_with stop false lang text.
Proof. intros stop lang x y H. apply classic_eol, split_mixed, H. Qed.
Print Assumptions C92_mixed.

(** ** Concrete cases *)
Definition c92_text : str := text_of_lines [s "Feature: a"; []; s "Scenario: b"; s " Given x"; s " | 1 | 2 |"].
Definition c92_file : str := s "Feature: a" ++ [ch_cr; ch_cr] ++ s "Scenario: b" ++ [ch_cr; ch_nl] ++ s " Given x" ++ [ch_nl] ++ s " | 1 | 2 |" ++ [ch_cr].
Definition c92_mix : str := s "Feature: a" ++ [ch_cr; ch_nl; ch_nl] ++ s "Scenario: b" ++ [ch_cr; ch_nl] ++ s " Given x" ++ [ch_nl] ++ s " | 1 | 2 |" ++ [ch_cr; ch_nl].
Example C92_case : with_ends c92_text c92_file /\ lf_or_crlf c92_text c92_mix /\ exists d f, parse_with false false (s "en") (universal_newlines c92_file) = Ok d /\ gd_feature d = Some f /\ length (fe_scenarios f) = 1.
Proof.
  split; [|split].
  - rewrite <- (universal_ends c92_text c92_file) at 1; [apply (ends_universal _ _ (le_n _))|]. assert (E : c92_text = universal_newlines c92_file) by (vm_compute; reflexivity). rewrite E. apply (ends_universal _ _ (le_n _)).
  - cbn [c92_text c92_mix]. vm_compute. repeat (first [apply lc_nil | apply lc_crlf | apply lc_lf | apply lc_char; [discriminate|]]).
  - vm_compute. do 2 eexists. repeat split.
Qed.
(** a lone CR in a text that is not read from a file does not end a line *)
Example C92_lone_cr : exists d f, parse_with false false (s "en") (s "Feature: a" ++ [ch_cr] ++ s "Scenario: b") = Ok d /\ gd_feature d = Some f /\ fe_scenarios f = [].
Proof. vm_compute. do 2 eexists. repeat split. Qed.
