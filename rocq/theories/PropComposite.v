(** * C67: the message of several errors *)
From Verif Require Import PyStr PyStrFacts Types Regex Line DialectData Matcher Ast Parser LineSpec LangSpec DocSpec ErrorSpec WriteRead PropLine PropParse PropErrors RaggedFacts.

(** errors.py:48-51 [CompositeParserException.__init__]: the message of the exception, [str(e)] *)
Definition composite_message (es : list perr) : str := s "Parser errors:" ++ [ch_nl] ++ join [ch_nl] (map pe_msg es).

Definition clear (x : str) : Prop := ~ In ch_nl x.
Lemma clear_app x y : clear x -> clear y -> clear (x ++ y).
Proof. unfold clear. intros H1 H2 H. apply in_app_or in H as [H|H]; auto. Qed.
Lemma clear_b x : forallb (fun c => negb (c =? ch_nl)%N) x = true -> clear x.
Proof. rewrite forallb_forall. intros H I. specialize (H _ I). rewrite N.eqb_refl in H. discriminate. Qed.
Lemma clear_nat n : clear (str_of_nat n).
Proof. intros H. pose proof (str_of_nat_digits n) as D. rewrite Forall_forall in D. specialize (D _ H). unfold ch_nl in D. lia. Qed.
Lemma clear_join ls : Forall clear ls -> clear (join (s ", ") ls).
Proof.
  induction 1 as [|x ls Hx Hl IH]; [intros []|]. destruct ls as [|y ls]; [exact Hx|]. cbn [join]. apply clear_app; [exact Hx|]. apply clear_app; [apply clear_b; reflexivity | exact IH].
Qed.
Lemma clear_names names : incl names (s "#EOF" :: line_names) -> clear (shown names).
Proof.
  intros H. apply clear_join. apply Forall_forall. intros x Hx. apply H in Hx.
  assert (Q : Forall clear (s "#EOF" :: line_names)) by (repeat constructor; apply clear_b; reflexivity). rewrite Forall_forall in Q. now apply Q.
Qed.
Lemma clear_message loc x : clear x -> clear (message loc x).
Proof.
  intros H. unfold message. repeat (apply clear_app; [first [apply clear_nat | apply clear_b; reflexivity]|]). exact H.
Qed.
(** at most the last character of a line is a line feed *)
Lemma line_clear text x : In x (split_lines text) -> exists y, clear y /\ (x = y \/ x = y ++ [ch_nl]).
Proof.
  revert x. induction text as [|c text IH]; intros x; cbn [split_lines]; [intros []|].
  destruct (c =? ch_nl)%N eqn:E.
  - intros [<-|H]; [exists []; split; [intros [] | right; apply N.eqb_eq in E; now subst] | auto].
  - apply N.eqb_neq in E. destruct (split_lines text) as [|l ls] eqn:Es.
    + intros [<-|[]]. exists [c]. split; [intros [H|[]]; congruence | now left].
    + intros [<-|H]; [|apply IH; now right]. destruct (IH l (or_introl eq_refl)) as [y [Hy [-> | ->]]]; (exists (c :: y); split; [intros [H|H]; [congruence | now apply Hy]|]); [now left | now right].
Qed.
Lemma strip_sub x c : In c (strip x) -> In c x.
Proof.
  unfold strip, rstrip, lstrip, lstrip_by, rstrip_by. intros H. apply in_rev in H.
  assert (D : forall p (y : str) a, In a (drop_while p y) -> In a y) by (intros p y a; induction y as [|b y IH]; cbn; [tauto|]; destruct (p b); [intros I0; right; auto | auto]).
  apply D in H. apply in_rev in H. now apply D in H.
Qed.
Lemma strip_nl y : strip (y ++ [ch_nl]) = strip y.
Proof.
  unfold strip. assert (Q : lstrip (y ++ [ch_nl]) = match lstrip y with [] => [] | z => z ++ [ch_nl] end).
  { unfold lstrip, lstrip_by. induction y as [|c y IH]; [reflexivity|]. cbn [app drop_while]. destruct (is_space c); [exact IH | reflexivity]. }
  rewrite Q. destruct (lstrip y) as [|c z]; [reflexivity|]. unfold rstrip, rstrip_by. rewrite rev_app_distr. cbn [rev app drop_while]. reflexivity.
Qed.
Lemma clear_strip text x : In x (split_lines text) -> clear (strip x).
Proof.
  intros H. destruct (line_clear text x H) as [y [Hy [-> | ->]]]; [|rewrite strip_nl]; intros I0; apply strip_sub in I0; now apply Hy.
Qed.
Lemma numbered_in text (l : nline) : In l (numbered_lines (split_lines text)) -> In (snd l) (split_lines text).
Proof. destruct l as [n x]. intros H. now apply in_combine_r in H. Qed.
Lemma explained_clear lang text e : explained lang (numbered_lines (split_lines text)) e -> clear (pe_msg e).
Proof.
  intros [before l after d names H1 H2 H3 H4 H5 | names H1 H2 | l H1 H2 | l name loc H1 H2 H3 H4]; cbn [pe_msg unexpected_line_error unexpected_end_error]; apply clear_message.
  - apply clear_app; [apply clear_b; reflexivity|]. apply clear_app; [now apply clear_names|]. apply clear_app; [apply clear_b; reflexivity|].
    apply clear_app; [|apply clear_b; reflexivity]. apply (clear_strip text). apply numbered_in. rewrite H1. apply in_elt.
  - apply clear_app; [apply clear_b; reflexivity|]. apply clear_names. intros x Hx. right. auto.
  - apply clear_b. reflexivity.
  - apply clear_app; [apply clear_b; reflexivity|]. destruct H2 as [? [? [? [? [? [_ [_ [_ [_ [_ [_ [_ N]]]]]]]]]]]]. apply clear_b. rewrite forallb_forall in *. intros c Hc. specialize (N c Hc).
    destruct (c =? ch_nl)%N eqn:E; [|reflexivity]. apply N.eqb_eq in E. subst. discriminate N.
Qed.
(** C67.  The message of a parse that fails with several errors has a heading and then one line for each
    error, its message, in the order of the errors; cut at its line feeds it gives back the messages. *)
Theorem C67_message : forall lang text es, supported lang -> parse_with false false lang text = Err (EComposite es) ->
  es <> [] /\ split_on ch_nl (composite_message es) = s "Parser errors:" :: map pe_msg es.
Proof.
  intros lang text es H E. pose proof (C17_error_reports lang text es H E) as [L _]. assert (Ne : es <> []) by (destruct es; [cbn in L; lia | discriminate]).
  split; [exact Ne|]. pose proof (C58_messages false lang text H) as C. rewrite E in C.
  assert (F : Forall clear (map pe_msg es)) by (apply Forall_map; eapply Forall_impl; [|exact C]; intros e; apply explained_clear).
  unfold composite_message. change (s "Parser errors:" ++ [ch_nl] ++ join [ch_nl] (map pe_msg es)) with (s "Parser errors:" ++ ([ch_nl] ++ join [ch_nl] (map pe_msg es))).
  replace (s "Parser errors:" ++ [ch_nl] ++ join [ch_nl] (map pe_msg es)) with (join [ch_nl] (s "Parser errors:" :: map pe_msg es)) by (destruct es; [contradiction | reflexivity]).
  apply join_split_on; [discriminate|]. constructor; [apply clear_b; reflexivity | exact F].
Qed.
Print Assumptions C67_message.
(* two bad lines, one of them with a language name that is not supported *)
Example C67_case : match parse (text_of_lines [s "# language: nope"; s "Feature: f"; s " hello"; s "Scenario: a"; s " bad"; s "Given x"; s " worse ' "]) with
  | Err (EComposite es) => composite_message es = join [ch_nl]
      [s "Parser errors:"; s "(1:1): Language not supported: nope";
       s "(7:2): expected: #EOF, #TableRow, #DocStringSeparator, #StepLine, #TagLine, #ExamplesLine, #ScenarioLine, #RuleLine, #Comment, #Empty, got 'worse ''"]
  | _ => False end.
Proof. vm_compute. reflexivity. Qed.
