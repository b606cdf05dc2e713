(** * Exactly when C29 and C60 fail, in Markdown files too *)
From Verif Require Import PyStr PyStrFacts Types Regex Line DialectData Matcher Ast Parser LineSpec LangSpec DocSpec ErrorSpec MdErrorSpec RaggedFacts PropLine PropParse PropErrors PropExpected PropPlaces PropPlaceMsg PropMdErrors Compiler Glob Robot RobotSpec SuiteSpec RobotFacts PropRobot PropExact.

Lemma md_explained_eof d ls e : md_explained d (numbered_lines ls) e -> (l_col (pe_loc e) = None <-> pe_kind e = KUnexpectedEOF).
Proof. intros [l names col H1 H2 H3 H4 H5 | names H1 H2 | l items H1 H2]; cbn; split; congruence. Qed.
Lemma en_dialect : exists d, for_name (s "en") = Some d.
Proof. exact en_supported. Qed.
Lemma errors_columns name content es e : read_file name content = Err (EComposite es) -> In e es -> (l_col (pe_loc e) = None <-> pe_kind e = KUnexpectedEOF).
Proof.
  intros R I. destruct (is_markdown name) eqn:M.
  - destruct en_dialect as [d D]. pose proof (C82_messages false (s "en") d content D) as H. unfold read_file in R. rewrite M in R. rewrite R in H. rewrite Forall_forall in H. exact (md_explained_eof d _ e (H e I)).
  - pose proof (errors_explained _ _ _ M R) as H. rewrite Forall_forall in H. exact (explained_eof _ _ e (H e I)).
Qed.
(** C29.  Building a suite from a file, classic or Markdown, raises an exception exactly if parsing reports an unexpected end of the file. *)
Theorem C29_exactly_all : forall printable name content dir,
  ((exists e, build_gherkin_model printable name content dir = Err e) <->
   exists es x, read_file name content = Err (EComposite es) /\ In x es /\ pe_kind x = KUnexpectedEOF).
Proof.
  intros pr name content dir. pose proof (build_eq pr name content dir) as B. split.
  - intros [e E]. pose proof (C29_outcome_partial pr name content dir) as O. rewrite E in O. destruct O as [_ [es [x [R _]]]]. rewrite R in B.
    rewrite E in B. pose proof (errors_reported es) as Er. destruct (map_result error_of es) as [l|z]; [discriminate B|].
    destruct Er as [_ [y [I N]]]. exists es, y. split; [exact R|]. split; [exact I|]. now apply (errors_columns name content es y R I).
  - intros [es [x [R [I K]]]]. rewrite R in B. apply (errors_columns name content es x R I) in K.
    pose proof (errors_reported es) as Er. destruct (map_result error_of es) as [l|z]; [|eexists; rewrite B; reflexivity].
    exfalso. clear -Er I K. induction Er as [|e r es l Hr Er IH]; [destruct I|]. destruct I as [->|I]; [|now apply IH]. destruct Hr as [_ [_ [c [Hc _]]]]. congruence.
Qed.
Print Assumptions C29_exactly_all.
(** Markdown files of both sorts. *)
Example C29_exactly_all_cases :
  (exists es x, read_file (s "x.feature.md") (text_of_lines [s "# Feature: f"; s "`@t`"]) = Err (EComposite es) /\ In x es /\ pe_kind x = KUnexpectedEOF) /\
  (exists es, read_file (s "x.feature.md") (text_of_lines [s "# Feature: f"; s "## Scenario: x"; s "* Given y"; s "## Background: b"]) = Err (EComposite es) /\ Forall (fun e => pe_kind e <> KUnexpectedEOF) es).
Proof. split; [do 2 eexists; split; [vm_compute; reflexivity|]; split; [now left | reflexivity] | eexists; split; [vm_compute; reflexivity|]; repeat (apply Forall_cons; [discriminate|]); apply Forall_nil]. Qed.

(** C60 holds of Markdown files without exception: the message of every error begins with the error's own line and column. *)
Theorem C60_markdown : forall stop lang text e, supported lang -> In e (errors_of (parse_with stop true lang text)) ->
  exists t, pe_msg e = message (pe_loc e) t.
Proof.
  intros stop lang text e [d D] H. pose proof (C82_messages stop lang d text D) as X.
  assert (Q : md_explained d (numbered_lines (split_lines text)) e).
  { destruct (parse_with stop true lang text) as [dd|[]]; try contradiction; cbn [errors_of] in H; [destruct H as [<-|[]]; exact X|]. rewrite Forall_forall in X. auto. }
  destruct Q; eexists; reflexivity.
Qed.
Print Assumptions C60_markdown.
Example C60_markdown_case : exists e, In e (errors_of (parse_with false true (s "en") (text_of_lines [s "# Feature: f"; s "## Scenario: x"; s "* Given y"; s "   ## Background: b"]))) /\ pe_loc e = mkLoc 4 (Some 7).
Proof. eexists. split; [vm_compute; now left | reflexivity]. Qed.
