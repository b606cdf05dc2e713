(** * Exactly when C29 and C60 fail *)
From Verif Require Import PyStr PyStrFacts Types Regex Line DialectData Matcher Ast Parser LineSpec LangSpec DocSpec ErrorSpec RaggedFacts PropLine PropParse PropErrors PropExpected PropPlaces PropPlaceMsg Compiler Glob Robot RobotSpec SuiteSpec RobotFacts PropRobot.

Lemma explained_eof lang ls e : explained lang (numbered_lines ls) e ->
  (l_col (pe_loc e) = None <-> pe_kind e = KUnexpectedEOF).
Proof.
  intros [before l after d names H1 H2 H3 H4 H5 | names H1 H2 | l H1 H2 | l name loc H1 H2 H3 [-> | ->]]; cbn; split; congruence.
Qed.
Lemma errors_explained name content es : is_markdown name = false -> read_file name content = Err (EComposite es) -> Forall (explained (s "en") (numbered_lines (split_lines content))) es.
Proof. intros M R. unfold read_file in R. rewrite M in R. pose proof (C58_messages false (s "en") content en_supported) as H. now rewrite R in H. Qed.

(** C29.  Building a suite from a classic file raises an exception exactly if parsing reports an unexpected end of the file. *)
Theorem C29_exactly : forall printable name content dir, is_markdown name = false ->
  ((exists e, build_gherkin_model printable name content dir = Err e) <->
   exists es x, read_file name content = Err (EComposite es) /\ In x es /\ pe_kind x = KUnexpectedEOF).
Proof.
  intros pr name content dir M. pose proof (build_eq pr name content dir) as B. split.
  - intros [e E]. pose proof (C29_outcome_partial pr name content dir) as O. rewrite E in O. destruct O as [_ [es [x [R _]]]]. rewrite R in B.
    pose proof (errors_explained _ _ _ M R) as X. rewrite E in B. pose proof (errors_reported es) as Er. destruct (map_result error_of es) as [l|z]; [discriminate B|].
    destruct Er as [_ [y [I N]]]. exists es, y. split; [exact R|]. split; [exact I|]. rewrite Forall_forall in X. now apply (explained_eof _ _ _ (X y I)).
  - intros [es [x [R [I K]]]]. rewrite R in B. pose proof (errors_explained _ _ _ M R) as X. rewrite Forall_forall in X. apply (explained_eof _ _ _ (X x I)) in K.
    pose proof (errors_reported es) as Er. destruct (map_result error_of es) as [l|z]; [|eexists; rewrite B; reflexivity].
    exfalso. clear -Er I K. induction Er as [|e r es l Hr Er IH]; [destruct I|]. destruct I as [->|I]; [|now apply IH]. destruct Hr as [_ [_ [c [Hc _]]]]. congruence.
Qed.
Print Assumptions C29_exactly.
Example C29_exactly_cases :
  (exists es x, read_file (s "x.feature") (s "@tag") = Err (EComposite es) /\ In x es /\ pe_kind x = KUnexpectedEOF) /\
  (exists es, read_file (s "x.feature") (text_of_lines [s "Feature: f"; s "Scenario: x"; s "  Given y"; s "oops"]) = Err (EComposite es) /\ Forall (fun e => pe_kind e <> KUnexpectedEOF) es).
Proof. split; [do 2 eexists; split; [vm_compute; reflexivity|]; split; [now left | reflexivity] | eexists; split; [vm_compute; reflexivity|]; repeat (apply Forall_cons; [discriminate|]); apply Forall_nil]. Qed.

Lemma digits_split a b (x y : str) c : (c < 48 \/ 58 <= c)%N -> str_of_nat a ++ c :: x = str_of_nat b ++ c :: y -> a = b /\ x = y.
Proof.
  intros Hc. assert (G : forall u v : str, Forall (fun c => 48 <= c < 58)%N u -> Forall (fun c => 48 <= c < 58)%N v -> u ++ c :: x = v ++ c :: y -> u = v /\ x = y).
  { induction u as [|p u IH]; intros [|q v] Hu Hv E; cbn [app] in E.
    - now injection E as ->.
    - injection E as <- _. apply Forall_inv in Hv. lia.
    - injection E as -> _. apply Forall_inv in Hu. lia.
    - injection E as -> E. apply Forall_inv_tail in Hu. apply Forall_inv_tail in Hv. destruct (IH v Hu Hv E) as [-> ->]. now split. }
  intros E. apply G in E as [E ->]; try apply str_of_nat_digits. split; [now apply str_of_nat_inj | reflexivity].
Qed.
Lemma message_inj l l' x y : message l x = message l' y -> l_line l = l_line l' /\ match l_col l with Some c => c | None => 0 end = match l_col l' with Some c => c | None => 0 end.
Proof.
  unfold message. intros E. apply app_inv_head in E. apply digits_split in E as [E1 E]; [|right; vm_compute; discriminate]. split; [exact E1|].
  change (s "): ") with (41%N :: s ": ") in E. cbn [app] in E. apply digits_split in E as [E2 _]; [exact E2 | left; reflexivity].
Qed.
Lemma explained_line lang ls e : explained lang (numbered_lines ls) e -> pe_kind e = KNoSuchLanguage ->
  exists l name, In l (numbered_lines ls) /\ language_line (snd l) name /\ for_name name = None /\ l_line (pe_loc e) = fst l /\ exists text, pe_msg e = message (here l) text.
Proof.
  intros [before l after d names H1 H2 H3 H4 H5 | names H1 H2 | l H1 H2 | l name loc H1 H2 H3 H4] K; try discriminate K.
  exists l, name. repeat (split; [assumption|]). split; [destruct H4 as [-> | ->]; reflexivity|]. eexists. reflexivity.
Qed.
Lemma one_place ls n x y : In (n, x) (numbered_lines ls) -> In (n, y) (numbered_lines ls) -> x = y.
Proof. intros H1 H2. apply numbered_line in H1 as [_ H1]. apply numbered_line in H2 as [_ H2]. congruence. Qed.
(** C60.  Where the errors of a classic text are collected, the message of an error shows the error's own place exactly if the error is not
    that of an unsupported language, or its location has the column of the first visible character of its line. *)
Theorem C60_exactly : forall lang text e, supported lang -> In e (errors_of (parse_with false false lang text)) ->
  ((exists t, pe_msg e = message (pe_loc e) t) <->
   (pe_kind e <> KNoSuchLanguage \/ exists x, In (l_line (pe_loc e), x) (numbered_lines (split_lines text)) /\ l_col (pe_loc e) = Some (indent_of x + 1)%nat)).
Proof.
  intros lang text e S H. pose proof (C60_place_partial false false lang text e S H) as P. pose proof (C58_messages false lang text S) as X.
  assert (Q : explained lang (numbered_lines (split_lines text)) e).
  { destruct (parse_with false false lang text) as [d|[]]; try contradiction; cbn [errors_of] in H; [destruct H as [<-|[]]; exact X|]. rewrite Forall_forall in X. auto. }
  clear X H. split.
  - intros [t T]. destruct (pe_kind e) eqn:K; try (left; discriminate). right.
    destruct (explained_line _ _ _ Q K) as [l [name [Hl [Ln [Nn [Le [tx Tx]]]]]]]. exists (snd l). rewrite Le. split; [now destruct l|].
    assert (N : l_col (pe_loc e) <> None) by (intros N; apply (explained_eof _ _ _ Q) in N; congruence).
    rewrite T in Tx. apply message_inj in Tx as [_ Tx]. cbn in Tx. destruct (l_col (pe_loc e)); congruence.
  - intros [K|[x [Hx C]]]; [apply P; now right|]. destruct (pe_kind e) eqn:K; try (apply P; right; discriminate).
    destruct (explained_line _ _ _ Q K) as [l [name [Hl [Ln [Nn [Le [tx Tx]]]]]]]. exists tx. rewrite Tx. f_equal. unfold here.
    rewrite Le in Hx. rewrite (one_place (split_lines text) (fst l) (snd l) x); [|now destruct l | exact Hx]. destruct (pe_loc e) as [a b]. cbn in Le, C. congruence.
Qed.
Print Assumptions C60_exactly.
Example C60_exactly_cases : exists e1 e2, In e1 (errors_of (parse_with false false (s "en") (s "# language: xx"))) /\ l_col (pe_loc e1) = Some 1 /\ pe_kind e1 = KNoSuchLanguage /\
  In e2 (errors_of (parse_with false false (s "en") (s "  # language: xx"))) /\ l_col (pe_loc e2) = Some 1 /\ pe_kind e2 = KNoSuchLanguage.
Proof. do 2 eexists. split; [vm_compute; now left|]. split; [reflexivity|]. split; [reflexivity|]. split; [vm_compute; now left|]. split; reflexivity. Qed.
