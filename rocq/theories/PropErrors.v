(** * Error messages: C58 *)
From Verif Require Import PyStr PyStrFacts Types Regex Line DialectData Matcher Ast ParserTable Parser Classify Table Scan Grammar Deriv Cert LineSpec Cst Report Eval LangSpec LangFacts Complete DocSpec LineIff DocRun PropLine PropParse ErrorSpec ErrorFacts.

(** If every event of the scanner is fine, so is every error that is reported. *)
Lemma parse_lines_errors (P : perr -> Prop) (HP : forall e, P e -> P (settled e)) stop ids ms ms0 lines :
  ms_reset ms = Ok ms0 -> matcher_ok ms0 -> ms_sep ms0 = None -> lines_ok lines -> Forall (ev_P P) (fst (scan 0 ms0 0 lines)) ->
  match fst (parse_lines stop ids ms lines) with Err (EParser e) => P e | Err (EComposite es) => Forall P es | _ => True end.
Proof.
  intros Hr Hm Hs Hl Fe. destruct (run_doc_P P ms0 lines ids Hm Hs Hl Fe) as [es [b' [R [F G]]]].
  pose proof (parse_b_outcome ast_builder ast_no_composite stop (ab_reset ids) ms ms0 lines es (Ok tt) b' Hr (matcher_good _ Hm) Hl R) as [O1 O2].
  cbv zeta in O1. unfold parse_lines. destruct (parse_b ast_builder stop (ab_reset ids) ms lines) as [r c]. cbn [fst snd] in *. subst r.
  assert (X : forall e, snd (scan 0 ms0 0 lines) = Err e -> match e with EParser _ | EComposite _ => False | _ => True end).
  { intros e E. rewrite E in G. destruct G as [y [_ G]]. apply raise_at_spec in G as [[-> _]|[-> _]]; exact I. }
  unfold outcome. destruct stop.
  - destruct es as [|e es]; [|inversion F; subst; cbn; assumption].
    destruct (snd (scan 0 ms0 0 lines)) as [u|e] eqn:E; cbn [rbind fst]; [|specialize (X e eq_refl); destruct e; tauto].
    destruct (G eq_refl) as [l [d [G1 [G2 G3]]]]. rewrite (O2 eq_refl), G3. exact I.
  - destruct (feed es []) as [full errs] eqn:Ff.
    destruct (feed_inv P HP _ _ _ _ Ff) as [A1 [A2 [A3 [A4 [A5 _]]]]]; auto; [constructor | cbn; lia|].
    destruct full; [exact A3|]. destruct errs as [|e errs].
    + rewrite (A5 eq_refl) in *. destruct (snd (scan 0 ms0 0 lines)) as [u|e] eqn:E; cbn [rbind fst]; [|specialize (X e eq_refl); destruct e; tauto].
      destruct (G eq_refl) as [l [d [G1 [G2 G3]]]]. rewrite (O2 eq_refl), G3. exact I.
    + destruct (snd (scan 0 ms0 0 lines)) as [u|x] eqn:E; cbn [rbind fst]; [exact A3|]. specialize (X x eq_refl). destruct x; tauto.
Qed.

Lemma settled_explained lang lines e : explained lang lines e -> explained lang lines (settled e).
Proof.
  intros H. destruct H as [before l after d names H1 H2 H3 H4 H5 | names H1 H2 | l H1 H2 | l name loc H1 H2 H3 H4].
  - eapply ex_line; eassumption.
  - apply ex_end; assumption.
  - apply ex_row; assumption.
  - unfold settled. cbn [pe_kind pe_msg pe_loc]. replace (l_line loc) with (fst l) by (now destruct H4; subst). eapply ex_language; eauto.
Qed.

(** C58.  Whatever error is reported for a text, it is one of four, each with a fixed wording: a line of
    none of the kinds it lists; the end of the file; a row that does not fit; an unsupported language. *)
Theorem C58_messages : forall stop lang text, supported lang ->
  match parse_with stop false lang text with
  | Err (EParser e) => explained lang (numbered_lines (split_lines text)) e
  | Err (EComposite es) => Forall (explained lang (numbered_lines (split_lines text))) es
  | _ => True
  end.
Proof.
  intros stop lang text S. destruct (fresh_matcher lang S) as [ms [E1 [E2 [E3 [E4 _]]]]]. pose proof (split_lines_nonempty text) as Hl.
  unfold parse_with. rewrite E1. cbn [rbind].
  assert (Inv : st_inv 0 ms [(RGherkinDocument, [])]).
  { exists [(RGherkinDocument, prod RGherkinDocument)]. split; [reflexivity|]. split.
    - cbn [sinv]. split; [reflexivity|]. split; [reflexivity|]. split; [apply leaves_ok_nil|]. split; [constructor | exact I].
    - split; [exact E3|]. rewrite E4. split; reflexivity. }
  assert (D : for_name lang = Some (ms_dialect ms)).
  { destruct S as [d S]. unfold new_matcher in E1. rewrite S in E1. unfold ms_reset in E1. cbn in E1. assert (R : str_eqb lang lang = true) by now apply str_eqb_spec. rewrite R in E1. cbn in E1. injection E1 as <-. exact S. }
  apply (parse_lines_errors _ (settled_explained lang _) stop 0 ms ms (split_lines text) E2 E3 E4 Hl).
  exact (scan_explained lang (split_lines text) 0 ms 0 [] [(RGherkinDocument, [])] Hl ltac:(discriminate) Inv (or_introl D) eq_refl).
Qed.
Print Assumptions C58_messages.

(** The wording, in the four cases. *)
Definition msgs (r : result gdoc) : list (pkind * str) :=
  match r with Err (EComposite es) => map (fun e => (pe_kind e, pe_msg e)) es | _ => [] end.
Example C58_case :
  msgs (parse_with false false (s "en") (text_of_lines [s "# language: xx"; s " what"; s "Feature: f"; s " Scenario: s"; s "  Given x"; s "   |a|b|"; s "   |c|"; s "  @t"])) =
  [(KNoSuchLanguage, s "(1:1): Language not supported: xx");
   (KUnexpectedToken, s "(2:2): expected: #EOF, #Language, #TagLine, #FeatureLine, #Comment, #Empty, got 'what'");
   (KAstBuilder, s "(7:4): inconsistent cell count within the table");
   (KUnexpectedEOF, s "(9:0): unexpected end of file, expected: #TagLine, #RuleLine, #Comment, #Empty")] /\
  explained (s "en") (numbered_lines [s "what"]) (unexpected_line_error (1, s "what") [s "#EOF"; s "#Language"; s "#TagLine"; s "#FeatureLine"; s "#Comment"; s "#Empty"]).
Proof.
  split; [vm_compute; reflexivity|].
  pose proof (C58_messages true (s "en") (s "what") ltac:(eexists; vm_compute; reflexivity)) as H.
  assert (P : parse_with true false (s "en") (s "what") = Err (EParser (unexpected_line_error (1, s "what") [s "#EOF"; s "#Language"; s "#TagLine"; s "#FeatureLine"; s "#Comment"; s "#Empty"]))) by (vm_compute; reflexivity).
  rewrite P in H. exact H.
Qed.
