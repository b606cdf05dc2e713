(** * Documents: C04 *)
From Verif Require Import PyStr PyStrFacts Types Regex Line DialectData Matcher Ast ParserTable Parser Classify Table Scan Grammar Deriv Cert LineSpec StepFacts Cst Report Eval LangSpec LangFacts Complete DocSpec Erase Den LineIff Means Layout Texts DocStr Blocks DocRun FeatureDoc DocMeans PropLine PropParse.

Lemma matcher_fields lang ms : new_matcher false lang = Ok ms -> for_name lang = Some (ms_dialect ms) /\ ms_name ms = lang.
Proof.
  unfold new_matcher. destruct (for_name lang) as [d|] eqn:E; [|discriminate]. unfold ms_reset. cbn [ms_name ms_default].
  assert (R : str_eqb lang lang = true) by now apply str_eqb_spec. rewrite R. cbn. intros H. injection H as <-. cbn. auto.
Qed.
Lemma doc_stands lang ms nls doc : new_matcher false lang = Ok ms -> doc_lines ms nls doc <-> stands_for lang nls doc.
Proof.
  intros H. apply matcher_fields in H as [H1 H2]. unfold doc_lines, stands_for, feature_S, lang_part. split.
  - intros [pre [rest [cs0 [-> [P Q]]]]]. destruct Q as [[-> ->]|Q]; [|destruct Q as [n1 [n2 [ms' [c1 [c2 [f [-> [Lp [F ->]]]]]]]]]; destruct Lp as [[-> [-> ->]]|[h [mid [name [d [-> [L1 [L2 [L3 ->]]]]]]]]]].
    + left. exists cs0. rewrite app_nil_r. auto.
    + right. left. rewrite H2 in F. exists pre, n2, (ms_dialect ms), f, cs0, c2. auto 8.
    + right. right. exists pre, h, mid, n2, name, d, f, cs0, c1, c2. cbn in F. auto 10.
  - intros [[cs [P ->]]|[Q|Q]]; [|destruct Q as [pre [fl [d [f [cs0 [cs1 [-> [P [D [F ->]]]]]]]]]]|destruct Q as [pre [h [mid [fl [name [d [f [cs0 [cs1 [cs2 [-> [P [L1 [L2 [L3 [F ->]]]]]]]]]]]]]]]]].
    + exists nls, [], cs. rewrite app_nil_r. auto.
    + exists pre, fl, cs0. split; [reflexivity|]. split; [exact P|]. right. rewrite H1 in D. injection D as <-. exists [], fl, ms, [], cs1, f. rewrite H2. auto 10.
    + exists pre, (h :: mid ++ fl), cs0. split; [reflexivity|]. split; [exact P|]. right. exists (h :: mid), fl, (in_language ms name d), cs1, cs2, f. split; [reflexivity|]. split; [right; eauto 10|]. auto.
Qed.

(** C04.  The parser accepts a text exactly if its lines stand for a document, and then that document,
    ids aside, is the one it returns. *)
Theorem C04_parse_iff : forall stop lang text doc, supported lang ->
  ((exists d, parse_with stop false lang text = Ok d /\ no_ids d = doc) <-> stands_for lang (numbered_lines (split_lines text)) doc).
Proof.
  intros stop lang text doc H. destruct (fresh_matcher lang H) as [ms [E1 [E2 [E3 [E4 _]]]]]. pose proof (split_lines_nonempty text) as Hl.
  rewrite <- (doc_stands lang ms _ doc E1). change (numbered_lines (split_lines text)) with (lines_from 0 (split_lines text)). rewrite <- (doc_means ms (split_lines text) 0 doc (conj E3 E4) Hl).
  unfold parse_with. rewrite E1. cbn [rbind]. split.
  - intros [d [P <-]]. apply (parse_ok_tree stop 0 ms ms _ d E2 E3 E4 Hl) in P as [l [subs [ids' [T [L [E ->]]]]]]. exists l, subs, ids'. auto.
  - intros [l [subs [ids' [T [L [E <-]]]]]]. eexists. split; [|reflexivity]. apply (parse_ok_tree stop 0 ms ms _ _ E2 E3 E4 Hl). exists l, subs, ids'. auto.
Qed.
Print Assumptions C04_parse_iff.

(** so a text stands for at most one document *)
Theorem C04_unambiguous : forall lang text doc1 doc2, supported lang ->
  stands_for lang (numbered_lines (split_lines text)) doc1 -> stands_for lang (numbered_lines (split_lines text)) doc2 -> doc1 = doc2.
Proof.
  intros lang text doc1 doc2 H H1 H2. apply (C04_parse_iff true lang text _ H) in H1 as [d1 [P1 <-]], H2 as [d2 [P2 <-]]. congruence.
Qed.
Print Assumptions C04_unambiguous.

Definition c04_text : str := text_of_lines
  [s "# about this file"; s "@a @b"; s "Feature: f"; s "  what it is"; s ""; s "  Background:"; s "    Given x"; s "  # here"; s ""; s "  Scenario Outline: o"; s "    When <a>"; s "      | 1 | 2 |"; s "      # mid"; s "      | 3 | 4 |";
   s "    Then y"; s "      """""""; s "      # text"; s "      """""""; s "    Examples:"; s "      | a |"; s "      | 1 |"; s "  Rule: r"; s "    Example: e"].
Example C04_case : exists f, stands_for (s "en") (numbered_lines (split_lines c04_text)) (mkGdoc (Some f) (map (fun p => mkComment (mkLoc (fst p) (Some 1)) (Some (snd p))) [(1, s "# about this file"); (8, s "  # here"); (13, s "      # mid")]))
  /\ map sc_name (fe_scenarios f) = [Some (s "o")] /\ length (fe_rules f) = 1.
Proof.
  assert (S : supported (s "en")) by (eexists; vm_compute; reflexivity).
  assert (P : exists d, parse_with false false (s "en") c04_text = Ok d) by (eexists; vm_compute; reflexivity). destruct P as [d P].
  pose proof (proj1 (C04_parse_iff false (s "en") c04_text _ S) (ex_intro _ d (conj P eq_refl))) as H.
  vm_compute in P. injection P as <-. eexists. split; [exact H | vm_compute; auto].
Qed.
