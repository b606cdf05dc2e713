(** * Parsing Markdown: C01, C03, C17; and C06 for both matchers *)
From Verif Require Import PyStr PyStrFacts Types Regex Line DialectData Matcher Ast ParserTable Parser Classify Table Scan Grammar Deriv Cert LineSpec TagIff RowIff PropLine Cst Report Eval IdSpec Rel Ids PickleSpec WfDoc MdSpec MdFacts MdRun AnyRun WeakTree WeakEval AstRun MdTree PropParse.

Section Md.
Context (lines : list str) (Hl : lines_ok lines) (Ho : Forall one_line lines).
Definition of_line (t : token) : Prop := exists n, n <= length lines /\ t_line t = mkLine (nth n lines []) (S n) /\ t_loc_line t = S n.
Definition md_ready (ms : mstate) : Prop := ms_md ms = true /\ for_name (ms_name ms) = Some (ms_dialect ms).
Definition md_leaf (t : token) : Prop := placed t /\ of_line t.
Definition md_exn (e : exn) : Prop := e = ERuntimeError /\ exists x, In x lines /\ bad_row x.
Lemma nth_one n : one_line (nth n lines []).
Proof.
  destruct (nth_in_or_default n lines []) as [H|H]; [rewrite Forall_forall in Ho; now apply Ho|]. rewrite H. exists [], []. split; [reflexivity|]. split; [easy | now left].
Qed.
Lemma md_step k ms t : md_ready ms -> of_line t -> k = TkEOF \/ t_eof t = false ->
  match do_match k ms t with
  | (r, ms', t') => md_ready ms' /\ of_line t' /\ t_line t' = t_line t /\
      match r with
      | Ok true => wmatched md_leaf k t'
      | Ok false => wrefused k (t_line t)
      | Err (EParser p) => err_at (length lines) (pe_loc p) /\ wrefused k (t_line t)
      | Err e => md_exn e
      end
  end.
Proof.
  intros [Hm Hn] Ht Hk. unfold do_match. rewrite Hm. pose proof Ht as [n [N1 [N2 N3]]].
  assert (Hx : one_line (g_text (t_line t))) by (rewrite N2; apply nth_one).
  pose proof (kept_match k ms t) as [K1 K2 K3 K4 K5 _ _].
  assert (Ht' : of_line (t_of (md_match k ms t))) by (exists n; rewrite K1, K2; auto).
  pose proof (md_call md_leaf k ms t Hm Hn Hx Hk (fun H => Logic.conj (md_placed k ms t H) Ht')) as C.
  destruct (md_match k ms t) as [[r ms'] t']. cbn [ms_of t_of fst snd] in *.
  split; [split; congruence|]. split; [exact Ht'|]. split; [exact K1|]. destruct r as [[|]|e]; try exact C.
  assert (E : e = ERuntimeError /\ bad_row (g_text (t_line t))) by (destruct e; try exact C; destruct C).
  destruct E as [-> E]. split; [reflexivity|]. exists (nth n lines []). rewrite N2 in E. cbn [g_text] in E. split; [|exact E].
  destruct (nth_in_or_default n lines []) as [H|H]; [exact H|]. rewrite H in E. destruct E as [E _]. discriminate E.
Qed.
Lemma of_line_place n : n <= length lines -> forall c, (n < length lines -> some_col c) -> err_at (length lines) (mkLoc (S n) c).
Proof. intros H c Hc. split; cbn; [lia|]. intros L. apply Hc. lia. Qed.
Theorem md_outcome stop ids ms ms0 : ms_reset ms = Ok ms0 -> md_ready ms0 ->
  match parse_lines stop ids ms lines with
  | (Ok d, c) => exists l, wtree md_leaf (Node RGherkinDocument l) /\ doc_of ids l d (ab_ids (c_b c))
  | (Err e, _) => ends (fun p => err_at (length lines) (pe_loc p)) md_exn stop e
  end.
Proof.
  intros Hr Hi. apply (parse_lines_any lines ids md_ready of_line md_leaf (fun p => err_at (length lines) (pe_loc p)) md_exn wrefused (fun _ _ H => H) Hl) with (ms0 := ms0); auto.
  - intros e [-> _]. exact I.
  - intros n Hn. exists n. auto.
  - intros k ms1 t H1 H2 H3. pose proof (md_step k ms1 t H1 H2 H3) as S. destruct (do_match k ms1 t) as [[r m] t']. destruct S as [S1 [S2 S3]]. split; [exact S1|]. split; [now right | exact S3].
  - intros q st t _ [n [H1 [H2 H3]]] _ _. generalize (st_expected st) as ks. intros ks. pose proof (unexpected_line t ks) as U. destruct (pe_loc (unexpected t ks)) as [l c] eqn:E. cbn in U. subst l. rewrite H3. apply of_line_place; [exact H1|].
    intros L. assert (Te : t_eof t = false). { unfold t_eof. rewrite H2. unfold g_bool. cbn [g_text]. pose proof (proj1 (Forall_forall _ _) Hl _ (nth_In lines [] L)) as Hl1. cbn beta in Hl1. destruct (nth n lines []); [congruence | reflexivity]. }
    pose proof (unexpected_col t ks Te) as C. rewrite E in C. exact C.
  - intros e. apply settled_at.
  - intros t [P _] [n [H1 [H2 H3]]] _. unfold cell_error. cbn [pe_loc]. change (lf_t (wrap t)) with t. unfold t_location. rewrite H3. apply of_line_place; [exact H1|]. intros _. exact P.
Qed.
End Md.

Lemma fresh_md lang : supported lang -> exists ms, new_matcher true lang = Ok ms /\ ms_reset ms = Ok ms /\ md_ready ms.
Proof.
  intros [d Hd]. unfold new_matcher. rewrite Hd. unfold ms_reset. cbn.
  assert (R : str_eqb lang lang = true) by now apply str_eqb_spec. rewrite R. cbn. eexists. split; [reflexivity|]. cbn. rewrite R. cbn.
  split; [reflexivity|]. split; cbn; auto.
Qed.
Lemma parse_md_outcome stop lang text : supported lang ->
  match parse_with stop true lang text with
  | Ok d => exists l ids', wtree (md_leaf (split_lines text)) (Node RGherkinDocument l) /\ doc_of 0 l d ids'
  | Err e => ends (fun p => err_at (length (split_lines text)) (pe_loc p)) (md_exn (split_lines text)) stop e
  end.
Proof.
  intros H. destruct (fresh_md lang H) as [ms [E1 [E2 E3]]]. unfold parse_with. rewrite E1. cbn [rbind].
  pose proof (md_outcome (split_lines text) (split_lines_nonempty text) (split_lines_one text) stop 0 ms ms E2 E3) as P.
  destruct (parse_lines stop 0 ms (split_lines text)) as [[d|e] c]; [|exact P]. destruct P as [l P]. exists l, (ab_ids (c_b c)). exact P.
Qed.

(** C01.  Markdown: the only exception that is not a parser error comes from a table row with an unpaired backslash. *)
Theorem C01_markdown : forall stop lang text, supported lang ->
  match parse_with stop true lang text with
  | Ok d => True
  | Err (EComposite es) => stop = false
  | Err (EParser e) => stop = true
  | Err ERuntimeError => exists x, In x (split_lines text) /\ bad_row x
  | Err _ => False
  end.
Proof.
  intros stop lang text H. pose proof (parse_md_outcome stop lang text H) as P. destruct (parse_with stop true lang text) as [d|e]; [exact I|].
  inversion P as [p Hs Hp|es Hs|e' [-> X]]; subst; auto.
Qed.
Print Assumptions C01_markdown.
Example C01_markdown_cases :
  (exists d, parse_with false true (s "en") (text_of_lines [s "# Feature: f"; s "## Scenario: a"; s "* Given x"]) = Ok d) /\
  (exists es, parse_with false true (s "en") (text_of_lines [s "# Feature: f"; s "## Scenario: a"; s "* Given x"; s "  |a|"; s "  |b|c|"]) = Err (EComposite es)) /\
  (exists e, parse_with true true (s "en") (text_of_lines [s "# Feature: f"; s "## Scenario: a"; s "* Given x"; s "  |a|"; s "  |b|c|"]) = Err (EParser e)) /\
  parse_with false true (s "en") (text_of_lines [s "# Feature: f"; s "|a|\"]) = Err ERuntimeError.
Proof. split; [|split; [|split]]; [eexists; vm_compute; reflexivity..|vm_compute; reflexivity]. Qed.

(** C17.  Where errors are, and how many. *)
Theorem C17_markdown_reports : forall lang text es, supported lang ->
  parse_with false true lang text = Err (EComposite es) ->
  1 <= length es <= 11 /\ NoDup (map pe_msg es) /\ Forall (fun e => error_place text (pe_loc e)) es.
Proof.
  intros lang text es H E. pose proof (parse_md_outcome false lang text H) as P. rewrite E in P.
  inversion P as [|? Hs H1 H2 H3|e' [X _]]; subst; [|discriminate X]. auto.
Qed.
Print Assumptions C17_markdown_reports.
Theorem C17_markdown_first_error : forall lang text e, supported lang ->
  parse_with true true lang text = Err (EParser e) -> error_place text (pe_loc e).
Proof.
  intros lang text e H E. pose proof (parse_md_outcome true lang text H) as P. rewrite E in P.
  inversion P as [p Hs Hp| |e' [X _]]; subst; [exact Hp | discriminate X].
Qed.
Print Assumptions C17_markdown_first_error.

(** C03.  The document of an accepted Markdown text is that of a syntax tree for the published grammar
    whose leaves are lines of the text.  (The leaves need not be all the lines, nor in order: C43.) *)
Lemma weak_published F t : wtree F t -> wf_published lkind t.
Proof.
  induction t as [a|r l IH] using tree_ind'; intros H; [constructor|]. inversion H as [|? ? H1 H2 H3]; subst. constructor; [now apply prod_published|].
  rewrite Forall_forall in *. intros t Ht. eapply IH; eauto.
Qed.
Lemma weak_leaves F t : wtree F t -> (forall a, t <> Leaf a) -> Forall (fun a => F (lf_t a)) (yield t).
Proof.
  induction t as [a|r l IH] using tree_ind'; intros H N; [congruence|]. inversion H as [|? ? H1 H2 H3]; subst. cbn [yield]. fold (@yield leaf).
  apply Forall_forall. intros a Ha. apply in_flat_map in Ha as [t [T1 T2]]. destruct t as [b|r' l'].
  - destruct T2 as [<-|[]]. apply in_split in T1 as [pre [post ->]]. exact (wl_F _ _ _ _ (H2 pre b post eq_refl)).
  - rewrite Forall_forall in IH, H3. specialize (IH _ T1 (H3 _ T1) ltac:(discriminate)). rewrite Forall_forall in IH. now apply IH.
Qed.
Theorem C03_markdown : forall stop lang text d, supported lang -> parse_with stop true lang text = Ok d ->
  exists t : tree token,
    wf_published tok_kind t /\
    Forall (fun tk => In (t_line tk) (numbered 1 (split_lines text)) /\ t_loc_line tk = g_number (t_line tk)) (yield t) /\
    tree_document t d.
Proof.
  intros stop lang text d H E. pose proof (parse_md_outcome stop lang text H) as P. rewrite E in P. destruct P as [l [ids' [T D]]].
  exists (tree_map lf_t (Node RGherkinDocument l)). split; [|split].
  - apply (published_map tok_kind lf_t). eapply weak_published; eauto.
  - rewrite yield_map. apply Forall_map. eapply Forall_impl; [|eapply weak_leaves; [exact T | discriminate]].
    intros a [_ [n [H1 [H2 H3]]]]. rewrite H2, H3. split; [|reflexivity]. clear -H1. change (S n) with (1 + n). generalize 1 as m. revert n H1. induction (split_lines text) as [|x ls IH]; intros n H m; cbn [length] in H.
    + assert (n = 0) as -> by lia. cbn. left. now rewrite Nat.add_0_r.
    + destruct n as [|n]; cbn [nth numbered]; [left; now rewrite Nat.add_0_r|]. right. replace (m + S n) with (S m + n) by lia. apply IH. lia.
  - exists l. split; [reflexivity|]. destruct D as [subs [D1 D2]]. exists subs. split; [|exact D2]. now rewrite D1.
Qed.
Print Assumptions C03_markdown.

(** C06.  Over a whole session all identifiers of all returned documents are different. *)
Definition result_ids (r : result gdoc) : list nat := match r with Ok d => doc_ids d | Err _ => [] end.
Lemma session_ids stop md lang texts : supported lang -> forall ids ms, minv md lang ms ->
  NoDup (flat_map result_ids (session stop ids ms texts)) /\ Forall (fun x => ids <= x) (flat_map result_ids (session stop ids ms texts)).
Proof.
  intros H. destruct (fresh_reset md lang H) as [m0 [E1 [E2 E3]]]. induction texts as [|x texts IH]; intros ids ms J; [split; constructor|].
  cbn [session]. assert (R : ms_reset ms = Ok m0) by (rewrite (reset_fresh md lang ms J), E1; exact E2).
  pose proof (parse_b_minv ast_builder md lang stop (ab_reset ids) ms (split_lines x) J) as J'.
  assert (Jc : minv md lang (c_ms (snd (parse_lines stop ids ms (split_lines x))))).
  { unfold parse_lines. destruct (parse_b ast_builder stop (ab_reset ids) ms (split_lines x)). exact J'. }
  assert (D : forall d c, parse_lines stop ids ms (split_lines x) = (Ok d, c) -> exists l, doc_of ids l d (ab_ids (c_b c))).
  { destruct md.
    - destruct (fresh_md lang H) as [m1 [F1 [F2 F3]]]. rewrite E1 in F1. injection F1 as <-.
      pose proof (md_outcome (split_lines x) (split_lines_nonempty x) (split_lines_one x) stop ids ms m0 R F3) as O. intros d c E. rewrite E in O. destruct O as [l [_ O]]. eauto.
    - destruct (fresh_matcher lang H) as [m1 [F1 [_ [F3 [F4 _]]]]]. rewrite E1 in F1. injection F1 as <-.
      pose proof (parse_lines_outcome stop ids ms m0 (split_lines x) R F3 F4 (split_lines_nonempty x)) as O. intros d c E. rewrite E in O. inversion O; subst. eauto. }
  pose proof (ids_monotone stop ids ms (split_lines x)) as M.
  destruct (parse_lines stop ids ms (split_lines x)) as [r c]. cbn [fst snd] in *. destruct (IH (ab_ids (c_b c)) (c_ms c) Jc) as [I1 I2]. cbn [flat_map].
  assert (A : NoDup (result_ids r) /\ Forall (fun y => ids <= y < ab_ids (c_b c)) (result_ids r)).
  { destruct r as [d|e]; [|split; constructor]. destruct (D d c eq_refl) as [l Dl]. cbn [result_ids]. now apply doc_ids_ok in Dl as [_ Dl]. }
  destruct A as [A1 A2]. split.
  - rewrite cnt_NoDup in *. intros y. rewrite cnt_app. specialize (A1 y). specialize (I1 y).
    destruct (cnt y (result_ids r)) as [|u] eqn:C1; [lia|]. destruct (cnt y (flat_map result_ids (session stop (ab_ids (c_b c)) (c_ms c) texts))) as [|v] eqn:C2; [lia|].
    assert (Y1 : In y (result_ids r)) by (apply cnt_in; lia). assert (Y2 : In y (flat_map result_ids (session stop (ab_ids (c_b c)) (c_ms c) texts))) by (apply cnt_in; lia).
    rewrite Forall_forall in A2, I2. specialize (A2 y Y1). specialize (I2 y Y2). lia.
  - apply Forall_app. split; [eapply Forall_impl; [|exact A2]; cbn; intros; lia|]. eapply Forall_impl; [|exact I2]. cbn. intros. lia.
Qed.
Theorem C06_ids_unique : forall stop md lang texts rs, supported lang ->
  run_session stop md lang texts = Ok rs -> NoDup (flat_map result_ids rs).
Proof.
  intros stop md lang texts rs H E. destruct (fresh_reset md lang H) as [m0 [E1 [E2 E3]]]. unfold run_session in E. rewrite E1 in E. injection E as <-.
  now apply (session_ids stop md lang texts H 0 m0 E3).
Qed.
Print Assumptions C06_ids_unique.
Example C06_case : exists d1 d2, run_session false false (s "en")
  [text_of_lines [s "@t"; s "Feature: f"; s "Background:"; s "* x"; s "|a|"; s "Scenario: a"; s "* y"; s "Examples:"; s "|a|"; s "|b|"];
   text_of_lines [s "Feature: f"; s "Rule: r"; s "Scenario: a"]] = Ok [Ok d1; Ok d2] /\
    length (doc_ids d1) = 9 /\ length (doc_ids d2) = 2.
Proof. vm_compute. eauto. Qed.


(** Documents of both matchers are complete and rectangular. *)
Theorem parsed_wf : forall stop md lang text d, supported lang -> parse_with stop md lang text = Ok d -> doc_wf d.
Proof.
  intros stop md lang text d H E. destruct md.
  - pose proof (parse_md_outcome stop lang text H) as P. rewrite E in P. destruct P as [l [ids' [T D]]]. eapply wdoc_of_wf; eauto.
  - destruct (parse_with_outcome stop lang text H) as [ms0 [c [_ P]]]. rewrite E in P.
    inversion P as [l d' ids' ? [T Ch] D I| | |]; subst. eapply doc_of_wf; eauto.
Qed.
Theorem parsed_ids : forall stop md lang text d, supported lang -> parse_with stop md lang text = Ok d -> NoDup (doc_ids d).
Proof.
  intros stop md lang text d H E. destruct md.
  - pose proof (parse_md_outcome stop lang text H) as P. rewrite E in P. destruct P as [l [ids' [T D]]]. now apply doc_ids_ok in D as [_ [D _]].
  - destruct (parse_with_outcome stop lang text H) as [ms0 [c [_ P]]]. rewrite E in P.
    inversion P as [l d' ids' ? [T Ch] D I| | |]; subst. now apply doc_ids_ok in D as [_ [D _]].
Qed.
