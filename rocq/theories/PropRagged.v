(** * C20, second half: ragged tables *)
From Verif Require Import PyStr PyStrFacts Types Regex Line DialectData Matcher Ast ParserTable Parser Classify Table Scan Grammar Deriv Cert LineSpec RowIff StepFacts Cst Report Eval LangSpec LangFacts Complete DocSpec Erase Den LineIff Means Layout DocRun FeatureDoc DocMeans PropLine PropParse PropDoc RaggedSpec Repair RowSwap Tabs RaggedFacts.

Lemma swapped_lines lines ls' n : Forall2 swap (lines_from n lines) ls' -> exists lines', ls' = lines_from n lines' /\ Forall2 swapx lines lines'.
Proof.
  revert n ls'. induction lines as [|x lines IH]; intros n ls' F.
  - inversion F; subst. exists []. split; [reflexivity | constructor].
  - change (lines_from n (x :: lines)) with ((S n, x) :: lines_from (S n) lines) in F. inversion F as [|? [n' x'] ? ls2 [E S] F2]; subst. cbn in E, S. subst n'.
    destruct (IH _ _ F2) as [lines' [-> F3]]. exists (x' :: lines'). split; [reflexivity|]. constructor; [exact S | exact F3].
Qed.
Lemma swapx_ok lines lines' : Forall2 swapx lines lines' -> lines_ok lines -> lines_ok lines'.
Proof.
  induction 1 as [|x x' lines lines' S F IH]; intros H; [constructor|]. inversion H as [|? ? H1 H2]; subst. constructor; [|now apply IH]. destruct S as [<-|[_ S]]; [exact H1|]. now apply is_row_pipe in S as [_ S].
Qed.

(** C20.  A text whose lines stand for the document [doc] if tables may be ragged is accepted, and gives
    [doc], if no table is ragged.  Otherwise parse raises, for each ragged table in the order of the text,
    the error of its first row whose number of cells is not that of the table's first row: the first of
    these errors alone if it stops at the first error, and the first eleven of them if it does not. *)
Theorem C20_ragged : forall stop lang text doc, supported lang ->
  stands_with rows_block lang (numbered_lines (split_lines text)) doc ->
  exists es, table_errors (document_tabs doc) es /\
    match es with
    | [] => exists d, parse_with stop false lang text = Ok d /\ no_ids d = doc
    | e :: _ => parse_with stop false lang text = Err (if stop then EParser e else EComposite (firstn 11 es))
    end.
Proof.
  intros stop lang text doc H St. destruct (fresh_matcher lang H) as [ms [E1 [E2 [E3 [E4 _]]]]]. pose proof (split_lines_nonempty text) as Hl.
  change (numbered_lines (split_lines text)) with (lines_from 0 (split_lines text)) in St. set (lines := split_lines text) in *.
  destruct (repaired _ _ _ St) as [ls' [doc' [F [St' [Et _]]]]]. destruct (swapped_lines _ _ _ F) as [lines' [-> Fx]]. pose proof (swapx_ok _ _ Fx Hl) as Hl'.
  rewrite <- (doc_stands lang ms _ doc' E1) in St'. rewrite <- (doc_means ms lines' 0 doc' (Logic.conj E3 E4) Hl') in St'. destruct St' as [l' [subs' [ids' [T' [L' [Ev' Ed]]]]]].
  destruct (relabel_doc lines ms lines' l' E3 Hl Fx T' L') as [T [L Sw]]. set (l := map (tree_map (relabel lines)) l') in *.
  assert (Et2 : trees_rows l = document_tabs doc).
  { apply (rows_fun lines).
    - destruct T as [O Ch]. pose proof (tree_rows_from (lines_from 0 lines) _ _ O) as Q. cbn [yield tree_rows is_tab] in Q. eapply Forall_impl; [|apply Q; apply (chain_line lines ms 0 _ Ch)]. intros t [_ Ht]. exact Ht.
    - eapply Forall_impl; [|exact (document_from _ _ _ St)]. intros t [_ Ht]. exact Ht.
    - rewrite <- Et, <- Ed. rewrite (document_rows RNone l' 0 subs' ids' _ (proj1 T') Ev'). pose proof (relabel_rows lines (Node RGherkinDocument l') RNone (proj1 T') Sw) as Q. exact Q. }
  destruct (evals l 0) as [[subs es] ids2] eqn:Ev. pose proof (proj1 T) as O. inversion O as [|? ? M Lv Fo]; subst.
  pose proof (evals_errs l RGherkinDocument Fo 0) as Ee. rewrite Ev in Ee. cbn [fst snd] in Ee. rewrite Et2 in Ee.
  assert (TE : table_errors (document_tabs doc) es).
  { rewrite Ee. apply tables_errors. eapply Forall_impl; [|exact (document_from _ _ _ St)]. intros t [Ht _]. exact Ht. }
  exists es. split; [exact TE|].
  assert (D : distinct_msgs es).
  { eapply errors_distinct; [exact TE|]. rewrite <- Et2. pose proof (chain_nodup _ _ _ _ (proj2 T)) as [N _]. exact (proj1 (rows_distinct (Node RGherkinDocument l) RNone O N)). }
  destruct es as [|e es].
  - apply (C04_parse_iff stop lang text doc H). apply straight_document; [exact St|]. eapply rects_errors; eauto.
  - pose proof (parse_lines_tree stop 0 ms ms lines l subs (e :: es) ids2 E2 E3 E4 Hl T L Ev) as [P _]. rewrite (outcome_distinct stop _ (table_settled _ _ TE) D) in P. unfold parse_with. rewrite E1. exact P.
Qed.
Print Assumptions C20_ragged.

(** a text with two ragged tables: the second row of the data table is short, the third row of the examples table is long *)
Definition c20_lines : list str := [s "Feature: f"; s "Scenario: o"; s "Given x"; s "| a | b |"; s "  | 1 |"; s "Examples:"; s "| p |"; s "| 2 |"; s "| 3 | 4 |"].
Definition c20_text : str := text_of_lines c20_lines.
Definition c20_row (n : nat) (col : nat) (cells : list (nat * str)) : row := mkRow 0 (mkLoc n (Some col)) (map (fun c => mkCell (mkLoc n (Some (fst c))) (snd c)) cells).
Definition c20_data : list row := [c20_row 4 1 [(3, s "a"); (7, s "b")]; c20_row 5 3 [(5, s "1")]].
Definition c20_examples : list row := [c20_row 7 1 [(3, s "p")]; c20_row 8 1 [(3, s "2")]; c20_row 9 1 [(3, s "3"); (7, s "4")]].
Definition c20_doc : gdoc := mkGdoc (Some (mkFeature [] (mkLoc 1 (Some 1)) (Some (s "en")) (Some (s "Feature")) (Some (s "f")) [] None
  [mkScenario 0 [] (mkLoc 2 (Some 1)) (Some (s "Scenario")) (Some (s "o")) []
     [mkStep 0 (mkLoc 3 (Some 1)) (Some (s "Given ")) (Some KtContext) (Some (s "x")) (ATable (mkTable (mkLoc 4 (Some 1)) c20_data))]
     [mkExamples 0 [] (mkLoc 6 (Some 1)) (Some (s "Examples")) (Some []) [] (Some (c20_row 7 1 [(3, s "p")])) (tl c20_examples)]] [])) [].
Lemma c20_no_desc d p : description_block d p [] [] [].
Proof. exists [], [], []. repeat split; try constructor. Qed.
Lemma c20_row_at l r : (startswith [ch_pipe] (lstrip (snd l)) = true /\ exists items, table_cells (mkLine (snd l) 0) = Ok items /\ r = mkRow 0 (here l) (map (fun i => mkCell (at_col l (i_column i)) (i_text i)) items)) -> row_at_line l r.
Proof. intros [H [items [H1 H2]]]. exists items. split; [apply (table_cells_iff (snd l) 0); auto | exact H2]. Qed.
Example C20_ragged_case : stands_with rows_block (s "en") (numbered_lines (split_lines c20_text)) c20_doc /\
  parse c20_text = Err (EComposite [row_error (c20_row 5 3 [(5, s "1")]); row_error (c20_row 9 1 [(3, s "3"); (7, s "4")])]) /\
  parse_with true false (s "en") c20_text = Err (EParser (row_error (c20_row 5 3 [(5, s "1")]))).
Proof.
  split; [|split; vm_compute; reflexivity]. assert (E : exists d, for_name (s "en") = Some d) by (eexists; vm_compute; reflexivity). destruct E as [d E].
  assert (Ek : d = match for_name (s "en") with Some d => d | None => d end) by (rewrite E; reflexivity).
  assert (N : numbered_lines (split_lines c20_text) = combine (seq 1 9) (map (fun x => x ++ [10%N]) c20_lines)) by (vm_compute; reflexivity). rewrite N. clear N. cbn [combine seq map c20_lines].
  match goal with |- stands_with _ _ [?a; ?b; ?c; ?d1; ?e; ?f; ?g; ?h; ?i] _ => set (l1 := a); set (l2 := b); set (l3 := c); set (l4 := d1); set (l5 := e); set (l6 := f); set (l7 := g); set (l8 := h); set (l9 := i) end.
  assert (T1 : title_line (d_feature d) (snd l1) (s "Feature") (s "f")) by (rewrite Ek; split; [vm_compute; auto | exists (32%N :: s "f" ++ [10%N]); vm_compute; auto]).
  assert (T2 : title_line (scenario_keywords d) (snd l2) (s "Scenario") (s "o")) by (rewrite Ek; split; [vm_compute; auto | exists (32%N :: s "o" ++ [10%N]); vm_compute; auto]).
  assert (T6 : title_line (d_examples d) (snd l6) (s "Examples") []) by (rewrite Ek; split; [vm_compute; auto | exists [10%N]; vm_compute; auto]).
  assert (T3 : step_line d (snd l3) (s "Given ") (s "x")).
  { rewrite Ek. exists [s "* "]. eexists. exists (s "x" ++ [10%N]). split; [vm_compute; reflexivity|]. split; [repeat constructor; intros C; vm_compute in C; discriminate C | vm_compute; auto]. }
  assert (Rw : row_at_line l4 (c20_row 4 1 [(3, s "a"); (7, s "b")]) /\ row_at_line l5 (c20_row 5 3 [(5, s "1")]) /\ row_at_line l7 (c20_row 7 1 [(3, s "p")]) /\ row_at_line l8 (c20_row 8 1 [(3, s "2")]) /\ row_at_line l9 (c20_row 9 1 [(3, s "3"); (7, s "4")])).
  { repeat (apply Logic.conj); apply c20_row_at; (split; [vm_compute; reflexivity|]); eexists; (split; [vm_compute; reflexivity | vm_compute; reflexivity]). }
  destruct Rw as [R4 [R5 [R7 [R8 R9]]]].
  right. left. eexists [], _, d, _, [], []. split; [reflexivity|]. split; [split; constructor|]. split; [exact E|]. split; [|reflexivity].
  exists [], l1, [], [], [l2; l3; l4; l5; l6; l7; l8; l9], [], [], (s "Feature"), (s "f"), [], None. eexists _, [], [], [], [], [], [].
  split; [reflexivity|]. split; [left; auto|]. split; [exact T1|]. split; [apply c20_no_desc|]. split; [split; reflexivity|]. split; [|split; [constructor | split; [reflexivity | reflexivity]]].
  apply (bl_cons _ [l2; l3; l4; l5; l6; l7; l8; l9] _ [] [] [] []); [|constructor].
  exists [], l2, [], [l3; l4; l5], [l6; l7; l8; l9], [], (s "Scenario"), (s "o"), []. eexists _, _, [], [], [], []. split; [reflexivity|]. split; [left; auto|]. split; [exact T2|]. split; [apply c20_no_desc|]. split; [|split; [|split; reflexivity]].
  - apply (bl_cons _ [l3; l4; l5] _ [] [] [] []); [|constructor]. exists l3, [], [l4; l5], (s "Given "), (s "x"). eexists _, [], []. split; [reflexivity|]. split; [exact T3|]. split; [constructor|]. split; [|split; [reflexivity|]].
    + right. left. eexists l4, [l5], c20_data. split; [reflexivity|]. split; [|reflexivity]. eexists l4, [l5], _, _. split; [reflexivity|]. split; [exact R4|]. split; [apply rw_row; [exact R5 | constructor] | reflexivity].
    + replace (step_type d (s "Given ")) with KtContext by (rewrite Ek; vm_compute; reflexivity). reflexivity.
  - apply (bl_cons _ [l6; l7; l8; l9] _ [] [] [] []); [|constructor]. exists [], l6, [], [l7; l8; l9], [], (s "Examples"), [], [], (Some c20_examples), [], [], []. split; [reflexivity|]. split; [left; auto|]. split; [exact T6|]. split; [apply c20_no_desc|].
    split; [|split; reflexivity]. eexists l7, [l8; l9], _, _. split; [reflexivity|]. split; [exact R7|]. split; [apply rw_row; [exact R8 | apply rw_row; [exact R9 | constructor]] | reflexivity].
Qed.
