(** * C29 to C35: the Robot Framework suite *)
From Verif Require Import PyStr PyStrFacts Types Line Matcher Ast Parser Compiler Glob Robot IdSpec PickleSpec PickleFacts PropParse PropMdParse PropCompile
  RobotSpec SuiteSpec FindSpec EscapeFacts ReprFacts FindFacts RobotFacts FilesFacts PropFiles PropLine.

(** ** C34: escaping *)
Section Escape.
(** [printable c]: str.isprintable of the character *)
Context (printable : char -> bool).

Theorem C34_unescape : forall x, valid_str x -> rf_unescape (escape printable x) = x.
Proof. intros x H. now apply escape_facts. Qed.
Theorem C34_one_argument : forall x, valid_str x ->
  bare_eq false (escape printable x) = false /\ Forall (fun c => c <> ch_nl /\ c <> ch_tab /\ c <> ch_cr) (escape printable x) /\ double_blank (escape printable x) = false.
Proof. intros x H. now apply escape_facts. Qed.
Theorem C34_injective : forall x y, valid_str x -> valid_str y -> escape printable x = escape printable y -> x = y.
Proof. intros x y Hx Hy E. rewrite <- (C34_unescape x Hx), <- (C34_unescape y Hy). now f_equal. Qed.
Theorem C34_no_control_word : forall x, valid_str x -> ~ In (escape printable x) [s "ELSE"; s "ELSE IF"; s "AND"].
Proof.
  intros x H I. pose proof (C34_unescape x H) as E.
  assert (X : In x [s "ELSE"; s "ELSE IF"; s "AND"]) by (rewrite <- E; destruct I as [I|[I|[I|[]]]]; rewrite <- I; cbn; auto).
  destruct X as [X|[X|[X|[]]]]; subst x; cbn in I; repeat (destruct I as [I|I]; [discriminate|]); exact I.
Qed.
End Escape.
Print Assumptions C34_unescape.
Print Assumptions C34_one_argument.
Print Assumptions C34_injective.
Print Assumptions C34_no_control_word.
Example C34_case : let x := s "a  =\'" ++ [ch_nl; 233%N] in
  valid_str x /\ escape (fun c => N.leb 32 c && N.ltb c 127) x = s "a \ \=\\'\n\xe9".
Proof. split; [repeat constructor | vm_compute; reflexivity]. Qed.

(** ** C35: step arguments *)
Theorem C35_arguments : forall printable a, args_of a (call_args printable a).
Proof. exact call_args_of. Qed.
Print Assumptions C35_arguments.
Example C35_case : call_args (fun _ => true) (Some (PTable [[s "a=b"; s "it's"]])) =
  [s "&{{{\'rows\': [{\'cells\': [{\'value\': \'a\=b\'}, {\'value\': ""it\'s""}]}]}}}"] /\
  py_literal (rf_unescape (s "{\'rows\': [{\'cells\': [{\'value\': \'a\=b\'}, {\'value\': ""it\'s""}]}]}")) = Some (arg_value (PTable [[s "a=b"; s "it's"]])).
Proof. split; vm_compute; reflexivity. Qed.

(** ** C31: looking up an element *)

(** what is found occurs in the document, has the id, and comes with the mapping that contains it *)
Theorem C31_sound : forall v x p n q, find_ast_node_id v x p = Some (n, q) -> occurs v p n q /\ has_id n x.
Proof. intros v x p n q H. rewrite find_lookup in H. apply lookup_in in H. now apply nodes_occurs. Qed.
Print Assumptions C31_sound.
Theorem C31_none : forall v x p, find_ast_node_id v x p = None <-> forall n q, occurs v p n q -> ~ has_id n x.
Proof.
  intros v x p. rewrite find_lookup, lookup_none. split.
  - intros H n q O I. apply (H (n, q)). now apply nodes_occurs.
  - intros H [n q] I. apply nodes_occurs in I as [O I]. exact (H n q O I).
Qed.
Print Assumptions C31_none.
(** in a document returned by the parser the element is unique *)
Theorem C31_parsed : forall stop md lang text d n q x, supported lang -> parse_with stop md lang text = Ok d ->
  occurs (j_gdoc d) JNone n q -> has_id n x -> find_ast_node_id (j_gdoc d) x JNone = Some (n, q).
Proof. intros stop md lang text d n q x S E O I. apply find_unique; auto. eapply parsed_ids; eauto. Qed.
Print Assumptions C31_parsed.
Example C31_case : exists d f, parse big_text = Ok d /\ gd_feature d = Some f /\
  forall b, fe_background f = Some b -> find_ast_node_id (j_gdoc d) (str_of_nat (bg_id b)) JNone = Some (j_background b, JDict [(s "background", j_background b)]).
Proof.
  destruct (parse big_text) as [d|] eqn:E; [|vm_compute in E; discriminate]. destruct (gd_feature d) as [f|] eqn:F; [|vm_compute in E; injection E as <-; discriminate F].
  exists d, f. split; [reflexivity|]. split; [exact F|]. vm_compute in E. injection E as <-. injection F as <-. intros b [= <-]. vm_compute. reflexivity.
Qed.

(** ** The suite *)
(** a file is read with the Markdown matcher if its name ends in .md, with the classic one otherwise, and with English as default language *)
Definition is_markdown (name : str) : bool := str_eqb (path_suffix name) (s ".md").
Definition read_file (name content : str) : result gdoc := parse_with false (is_markdown name) (s "en") content.
Lemma resources_total dir : exists rs, resources dir = Ok rs.
Proof.
  destruct dir as [l|]; [|exists []; apply C36_unreadable]. unfold resources. rewrite (iter_files_ok (Some [s "**/*.resource"]) None resource_valid I). cbn [rbind]. eauto.
Qed.

Section Suite.
Context (printable : char -> bool) (name content : str) (dir : option (list (str * entry))).

(** the settings of the suite of a feature *)
Definition suite_of (f : feature) (su : rsuite) : Prop :=
  rs_doc su = match strip (fe_desc f) with [] => None | x => Some x end /\
  rs_library su = s "GherkinParser.Library" /\ resources dir = Ok (rs_resources su) /\
  map (cons ch_at) (rs_test_tags su) = map tag_name (fe_tags f) /\
  rs_metadata_tags su = match fe_tags f with [] => None | _ => Some (join (s ", ") (rs_test_tags su)) end.

Lemma build_eq :
  match read_file name content with
  | Err (EComposite es) => build_gherkin_model printable name content dir = rbind (map_result error_of es) (fun l => Ok (RErrors l, None))
  | Err e => build_gherkin_model printable name content dir = Ok (RErrors [mkError 1 0 (TExn e)], None)
  | Ok d => match compile d 0, gd_feature d with
            | Err e, _ => build_gherkin_model printable name content dir = Ok (RErrors [mkError 1 0 (TExn e)], None)
            | Ok _, None => build_gherkin_model printable name content dir = Ok (RErrors [mkError 1 0 (TExn (EKeyError (s "feature")))], None)
            | Ok (ps, _), Some f => exists su, build_gherkin_model printable name content dir = Ok (RSuite su, fe_name f) /\
                suite_of f su /\ Forall3 (test_of f) (origins d) ps (rs_tests su) /\
                Forall2 (fun p t => Forall2 (exact_args printable) (pk_steps p) (rt_calls t)) ps (rs_tests su)
            end
  end.
Proof.
  unfold build_gherkin_model, build_ok. change (parse_with false (str_eqb (path_suffix name) (s ".md")) (s "en") content) with (read_file name content).
  destruct (read_file name content) as [d|e] eqn:E; [|destruct e; reflexivity]. cbn [rbind].
  pose proof (parsed_wf false (is_markdown name) (s "en") content d en_supported E) as W. pose proof (parsed_ids false (is_markdown name) (s "en") content d en_supported E) as N.
  pose proof (C28_compile_parsed false (is_markdown name) (s "en") content d 0 en_supported E) as F.
  destruct (compile d 0) as [[ps id']|e] eqn:C; [|destruct F as [[->| ->] _]; reflexivity]. cbn [rbind].
  destruct (gd_feature d) as [f|] eqn:Ef; [|reflexivity]. cbn [get_key rbind fst].
  destruct (compile_pickles d f 0 ps id' Ef C) as [P _]. unfold origins in P |- *. rewrite Ef in P |- *.
  destruct (build_tests_eq printable d f Ef W N (feature_origins f) ps (fun _ H => H) P) as [ts [-> [T X]]]. cbn [rbind].
  destruct (resources_total dir) as [rs Er]. rewrite Er. cbn [rbind].
  unfold doc_wf in W. rewrite Ef in W. destruct W as [[_ [[n En] Wt]] _]. rewrite En. cbn [get_key rbind].
  eexists. split; [reflexivity|]. split; [|split; [exact T | exact X]]. unfold suite_of. cbn [rs_doc rs_library rs_resources rs_test_tags rs_metadata_tags].
  split; [destruct (strip (fe_desc f)); reflexivity|]. split; [reflexivity|]. split; [exact Er|]. split; [|reflexivity].
  rewrite map_map. apply map_ext_in. intros t Ht. unfold tags_wf in Wt. rewrite Forall_forall in Wt. destruct (Wt t Ht) as [x ->]. reflexivity.
Qed.
End Suite.

(** C30: a suite that is built has one test per pickle, in order, each with one keyword call per step, in order;
    [test_of], in SuiteSpec.v, says what a test and a call look like *)
Theorem C30_tests_and_calls : forall printable name content dir su n,
  build_gherkin_model printable name content dir = Ok (RSuite su, n) ->
  exists d f ps id', read_file name content = Ok d /\ gd_feature d = Some f /\ compile d 0 = Ok (ps, id') /\
    n = fe_name f /\ suite_of dir f su /\ Forall3 (test_of f) (origins d) ps (rs_tests su).
Proof.
  intros printable name content dir su n H. pose proof (build_eq printable name content dir) as B. destruct (read_file name content) as [d|e].
  - destruct (compile d 0) as [[ps id']|e] eqn:C; [|rewrite B in H; discriminate]. destruct (gd_feature d) as [f|] eqn:F; [|rewrite B in H; discriminate].
    destruct B as [su' [B1 [B2 [B3 _]]]]. rewrite B1 in H. injection H as -> <-. exists d, f, ps, id'. auto 10.
  - destruct e; rewrite B in H; try discriminate. destruct (map_result error_of es); discriminate.
Qed.
Print Assumptions C30_tests_and_calls.
(** ... and whenever the text is accepted, has a feature and compiles, the suite is built *)
Theorem C30_built : forall printable name content dir d f ps id',
  read_file name content = Ok d -> gd_feature d = Some f -> compile d 0 = Ok (ps, id') ->
  exists su, build_gherkin_model printable name content dir = Ok (RSuite su, fe_name f).
Proof.
  intros printable name content dir d f ps id' E F C. pose proof (build_eq printable name content dir) as B. rewrite E, C, F in B. destruct B as [su [B _]]. eauto.
Qed.
Print Assumptions C30_built.

(** C32: suite tags and test tags together are the tags of the pickle, without the @ *)
Theorem C32_tags : forall printable name content dir su n,
  build_gherkin_model printable name content dir = Ok (RSuite su, n) ->
  exists d ps id', read_file name content = Ok d /\ compile d 0 = Ok (ps, id') /\
    Forall2 (fun p t => map (cons ch_at) (rs_test_tags su ++ rt_tags t) = map pt_name (pk_tags p)) ps (rs_tests su) /\
    forall f, gd_feature d = Some f -> map (cons ch_at) (rs_test_tags su) = map tag_name (fe_tags f).
Proof.
  intros printable name content dir su n H. destruct (C30_tests_and_calls _ _ _ _ _ _ H) as [d [f [ps [id' [E [F [C [_ [S T]]]]]]]]].
  exists d, ps, id'. split; [exact E|]. split; [exact C|]. destruct S as [_ [_ [_ [S _]]]]. split; [|intros f' F'; rewrite F in F'; injection F' as <-; exact S].
  pose proof (C23_tags_inherited d f 0 ps id' F C) as G. clear C. revert G T. generalize (rs_tests su) as ts. generalize (origins d) as os. intros os ts G. revert ts.
  induction G as [|o p os ps G1 G2 IH]; intros ts T; inversion T as [|? ? t ? ? ts' T1 T2]; subst; constructor; [|auto].
  destruct T1 as [_ [_ [T1 _]]]. unfold test_tags in T1. 
  etransitivity; [apply map_app|]. transitivity (map tag_name (fe_tags f) ++ map tag_name (lower_tags o)); [f_equal; assumption|]. rewrite <- map_app.
  apply (f_equal (map snd)) in G1. rewrite !map_map in G1. cbn [snd] in G1. symmetry. exact G1.
Qed.
Print Assumptions C32_tags.

(** C33 holds for examples tables introduced by the word Examples ... *)
Theorem C33_row_names_partial : forall printable name content dir su n,
  build_gherkin_model printable name content dir = Ok (RSuite su, n) ->
  exists d ps id', read_file name content = Ok d /\ compile d 0 = Ok (ps, id') /\
    Forall3 (fun o p t => match o_row o with
      | None => rt_name t = pk_name p
      | Some (ex, h, r) => ex_keyword ex = Some (s "Examples") ->
          rt_name t = pk_name p ++ suffix_of (combine (map cell_value (row_cells h)) (map cell_value (row_cells r)))
      end) (origins d) ps (rs_tests su).
Proof.
  intros printable name content dir su n H. destruct (C30_tests_and_calls _ _ _ _ _ _ H) as [d [f [ps [id' [E [F [C [_ [S T]]]]]]]]].
  exists d, ps, id'. split; [exact E|]. split; [exact C|]. clear C; induction T as [|o p t os ps ts T1 T2 IH]; constructor; [|exact IH].
  destruct T1 as [T1 _]. unfold columns in T1. destruct (o_row o) as [[[ex h] r]|]; [|now rewrite app_nil_r in T1]. intros K. rewrite K in T1. exact T1.
Qed.
Print Assumptions C33_row_names_partial.
(** ... but tests of a table introduced by another keyword get no suffix, so their names may coincide *)
Definition test_names (r : result (rfile * option str)) : option (list str) := match r with Ok (RSuite su, _) => Some (map rt_name (rs_tests su)) | _ => None end.
Definition outline_with (kw : str) : str := text_of_lines [s "Feature: f"; s "Scenario: s"; s "Given <h>"; kw ++ s ":"; s "|h|"; s "|v|"; s "|w|"].
Theorem C33_refuted : forall printable dir,
  test_names (build_gherkin_model printable (s "x.feature") (outline_with (s "Examples")) dir) = Some [s "s h = v"; s "s h = w"] /\
  test_names (build_gherkin_model printable (s "x.feature") (outline_with (s "Scenarios")) dir) = Some [s "s"; s "s"].
Proof.
  intros printable dir. destruct (resources_total dir) as [rs Er].
  unfold build_gherkin_model, build_ok. split.
  all: match goal with |- context [rbind (parse_with ?a ?b ?c ?t)] => let r := eval vm_compute in (parse_with a b c t) in change (parse_with a b c t) with r || (replace (parse_with a b c t) with r by (vm_compute; reflexivity)) end; cbn [rbind].
  all: match goal with |- context [compile ?d ?i] => let r := eval vm_compute in (compile d i) in replace (compile d i) with r by (vm_compute; reflexivity) end; cbn [rbind get_key gd_feature fst].
  all: rewrite Er; vm_compute; reflexivity.
Qed.
Print Assumptions C33_refuted.

(** ** C29 *)

(** what [build_gherkin_model] returns, for every content: a suite; or the parser errors, each at its place (lines from 1,
    columns from 0); or the name of another Python exception raised by parse, compile or by a file without feature.
    The only exception that leaves it is a TypeError, when a parser error at the end of the text has no column. *)
Definition reported (e : perr) (r : rerror) : Prop :=
  re_line r = l_line (pe_loc e) /\ re_text r = TMsg (pe_msg e) /\ exists c, l_col (pe_loc e) = Some c /\ re_col r = (Z.of_nat c - 1)%Z.
Lemma errors_reported es : match map_result error_of es with
  | Ok l => Forall2 reported es l
  | Err e => e = ETypeError /\ exists x, In x es /\ l_col (pe_loc x) = None
  end.
Proof.
  induction es as [|e es IH]; [constructor|]. cbn [map_result]. unfold error_of at 1. destruct (l_col (pe_loc e)) as [c|] eqn:C; cbn [rbind].
  - destruct (map_result error_of es) as [l|x]; cbn [rbind].
    + constructor; [|exact IH]. unfold reported. cbn. eauto.
    + destruct IH as [-> [y [I N]]]. split; [reflexivity|]. exists y. split; [now right | exact N].
  - split; [reflexivity|]. exists e. split; [now left | exact C].
Qed.
Lemma reported_places name content es : read_file name content = Err (EComposite es) ->
  1 <= length es <= 11 /\ NoDup (map pe_msg es) /\ Forall (fun e => error_place content (pe_loc e)) es.
Proof.
  unfold read_file. destruct (is_markdown name); intros E; [eapply C17_markdown_reports | eapply C17_error_reports]; eauto using en_supported.
Qed.
Theorem C29_outcome_partial : forall printable name content dir,
  match build_gherkin_model printable name content dir with
  | Ok (RSuite su, n) => exists d f ps id', read_file name content = Ok d /\ gd_feature d = Some f /\ compile d 0 = Ok (ps, id') /\ n = fe_name f
  | Ok (RErrors l, n) => n = None /\
      ((exists es, read_file name content = Err (EComposite es) /\ Forall2 reported es l) \/
       exists e, l = [mkError 1 0 (TExn e)] /\
         (read_file name content = Err e \/ exists d, read_file name content = Ok d /\ (compile d 0 = Err e \/ gd_feature d = None /\ e = EKeyError (s "feature"))))
  | Err e => e = ETypeError /\ exists es x, read_file name content = Err (EComposite es) /\ In x es /\ l_line (pe_loc x) = length (split_lines content) + 1
  end.
Proof.
  intros printable name content dir. pose proof (build_eq printable name content dir) as B. destruct (read_file name content) as [d|e] eqn:E.
  - destruct (compile d 0) as [[ps id']|e] eqn:C; [destruct (gd_feature d) as [f|] eqn:F|].
    + destruct B as [su [-> _]]. exists d, f, ps, id'. auto.
    + rewrite B. split; [reflexivity|]. right. eexists. split; [reflexivity|]. right. exists d. auto.
    + rewrite B. split; [reflexivity|]. right. eexists. split; [reflexivity|]. right. exists d. auto.
  - assert (X : forall x, build_gherkin_model printable name content dir = Ok (RErrors [mkError 1 0 (TExn x)], None) -> x = e ->
      match build_gherkin_model printable name content dir with
      | Ok (RSuite su, n) => exists d f ps id', @Err gdoc e = Ok d /\ gd_feature d = Some f /\ compile d 0 = Ok (ps, id') /\ n = fe_name f
      | Ok (RErrors l, n) => n = None /\
          ((exists es, @Err gdoc e = Err (EComposite es) /\ Forall2 reported es l) \/
           exists e', l = [mkError 1 0 (TExn e')] /\
             (@Err gdoc e = Err e' \/ exists d, @Err gdoc e = Ok d /\ (compile d 0 = Err e' \/ gd_feature d = None /\ e' = EKeyError (s "feature"))))
      | Err e' => e' = ETypeError /\ exists es x, @Err gdoc e = Err (EComposite es) /\ In x es /\ l_line (pe_loc x) = length (split_lines content) + 1
      end).
    { intros x -> ->. split; [reflexivity|]. right. exists e. auto. }
    destruct e; try (now apply (X _ B)). rewrite B. pose proof (errors_reported es) as R. destruct (map_result error_of es) as [l|x]; cbn [rbind].
    + split; [reflexivity|]. left. exists es. auto.
    + destruct R as [-> [y [I N]]]. split; [reflexivity|]. exists es, y. split; [reflexivity|]. split; [exact I|].
      destruct (reported_places name content es E) as [_ [_ P]]. rewrite Forall_forall in P. destruct (P y I) as [[P1 P2] P3].
      destruct (Nat.le_gt_cases (l_line (pe_loc y)) (length (split_lines content))) as [L|L]; [destruct (P3 L) as [c Hc]; congruence | lia].
Qed.
Print Assumptions C29_outcome_partial.
(** the exception is reached *)
Theorem C29_refuted : forall printable dir, build_gherkin_model printable (s "x.feature") (s "@tag") dir = Err ETypeError.
Proof. intros. unfold build_gherkin_model, build_ok. vm_compute. reflexivity. Qed.
Print Assumptions C29_refuted.
(* the hypotheses of C30, C32 and C33 are met; four tests *)
Example C30_case : exists su n, is_markdown (s "x.feature") = false /\ build_gherkin_model (fun _ => true) (s "x.feature") big_text (Some ex_dir) = Ok (RSuite su, n) /\
  rs_test_tags su = [s "f1"] /\ rs_resources su = [s "sub/a.resource"; s "z.resource"] /\
  map (fun t => (rt_name t, rt_tags t, rt_line t)) (rs_tests su) =
    [(s "empty", [], 5); (s "o 1 \1 x = 1 y = \1", [s "s"; s "e"], 7); (s "o 3 3 x = <y> y = 3", [s "s"; s "e"], 7); (s "in rule", [s "r"], 24)].
Proof.
  destruct (build_gherkin_model (fun _ => true) (s "x.feature") big_text (Some ex_dir)) as [[[su|] n]|] eqn:E; vm_compute in E; try discriminate.
  injection E as <- <-. eexists _, _. split; [reflexivity|]. split; [reflexivity|]. vm_compute. repeat split.
Qed.
(* one error per parser error; a text without feature; a header that is no regular expression *)
Example C29_case : let b x := build_gherkin_model (fun _ => true) (s "x.feature") x None in
  b (text_of_lines [s "x"; s "y"]) = Ok (RErrors [
    mkError 1 0 (TMsg (s "(1:1): expected: #EOF, #Language, #TagLine, #FeatureLine, #Comment, #Empty, got 'x'"));
    mkError 2 0 (TMsg (s "(2:1): expected: #EOF, #Language, #TagLine, #FeatureLine, #Comment, #Empty, got 'y'"))], None) /\
  b [] = Ok (RErrors [mkError 1 0 (TExn (EKeyError (s "feature")))], None) /\
  b (outline_text (s "a)") (s "x")) = Ok (RErrors [mkError 1 0 (TExn EReError)], None).
Proof. vm_compute. auto. Qed.
(* the same for a Markdown file *)
Example C30_markdown_case : exists su n, is_markdown (s "x.feature.md") = true /\
  build_gherkin_model (fun _ => true) (s "x.feature.md") (text_of_lines [s "# Feature: f"; []; s "`@t` `@u`"; s "## Scenario Outline: o <x>"; s "* Given a <x>"; s "### Examples:"; s "  |x|"; s "  |-|"; s "  |1|"; s "  |2|"]) None = Ok (RSuite su, n) /\
  map (fun t => (rt_name t, rt_tags t, rt_line t)) (rs_tests su) = [(s "o 1 x = 1", [s "t"; s "u"], 4); (s "o 2 x = 2", [s "t"; s "u"], 4)].
Proof.
  match goal with |- context [build_gherkin_model ?a ?b ?c ?d] => destruct (build_gherkin_model a b c d) as [[[su|] n]|] eqn:E; vm_compute in E; try discriminate end.
  injection E as <- <-. eexists _, _. split; [reflexivity|]. split; [reflexivity|]. vm_compute. repeat split.
Qed.
