(** * Feature files and directories as Robot Framework suites: C71 and C72 *)
From Verif Require Import PyStr PyStrFacts Types Regex Line DialectData Matcher Ast Parser Compiler LineSpec LangSpec DocSpec MdSpec PropLine PropParse PropPlaces
  Glob FilesSpec PropFiles Robot RobotSpec SuiteSpec RobotFacts PropRobot PropPositions MdRun PropMdFirst Runner.

(** ** C71 *)
(** C71.  The suite of a feature file has the file as its source.  In a classic file its name is what stands after
    the keyword of the feature line; in a Markdown file, the title of the first line that has no tag (a header with a
    feature keyword, or any other line).  A file that gives errors has no name. *)
Theorem C71_suite_name : forall printable source content dir ts, parse_file printable source content dir = Ok ts ->
  ts_source ts = source /\
  match ts_model ts with
  | RErrors _ => ts_name ts = []
  | RSuite _ =>
      if is_markdown (last source []) then
        exists tags x rest d kw col, split_lines content = tags ++ x :: rest /\ Forall has_md_tag tags /\ ~ has_md_tag x /\
          for_name (s "en") = Some d /\ titled_by (d_feature d) x kw (Some (ts_name ts)) col
      else
        exists n col language d kw rest, stands_at (numbered_lines (split_lines content)) n col (kw ++ s ":" ++ rest) /\
          for_name language = Some d /\ In kw (d_feature d) /\ ts_name ts = strip rest
  end.
Proof.
  intros pr source content dir ts H. unfold parse_file in H. destruct (build_gherkin_model pr (last source []) content dir) as [[m n]|] eqn:B; [|discriminate H]. cbn [rbind fst snd] in H. injection H as <-. cbn [ts_source ts_model ts_name].
  split; [reflexivity|]. destruct m as [su|l].
  - destruct (C30_tests_and_calls _ _ _ _ _ _ B) as [d [f [ps [id' [E [F [_ [-> _]]]]]]]]. unfold read_file in E. destruct (is_markdown (last source [])).
    + assert (Hd : exists dl, for_name (s "en") = Some dl) by (eexists; vm_compute; reflexivity). destruct Hd as [dl Hd].
      assert (S : supported (s "en")) by (exists dl; exact Hd).
      assert (X : Forall has_md_tag (split_lines content) \/ exists tags x rest, split_lines content = tags ++ x :: rest /\ Forall has_md_tag tags /\ ~ has_md_tag x).
      { generalize (split_lines content) as ls. induction ls as [|x ls IH]; [left; constructor|].
        destruct (out (md_match_TagLine PropMarkdown.md_en (new_token x 0))) as [[|]|] eqn:T.
        - assert (Hx : has_md_tag x) by now apply (tag_line_iff PropMarkdown.md_en (new_token x 0)).
          destruct IH as [IH|[tags [y [rest [-> [A C]]]]]]; [left; now constructor | right; exists (x :: tags), y, rest; split; [reflexivity|]; split; [now constructor | exact C]].
        - right. exists [], x, ls. split; [reflexivity|]. split; [constructor|]. intros Y. apply (tag_line_iff PropMarkdown.md_en (new_token x 0)) in Y. congruence.
        - right. exists [], x, ls. split; [reflexivity|]. split; [constructor|]. intros Y. apply (tag_line_iff PropMarkdown.md_en (new_token x 0)) in Y. congruence. }
      destruct X as [X|[tags [x [rest [X1 [X2 X3]]]]]].
      * destruct content as [|c content]; [vm_compute in E; injection E as <-; discriminate F|].
        destruct (C45_only_tags false (s "en") (c :: content) S) as [e [Y _]]; [discriminate | exact X | congruence].
      * destruct (C45_feature_line false (s "en") dl content tags x rest d Hd X1 X2 X3 E) as [f' [F' [_ [Y _]]]]. rewrite F in F'. injection F' as <-.
        exists tags, x, rest, dl, (fe_keyword f), (l_col (fe_loc f)). repeat (split; [assumption|]).
        destruct (fe_name f) as [n|]; [exact Y|]. destruct Y as [[k [n [c [_ [_ [Y _]]]]]]|[_ [_ [Y _]]]]; discriminate Y.
    + destruct (C05_locations false (s "en") content d f en_supported E F) as [language [dl [D [_ L]]]].
      destruct (loc_feature _ _ _ L) as [l [kw [nm [Hl [[Kin [rest [Er Es]]] [_ [_ Nm]]]]]]]. exists (fst l), (indent_of (snd l) + 1 - 1), language, dl, kw, rest.
      split; [change (s ":" ++ rest) with (ch_colon :: rest); rewrite <- Er; now apply here_at|]. split; [exact D|]. split; [exact Kin|]. rewrite Nm. exact Es.
  - pose proof (build_eq pr (last source []) content dir) as Q. destruct (read_file (last source []) content) as [d|e].
    + destruct (compile d 0) as [[ps i]|e]; [|rewrite Q in B; injection B as _ <-; reflexivity].
      destruct (gd_feature d); [|rewrite Q in B; injection B as _ <-; reflexivity]. destruct Q as [su [Q _]]. rewrite Q in B. discriminate B.
    + destruct e; rewrite Q in B; try (injection B as _ <-; reflexivity). destruct (map_result error_of es); [|discriminate B]. cbn in B. injection B as _ <-. reflexivity.
Qed.
Print Assumptions C71_suite_name.
Example C71_case : exists a b c su sb lc, 
  parse_file (fun _ => true) [s "x"; s "a.feature"] (text_of_lines [s "# c"; s "@t"; s "  Feature:  my shop "; s "Scenario: s"]) None = Ok a /\ ts_name a = s "my shop" /\ ts_model a = RSuite su /\
  parse_file (fun _ => true) [s "a.feature.md"] (text_of_lines [s "`@t`"; s "# Feature: shop"; s "## Scenario: s"]) None = Ok b /\ ts_name b = s "shop" /\ ts_model b = RSuite sb /\
  parse_file (fun _ => true) [s "a.feature"] (text_of_lines [s "Feature: f"; s "Scenario: s"; s "oops"; s "Given x"; s "oops"]) None = Ok c /\ ts_name c = [] /\ ts_model c = RErrors lc.
Proof. do 6 eexists. repeat (split; [vm_compute; reflexivity|]). vm_compute; reflexivity. Qed.

(** ** C72 *)
Definition is_suite {A} (c : child A) : Prop := exists x, c = CSuite x.
(** C72.  The children a directory suite gets are suites: false, the feature files are added as pairs. *)
Theorem C72_refuted : ~ forall A printable read source (suites : list A) l, start_suite printable read source suites = Ok l -> Forall is_suite l.
Proof.
  intros H. specialize (H unit (fun _ => true) (fun _ => s "Feature: f") (Some (Some [(s "a.feature", EFile)])) []).
  assert (E : exists m n, start_suite (A := unit) (fun _ => true) (fun _ => s "Feature: f") (Some (Some [(s "a.feature", EFile)])) [] = Ok [CPair m n]) by (do 2 eexists; vm_compute; reflexivity).
  destruct E as [m [n E]]. specialize (H _ E). inversion H as [|? ? [x X] _]. discriminate X.
Qed.
Print Assumptions C72_refuted.
(** C72, what holds.  A suite keeps the children it has, in order, before the new ones; there is one new child for every feature file
    in the directory or below, each once and no other, and it holds what the file gives.  A suite that is no directory is not changed. *)
Theorem C72_partial : forall A printable read source (suites : list A) l, start_suite printable read source suites = Ok l ->
  match source with
  | Some (Some dir) => dir_ok dir -> exists ps new, l = map CSuite suites ++ new /\ NoDup ps /\
      (forall p, In p ps <-> file_at dir p /\ exists d n m, p = d ++ [n] /\ (n = m ++ s ".feature" \/ n = m ++ s ".feature.md")) /\
      Forall2 (fun p c => exists m n, c = CPair m n /\ build_gherkin_model printable (last p []) (read p) (dir_of dir p) = Ok (m, n)) ps new
  | _ => l = map CSuite suites
  end.
Proof.
  intros A pr read [[dir|]|] suites l H; cbn [start_suite] in H.
  - intros D. unfold collect_gherkin_suites in H. destruct (C49_feature_files dir D) as [ps [E [N I]]]. rewrite E in H. cbn [rbind] in H.
    set (f := fun p : list str => build_gherkin_model pr (last p []) (read p) (dir_of dir p)) in *.
    change (rbind (map_result f ps) (fun l => Ok (map CSuite suites ++ map (fun q => CPair (fst q) (snd q)) l)) = Ok l) in H.
    destruct (map_result f ps) as [qs|] eqn:M; [|discriminate H]. cbn [rbind] in H. injection H as <-. exists ps, (map (fun q => CPair (fst q) (snd q)) qs). split; [reflexivity|]. split; [exact N|]. split; [exact I|].
    clear - M. revert qs M. induction ps as [|p ps IH]; intros qs M; cbn [map_result] in M; [injection M as <-; constructor|].
    destruct (f p) as [[m n]|] eqn:B; [|discriminate M]. cbn [rbind] in M. destruct (map_result f ps) as [bs|]; [|discriminate M]. cbn [rbind] in M. injection M as <-.
    cbn [map fst snd]. constructor; [exists m, n; split; [reflexivity | exact B]|]. now apply IH.
  - unfold collect_gherkin_suites in H. assert (E : feature_files None = Ok []) by (vm_compute; reflexivity). rewrite E in H. cbn [rbind map_result map] in H. rewrite app_nil_r in H. now injection H as <-.
  - now injection H as <-.
Qed.
Print Assumptions C72_partial.
Definition c72_dir : list (str * entry) := [(s "a.feature", EFile); (s "b", EDir (Some [(s "c.feature.md", EFile); (s "x.resource", EFile)])); (s "d.txt", EFile)].
Lemma c72_dir_ok : dir_ok c72_dir.
Proof.
  assert (N : forall n, In n [s "a.feature"; s "b"; s "c.feature.md"; s "x.resource"; s "d.txt"] -> n <> [] /\ ~ In ch_slash n).
  { intros n H. cbn in H. repeat (destruct H as [<-|H]; [split; [discriminate|]; intros X; repeat (destruct X as [X|X]; [discriminate|]); exact X|]). contradiction. }
  apply dok; [cbn; repeat (apply NoDup_cons; [intros X; cbn in X; repeat (destruct X as [X|X]; [discriminate|]); exact X|]); apply NoDup_nil | intros n e H; apply N; cbn in H |- *; repeat (destruct H as [H|H]; [injection H as <- _; tauto|]); contradiction | intros n c H; cbn in H; repeat (destruct H as [H|H]; [try discriminate H|]); try contradiction; injection H as <- <-; (apply dok; [cbn; repeat (apply NoDup_cons; [intros X; cbn in X; repeat (destruct X as [X|X]; [discriminate|]); exact X|]); apply NoDup_nil | intros n e H; apply N; cbn in H |- *; repeat (destruct H as [H|H]; [injection H as <- _; tauto|]); contradiction | intros n c H; cbn in H; repeat (destruct H as [H|H]; [discriminate H|]); contradiction])].
Qed.
Definition c72_read (p : list str) : str := match p with [_] => s "Feature: f" | _ => s "# Feature: g" end.
Example C72_case : dir_ok c72_dir /\
  match start_suite (fun _ => true) c72_read (Some (Some c72_dir)) [7] with
  | Ok [CSuite a; CPair (RSuite _) n1; CPair (RSuite _) n2] => a = 7 /\ n1 = Some (s "f") /\ n2 = Some (s "g")
  | _ => False
  end /\ dir_of c72_dir [s "b"; s "c.feature.md"] = Some [(s "c.feature.md", EFile); (s "x.resource", EFile)].
Proof. split; [exact c72_dir_ok|]. split; [vm_compute; repeat split | reflexivity]. Qed.
