(** * The newline at the end of the file: C78; the line ends of Markdown documents: C50 *)
From Verif Require Import PyStr PyStrFacts Types Regex Line DialectData Matcher Ast ParserTable Parser Compiler LineSpec StepFacts LangSpec LangFacts MdSpec MdFacts MdRun Rel PropParse Eol EolMd EolRun PropCrlf MdFirst PropMdFirst SuiteSpec PickleSpec Glob Robot RobotSpec RobotFacts PropRobot PropEssence EssenceSpec PropAppend MiddleSpec Units PropMiddle.

(** ** Specification *)
(** a line without a visible character *)
Definition blank_line (x : str) : Prop := forallb is_space x = true.
(** the feature line of a Markdown document: the first line without tags *)
Inductive feature_line : list str -> str -> Prop :=
| feature_here x rest : ~ has_md_tag x -> feature_line (x :: rest) x
| feature_later t rest x : has_md_tag t -> feature_line rest x -> feature_line (t :: rest) x.

(** ** The lines of a text with a newline added *)
Lemma eol_same_line y : ~ In ch_nl y -> eol y y.
Proof. intros N. exists y, [], []. unfold ends. rewrite app_nil_r. tauto. Qed.
Lemma split_last text : text <> [] -> last text 0%N <> ch_nl -> Forall2 eol (split_lines text) (split_lines (text ++ [ch_nl])).
Proof.
  induction text as [|c x IH]; intros N L; [easy|]. cbn [app split_lines]. destruct (c =? ch_nl)%N eqn:E.
  - apply N.eqb_eq in E. subst c. destruct x as [|c' x]; [now elim L|]. constructor; [|apply IH; [discriminate | exact L]].
    exists [], [ch_nl], [ch_nl]. unfold ends. split; [intros []|]. tauto.
  - destruct x as [|c' x].
    + cbn. constructor; [|constructor]. exists [c], [], [ch_nl]. unfold ends. split; [intros [H|[]]; subst; discriminate E|]. do 4 (split; [auto|]). split; discriminate.
    + specialize (IH ltac:(discriminate) L). revert IH. change (c' :: x ++ [ch_nl]) with ((c' :: x) ++ [ch_nl]). generalize (split_lines (c' :: x)) (split_lines ((c' :: x) ++ [ch_nl])). intros a b IH.
      destruct IH as [|l l' ls ls' H Hs]; [constructor; [|constructor]; apply eol_same_line; intros [H|[]]; subst; discriminate E|]. constructor; [|exact Hs].
      destruct H as [y [e [e' [M [Q [Q' [G1 [G2 _]]]]]]]]. exists (c :: y), e, e'. split; [intros [F|F]; [subst c; discriminate E | now apply M]|].
      do 2 (split; [assumption|]). rewrite G1, G2. do 2 (split; [reflexivity|]). split; discriminate.
Qed.

(** ** The feature line *)
Lemma feature_split ls : (exists x, feature_line ls x) \/ Forall has_md_tag ls.
Proof.
  induction ls as [|x ls IH]; [right; constructor|]. destruct (tag_in x) eqn:T.
  - apply tag_in_iff in T. destruct IH as [[y H]|H]; [left; exists y; now apply feature_later | right; now constructor].
  - left. exists x. constructor. rewrite <- tag_in_iff, T. discriminate.
Qed.
Lemma feature_parts ls x : feature_line ls x -> exists tags rest, ls = tags ++ x :: rest /\ Forall has_md_tag tags /\ ~ has_md_tag x.
Proof.
  induction 1 as [x rest H|t rest x H F [tags [rest' [E [A B]]]]]; [exists [], rest; auto|]. exists (t :: tags), rest'. rewrite E. auto.
Qed.
Lemma tag_tail x e : ends e -> has_md_tag (x ++ e) <-> has_md_tag x.
Proof.
  intros Q. assert (N : ~ In ch_btick e) by (apply ends_nin; [exact Q | discriminate | discriminate]). rewrite <- !tag_in_iff. induction x as [|c x IH]; cbn [app].
  - destruct Q as [->|[->| ->]]; cbn; tauto.
  - cbn [tag_in]. rewrite !orb_true_iff. change (c :: x ++ e) with ((c :: x) ++ e). split; (intros [H|H]; [left | right; now apply IH]).
    + now apply (tag_at_tail _ e).
    + now apply tag_at_more.
Qed.
Lemma eol_tag x x' : eol x x' -> has_md_tag x <-> has_md_tag x'.
Proof. intros [y [e [e' [_ [Q [Q' [-> [-> _]]]]]]]]. now rewrite !tag_tail. Qed.
Lemma eol_feature ls ls' x : Forall2 eol ls ls' -> feature_line ls x -> exists x', feature_line ls' x' /\ eol x x'.
Proof.
  intros F H. revert ls' F. induction H as [x rest H|t rest x H G IH]; intros ls' F; inversion F as [|? x' ? rest' E F']; subst.
  - exists x'. split; [|exact E]. constructor. now rewrite <- (eol_tag _ _ E).
  - destruct (IH _ F') as [x1 [A B]]. exists x1. split; [|exact B]. apply feature_later; [now rewrite <- (eol_tag _ _ E) | exact A].
Qed.
Lemma title_kws_fine lang dl : for_name lang = Some dl -> kws_ok (d_feature dl) = true.
Proof. intros H. pose proof title_kws_ok as T. rewrite forallb_forall in T. specialize (T _ (for_name_in _ _ H)). cbn [snd title_kws forallb] in T. now apply andb_true_iff in T as [T _]. Qed.
Lemma titled_col kws x x' kw kw' n n' c c' : kws_ok kws = true -> eol x x' -> titled_by kws x kw n c -> titled_by kws x' kw' n' c' ->
  (c = c' <-> (blank_line x -> length x = length x')).
Proof.
  intros K E T T'. assert (BH : forall z k m d, header_line kws z k m d -> ~ blank_line z).
  { intros z k m d [i h ch k' r e A B C D F G ->] Hb. unfold blank_line in Hb. rewrite !forallb_app in Hb. destruct h as [|h]; [lia|]. cbn [repeat forallb] in Hb. change (is_space ch_hash) with false in Hb. cbn in Hb. now rewrite andb_false_r in Hb. }
  destruct T as [[k [m [d [H [-> [-> ->]]]]]]|[N [-> [-> ->]]]], T' as [[k' [m' [d' [H' [-> [-> ->]]]]]]|[N' [-> [-> ->]]]].
  - apply (eol_header kws x x' k m d E) in H as H2. destruct (header_unique kws x' _ _ _ _ _ _ K H2 H') as [_ [_ ->]]. split; [|reflexivity]. intros _ Hb. elim (BH _ _ _ _ H Hb).
  - elim (N' k m d). now apply (eol_header kws x x' k m d E).
  - elim (N k' m' d'). now apply (eol_header kws x x' k' m' d' E).
  - destruct (eol_split _ _ E) as [E1 E2|[S S1] [S' S1'] O O'|i ch z e e' I C Ni Nz Q Q' E1 E2].
    + subst. split; reflexivity.
    + rewrite (lstrip_soft x), (lstrip_soft x') by (split; assumption). cbn [length]. split; [intros H _; injection H; lia | intros H; f_equal; rewrite H; [reflexivity | exact S]].
    + split.
      * intros _ Hb. exfalso. unfold blank_line in Hb. rewrite E1, !forallb_app in Hb. cbn [forallb] in Hb. rewrite C in Hb. cbn in Hb. now rewrite andb_false_r in Hb.
      * intros _. f_equal. rewrite E1, E2. cbn [app]. rewrite !lstrip_hard by assumption. rewrite !app_length. cbn [length]. rewrite !app_length. lia.
Qed.
(** With the Markdown matcher the outcome depends on the line ends only if the feature line is blank. *)
Lemma markdown_exact stop lang text text' : Forall2 eol (split_lines text) (split_lines text') ->
  (parse_with stop true lang text' = parse_with stop true lang text <->
   (exists e, parse_with stop true lang text = Err e) \/
   forall x x', feature_line (split_lines text) x -> feature_line (split_lines text') x' -> blank_line x -> length x = length x').
Proof.
  intros L. pose proof (markdown_eol stop lang text text' L) as S.
  destruct (parse_with stop true lang text) as [d|e] eqn:P.
  2:{ inversion S; subst. split; [intros _; left; now exists e | reflexivity]. }
  inversion S as [|f' f cs E Q1 Q2]; subst d. clear S. symmetry in Q1.
  assert (M : exists dl, for_name lang = Some dl). { unfold parse_with, new_matcher in P. destruct (for_name lang) as [dl|]; [now exists dl | discriminate P]. }
  destruct M as [dl D]. pose proof (title_kws_fine lang dl D) as K.
  assert (U : forall ls a b, feature_line ls a -> feature_line ls b -> a = b).
  { intros ls a b Fa. revert b. induction Fa; intros b Fb; inversion Fb; subst; try contradiction; auto. }
  destruct (feature_split (split_lines text)) as [[x F]|A].
  - destruct (eol_feature _ _ _ L F) as [x' [F' Ex]].
    destruct (feature_parts _ _ F) as [tags [rest [E1 [E2 E3]]]]. destruct (feature_parts _ _ F') as [tags' [rest' [E1' [E2' E3']]]].
    destruct (C45_feature_line stop lang dl text tags x rest _ D E1 E2 E3 P) as [g [G1 [G2 [G3 _]]]].
    destruct (C45_feature_line stop lang dl text' tags' x' rest' _ D E1' E2' E3' Q1) as [g' [G1' [G2' [G3' _]]]].
    cbn [gd_feature] in G1, G1'. subst f f'. pose proof (titled_col _ _ _ _ _ _ _ _ _ K Ex G3 G3') as T.
    assert (C : l_col (fe_loc g') = l_col (fe_loc g) <-> (blank_line x -> length x = length x')) by (rewrite <- T; split; congruence). clear T.
    cbn in E. unfold without_column in E. injection E as J1 J2 J3 J4 J5 J6 J7 J8 J9. split.
    + intros H. right. intros y y' Fy Fy'. rewrite (U _ _ _ Fy F), (U _ _ _ Fy' F'). apply C. congruence.
    + intros [[e H]|H]; [discriminate H|]. assert (C2 : l_col (fe_loc g') = l_col (fe_loc g)) by (apply C; exact (H x x' F F')).
      destruct g as [a1 [a2 a2'] a3 a4 a5 a6 a7 a8 a9], g' as [b1 [b2 b2'] b3 b4 b5 b6 b7 b8 b9]. cbn in *. subst. reflexivity.
  - destruct text as [|c y] eqn:Et.
    + cbn in L. inversion L as [E00 E0|]. destruct text' as [|c' y']; [split; [intros _; right; intros x x' F; inversion F | intros _; congruence]|]. cbn in E0. destruct (c' =? ch_nl)%N; [discriminate E0 | destruct (split_lines y'); discriminate E0].
    + exfalso. destruct (C45_only_tags stop lang (c :: y)) as [e [X _]]; [now exists dl | discriminate | exact A|]. rewrite X in P. discriminate P.
Qed.

(** ** The suite does not depend on the column of the feature *)
Lemma same_view pr f f' os ps ts ts' : option_map without_column (Some f) = option_map without_column (Some f') -> cert pr f os ps ts -> cert pr f' os ps ts' -> ts' = ts.
Proof.
  intros E C C'. rewrite (tests_placed (fun n => n) pr f f' os ps ts C os ps ts' C'); [|clear C C'|reflexivity].
  - rewrite <- (map_id ts) at 2. apply map_ext. apply ren_test_id.
  - induction os as [|o os IH]; [reflexivity|]. cbn [map]. f_equal; [|exact IH]. rewrite ren_view_id.
    cbn in E. injection E as J1 J2 J3 J4 J5 J6 J7 J8 J9. destruct f, f'. cbn in *. subst. reflexivity.
Qed.
Lemma suite_same_but_column pr name content content' dir : same_but_column (read_file name content) (read_file name content') ->
  build_gherkin_model pr name content dir = build_gherkin_model pr name content' dir.
Proof.
  intros S. pose proof (build_eq pr name content dir) as B. pose proof (build_eq pr name content' dir) as B'. inversion S as [e Q1 Q2|f f' cs E Q1 Q2].
  - rewrite <- Q1 in B. rewrite <- Q2 in B'. destruct e; now rewrite B, B'.
  - rewrite <- Q1 in B. rewrite <- Q2 in B'. cbn [gd_feature] in B, B'.
    assert (C : compile (mkGdoc f cs) 0 = compile (mkGdoc f' cs) 0).
    { destruct f as [f|], f' as [f'|]; try discriminate E; [|reflexivity]. cbn in E. injection E as J1 J2 J3 J4 J5 J6 J7 J8 J9. destruct f, f'. cbn in *. subst. reflexivity. }
    rewrite <- C in B'. destruct (compile (mkGdoc f cs) 0) as [[ps i]|e]; [|now rewrite B, B'].
    destruct f as [f|], f' as [f'|]; try discriminate E; [|now rewrite B, B'].
    destruct B as [su [-> [S1 [S2 S3]]]], B' as [su' [-> [S1' [S2' S3']]]].
    assert (T : rs_tests su' = rs_tests su).
    { apply (same_view pr f f' (origins (mkGdoc (Some f) cs)) ps); [exact E | split; assumption|]. split; [|exact S3'].
      cbn in E. injection E as J1 J2 J3 J4 J5 J6 J7 J8 J9. destruct f, f'. cbn in *. subst. exact S2'. }
    destruct S1 as [A1 [A2 [A3 [A4 A5]]]], S1' as [A1' [A2' [A3' [A4' A5']]]]. rewrite A3 in A3'. injection A3' as R.
    cbn in E. injection E as J1 J2 J3 J4 J5 J6 J7 J8 J9. assert (TT : rs_test_tags su = rs_test_tags su') by (apply cons_inj; rewrite A4, A4'; now rewrite J1).
    assert (B1 : rs_doc su = rs_doc su') by (rewrite A1, A1'; now rewrite J6). assert (B2 : rs_library su = rs_library su') by (now rewrite A2, A2').
    assert (B5 : rs_metadata_tags su = rs_metadata_tags su') by (rewrite A5, A5', TT; now rewrite J1).
    f_equal. f_equal; [|exact J5]. f_equal. clear - T R TT B1 B2 B5. destruct su, su'. cbn in *. congruence.
Qed.

(** ** C50 *)
Lemma crlf_lines text : split_lines (to_crlf text) = map to_crlf (split_lines text).
Proof.
  induction text as [|c x IH]; [reflexivity|]. unfold to_crlf at 1. cbn [flat_map split_lines]. fold (to_crlf x). destruct (c =? ch_nl)%N eqn:E.
  - apply N.eqb_eq in E. subst c. cbn [app split_lines]. change (ch_cr =? ch_nl)%N with false. change (ch_nl =? ch_nl)%N with true. cbv iota. rewrite IH. reflexivity.
  - cbn [app split_lines]. rewrite E, IH. destruct (split_lines x) as [|l ls]; cbn [map]; unfold to_crlf; cbn [flat_map]; rewrite E; reflexivity.
Qed.
Lemma crlf_length x : length (to_crlf x) = length x <-> ~ In ch_nl x.
Proof.
  assert (G : forall x, length x <= length (to_crlf x)).
  { clear. induction x as [|c x IH]; [cbn; lia|]. unfold to_crlf in *. cbn [flat_map]. rewrite app_length. destruct (c =? ch_nl)%N; cbn [length]; lia. }
  induction x as [|c x IH]; [cbn; tauto|]. specialize (G x). unfold to_crlf in *. cbn [flat_map]. rewrite app_length. destruct (c =? ch_nl)%N eqn:E.
  - apply N.eqb_eq in E. subst c. cbn [length]. split; [lia | intros H; elim H; now left].
  - apply N.eqb_neq in E. cbn [length In]. split; [intros H [F|F]; [congruence | apply IH in F; [exact F | lia]] | intros H; assert (~ In ch_nl x) as F by tauto; apply IH in F; lia].
Qed.
Lemma feature_functional ls a b : feature_line ls a -> feature_line ls b -> a = b.
Proof. intros Fa. revert b. induction Fa; intros b Fb; inversion Fb; subst; try contradiction; auto. Qed.
Lemma feature_map g ls x : (forall y, In y ls -> has_md_tag (g y) <-> has_md_tag y) -> feature_line ls x -> feature_line (map g ls) (g x).
Proof.
  intros G F. induction F as [x rest H|t rest x H F IH]; cbn [map].
  - constructor. rewrite G by now left. exact H.
  - apply feature_later; [apply G; [now left | exact H]|]. apply IH. intros y Hy. apply G. now right.
Qed.
Lemma forall2_nth {A B} (R : A -> B -> Prop) g l : Forall2 R l (map g l) -> forall y, In y l -> R y (g y).
Proof. induction l as [|a l IH]; [intros _ y []|]; intros F y [H|H]; cbn [map] in F; inversion F; subst; auto. Qed.
(** C50, exactly: the column of the feature is all that can differ, and it differs if and only if the feature line is blank and ends with a newline. *)
Theorem C50_exact : forall stop lang text,
  parse_with stop true lang (to_crlf text) = parse_with stop true lang text <->
  (exists e, parse_with stop true lang text = Err e) \/ (forall x, feature_line (split_lines text) x -> blank_line x -> ~ In ch_nl x).
Proof.
  intros stop lang text. pose proof (split_crlf text) as L. rewrite (markdown_exact stop lang text (to_crlf text) L). rewrite crlf_lines in *.
  assert (G : forall y, In y (split_lines text) -> has_md_tag (to_crlf y) <-> has_md_tag y) by (intros y Hy; symmetry; apply eol_tag; exact (forall2_nth _ _ _ L y Hy)).
  split; (intros [H|H]; [now left | right]).
  - intros x F B. rewrite <- crlf_length. symmetry. apply H; [exact F | now apply feature_map | exact B].
  - intros x x' F F' B. rewrite (feature_functional _ _ _ F' (feature_map _ _ _ G F)). symmetry. apply crlf_length. now apply H.
Qed.
Print Assumptions C50_exact.
(** ... and the suite is the same in all cases. *)
Theorem C50_suite : forall printable name content dir,
  build_gherkin_model printable name (to_crlf content) dir = build_gherkin_model printable name content dir.
Proof.
  intros pr name content dir. apply suite_same_but_column. unfold read_file. destruct (is_markdown name); [apply C50_markdown_crlf_partial|].
  rewrite C48_crlf. destruct (parse_with _ _ _ _) as [[f cs]|]; constructor. reflexivity.
Qed.
Print Assumptions C50_suite.

(** ** C78 *)
(** C78.  Whether the last line of a text ends with a newline or not: with the classic matcher the outcome is the same, errors and document included. *)
Theorem C78_last_line : forall stop lang text, text <> [] -> last text 0%N <> ch_nl ->
  parse_with stop false lang (text ++ [ch_nl]) = parse_with stop false lang text.
Proof. intros stop lang text N L. apply classic_eol. now apply split_last. Qed.
Print Assumptions C78_last_line.
Lemma split_last_lines text : text <> [] -> last text 0%N <> ch_nl -> exists before x, split_lines text = before ++ [x] /\ split_lines (text ++ [ch_nl]) = before ++ [x ++ [ch_nl]].
Proof.
  induction text as [|c x IH]; intros N L; [easy|]. cbn [app split_lines]. destruct x as [|c' x].
  - cbn in L. destruct (c =? ch_nl)%N eqn:E; [apply N.eqb_eq in E; contradiction|]. exists [], [c]. cbn. auto.
  - destruct (IH ltac:(discriminate) L) as [b [y [E1 E2]]]. rewrite E1, E2. destruct (c =? ch_nl)%N; [exists ([c] :: b), y; auto|].
    destruct b as [|b0 b]; cbn [app]; [exists [], (c :: y) | exists ((c :: b0) :: b), y]; auto.
Qed.
Lemma blank_no_tag x : blank_line x -> ~ has_md_tag x.
Proof. intros B [p [v [q [_ [_ ->]]]]]. unfold blank_line in B. rewrite !forallb_app in B. cbn [forallb] in B. change (is_space ch_btick) with false in B. cbn in B. rewrite andb_false_r in B. discriminate B. Qed.
Lemma feature_prefix before x l : feature_line (before ++ [x]) l -> (Forall has_md_tag before /\ l = x) \/ (forall y, feature_line (before ++ [y]) l).
Proof.
  induction before as [|b before IH]; intros F; cbn [app] in *; inversion F as [y r H|t r y H F']; subst; auto.
  - inversion F'.
  - right. intros y. now constructor.
  - destruct (IH F') as [[A B]|A]; [left; auto | right; intros y; apply feature_later; auto].
Qed.
Lemma feature_end before x : Forall has_md_tag before -> ~ has_md_tag x -> feature_line (before ++ [x]) x.
Proof. intros F N. induction F; cbn [app]; [now constructor | now apply feature_later]. Qed.
(** With the Markdown matcher as well, unless the last line is blank and is the feature line; then the outcome differs. *)
Theorem C78_last_line_markdown : forall stop lang text, text <> [] -> last text 0%N <> ch_nl ->
  (parse_with stop true lang (text ++ [ch_nl]) = parse_with stop true lang text <->
   (exists e, parse_with stop true lang text = Err e) \/
   forall before x, split_lines text = before ++ [x] -> Forall has_md_tag before -> ~ blank_line x).
Proof.
  intros stop lang text N L. rewrite (markdown_exact stop lang text _ (split_last text N L)). destruct (split_last_lines text N L) as [b [x [E1 E2]]]. rewrite E1, E2.
  split; (intros [H|H]; [now left | right]).
  - intros b' x' E F B. apply app_inj_tail in E as [<- <-]. specialize (H x (x ++ [ch_nl])). rewrite app_length in H. cbn in H.
    enough (length x = length x + 1) by lia. apply H; [apply feature_end; auto using blank_no_tag | apply feature_end; [exact F|] | exact B].
    rewrite tag_tail; [now apply blank_no_tag | unfold ends; auto].
  - intros y y' F F' B. destruct (feature_prefix _ _ _ F) as [[A ->]|A]; [elim (H b x eq_refl A B)|]. now rewrite (feature_functional _ _ _ F' (A _)).
Qed.
Print Assumptions C78_last_line_markdown.
(** The suite is the same in all cases. *)
Theorem C78_suite : forall printable name content dir, content <> [] -> last content 0%N <> ch_nl ->
  build_gherkin_model printable name (content ++ [ch_nl]) dir = build_gherkin_model printable name content dir.
Proof.
  intros pr name content dir N L. apply suite_same_but_column. unfold read_file. destruct (is_markdown name); [now apply markdown_eol, split_last|].
  rewrite C78_last_line by assumption. destruct (parse_with _ _ _ _) as [[f cs]|]; constructor. reflexivity.
Qed.
Print Assumptions C78_suite.
Example C78_case : exists d f, parse_with false false (s "en") (s "Feature: a" ++ [ch_nl] ++ s " Scenario: b" ++ [ch_nl] ++ s "  Given x" ++ [ch_nl] ++ s "  | 1 | 2 |") = Ok d /\ gd_feature d = Some f /\ length (fe_scenarios f) = 1.
Proof. vm_compute. eexists. eexists. repeat split. Qed.
Example C78_case_markdown : parse_with false true (s "en") (s "`@a`" ++ [ch_nl] ++ s "  ") <> parse_with false true (s "en") (s "`@a`" ++ [ch_nl] ++ s "  " ++ [ch_nl]).
Proof. vm_compute. discriminate. Qed.
Example C50_exact_case : parse_with false true (s "en") (to_crlf (s "`@a`" ++ [ch_nl] ++ s "# Feature: x" ++ [ch_nl] ++ [ch_nl] ++ s "## Scenario: b" ++ [ch_nl] ++ s "* Given c" ++ [ch_nl])) =
  parse_with false true (s "en") (s "`@a`" ++ [ch_nl] ++ s "# Feature: x" ++ [ch_nl] ++ [ch_nl] ++ s "## Scenario: b" ++ [ch_nl] ++ s "* Given c" ++ [ch_nl]).
Proof.
  apply C50_exact. right. intros x F B. exfalso. cbn in F. inversion F as [y r H|y r z H F']; subst.
  - vm_compute in B. discriminate B.
  - inversion F' as [y r' H2|y r' z' H2 F2]; subst; [vm_compute in B; discriminate B|].
    apply tag_in_iff in H2. vm_compute in H2. discriminate H2.
Qed.
