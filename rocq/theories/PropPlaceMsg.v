(** * The place of an error and the place its message shows: C60 *)
From Verif Require Import PyStr PyStrFacts Types Regex Line DialectData Matcher Ast ParserTable Parser Classify Table Scan Report LineSpec Eval MdTree MdRun DocSpec ErrorSpec PropLine PropParse PropMdParse PropExpected Made.

(** the message of the error begins with its own location *)
Definition shows_place (e : perr) : Prop := exists text, pe_msg e = message (pe_loc e) text.

Lemma made_shows k m l : shows_place (mk_perr k m l).
Proof. exists m. reflexivity. Qed.
Lemma unexpected_shows t ks : shows_place (unexpected t ks).
Proof. unfold unexpected. destruct (t_eof t); apply made_shows. Qed.
Lemma match_shows k ms t : match fst (fst (do_match k ms t)) with Err (EParser e) => shows_place e | Err (EComposite _) => False | _ => True end.
Proof.
  unfold do_match. destruct (ms_md ms).
  - pose proof (errors_match k ms t) as H. unfold row_errors, out in H. destruct (md_match k ms t) as [[r m] t']. cbn [fst] in *.
    destruct r as [b|e]; [exact I|]. destruct (H e eq_refl) as [-> _]. exact I.
  - pose proof (classic_shape k ms t) as H. destruct (classic_match k ms t) as [[[b|x] m] t'] eqn:E; [exact I|]. cbn [fst]. destruct x; try exact I.
    + destruct H as [-> _]. cbn [classic_match] in E. unfold c_match_Language in E.
      destruct (re_match _ _) as [st|]; [|discriminate E]. unfold change_dialect in E. destruct (for_name _); [discriminate E|].
      injection E as E _ _. rewrite <- E. apply made_shows.
    + destruct H as [_ [_ [H _]]]. now apply (H es).
Qed.
Lemma build_shows t a b : match fst (bact ast_builder t a b) with Err (EParser e) => shows_place e | Err (EComposite _) => False | _ => True end.
Proof.
  pose proof (ast_no_composite t a b) as N. destruct (bact ast_builder t a b) as [[u|x] b'] eqn:E; [exact I|]. cbn [fst] in *. destruct x; try exact I; [|now apply (N es)].
  destruct a; cbn [bact ast_builder bd_start bd_end bd_build] in E; [discriminate E| |].
  - unfold ab_end_rule in E. destruct (ab_stack b) as [|n [|p st]]; try discriminate E.
    assert (T : match fst (transform_node n (ab_comments b) (ab_ids b)) with Err (EParser e) => shows_place e | _ => True end).
    { clear. assert (G : match fst (get_table_rows n (ab_ids b)) with Err (EParser e) => shows_place e | _ => True end).
      { unfold get_table_rows. destruct (rows_of_tokens _ _) as [rows i]. cbn [fst]. unfold ensure_cell_count. destruct rows as [|r0 rows]; [exact I|]. destruct (find _ _); [|exact I]. cbn. eexists. reflexivity. }
      assert (K : forall m k, match get_token m k with Err (EParser e) => False | _ => True end) by (intros m k; unfold get_token; destruct (get_single m (KTok k)) as [[]|]; exact I).
      unfold transform_node. destruct (n_rule n); cbn [fst]; try exact I.
      - destruct (get_node _ _); [|exact I]. destruct (get_tags _ _). destruct (get_token _ _); exact I.
      - destruct (get_node _ _); [|exact I]. destruct (get_tags _ _). destruct (get_token _ _); exact I.
      - pose proof (K n TkBackgroundLine) as K0. destruct (get_token _ _) as [|[]]; try exact I; contradiction.
      - destruct (get_tags _ _). destruct (get_node _ _) as [m|]; [|exact I]. pose proof (K m TkScenarioLine) as K0. destruct (get_token _ _) as [|[]]; try exact I; contradiction.
      - destruct (get_tags _ _). destruct (get_node _ _) as [m|]; [|exact I]. pose proof (K m TkExamplesLine) as K0. destruct (get_token _ _) as [|[]]; try exact I; contradiction.
      - destruct (get_table_rows n _) as [[rows|[]] i]; exact I || exact G.
      - pose proof (K n TkStepLine) as K0. destruct (get_token _ _) as [|[]]; try exact I; contradiction.
      - destruct (get_table_rows n _) as [[[|]|[]] i]; exact I || exact G.
      - destruct (get_tokens n TkDocStringSeparator) as [|t ts]; [exact I|]. destruct (t_text t); exact I.
      - cbv zeta. destruct (last_non_empty _); exact I. }
    destruct (transform_node n (ab_comments b) (ab_ids b)) as [[i|x] id]; [discriminate E|]. injection E as E _. subst x. exact T.
  - unfold ab_build in E. destruct (t_mtype t) as [k|]; [destruct k|]; destruct (ab_stack b); discriminate E.
Qed.

(** the report of an unsupported language, collected: the location is the start of the line *)
Definition language_at_start (e : perr) : Prop :=
  pe_kind e = KNoSuchLanguage /\ l_col (pe_loc e) = Some 1 /\ exists col text, pe_msg e = message (mkLoc (l_line (pe_loc e)) col) text.
Definition shows_line (e : perr) : Prop := shows_place e \/ language_at_start e.
Lemma shows_settled e : shows_place e -> shows_line (settled e).
Proof.
  intros [text H]. unfold settled. destruct (pe_kind e) eqn:K; try (left; exists text; exact H).
  right. split; [reflexivity|]. split; [reflexivity|]. exists (l_col (pe_loc e)), text. cbn [pe_loc l_line pe_msg]. rewrite H. now destruct (pe_loc e).
Qed.
(** C60, what is true: the message of every error begins with the error's own line and column, except that
    where errors are collected, the location of an unsupported language is the start of its line. *)
Lemma parse_shows stop md lang text : supported lang ->
  match parse_with stop md lang text with
  | Err (EParser e) => stop = true /\ shows_place e
  | Err (EComposite es) => stop = false /\ es <> [] /\ Forall shows_line es
  | _ => True
  end.
Proof.
  intros [d S]. assert (M : exists ms ms0, new_matcher md lang = Ok ms /\ ms_reset ms = Ok ms0).
  { unfold new_matcher. rewrite S. unfold ms_reset. cbn. assert (R : str_eqb lang lang = true) by now apply str_eqb_spec. rewrite R. cbn. eexists _, _. split; [reflexivity|]. cbn. rewrite R. reflexivity. }
  destruct M as [ms [ms0 [M1 M2]]].
  pose proof (parse_b_made ast_builder stop shows_place shows_line (fun _ => shows_settled) (fun _ e H => or_introl H) build_shows match_shows unexpected_shows (ab_reset 0) ms (split_lines text) ltac:(intros e; congruence)) as H.
  unfold parse_with, parse_lines. rewrite M1. cbn [rbind]. destruct (parse_b ast_builder stop (ab_reset 0) ms (split_lines text)) as [[u|x] c]; [|exact H].
  cbn [rbind fst]. unfold ab_get_result. destruct (ab_stack (c_b c)) as [|n ?]; [exact I|]. destruct (get_single n _) as [[]|]; exact I.
Qed.
Theorem C60_place_partial : forall stop md lang text e, supported lang -> In e (errors_of (parse_with stop md lang text)) ->
  stop = true \/ pe_kind e <> KNoSuchLanguage -> exists t, pe_msg e = message (pe_loc e) t.
Proof.
  intros stop md lang text e S H K. pose proof (parse_shows stop md lang text S) as P.
  destruct (parse_with stop md lang text) as [d|[]]; try contradiction; cbn [errors_of] in H.
  - destruct H as [<-|[]]. apply P.
  - destruct P as [-> [_ P]]. rewrite Forall_forall in P. destruct (P e H) as [Q|[Q _]]; [exact Q|]. destruct K; [discriminate | contradiction].
Qed.
Print Assumptions C60_place_partial.
(** the line is right in every case *)
Theorem C60_line : forall stop md lang text e, supported lang -> In e (errors_of (parse_with stop md lang text)) ->
  exists col t, pe_msg e = message (mkLoc (l_line (pe_loc e)) col) t.
Proof.
  intros stop md lang text e S H. pose proof (parse_shows stop md lang text S) as P.
  assert (X : shows_line e).
  { destruct (parse_with stop md lang text) as [d|[]]; try contradiction; cbn [errors_of] in H; [destruct H as [<-|[]]; left; apply P|].
    destruct P as [_ [_ P]]. rewrite Forall_forall in P. now apply P. }
  destruct X as [[t X]|[_ [_ X]]]; [|exact X]. exists (l_col (pe_loc e)), t. rewrite X. now destruct (pe_loc e).
Qed.
Print Assumptions C60_line.
(** C60 as stated is false: the location of the error can differ from the place in its message *)
Theorem C60_refuted : exists lang text e, supported lang /\ In e (errors_of (parse_with false false lang text)) /\
  ~ exists t, pe_msg e = message (pe_loc e) t.
Proof.
  exists (s "en"), (s "  # language: xx"), (mkPErr KNoSuchLanguage (s "(1:3): Language not supported: xx") (mkLoc 1 (Some 1))).
  split; [eexists; vm_compute; reflexivity|]. split.
  - assert (E : errors_of (parse_with false false (s "en") (s "  # language: xx")) = [mkPErr KNoSuchLanguage (s "(1:3): Language not supported: xx") (mkLoc 1 (Some 1))]) by (vm_compute; reflexivity).
    rewrite E. now left.
  - intros [t H]. apply (f_equal (skipn 3)) in H. apply (f_equal (hd 0%N)) in H. vm_compute in H. discriminate H.
Qed.
Print Assumptions C60_refuted.
Example C60_case : exists e1 e2, supported (s "en") /\
  errors_of (parse_with false false (s "en") (text_of_lines [s " oops"; s "Feature: f"; s "Scenario: s"; s "  Given x"; s "|a|"; s "  |a|b|"])) = [e1; e2] /\
  pe_loc e1 = mkLoc 1 (Some 2) /\ pe_loc e2 = mkLoc 6 (Some 3) /\ pe_msg e2 = message (mkLoc 6 (Some 3)) (s "inconsistent cell count within the table").
Proof. eexists _, _. split; [eexists; vm_compute; reflexivity|]. vm_compute. repeat split. Qed.
