(** * Error messages for Markdown files: C82 *)
From Verif Require Import PyStr PyStrFacts Types Regex RegexFacts Line DialectData Matcher Ast ParserTable Parser Classify Table Scan Grammar Deriv Cert LineSpec StepFacts TagIff RowIff Cst Report Eval Ids IdSpec PickleSpec WfDoc MdSpec MdFacts MdRun AnyRun WeakTree WeakEval AstRun MdTree PropParse PropMdParse EolMd MdTags PropMdFirst PropLine DocSpec PartsSpec MdPlaceSpec Sourced PropMdPlaces ErrorSpec MdErrorSpec ErrorFacts PropComposite WriteRead.
From Verif Require PropMarkdown PropPlaces LineIff.

Section Md.
Context (lines : list str) (Hl : lines_ok lines) (Ho : Forall one_line lines) (lang : str) (d : dialect).
Notation err := (md_explained d (numbered_lines lines)).
Definition refused_kind (k : tok) (l : gline) : Prop := wrefused k l /\ ~ md_kind d (g_text l) (shown_name k).

Lemma kind_refused k ms t : ready_in lang d ms -> of_line lines t -> out (md_match k ms t) = Ok false -> ~ md_kind d (g_text (t_line t)) (shown_name k).
Proof.
  intros [[Hm Hn] [_ [_ Hd]]] [n [N1 [N2 N3]]] H K.
  assert (Hx : one_line (g_text (t_line t))) by (rewrite N2; now apply nth_one).
  assert (Ht : t_line t = mkLine (g_text (t_line t)) (S n)) by (rewrite N2; reflexivity).
  remember (g_text (t_line t)) as x eqn:Ex. remember (shown_name k) as nm eqn:E.
  assert (T : In k md_title_kinds -> forall kw name col, ~ MdSpec.header_line (MdSpec.title_keywords d k) x kw name col).
  { intros Hk. pose proof (PropMarkdown.title_match ms x (S n) t k Hn Hk Hx Ht) as M. destruct (md_match k ms t) as [[[[]|] m1] t1]; try discriminate H. rewrite Hd in M. apply M. }
  assert (Tr : forall items, row_line x items -> startswith [ch_pipe] (lstrip x) = true /\ table_cells (t_line t) = Ok items).
  { intros items R. rewrite Ht. now apply (table_cells_iff x (S n)). }
  destruct K; destruct k; try (vm_compute in E; discriminate E); clear E; cbn [md_match] in H.
  - subst x. rewrite (proj2 (tag_line_iff ms t)) in H by assumption. discriminate H.
  - exact (T ltac:(cbn; auto) _ _ _ H0).
  - exact (T ltac:(cbn; auto) _ _ _ H0).
  - exact (T ltac:(cbn; auto) _ _ _ H0).
  - exact (T ltac:(cbn; auto) _ _ _ H0).
  - destruct H0 as [ind [b [gap [rest [before [after [y [e [B [A [R [_ [_ _]]]]]]]]]]]]].
    pose proof (bullet_match ms x (S n) t Hn Hx Ht) as M. destruct (md_match_StepLine ms t) as [[[[]|] m1] t1]; try discriminate H. destruct M as [_ [_ M]].
    specialize (M ind b gap rest kw B). rewrite Hd, A in M. specialize (M ltac:(apply in_elt)). rewrite R in M. rewrite startswith_app in M. discriminate M.
  - destruct H0 as [R [I5 Sp]]. destruct (Tr items R) as [R1 R2]. unfold md_match_TableRow in H. rewrite R2 in H. 
    assert (G : get_line_text (t_line t) 0 = x).
    { rewrite Ht. unfold get_line_text. cbn [Z.ltb orb Z.compare]. destruct (Z.of_nat (g_indent _) <? 0)%Z eqn:E; [apply Z.ltb_lt in E; lia | reflexivity]. }
    rewrite G in H. assert (M : exists st, re_match md_table_re x = Some st).
    { apply table_re_iff. destruct (lstrip_parts x) as [ind [E1 E2]]. destruct (lstrip x) as [|c rest] eqn:El; [discriminate R1|]. exists ind, rest. split; [exact E2|].
      assert (c = ch_pipe) by (apply startswith_spec in R1 as [z R1]; injection R1 as -> _; reflexivity). subst c. split; [|exact E1]. unfold indent_of in I5. rewrite El, E1, app_length in I5. lia. }
    destruct M as [st M]. rewrite M in H. assert (Gf : is_gfm_separator items = false). { destruct (is_gfm_separator items) eqn:Gf; [|reflexivity]. apply gfm_iff in Gf as [i [G1 G2]]. now destruct (Sp i G1). }
    rewrite Gf in H. discriminate H.
  - destruct (Tr items H0) as [R1 R2]. unfold md_match_Comment in H. rewrite R2 in H. unfold g_startswith, g_trimmed in H. rewrite <- Ex, R1 in H.
    assert (Gf : is_gfm_separator items = true) by (apply gfm_iff; eauto). rewrite Gf in H. discriminate H.
  - assert (E0 : g_is_empty (t_line t) = true) by (unfold g_is_empty, g_trimmed; rewrite <- Ex, (proj2 (lstrip_nil x)); [reflexivity | exact H0]).
    unfold md_match_Empty in H. match type of H with context [match ?a with _ => _ end] => destruct a as [[[b|e] ms1] t1] end; [|discriminate H].
    rewrite E0, orb_true_r in H. discriminate H.
  - discriminate H.
Qed.
(** a token of a line; the one at the end of the file has no column *)
Definition line_tok (t : token) : Prop := of_line lines t /\ (t_eof t = true -> t_loc_col t = None).
Lemma md_step_kind k ms t : ready_in lang d ms -> line_tok t -> k = TkEOF \/ t_eof t = false ->
  match do_match k ms t with
  | (r, ms', t') => ready_in lang d ms' /\ (r = Ok true /\ k = TkEOF \/ line_tok t') /\ t_line t' = t_line t /\
      match r with
      | Ok true => wmatched (match_of lines lang d) k t'
      | Ok false => refused_kind k (t_line t)
      | Err (EParser p) => err p /\ refused_kind k (t_line t)
      | Err e => md_exn lines e
      end
  end.
Proof.
  intros R [Ht Hc] Hk. pose proof (md_step_in lines Ho lang d k ms t R Ht Hk) as S. pose proof (kind_refused k ms t R Ht) as Kr. pose proof R as [[Hm Hn] _].
  assert (Hx : one_line (g_text (t_line t))) by (destruct Ht as [n [_ [N2 _]]]; rewrite N2; now apply nth_one).
  pose proof (md_call (fun _ => True) k ms t Hm Hn Hx Hk (fun _ => I)) as C.
  assert (E : t_eof t = true -> k = TkEOF /\ out (md_match k ms t) = Ok true).
  { intros Te. destruct Hk as [->|Hk]; [|congruence]. split; [reflexivity|]. cbn [md_match]. unfold match_EOF. rewrite Te. reflexivity. }
  unfold do_match in *. rewrite Hm in *.
  destruct (md_match k ms t) as [[r ms'] t']. cbn [out fst] in Kr, E. destruct S as [S1 [S2 [S3 S4]]]. split; [exact S1|]. split; [|split; [exact S3|]].
  - destruct (t_eof t) eqn:Te; [left; destruct (E eq_refl); auto|]. right. split; [exact S2|]. unfold t_eof in *. rewrite S3. congruence.
  - destruct r as [[|]|[]]; try exact S4; [split; auto | destruct C].
Qed.
Lemma listed st q : ptable q = Some st -> name_list (map shown_name (st_expected st)).
Proof.
  intros Hq. destruct (expected_facts q st Hq) as [N1 [N2 _]]. split; [destruct (st_expected st); [contradiction | discriminate]|].
  apply FinFun.Injective_map_NoDup; [exact shown_inj | exact N1].
Qed.
Lemma tries_in k l : tries k l = true -> exists tr, In tr l /\ tr_tok tr = k /\ tr_la tr = None.
Proof.
  unfold tries. intros H. apply existsb_exists in H as [tr [H1 H2]]. apply andb_true_iff in H2 as [H2 H3]. apply tok_eqb_spec in H2. exists tr. split; [exact H1|]. split; [exact H2|]. now destruct (tr_la tr).
Qed.
Lemma unexpected_kind q st t : ptable q = Some st -> line_tok t -> (t_eof t = true -> forall tr, In tr (st_trans st) -> tr_tok tr <> TkEOF) ->
  (forall tr, In tr (st_trans st) -> tr_la tr = None -> t_eof t = false -> refused_kind (tr_tok tr) (t_line t)) -> err (unexpected t (st_expected st)).
Proof.
  intros Hq [[n [N1 [N2 N3]]] Hc] He Hr. destruct (expected_facts q st Hq) as [_ [_ [E3 _]]]. unfold unexpected. destruct (t_eof t) eqn:Et.
  - assert (n = length lines) as ->.
    { destruct (Nat.eq_dec n (length lines)) as [Hn|Hn]; [exact Hn|]. exfalso. unfold t_eof in Et. rewrite N2 in Et. unfold g_bool in Et. cbn [g_text] in Et.
      pose proof (proj1 (Forall_forall _ _) Hl _ (ltac:(apply nth_In; lia) : In (nth n lines []) lines)) as Q. cbn beta in Q. destruct (nth n lines []); [congruence | discriminate Et]. }
    replace (mk_perr KUnexpectedEOF (s "unexpected end of file, expected: " ++ expected_text (st_expected st)) (t_location t)) with (unexpected_end_error (S (length lines)) (map shown_name (st_expected st))).
    + assert (Ln : length (numbered_lines lines) = length lines) by (unfold numbered_lines; etransitivity; [apply combine_length|]; rewrite seq_length; apply Nat.min_id). rewrite <- Ln. apply mde_end; [eapply listed; eauto|].
      intros nm H. apply in_map_iff in H as [k [<- Hk]]. apply shown_in. intros ->. destruct (tries_in _ _ (E3 _ Hk)) as [tr [T1 [T2 _]]]. exact (He eq_refl tr T1 T2).
    + unfold t_location. rewrite (Hc eq_refl), N3. reflexivity.
  - assert (Hn : n < length lines). { destruct (le_lt_dec (length lines) n) as [L|L]; [|exact L]. unfold t_eof in Et. rewrite N2, nth_overflow in Et by exact L. discriminate Et. }
    assert (Hi : In (S n, nth n lines []) (numbered_lines lines)) by (apply PropPlaces.numbered_line; split; [cbn; lia|]; cbn; rewrite Nat.sub_0_r; now apply nth_error_nth').
    assert (V : token_value t = lstrip (nth n lines [])) by (unfold token_value; rewrite Et, N2; reflexivity). rewrite V, strip_lstrip.
    set (loc := match t_loc_col t with Some (S _) => _ | _ => _ end).
    assert (L : exists col, 1 <= col /\ loc = at_col (S n, nth n lines []) col).
    { unfold loc, at_col, t_location. cbn [fst]. rewrite N3. destruct (t_loc_col t) as [[|c]|]; eexists; (split; [|reflexivity]); lia. }
    destruct L as [col [L1 ->]]. apply (mde_line d _ (S n, nth n lines []) (map shown_name (st_expected st)) col); auto; [eapply listed; eauto| |].
    + intros nm H. apply in_map_iff in H as [k [<- _]]. apply shown_in.
    + intros nm H. apply in_map_iff in H as [k [<- Hk]]. destruct (tries_in _ _ (E3 _ Hk)) as [tr [T1 [T2 T3]]]. destruct (Hr tr T1 T3 eq_refl) as [_ K]. rewrite T2, N2 in K. exact K.
Qed.
Lemma row_error t : match_of lines lang d t -> line_tok t -> rowP err (wrap t).
Proof.
  intros M _ K. change (lf_t (wrap t)) with t. assert (Kt : tok_kind t = TkTableRow) by exact K.
  destruct (row_at lines Ho lang d (mkRow 0 (t_location t) (get_cells t))) as [l [items [R1 [R2 [R3 _]]]]].
  { exists t. split; [split; assumption|]. split; reflexivity. }
  cbn [row_loc] in R3. rewrite R3. eapply mde_row; eauto.
Qed.
Lemma settled_md e : err e -> err (settled e).
Proof. intros [l names col H1 H2 H3 H4 H5|names H1 H2|l items H1 H2]; [now apply mde_line | now apply mde_end | eapply mde_row; eauto]. Qed.
Theorem md_errors stop ids ms ms0 : ms_reset ms = Ok ms0 -> ready_in lang d ms0 ->
  match fst (parse_lines stop ids ms lines) with
  | Ok doc => True
  | Err e => ends err (md_exn lines) stop e
  end.
Proof.
  intros Hr Hi. assert (P := parse_lines_any lines ids (ready_in lang d) line_tok (match_of lines lang d) err (md_exn lines) refused_kind (fun k l (H : refused_kind k l) => proj1 H) Hl).
  specialize (P ltac:(intros e [-> _]; exact I)). specialize (P ltac:(intros n Hn; split; [exists n; auto | reflexivity])).
  specialize (P md_step_kind unexpected_kind settled_md row_error stop ms ms0 Hr Hi).
  destruct (parse_lines stop ids ms lines) as [[dd|e] c]; [exact I | exact P].
Qed.
End Md.

Lemma fresh_in lang d : for_name lang = Some d -> exists ms, new_matcher true lang = Ok ms /\ ms_reset ms = Ok ms /\ ready_in lang d ms.
Proof.
  intros Hd. destruct (fresh_md lang (ex_intro _ d Hd)) as [ms [E1 [E2 E3]]]. exists ms. split; [exact E1|]. split; [exact E2|]. unfold new_matcher in E1. rewrite Hd in E1.
  unfold ms_reset in E1. cbn in E1. assert (R : str_eqb lang lang = true) by now apply str_eqb_spec. rewrite R in E1. cbn in E1. injection E1 as <-.
  split; [exact E3|]. split; [intros sep; discriminate|]. split; reflexivity.
Qed.

(** C82.  Every error reported for a Markdown file is one of three, each with a fixed wording: a line that is
    of none of the kinds that the message lists; the end of the file; a row that does not fit.  A language is
    never refused: Markdown files have no language header. *)
Theorem C82_messages : forall stop lang d text, for_name lang = Some d ->
  match parse_with stop true lang text with
  | Err (EParser e) => md_explained d (numbered_lines (split_lines text)) e
  | Err (EComposite es) => Forall (md_explained d (numbered_lines (split_lines text))) es
  | _ => True
  end.
Proof.
  intros stop lang d text H. destruct (fresh_in lang d H) as [ms [E1 [E2 E3]]]. unfold parse_with. rewrite E1. cbn [rbind].
  pose proof (md_errors (split_lines text) (split_lines_nonempty text) (split_lines_one text) lang d stop 0 ms ms E2 E3) as P.
  destruct (parse_lines stop 0 ms (split_lines text)) as [[dd|e] c]; [exact I|]. cbn [fst] in *. inversion P as [p Hs Hp|es Hs H1 H2 H3|e' [-> X]]; subst; auto.
Qed.
Print Assumptions C82_messages.

Lemma md_explained_clear d text e : md_explained d (numbered_lines (split_lines text)) e -> clear (pe_msg e).
Proof.
  intros [l names col H1 H2 H3 H4 H5|names H1 H2|l items H1 H2]; cbn [pe_msg unexpected_end_error]; apply clear_message.
  - apply clear_app; [apply clear_b; reflexivity|]. apply clear_app; [now apply clear_names|]. apply clear_app; [apply clear_b; reflexivity|].
    apply clear_app; [|apply clear_b; reflexivity]. apply (clear_strip text). now apply numbered_in.
  - apply clear_app; [apply clear_b; reflexivity|]. apply clear_names. intros x Hx. right. now apply H2.
  - apply clear_b. reflexivity.
Qed.
(** The message of the exception for several errors can be taken apart again (as C67 says of classic files). *)
Theorem C82_composite : forall lang text es, supported lang -> parse_with false true lang text = Err (EComposite es) ->
  es <> [] /\ split_on ch_nl (composite_message es) = s "Parser errors:" :: map pe_msg es.
Proof.
  intros lang text es [d H] E. pose proof (C17_markdown_reports lang text es (ex_intro _ d H) E) as [L _]. assert (Ne : es <> []) by (destruct es; [cbn in L; lia | discriminate]).
  split; [exact Ne|]. pose proof (C82_messages false lang d text H) as C. rewrite E in C.
  assert (F : Forall clear (map pe_msg es)) by (apply Forall_map; eapply Forall_impl; [|exact C]; intros e; apply md_explained_clear).
  unfold composite_message. change (s "Parser errors:" ++ [ch_nl] ++ join [ch_nl] (map pe_msg es)) with (s "Parser errors:" ++ ([ch_nl] ++ join [ch_nl] (map pe_msg es))).
  replace (s "Parser errors:" ++ [ch_nl] ++ join [ch_nl] (map pe_msg es)) with (join [ch_nl] (s "Parser errors:" :: map pe_msg es)) by (destruct es; [contradiction | reflexivity]).
  apply join_split_on; [discriminate|]. constructor; [apply clear_b; reflexivity | exact F].
Qed.
Print Assumptions C82_composite.
(** The wording, in the three cases; the header of the examples is none of the kinds that are listed. *)
Definition md_msgs (r : result gdoc) : list (pkind * str) :=
  match r with Err (EComposite es) => map (fun e => (pe_kind e, pe_msg e)) es | _ => [] end.
Example C82_case :
  md_msgs (parse_with false true (s "en") (text_of_lines [s "# Feature: f"; s "## Scenario: s"; s "* Given x"; s "some prose"; s "## Background: b"; s "* Given x";  s "  |a|b|"; s "  |c|"; s "`@t`"])) =
  [(KUnexpectedToken, s "(5:4): expected: #EOF, #TableRow, #DocStringSeparator, #StepLine, #TagLine, #ExamplesLine, #ScenarioLine, #RuleLine, #Comment, #Empty, got '## Background: b'");
   (KAstBuilder, s "(8:3): inconsistent cell count within the table");
   (KUnexpectedEOF, s "(10:0): unexpected end of file, expected: #TagLine, #RuleLine, #Comment, #Empty")].
Proof. vm_compute. reflexivity. Qed.
