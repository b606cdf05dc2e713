(** * One line in both notations (for C68) *)
From Verif Require Import PyStr PyStrFacts Types Regex RegexFacts ReSem Line DialectData Matcher Ast ParserTable Parser Classify Scan LineSpec StepFacts LangFacts TagIff MdSpec MdFacts MdRun MdTags PropMarkdown TransSpec Flat.
Local Open Scope N_scope.

Section Trans.
Context (lang : str) (d : dialect) (Hd : for_name lang = Some d).

(** ** Starts of lines *)
Lemma begins_iff p x : visible p = true -> begins p x <-> startswith p (lstrip x) = true.
Proof.
  intros V. split.
  - intros [ind [rest [Hi ->]]]. unfold lstrip, lstrip_by. rewrite drop_while_app by exact Hi.
    destruct p as [|c p]; [discriminate V|]. cbn [visible] in V. cbn [app drop_while]. destruct (is_space c); [discriminate V|].
    change (c :: p ++ rest) with ((c :: p) ++ rest). apply startswith_app.
  - intros H. apply startswith_spec in H as [y H]. destruct (drop_while_suffix is_space x) as [w [E W]]. change (drop_while is_space x) with (lstrip x) in E.
    exists w, y. split; [exact W|]. now rewrite <- H.
Qed.
Definition first (x : str) : option char := hd_error (lstrip x).
Lemma begins_one c x : is_space c = false -> begins [c] x <-> first x = Some c.
Proof.
  intros V. rewrite begins_iff by (cbn; now rewrite V). unfold first. destruct (lstrip x) as [|a y]; [split; discriminate|]. cbn [startswith hd_error].
  rewrite andb_true_r, N.eqb_eq. split; [now intros -> | now intros [= ->]].
Qed.
Lemma begins_hd c p x : is_space c = false -> begins (c :: p) x -> first x = Some c.
Proof.
  intros V H. apply begins_iff in H; [|cbn; now rewrite V]. unfold first. destruct (lstrip x) as [|a y]; [discriminate|]. cbn [startswith] in H.
  apply andb_true_iff in H as [H _]. apply N.eqb_eq in H. now subst.
Qed.
Lemma first_app ind c y : all_space ind -> is_space c = false -> first (ind ++ c :: y) = Some c.
Proof. intros Hi V. unfold first, lstrip, lstrip_by. rewrite drop_while_app by exact Hi. cbn [drop_while]. now rewrite V. Qed.
Lemma header_first kws x k n c : header_line kws x k n c -> first x = Some ch_hash.
Proof. intros [ind h c' k' rest e A [B B'] C D E F ->]. destruct h as [|h]; [lia|]. cbn [repeat app]. now apply first_app. Qed.
Lemma bullet_first x ind b gap rest : bullet_line x ind b gap rest -> first x = Some b /\ (b = 42 \/ b = 43 \/ b = 45).
Proof. intros [A [B [_ [_ ->]]]]. split; [|exact B]. cbn [app]. apply first_app; [exact A|]. destruct B as [-> | [-> | ->]]; reflexivity. Qed.

(** ** The Markdown matcher *)
Record okm (ms : mstate) : Prop := mkOkm {
  om_md : ms_md ms = true; om_name : ms_name ms = lang; om_dialect : ms_dialect ms = d;
  om_feature : ms_feature ms = true; om_sep : ms_sep ms = None }.
Definition same_line (t1 t : token) : Prop := t_line t1 = t_line t /\ t_loc_line t1 = t_loc_line t.
Lemma same_line_refl t : same_line t t. Proof. split; reflexivity. Qed.
Definition decides (x : str) (m : mstate -> token -> mret) (b : bool) : Prop :=
  forall ms t, okm ms -> g_text (t_line t) = x -> exists t1, m ms t = (Ok b, ms, t1) /\ same_line t1 t.
Lemma decides_or x m1 m2 b1 b2 : decides x m1 b1 -> decides x m2 b2 -> decides x (fun ms t => m_or (m1 ms t) m2) (b1 || b2).
Proof.
  intros H1 H2 ms t Hm Ht. destruct (H1 ms t Hm Ht) as [t1 [E1 [S1 S2]]]. rewrite E1. destruct b1; cbn [m_or orb].
  - exists t1. repeat split; auto.
  - destruct (H2 ms t1 Hm) as [t2 [E2 [S3 S4]]]; [congruence|]. exists t2. repeat split; congruence.
Qed.
Lemma line_of t x : g_text (t_line t) = x -> t_line t = mkLine x (g_number (t_line t)).
Proof. intros <-. now destruct (t_line t). Qed.

Lemma dec_tag x : ~ has_md_tag x -> decides x md_match_TagLine false.
Proof. intros H ms t _ <-. exists t. split; [now apply tag_line_not | apply same_line_refl]. Qed.
Lemma dec_tag_yes x : has_md_tag x -> decides x md_match_TagLine true.
Proof.
  intros H ms t _ <-. apply (tag_line_iff ms t) in H. unfold md_match_TagLine in *. destruct (md_tags_go _ _ _ _) as [|i l]; [discriminate H|]. eexists. split; [reflexivity | split; reflexivity].
Qed.
Lemma dec_feature x : decides x md_match_FeatureLine false.
Proof. intros ms t [_ _ _ F _] _. unfold md_match_FeatureLine. rewrite F. eexists. split; [reflexivity | split; reflexivity]. Qed.
Lemma dec_title x k : one_line x -> In k md_title_kinds -> (forall kw name col, ~ header_line (title_keywords d k) x kw name col) -> decides x (md_match k) false.
Proof.
  intros Hx Hk H ms t [_ N D _ _] Ht. apply line_of in Ht. pose proof (title_match ms x _ t k ltac:(rewrite N, D; exact Hd) Hk Hx Ht) as T. rewrite D in T.
  destruct (md_match k ms t) as [[[[|]|] ms1] t1]; [| |contradiction].
  - destruct T as [_ [kw [name [col [T _]]]]]. now destruct (H _ _ _ T).
  - destruct T as [-> [-> _]]. exists t. split; [reflexivity | apply same_line_refl].
Qed.
Lemma dec_title_hash x k : one_line x -> In k md_title_kinds -> first x <> Some ch_hash -> decides x (md_match k) false.
Proof. intros Hx Hk H. apply dec_title; auto. intros kw name col T. now apply header_first in T. Qed.
Lemma dec_row_no x : first x <> Some ch_pipe -> decides x md_match_TableRow false.
Proof.
  intros H ms t _ Ht. unfold md_match_TableRow. assert (G : get_line_text (t_line t) 0 = x).
  { unfold get_line_text. rewrite Ht. destruct ((0 <? 0)%Z || (Z.of_nat (g_indent (t_line t)) <? 0)%Z) eqn:E; [|reflexivity]. apply orb_true_iff in E as [E|E]; apply Z.ltb_lt in E; lia. }
  rewrite G. pose proof (table_re_iff x) as T. destruct (re_match md_table_re x); [|exists t; split; [reflexivity | apply same_line_refl]].
  destruct (proj1 T (ex_intro _ _ eq_refl)) as [ind [rest [Hi [_ E]]]]. destruct H. rewrite E. now apply first_app.
Qed.
Lemma dec_comment_no x : first x <> Some ch_pipe -> decides x md_match_Comment false.
Proof.
  intros H ms t _ Ht. unfold md_match_Comment. assert (G : g_startswith (t_line t) [ch_pipe] = false).
  { destruct (g_startswith (t_line t) [ch_pipe]) eqn:G; [|reflexivity]. destruct H. apply begins_one; [reflexivity|]. apply begins_iff; [reflexivity|].
    unfold g_startswith, g_trimmed in G. now rewrite Ht in G. }
  rewrite G. eexists. split; [reflexivity | split; reflexivity].
Qed.
Lemma dec_sep_no x : ~ begins (s """""""") x -> ~ begins (s "```") x -> decides x md_match_DocStringSeparator false.
Proof.
  intros H1 H2 ms t [_ _ _ _ S] Ht. unfold md_match_DocStringSeparator. rewrite S.
  assert (B : forall p, visible p = true -> ~ begins p x -> g_startswith (t_line t) p = false).
  { intros p V H. destruct (g_startswith (t_line t) p) eqn:G; [|reflexivity]. destruct H. apply begins_iff; [exact V|]. unfold g_startswith, g_trimmed in G. now rewrite Ht in G. }
  assert (H3 : ~ begins (s "````") x). { intros [ind [rest [Hi E]]]. apply H2. exists ind, (s "`" ++ rest). split; [exact Hi | exact E]. }
  unfold match_separator. rewrite (B sep_quotes eq_refl H1). cbn [negb m_or]. rewrite (B sep_ticks4 eq_refl H3). cbn [negb m_or]. rewrite (B sep_ticks eq_refl H2).
  exists t. split; [reflexivity | apply same_line_refl].
Qed.
Lemma dec_sep_first x : first x <> Some 34 -> first x <> Some 96 -> decides x md_match_DocStringSeparator false.
Proof.
  intros H1 H2. apply dec_sep_no; intros B.
  - apply H1. eapply begins_hd; [|exact B]. reflexivity.
  - apply H2. eapply begins_hd; [|exact B]. reflexivity.
Qed.
Lemma dec_step_no x : one_line x -> (forall ind b gap rest kw, bullet_line x ind b gap rest -> In kw (all_step_keywords d) -> startswith kw rest = false) -> decides x md_match_StepLine false.
Proof.
  intros Hx H ms t [_ N D _ _] Ht. apply line_of in Ht. pose proof (bullet_match ms x _ t ltac:(rewrite N, D; exact Hd) Hx Ht) as T. rewrite D in T.
  destruct (md_match_StepLine ms t) as [[[[|]|] ms1] t1]; [| |contradiction].
  - destruct T as [_ [ind [b [gap [rest [before [k [after [y [e [T1 [T2 [T3 _]]]]]]]]]]]]]. specialize (H _ _ _ _ k T1). rewrite T3, startswith_app in H. discriminate H. rewrite T2. apply in_elt.
  - destruct T as [-> [-> _]]. exists t. split; [reflexivity | apply same_line_refl].
Qed.
Lemma dec_step_first x c : one_line x -> first x = Some c -> c <> 42 -> c <> 43 -> c <> 45 -> decides x md_match_StepLine false.
Proof. intros Hx F C1 C2 C3. apply dec_step_no; [exact Hx|]. intros ind b gap rest kw B. apply bullet_first in B as [B1 B2]. rewrite F in B1. injection B1 as <-. destruct B2 as [B2 | [B2 | B2]]; contradiction. Qed.
Lemma dec_eof x : x <> [] -> decides x match_EOF false.
Proof. intros H ms t _ Ht. unfold match_EOF, t_eof, g_bool. rewrite Ht. destruct x; [contradiction|]. exists t. split; [reflexivity | apply same_line_refl]. Qed.
Lemma dec_language x : decides x md_match_Language false.
Proof. intros ms t _ _. exists t. split; [reflexivity | apply same_line_refl]. Qed.

(** match_Empty *)
Definition or_chain : mstate -> token -> mret := fun ms t =>
    m_or (m_or (m_or (m_or (m_or (m_or (m_or (m_or (m_or (m_or (m_or
      (md_match_TagLine ms t)
      md_match_FeatureLine) md_match_ScenarioLine) md_match_BackgroundLine)
      md_match_ExamplesLine) md_match_RuleLine) md_match_TableRow) md_match_Comment)
      md_match_Language) md_match_DocStringSeparator) match_EOF) md_match_StepLine.
Lemma dec_empty x b : decides x or_chain b -> lstrip x <> [] \/ b = false -> decides x md_match_Empty (negb b).
Proof.
  intros H V ms t Hm Ht. destruct (H ms t Hm Ht) as [t1 [E [S1 S2]]]. unfold md_match_Empty. fold (or_chain ms t). rewrite E.
  destruct b; cbn [negb orb].
  - destruct V as [V|V]; [|discriminate V]. unfold g_is_empty, g_trimmed. rewrite Ht. destruct (lstrip x); [contradiction|]. exists t1. split; [reflexivity | now split].
  - eexists. split; [reflexivity|]. split; cbn; congruence.
Qed.
Lemma dec_chain x bt bs bb be br brow bc bsep bst : x <> [] ->
  decides x md_match_TagLine bt -> decides x md_match_ScenarioLine bs -> decides x md_match_BackgroundLine bb -> decides x md_match_ExamplesLine be -> decides x md_match_RuleLine br ->
  decides x md_match_TableRow brow -> decides x md_match_Comment bc -> decides x md_match_DocStringSeparator bsep -> decides x md_match_StepLine bst ->
  decides x or_chain (bt || bs || bb || be || br || brow || bc || bsep || bst).
Proof.
  intros Hx H1 H2 H3 H4 H5 H6 H7 H8 H9.
  pose proof (decides_or x _ _ _ _ (decides_or x _ _ _ _ (decides_or x _ _ _ _ (decides_or x _ _ _ _ (decides_or x _ _ _ _ (decides_or x _ _ _ _ (decides_or x _ _ _ _ (decides_or x _ _ _ _
    (decides_or x _ _ _ _ (decides_or x _ _ _ _ (decides_or x _ _ _ _ H1 (dec_feature x)) H2) H3) H4) H5) H6) H7) (dec_language x)) H8) (dec_eof x Hx)) H9) as C.
  rewrite !orb_false_r in C. exact C.
Qed.

(** ** What a kind of line matches *)
Definition kind_tok (κ : kind) : tok :=
  match κ with
  | LBlank => TkEmpty | LRule_of_dashes => TkComment | LTags => TkTagLine | LHead k => k | LStep => TkStepLine | LRow => TkTableRow
  | LOpen _ | LClose _ => TkDocStringSeparator | LText _ => TkOther
  end.
Definition does (κ : kind) (k : tok) : bool := match k with TkOther => true | _ => tok_eqb (kind_tok κ) k end.
Definition body_kind (κ : kind) : bool :=
  match κ with LOpen _ | LClose _ | LText _ => false | LHead k => match k with TkRuleLine | TkBackgroundLine | TkScenarioLine | TkExamplesLine => true | _ => false end | _ => true end.

Lemma table_cells_number x n m : table_cells (mkLine x n) = table_cells (mkLine x m). Proof. reflexivity. Qed.
Lemma gtext_cells t x : g_text (t_line t) = x -> table_cells (t_line t) = table_cells (mkLine x 0).
Proof. intros <-. destruct (t_line t). reflexivity. Qed.
Lemma gtext_tags t x : g_text (t_line t) = x -> g_tags (t_line t) = g_tags (mkLine x 0).
Proof. intros <-. destruct (t_line t). reflexivity. Qed.
Lemma pipe_starts t x : g_text (t_line t) = x -> begins (s "|") x -> g_startswith (t_line t) [ch_pipe] = true.
Proof. intros <- B. apply begins_iff in B; [exact B | reflexivity]. Qed.
Lemma text0 t x : g_text (t_line t) = x -> get_line_text (t_line t) 0 = x.
Proof. intros Ht. unfold get_line_text. rewrite Ht. destruct ((0 <? 0)%Z || (Z.of_nat (g_indent (t_line t)) <? 0)%Z) eqn:E; [|reflexivity]. apply orb_true_iff in E as [E|E]; apply Z.ltb_lt in E; lia. Qed.

Record profile (x : str) (κ : kind) : Prop := mkProfile {
  pr_ne : x <> [];
  pr_vis : lstrip x <> [] \/ κ = LBlank;
  pr_tag : decides x md_match_TagLine (does κ TkTagLine);
  pr_sc : decides x md_match_ScenarioLine (does κ TkScenarioLine);
  pr_bg : decides x md_match_BackgroundLine (does κ TkBackgroundLine);
  pr_ex : decides x md_match_ExamplesLine (does κ TkExamplesLine);
  pr_ru : decides x md_match_RuleLine (does κ TkRuleLine);
  pr_row : decides x md_match_TableRow (does κ TkTableRow);
  pr_com : decides x md_match_Comment (does κ TkComment);
  pr_sep : decides x md_match_DocStringSeparator (does κ TkDocStringSeparator);
  pr_step : decides x md_match_StepLine (does κ TkStepLine) }.
Lemma profile_empty x κ : body_kind κ = true -> profile x κ -> decides x md_match_Empty (does κ TkEmpty).
Proof.
  intros K [H0 HV H1 H2 H3 H4 H5 H6 H7 H8 H9].
  pose proof (dec_empty x _ (dec_chain x _ _ _ _ _ _ _ _ _ H0 H1 H2 H3 H4 H5 H6 H7 H8 H9)) as E.
  destruct κ as [| | |k| | | | |]; try discriminate K; try destruct k; try discriminate K; cbn [does kind_tok tok_eqb orb negb] in *; apply E; (destruct HV as [HV|HV]; [now left|try discriminate HV]); now right.
Qed.
Lemma first_vis x c : first x = Some c -> lstrip x <> [].
Proof. unfold first. destruct (lstrip x); [discriminate|discriminate]. Qed.
Lemma first_ne x c : first x = Some c -> x <> [].
Proof. intros H ->. discriminate H. Qed.
Lemma title_apart k k2 kw : In k (TkFeatureLine :: md_title_kinds) -> In k2 (TkFeatureLine :: md_title_kinds) -> In kw (head_keywords d k) -> In kw (head_keywords d k2) -> k = k2.
Proof.
  intros K1 K2 I1 I2. assert (Ok : dialect_ok d = true) by (eapply for_name_ok; exact Hd).
  assert (T : forall k, In k (TkFeatureLine :: md_title_kinds) -> In kw (head_keywords d k) -> classify d (kw ++ [ch_colon]) = k).
  { intros k0 K I. apply (has_classify d Ok). unfold has. apply existsb_exists. exists (kw ++ [ch_colon]). split; [|rewrite <- (app_nil_r (kw ++ [ch_colon])) at 2; apply startswith_app].
    cbn in K. destruct K as [<- | [<- | [<- | [<- | [<- | []]]]]]; cbn [starts head_keywords title_keywords] in *; unfold with_colon; apply (in_map (fun k => k ++ [ch_colon])); exact I. }
  rewrite <- (T k K1 I1). now apply T.
Qed.
Lemma header_same_kw l1 l2 x k1 n1 c1 k2 n2 c2 : kws_ok l1 = true -> kws_ok l2 = true -> header_line l1 x k1 n1 c1 -> header_line l2 x k2 n2 c2 -> k1 = k2.
Proof.
  intros K1 K2 H1 H2. assert (K : kws_ok (l1 ++ l2) = true).
  { unfold kws_ok in *. destruct l1 as [|a l]; [discriminate K1|]. destruct l2 as [|b r]; [discriminate K2|].
    change (forallb (fun k => negb (existsb (N.eqb ch_colon) k)) ((a :: l) ++ b :: r) = true). rewrite forallb_app. apply andb_true_iff. now split. }
  destruct (header_unique (l1 ++ l2) x k1 n1 c1 k2 n2 c2 K) as [E _]; [apply (header_sub l1); [|exact H1] | apply (header_sub l2); [|exact H2] | exact E]; intros z Hz; apply in_or_app; auto.
Qed.
Lemma kinds_kws k : In k (TkFeatureLine :: md_title_kinds) -> kws_ok (head_keywords d k) = true.
Proof.
  intros [<- | K].
  - pose proof Hd as H. apply for_name_in in H. pose proof title_kws_ok as T. rewrite forallb_forall in T. specialize (T _ H). cbn [snd] in T. unfold title_kws in T. cbn [forallb] in T.
    apply andb_true_iff in T as [T _]. exact T.
  - replace (head_keywords d k) with (title_keywords d k); [eapply kind_kws; eauto|]. cbn in K. destruct K as [<- | [<- | [<- | [<- | []]]]]; reflexivity.
Qed.
Lemma dec_head_no x k k2 kw name col : one_line x -> In k (TkFeatureLine :: md_title_kinds) -> In k2 md_title_kinds -> k <> k2 -> header_line (head_keywords d k) x kw name col -> decides x (md_match k2) false.
Proof.
  intros Hx K K2 N H. apply dec_title; [exact Hx | exact K2|]. intros kw2 n2 c2 H2.
  assert (E : head_keywords d k2 = title_keywords d k2) by (cbn in K2; destruct K2 as [<- | [<- | [<- | [<- | []]]]]; reflexivity). rewrite <- E in H2.
  assert (kw = kw2) by (eapply header_same_kw; [apply kinds_kws; exact K | apply kinds_kws; right; exact K2 | exact H | exact H2]). subst kw2.
  apply N. apply (title_apart k k2 kw); [exact K | right; exact K2 | | ]; [destruct H | destruct H2]; assumption.
Qed.
Lemma dec_head_yes x k kw name col : one_line x -> In k md_title_kinds -> header_line (head_keywords d k) x kw name col -> decides x (md_match k) true.
Proof.
  intros Hx K H ms t Hm Ht. pose proof Hm as [_ N D _ _]. pose proof (line_of _ _ Ht) as Hl. pose proof (title_match ms x _ t k ltac:(rewrite N, D; exact Hd) K Hx Hl) as T. rewrite D in T.
  assert (E : head_keywords d k = title_keywords d k) by (cbn in K; destruct K as [<- | [<- | [<- | [<- | []]]]]; reflexivity). rewrite E in H.
  pose proof (kept_match k ms t) as P.
  destruct (md_match k ms t) as [[[[|]|] ms1] t1]; [| |contradiction].
  - destruct T as [-> _]. exists t1. split; [reflexivity|]. split; apply P.
  - destruct T as [_ [_ T]]. now destruct (T _ _ _ H).
Qed.
Lemma stands_head k ind h c kw rest e : In k (TkFeatureLine :: md_title_kinds) -> In kw (head_keywords d k) ->
    all_space ind -> (1 <= h <= 6)%nat -> is_space c = true -> c <> ch_nl -> ~ In ch_nl (ind ++ rest) -> line_end e ->
    let x := ind ++ repeat ch_hash h ++ [c] ++ kw ++ s ":" ++ rest ++ e in
    header_line (head_keywords d k) x kw (strip rest) (length ind + h + 2) /\ first x = Some ch_hash.
Proof.
  intros K I Hi Hh Hc Hn Hr He x. assert (H : header_line (head_keywords d k) x kw (strip rest) (length ind + h + 2)).
  { econstructor; eauto. intros F. apply Hr. apply in_or_app. now right. }
  split; [exact H|]. eapply header_first; exact H.
Qed.
Lemma kw_line k kw : In k (TkFeatureLine :: md_title_kinds) -> In kw (head_keywords d k) -> ~ In ch_nl kw /\ visible kw = true.
Proof.
  assert (C : forallb (fun p => forallb (fun k => forallb (fun kw => negb (existsb (N.eqb ch_nl) kw) && visible kw) (head_keywords (snd p) k)) (TkFeatureLine :: md_title_kinds)) DIALECTS = true) by (vm_compute; reflexivity).
  intros K I. pose proof Hd as H. apply for_name_in in H. rewrite forallb_forall in C. specialize (C _ H). cbn [snd] in C. rewrite forallb_forall in C. specialize (C _ K). rewrite forallb_forall in C. specialize (C _ I).
  apply andb_true_iff in C as [C1 C2]. split; [|exact C2]. intros F. apply negb_true_iff in C1. assert (existsb (N.eqb ch_nl) kw = true); [|congruence]. apply existsb_exists. exists ch_nl. now split.
Qed.
Lemma head_one_line k ind h c kw rest e : In k (TkFeatureLine :: md_title_kinds) -> In kw (head_keywords d k) ->
    c <> ch_nl -> ~ In ch_nl (ind ++ rest) -> line_end e -> one_line (ind ++ repeat ch_hash h ++ [c] ++ kw ++ s ":" ++ rest ++ e).
Proof.
  intros K I Hc Hr He. exists (ind ++ repeat ch_hash h ++ [c] ++ kw ++ s ":" ++ rest), e. split; [now rewrite <- !app_assoc|]. split; [|exact He].
  destruct (kw_line k kw K I) as [N _]. intros F. rewrite !in_app_iff in *. destruct F as [F | [F | [F | [F | [F | F]]]]]; auto.
  - apply repeat_spec in F. discriminate F.
  - cbn in F. destruct F as [F|[]]. now apply Hc.
  - cbn in F. destruct F as [F|[]]. discriminate F.
Qed.
End Trans.
