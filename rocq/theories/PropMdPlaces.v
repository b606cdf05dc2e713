(** * Where the parts of a Markdown document stand in the text: C74 *)
From Verif Require Import PyStr PyStrFacts Types Regex RegexFacts Line DialectData Matcher Ast ParserTable Parser Classify Table Scan Grammar Deriv Cert LineSpec StepFacts TagIff RowIff Cst Report Eval Ids IdSpec PickleSpec WfDoc MdSpec MdFacts MdRun AnyRun WeakTree WeakEval AstRun MdTree PropParse PropMdParse EolMd MdTags PropMdFirst PropLine DocSpec PartsSpec MdPlaceSpec Sourced.
From Verif Require PropMarkdown PropPlaces LineIff.

(** the separator that the matcher remembers is always one of the three *)
Definition sep_known (ms : mstate) : Prop := forall sep, ms_sep ms = Some sep -> md_delimiter sep.
Definition sep_kept (ms : mstate) (r : mret) : Prop := sep_known ms -> sep_known (ms_of r).
Lemma sk_same ms b t : sep_kept ms (b, ms, t). Proof. intros H. exact H. Qed.
Lemma sk_or ms r k : sep_kept ms r -> (forall ms t, sep_kept ms (k ms t)) -> sep_kept ms (m_or r k).
Proof. intros H K. unfold m_or. destruct r as [[[[|]|] ms1] t1]; try exact H. intros S. apply K. now apply H. Qed.
Lemma sk_title p kws suf ty ms t : sep_kept ms (md_match_title p kws suf ty ms t).
Proof. unfold md_match_title. destruct (re_search _ _) as [[? ?]|]; apply sk_same. Qed.
Lemma sk_feature ms t : sep_kept ms (md_match_FeatureLine ms t).
Proof.
  unfold md_match_FeatureLine. destruct (ms_feature ms); [apply sk_same|]. pose proof (sk_title md_header (d_feature (ms_dialect ms)) [ch_colon] TkFeatureLine ms t) as K.
  destruct (md_match_title _ _ _ _ ms t) as [[[[|]|] ms1] t1]; exact K.
Qed.
Lemma sk_scenario ms t : sep_kept ms (md_match_ScenarioLine ms t).
Proof. apply sk_or; [apply sk_title | intros; apply sk_title]. Qed.
Lemma sk_row ms t : sep_kept ms (md_match_TableRow ms t).
Proof. unfold md_match_TableRow. destruct (re_match _ _); [|apply sk_same]. destruct (table_cells _) as [c|e]; [|apply sk_same]. destruct (is_gfm_separator c); apply sk_same. Qed.
Lemma sk_comment ms t : sep_kept ms (md_match_Comment ms t).
Proof. unfold md_match_Comment. destruct (g_startswith _ _); [|apply sk_same]. destruct (table_cells _) as [c|e]; apply sk_same. Qed.
Lemma sk_tag ms t : sep_kept ms (md_match_TagLine ms t).
Proof. unfold md_match_TagLine. destruct (md_tags_go _ _ _ _); apply sk_same. Qed.
Lemma sk_eof ms t : sep_kept ms (match_EOF ms t).
Proof. unfold match_EOF. destruct (negb _); apply sk_same. Qed.
Lemma sk_open sep op ms t : md_delimiter sep -> sep_kept ms (match_separator (Some []) sep op ms t).
Proof. intros D. unfold match_separator. destruct (negb _); [apply sk_same|]. intros _ s'. cbn. destruct op; [intros H; injection H as <-; exact D | discriminate]. Qed.
Lemma sk_separator ms t : sep_kept ms (md_match_DocStringSeparator ms t).
Proof.
  unfold md_match_DocStringSeparator. destruct (ms_sep ms) as [sep|] eqn:E.
  - intros H. apply sk_open; [now apply H | exact H].
  - apply sk_or; [apply sk_or|]; [apply sk_open; now left | intros; apply sk_open; right; now left | intros; apply sk_open; right; now right].
Qed.
Lemma sk_empty ms t : sep_kept ms (md_match_Empty ms t).
Proof.
  unfold md_match_Empty.
  match goal with |- sep_kept _ (match ?a with _ => _ end) => assert (K : sep_kept ms a) end.
  { repeat (apply sk_or; [|first [intros; apply sk_title | intros; apply sk_feature | intros; apply sk_scenario | intros; apply sk_row | intros; apply sk_comment
      | intros; apply sk_same | intros; apply sk_separator | intros; apply sk_eof]]). apply sk_tag. }
  match goal with |- sep_kept _ (match ?a with _ => _ end) => destruct a as [[[b|e] ms1] t1] end; [|exact K].
  destruct (_ || _); exact K.
Qed.
Lemma sk_match k ms t : sep_kept ms (md_match k ms t).
Proof.
  destruct k; cbn [md_match]; first [apply sk_title | apply sk_feature | apply sk_scenario | apply sk_row | apply sk_comment | apply sk_same
    | apply sk_separator | apply sk_eof | apply sk_empty | apply sk_tag].
Qed.

Section Md.
Context (lines : list str) (Hl : lines_ok lines) (Ho : Forall one_line lines).
Context (lang : str) (d : dialect).
(** the matcher never leaves the language *)
Definition ready_in (ms : mstate) : Prop := md_ready ms /\ sep_known ms /\ ms_name ms = lang /\ ms_dialect ms = d.
(** what the token is a match of *)
Definition match_of (t : token) : Prop :=
  md_leaf lines t /\ exists ms ms' t0, ready_in ms /\ of_line lines t0 /\ (tok_kind t = TkEOF \/ t_eof t0 = false) /\ md_match (tok_kind t) ms t0 = (Ok true, ms', t).
Lemma md_step_in k ms t : ready_in ms -> of_line lines t -> k = TkEOF \/ t_eof t = false ->
  match do_match k ms t with
  | (r, ms', t') => ready_in ms' /\ of_line lines t' /\ t_line t' = t_line t /\
      match r with
      | Ok true => wmatched match_of k t'
      | Ok false => wrefused k (t_line t)
      | Err (EParser p) => err_at (length lines) (pe_loc p) /\ wrefused k (t_line t)
      | Err e => md_exn lines e
      end
  end.
Proof.
  intros R Ht Hk. pose proof R as [[Hm Hn] [Rs [R2 R3]]]. pose proof (sk_match k ms t Rs) as Sk. pose proof (md_step lines Ho k ms t (Logic.conj Hm Hn) Ht Hk) as S. pose proof (kept_match k ms t) as K. pose proof (match_type k ms t) as Ty.
  unfold do_match in *. rewrite Hm in *. destruct (md_match k ms t) as [[r ms'] t'] eqn:E. destruct S as [S1 [S2 [S3 S4]]].
  split; [split; [exact S1|]; split; [exact Sk|]; split; [rewrite <- R2; apply (kp_name _ _ _ K) | rewrite <- R3; apply (kp_dialect _ _ _ K)]|]. split; [exact S2|]. split; [exact S3|].
  destruct r as [[|]|e]; try exact S4. destruct S4 as [A1 [A2 [A3 [A4 [A5 [A6 A7]]]]]]. repeat (split; [assumption|]).
  exists ms, ms', t. split; [exact R|]. split; [exact Ht|]. assert (tok_kind t' = k) as -> by (unfold tok_kind; now rewrite A1). split; [exact Hk | exact E].
Qed.
Theorem md_outcome_in stop ids ms ms0 : ms_reset ms = Ok ms0 -> ready_in ms0 ->
  match parse_lines stop ids ms lines with
  | (Ok doc, c) => exists l, wtree match_of (Node RGherkinDocument l) /\ doc_of ids l doc (ab_ids (c_b c))
  | (Err e, _) => ends (fun p => err_at (length lines) (pe_loc p)) (md_exn lines) stop e
  end.
Proof.
  intros Hr Hi. apply (parse_lines_any lines ids ready_in (of_line lines) match_of (fun p => err_at (length lines) (pe_loc p)) (md_exn lines) wrefused (fun _ _ H => H) Hl) with (ms0 := ms0); auto.
  - intros e [-> _]. exact I.
  - intros n Hn. exists n. auto.
  - intros k ms1 t H1 H2 H3. pose proof (md_step_in k ms1 t H1 H2 H3) as S. destruct (do_match k ms1 t) as [[r m] t']. destruct S as [S1 [S2 S3]]. split; [exact S1|]. split; [now right | exact S3].
  - intros q st t _ [n [H1 [H2 H3]]] _ _. generalize (st_expected st) as ks. intros ks. pose proof (unexpected_line t ks) as U. destruct (pe_loc (unexpected t ks)) as [l c] eqn:E. cbn in U. subst l. rewrite H3. apply of_line_place; [exact H1|].
    intros L. assert (Te : t_eof t = false). { unfold t_eof. rewrite H2. unfold g_bool. cbn [g_text]. pose proof (proj1 (Forall_forall _ _) Hl _ (nth_In lines [] L)) as Hl1. cbn beta in Hl1. destruct (nth n lines []); [congruence | reflexivity]. }
    pose proof (unexpected_col t ks Te) as C. rewrite E in C. exact C.
  - intros e. apply settled_at.
  - intros t [[P _] _] [n [H1 [H2 H3]]] _. unfold cell_error. cbn [pe_loc]. change (lf_t (wrap t)) with t. unfold t_location. rewrite H3. apply of_line_place; [exact H1|]. intros _. exact P.
Qed.

(** the line of a matched token *)
Lemma match_line k t : tok_src match_of k t -> k <> TkEOF ->
  exists l ms ms' t0, In l (numbered_lines lines) /\ snd l <> [] /\ one_line (snd l) /\ t_line t0 = mkLine (snd l) (fst l) /\ t_loc_line t = fst l /\ t_line t = t_line t0 /\ ready_in ms /\ md_match k ms t0 = (Ok true, ms', t).
Proof.
  intros [[_ [ms [ms' [t0 [R [[n [N1 [N2 N3]]] [E M]]]]]]] K] Hk. rewrite K in *. destruct E as [E|E]; [congruence|].
  assert (Hn : n < length lines). { destruct (le_lt_dec (length lines) n) as [L|L]; [|exact L]. unfold t_eof in E. rewrite N2, nth_overflow in E by exact L. discriminate E. }
  exists (S n, nth n lines []), ms, ms', t0. cbn [fst snd]. split; [apply PropPlaces.numbered_line; split; [lia|]; cbn; rewrite Nat.sub_0_r; now apply nth_error_nth'|].
  pose proof (kept_match k ms t0) as [K1 K2 _ _ _ _ _]. rewrite M in K1, K2. cbn [t_of snd] in K1, K2.
  split; [unfold t_eof in E; rewrite N2 in E; destruct (nth n lines []); [discriminate E | discriminate]|]. split; [now apply nth_one|]. split; [exact N2|]. rewrite K2. auto.
Qed.
Lemma title_at k loc kw nm : In k md_title_kinds -> title_src match_of k loc kw nm -> md_introduced (numbered_lines lines) (MdSpec.title_keywords d k) loc kw nm.
Proof.
  intros Hk [t [T [-> [-> ->]]]]. destruct (match_line k t T ltac:(intros ->; cbn in Hk; intuition discriminate)) as [l [ms [ms' [t0 [L1 [L2 [L3 [L4 [L5 [L6 [[[R1 R2] [Rs [R3 R4]]] M]]]]]]]]]]].
  pose proof (PropMarkdown.title_match ms (snd l) (fst l) t0 k R2 Hk L3 L4) as H. rewrite M in H. destruct H as [_ [k' [name [col [H1 [H2 [H3 [H4 H5]]]]]]]]. rewrite R4 in H1.
  exists l, k', name, col. split; [exact L1|]. split; [exact H1|]. unfold t_location, at_col. now rewrite L5, H3, H4, H5.
Qed.
Lemma set_col ms t l ty text kw kt items : snd l <> [] -> t_line t = mkLine (snd l) (fst l) -> t_loc_col (set_matched ms t ty text kw kt None items) = Some (indent_of (snd l) + 1).
Proof.
  intros H E. unfold set_matched. cbn [t_loc_col]. rewrite E. unfold g_bool, g_indent, g_trimmed, indent_of. cbn [g_text]. destruct (snd l); [congruence | reflexivity].
Qed.
Lemma step_at x : step_src match_of x -> exists l kw text col, In l (numbered_lines lines) /\ md_step_line d (snd l) kw text col /\
    st_loc x = at_col l col /\ st_keyword x = Some kw /\ st_text x = Some text /\ st_ktype x = Some (md_step_type d kw).
Proof.
  intros [[t [T [E1 [E2 [E3 E4]]]]] _]. destruct (match_line _ t T ltac:(discriminate)) as [l [ms [ms' [t0 [L1 [L2 [L3 [L4 [L5 [L6 [[[R1 R2] [Rs [R3 R4]]] M]]]]]]]]]]]. cbn [md_match] in M.
  pose proof (bullet_match ms (snd l) (fst l) t0 R2 L3 L4) as H. rewrite M in H.
  destruct H as [_ [ind [b [gap [rest [before [k [after [y [e [B [Kw [R [Hy [He [Hb [[T1 [T2 [T3 T4]]] T5]]]]]]]]]]]]]]]]]. rewrite R4 in *.
  exists l, k, (strip y), (length ind + length gap + 2). split; [exact L1|]. split; [exists ind, b, gap, rest, before, after, y, e; repeat (split; [assumption|]); split; reflexivity|].
  rewrite E1, E2, E3, E4. unfold t_location, at_col. now rewrite L5, T2, T3, T4, T5.
Qed.
Lemma tag_at g : tag_src match_of g -> exists l tags c, In l (numbered_lines lines) /\ md_tags 0 (snd l) tags /\ In (c, tag_name g) tags /\ tag_loc g = at_col l c.
Proof.
  intros [t [i [T [Hi [E1 E2]]]]]. destruct (match_line _ t T ltac:(discriminate)) as [l [ms [ms' [t0 [L1 [L2 [L3 [L4 [L5 [L6 [_ M]]]]]]]]]]]. cbn [md_match] in M.
  pose proof (tag_line_match ms t0) as H. rewrite M in H. destruct H as [_ [_ [l' [H1 [_ H2]]]]]. rewrite L4 in H1. cbn [g_text] in H1.
  exists l, l', (i_column i). split; [exact L1|]. split; [exact H1|]. rewrite E1, E2, <- H2. split; [apply (in_map pair_of _ _ Hi)|].
  assert (i_column i <> 0). { apply (md_tags_col _ _ _ H1 (pair_of i)). rewrite <- H2. now apply in_map. }
  unfold get_location, at_col. rewrite L5. now destruct (i_column i).
Qed.
Lemma row_at r : row_src match_of r -> exists l items, In l (numbered_lines lines) /\ md_row_line (snd l) items /\
    row_loc r = here l /\ row_cells r = map (fun i => mkCell (at_col l (i_column i)) (i_text i)) items.
Proof.
  intros [t [T [E1 E2]]]. destruct (match_line _ t T ltac:(discriminate)) as [l [ms [ms' [t0 [L1 [L2 [L3 [L4 [L5 [L6 [_ M]]]]]]]]]]]. cbn [md_match] in M. unfold md_match_TableRow in M. rewrite L4 in M.
  assert (G : get_line_text (mkLine (snd l) (fst l)) 0 = snd l).
  { unfold get_line_text. cbn [Z.ltb orb Z.compare]. destruct (Z.of_nat (g_indent _) <? 0)%Z eqn:E; [apply Z.ltb_lt in E; lia | reflexivity]. }
  rewrite G in M. pose proof (table_re_iff (snd l)) as Tr. destruct (re_match md_table_re (snd l)) as [st|]; [|discriminate M].
  destruct (proj1 Tr (ex_intro _ st eq_refl)) as [ind [rest [Hi [Hlen Ex]]]].
  destruct (table_cells (mkLine (snd l) (fst l))) as [cells|e] eqn:TC; [|discriminate M]. pose proof (gfm_iff cells) as Gf. destruct (is_gfm_separator cells) eqn:Sp; [discriminate M|]. injection M as <- <-.
  assert (Ls : lstrip (snd l) = ch_pipe :: rest) by (rewrite Ex; unfold lstrip, lstrip_by; rewrite drop_while_app by exact Hi; reflexivity).
  assert (R : row_line (snd l) cells) by (apply (table_cells_iff (snd l) (fst l)); rewrite Ls; split; [reflexivity | exact TC]).
  exists l, cells. split; [exact L1|]. split; [split; [exact R|]; split|].
  - unfold indent_of. rewrite Ls, Ex, app_length. cbn [length]. lia.
  - intros i Hin Hs. assert (false = true) by (apply Gf; eauto). discriminate.
  - rewrite E1, E2. unfold t_location. rewrite L5, (set_col ms t0 l) by assumption. split; [reflexivity|]. unfold get_cells. change (t_items (set_matched ms t0 (Some TkTableRow) None (Some [ch_pipe]) None None cells)) with cells.
    apply map_ext_in. intros i Hin. apply LineIff.row_line_cols in R. rewrite Forall_forall in R. specialize (R i Hin). unfold get_location. rewrite L5. destruct (i_column i); [lia | reflexivity].
Qed.
Lemma text_at x : text_src match_of x -> md_text (numbered_lines lines) x.
Proof.
  intros [ts [T ->]]. exists (map text_of ts). split; [reflexivity|]. intros y Hy. apply in_map_iff in Hy as [t [<- Ht]]. rewrite Forall_forall in T. specialize (T t Ht).
  destruct (match_line _ t T ltac:(discriminate)) as [l [ms [ms' [t0 [L1 [L2 [L3 [L4 [L5 [L6 [_ M]]]]]]]]]]]. cbn [md_match] in M. unfold match_Other in M. injection M as <- <-. rewrite L4.
  assert (D : get_line_text (mkLine (snd l) (fst l)) (Z.of_nat (ms_indent ms)) = if ms_indent ms <=? indent_of (snd l) then skipn (ms_indent ms) (snd l) else lstrip (snd l)).
  { unfold get_line_text. change (g_indent (mkLine (snd l) (fst l))) with (indent_of (snd l)). change (g_trimmed (mkLine (snd l) (fst l))) with (lstrip (snd l)). cbn [g_text].
    destruct (Z.of_nat (ms_indent ms) <? 0)%Z eqn:E; [apply Z.ltb_lt in E; lia|]. cbn [orb]. rewrite Nat2Z.id.
    destruct (Z.of_nat (indent_of (snd l)) <? Z.of_nat (ms_indent ms))%Z eqn:E2, (ms_indent ms <=? indent_of (snd l)) eqn:E3; try reflexivity.
    - apply Z.ltb_lt in E2. apply Nat.leb_le in E3. lia.
    - apply Z.ltb_ge in E2. apply Nat.leb_gt in E3. lia. }
  rewrite D. unfold unescaped_docstring. set (y := if _ <=? _ then _ else _) in *.
  destruct (ms_sep ms) as [sep|]; [destruct (str_eqb sep sep_quotes); [|destruct (str_eqb sep sep_ticks)]|].
  - exists l, (ms_indent ms), (Some sep_quotes). split; [exact L1|]. split; [right; eexists; split; [reflexivity | now left] | reflexivity].
  - exists l, (ms_indent ms), (Some sep_ticks). split; [exact L1|]. split; [right; eexists; split; [reflexivity | now right] | reflexivity].
  - exists l, (ms_indent ms), None. split; [exact L1|]. split; [now left | reflexivity].
  - exists l, (ms_indent ms), None. split; [exact L1|]. split; [now left | reflexivity].
Qed.
Lemma sep_at t l ms t0 ms' : snd l <> [] -> t_line t0 = mkLine (snd l) (fst l) -> t_loc_line t = fst l -> sep_known ms -> md_match_DocStringSeparator ms t0 = (Ok true, ms', t) ->
  exists sep m, md_delimiter sep /\ begins sep (snd l) /\ t_location t = here l /\ t_keyword t = Some sep /\ t_text t = Some m /\ (m = [] \/ m = strip (skipn (length sep) (lstrip (snd l)))).
Proof.
  intros N L4 L5 Hs M. unfold md_match_DocStringSeparator in M.
  assert (One : forall sep op, md_delimiter sep -> match_separator (Some []) sep op ms t0 = (Ok true, ms', t) ->
    exists m, begins sep (snd l) /\ t_location t = here l /\ t_keyword t = Some sep /\ t_text t = Some m /\ (m = [] \/ m = strip (skipn (length sep) (lstrip (snd l))))).
  { intros sep op D E. unfold match_separator in E. destruct (g_startswith (t_line t0) sep) eqn:G; cbn [negb] in E; [|discriminate E]. injection E as <- <-.
    rewrite L4 in G. unfold g_startswith, g_trimmed in G. cbn [g_text] in G.
    exists (if op then strip (skipn (length sep) (lstrip (snd l))) else []). split; [exact G|]. unfold t_location. rewrite L5, (set_col _ t0 l) by assumption. split; [reflexivity|]. split; [reflexivity|].
    split; [|destruct op; auto]. rewrite L4. destruct op; cbn; [|reflexivity]. f_equal. apply rstrip_crlf_strip. }
  destruct (ms_sep ms) as [sep|] eqn:E.
  - destruct (One sep false (Hs sep E) M) as [m H]. exists sep, m. split; [now apply Hs | exact H].
  - assert (No : forall sep op, match match_separator (Some []) sep op ms t0 with (Ok false, m, t1) => m = ms /\ t1 = t0 | (Ok true, _, _) => True | (Err _, _, _) => False end).
    { intros sep op. unfold match_separator. destruct (negb _); auto. }
    unfold m_or in M. pose proof (No sep_quotes true) as N1. destruct (match_separator (Some []) sep_quotes true ms t0) as [[[[|]|] m1] t1] eqn:E1; [| |contradiction].
    + injection M as -> ->. destruct (One sep_quotes true (or_introl eq_refl) E1) as [m H]. exists sep_quotes, m. split; [now left | exact H].
    + destruct N1 as [-> ->]. pose proof (No sep_ticks4 true) as N2. destruct (match_separator (Some []) sep_ticks4 true ms t0) as [[[[|]|] m2] t2] eqn:E2; [| |contradiction].
      * injection M as -> ->. destruct (One sep_ticks4 true (or_intror (or_introl eq_refl)) E2) as [m H]. exists sep_ticks4, m. split; [right; now left | exact H].
      * destruct N2 as [-> ->]. destruct (One sep_ticks true (or_intror (or_intror eq_refl)) M) as [m H]. exists sep_ticks, m. split; [right; now right | exact H].
Qed.
Lemma doc_at ds : doc_src match_of ds -> exists l sep, In l (numbered_lines lines) /\ md_delimiter sep /\ ds_delimiter ds = Some sep /\ begins sep (snd l) /\ ds_loc ds = here l /\
    (ds_media ds = None \/ exists m, ds_media ds = Some m /\ m <> [] /\ m = strip (skipn (length sep) (lstrip (snd l)))) /\ md_text (numbered_lines lines) (ds_content ds).
Proof.
  intros [t [media [T [E1 [E2 [E3 [E4 E5]]]]]]]. destruct (match_line _ t T ltac:(discriminate)) as [l [ms [ms' [t0 [L1 [L2 [L3 [L4 [L5 [L6 [[[R1 R2] [Rs [R3 R4]]] M]]]]]]]]]]]. cbn [md_match] in M.
  destruct (sep_at t l ms t0 ms' L2 L4 L5 Rs M) as [sep [m [S1 [S2 [S3 [S4 [S5 S6]]]]]]]. rewrite E3 in S5. injection S5 as ->.
  exists l, sep. split; [exact L1|]. split; [exact S1|]. split; [congruence|]. split; [exact S2|]. split; [congruence|]. split; [|now apply text_at].
  rewrite E4. destruct m as [|c m]; [now left|]. right. eexists. split; [reflexivity|]. split; [discriminate|]. destruct S6 as [S6|S6]; [discriminate S6 | exact S6].
Qed.
Lemma feature_at f : feature_src match_of f -> for_name lang = Some d -> fe_language f = Some lang /\ exists l col, In l (numbered_lines lines) /\ md_feature_line (snd l) d (fe_keyword f) (fe_name f) col /\ fe_loc f = at_col l col.
Proof.
  intros [[t [T [E1 [E2 [E3 E4]]]]] _] Hd. destruct (match_line _ t T ltac:(discriminate)) as [l [ms [ms' [t0 [L1 [L2 [L3 [L4 [L5 [L6 [[[R1 R2] [Rs [R3 R4]]] M]]]]]]]]]]]. cbn [md_match] in M.
  unfold md_match_FeatureLine in M. destruct (ms_feature ms); [discriminate M|]. rewrite R4 in M.
  assert (K : kws_ok (d_feature d) = true). { pose proof title_kws_ok as Q. rewrite forallb_forall in Q. specialize (Q _ (for_name_in _ _ Hd)). cbn [snd title_kws forallb] in Q. now apply andb_true_iff in Q as [Q _]. }
  pose proof (header_match (d_feature d) TkFeatureLine ms (snd l) (fst l) t0 K L3 L4) as M1.
  assert (Dl : forall m1 t1, md_match_title md_header (d_feature d) [ch_colon] TkFeatureLine ms t0 = (Ok true, m1, t1) -> t_dialect t1 = Some lang).
  { intros m1 t1. unfold md_match_title. destruct (re_search _ _) as [[? ?]|]; [|discriminate]. intros H. injection H as <- <-. cbn. now rewrite R3. }
  destruct (md_match_title md_header (d_feature d) [ch_colon] TkFeatureLine ms t0) as [[[[|]|] m1] t1]; [| |destruct M1].
  - destruct M1 as [-> [k [name [col [M1 [M2 [M3 [M4 M5]]]]]]]]. injection M as <- <-. split; [rewrite E4; now apply (Dl ms t1)|].
    exists l, col. split; [exact L1|]. split; [left; exists k, name; rewrite E2, E3, M3, M4; auto|]. rewrite E1. unfold t_location, at_col. now rewrite L5, M5.
  - destruct M1 as [-> [-> M1]]. injection M as <- <-. split; [rewrite E4; cbn; now rewrite R3|].
    exists l, (indent_of (snd l) + 1). split; [exact L1|]. split; [|rewrite E1; unfold t_location, at_col; rewrite L5; now rewrite (set_col ms t0 l)].
    right. split; [exact M1|]. rewrite E2, E3. split; [reflexivity|]. split; [|reflexivity]. cbn. rewrite L4. reflexivity.
Qed.
Theorem feature_located f : feature_src match_of f -> for_name lang = Some d -> md_located (numbered_lines lines) d f.
Proof.
  intros Hf Hd. destruct (feature_parts_src match_of f Hf) as [PR [PS [PB [PE [PT [PG [PO [PTb PD]]]]]]]]. rewrite Forall_forall in PR, PS, PB, PE, PT, PG, PO, PTb, PD.
  constructor.
  - now apply feature_at.
  - intros x Hx. destruct (PR x Hx) as [H _]. apply (title_at TkRuleLine); [cbn; auto | exact H].
  - intros x Hx. destruct (PS x Hx) as [H _]. apply (title_at TkScenarioLine); [cbn; auto | exact H].
  - intros x Hx. destruct (PB x Hx) as [H _]. apply (title_at TkBackgroundLine); [cbn; auto | exact H].
  - intros x Hx. destruct (PE x Hx) as [H _]. apply (title_at TkExamplesLine); [cbn; auto | exact H].
  - intros x Hx. now apply step_at, PT.
  - intros x Hx. now apply tag_at, PG.
  - intros x Hx. now apply row_at, PO.
  - intros x Hx. destruct (PTb x Hx) as [_ H]. exact H.
  - intros x Hx. now apply doc_at, PD.
  - intros x Hx. apply text_at. destruct Hx as [<-|Hx]; [destruct Hf as [_ [Hf _]]; exact Hf|].
    apply in_app_or in Hx as [Hx|Hx]; [|apply in_app_or in Hx as [Hx|Hx]; [|apply in_app_or in Hx as [Hx|Hx]]]; apply in_map_iff in Hx as [y [<- Hy]].
    + destruct (PR y Hy) as [_ [H _]]. exact H.
    + destruct (PB y Hy) as [_ [H _]]. exact H.
    + destruct (PS y Hy) as [_ [H _]]. exact H.
    + destruct (PE y Hy) as [_ [H _]]. exact H.
Qed.
End Md.

(** C74.  In an accepted Markdown text every element is located at the line that introduced it, at the column of its keyword
    (tags and cells at their own column), with the keyword and the name of that line. *)
Theorem C74_markdown_locations : forall stop lang d text doc f, for_name lang = Some d ->
  parse_with stop true lang text = Ok doc -> gd_feature doc = Some f ->
  fe_language f = Some lang /\ md_located (numbered_lines (split_lines text)) d f.
Proof.
  intros stop lang d text doc f Hd P F. destruct (fresh_md_feature lang d Hd) as [ms [E1 [E2 [E3 [E4 E5]]]]].
  assert (E6 : ms_name ms = lang /\ ms_sep ms = None).
  { unfold new_matcher in E1. rewrite Hd in E1. unfold ms_reset in E1. cbn in E1. assert (R : str_eqb lang lang = true) by now apply str_eqb_spec. rewrite R in E1. cbn in E1. injection E1 as <-. auto. }
  destruct E6 as [E6 E7]. unfold parse_with in P. rewrite E1 in P. cbn [rbind] in P.
  assert (R : ready_in lang d ms) by (split; [exact E3|]; split; [|auto]; intros sep H; congruence).
  pose proof (md_outcome_in (split_lines text) (split_lines_nonempty text) (split_lines_one text) lang d stop 0 ms ms E2 R) as O.
  destruct (parse_lines stop 0 ms (split_lines text)) as [r c]. cbn [fst] in P. subst r. destruct O as [l [T D]].
  pose proof (wdoc_src _ _ _ _ _ T D) as S. rewrite F in S. cbn [opt_src] in S.
  split; [now apply (feature_at (split_lines text) (split_lines_one text) lang d f S Hd) | now apply (feature_located (split_lines text) (split_lines_one text) lang d f S Hd)].
Qed.
Print Assumptions C74_markdown_locations.
Definition c74_text : str := text_of_lines [s "`@t`  `@u`"; s "# Feature: f"; s "prose"; s "  ## Rule: r"; s "### Scenario Outline: s"; s "- Given a"; s "  | x | yy |"; s "  | - | -- |"; s "*   When b"; s "  ```md"; s "    c"; s "  ```"; s "#### Examples: e"; s " | h |"].
Example C74_case : match parse_with true true (s "en") c74_text with
  | Ok doc => match gd_feature doc with
    | Some f => map tag_loc (feature_tags f) = [mkLoc 1 (Some 2); mkLoc 1 (Some 8)] /\ fe_loc f = mkLoc 2 (Some 3) /\ map ru_loc (fe_rules f) = [mkLoc 4 (Some 6)] /\
        map sc_loc (feature_scenarios f) = [mkLoc 5 (Some 5)] /\ map st_loc (feature_steps f) = [mkLoc 6 (Some 3); mkLoc 9 (Some 5)] /\
        flat_map (fun r => map cell_loc (row_cells r)) (feature_rows f) = [mkLoc 7 (Some 5); mkLoc 7 (Some 9); mkLoc 14 (Some 4)] /\
        feature_docs f = [mkDoc (mkLoc 10 (Some 3)) (s "  c") (Some (s "```")) (Some (s "md"))] /\ map ex_loc (feature_examples f) = [mkLoc 13 (Some 6)]
    | None => False end
  | Err _ => False end.
Proof. vm_compute. repeat split. Qed.
