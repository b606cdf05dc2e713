(** * Which lines are of which kind: match attempts against the specification of lines *)
From Verif Require Import PyStr PyStrFacts Types Regex Line DialectData Matcher Ast ParserTable Parser Classify Table Scan Grammar Deriv Cert LineSpec TagIff RowIff StepFacts Cst Report Eval LangSpec LangFacts Complete DocSpec.
Local Open Scope N_scope.

(** ** Keywords *)
Definition no_colon (k : str) : bool := forallb (fun c => negb (c =? ch_colon)) k.
Definition title_keywords (d : dialect) : list str :=
  d_feature d ++ d_rule d ++ d_background d ++ d_scenario d ++ d_scenarioOutline d ++ d_examples d.
Lemma colons_ok : forallb (fun p => forallb no_colon (title_keywords (snd p))) DIALECTS = true.
Proof. vm_compute. reflexivity. Qed.
Lemma title_no_colon name d k : for_name name = Some d -> In k (title_keywords d) -> no_colon k = true.
Proof.
  intros H Hk. apply for_name_in in H. pose proof colons_ok as A. rewrite forallb_forall in A. specialize (A _ H). cbn in A. rewrite forallb_forall in A. now apply A.
Qed.
Lemma colon_prefix k1 k2 r1 r2 : no_colon k1 = true -> no_colon k2 = true -> k1 ++ ch_colon :: r1 = k2 ++ ch_colon :: r2 -> k1 = k2 /\ r1 = r2.
Proof.
  revert k2. induction k1 as [|c k1 IH]; intros [|c2 k2] H1 H2 E.
  - injection E as ->. auto.
  - cbn in E. injection E as <- _. cbn in H2. discriminate H2.
  - cbn in E. injection E as -> _. cbn in H1. discriminate H1.
  - cbn in E. injection E as -> E. cbn in H1, H2. apply andb_true_iff in H1 as [_ H1], H2 as [_ H2]. destruct (IH _ H1 H2 E) as [-> ->]. auto.
Qed.
Lemma startswith_skip p x : startswith p x = true -> x = p ++ skipn (length p) x.
Proof. intros [y ->]%startswith_spec. f_equal. now rewrite skipn_app, Nat.sub_diag, skipn_all. Qed.

(** ** Title lines *)
Lemma is_title_spec kws x : is_title kws x <-> existsb (fun k => startswith (k ++ [ch_colon]) (lstrip x)) kws = true.
Proof.
  rewrite existsb_exists. split.
  - intros [kw [name [H1 [rest [H2 _]]]]]. exists kw. split; [exact H1|]. rewrite H2. change (kw ++ ch_colon :: rest) with (kw ++ [ch_colon] ++ rest). rewrite app_assoc. apply startswith_app.
  - intros [kw [H1 H2]]. apply startswith_spec in H2 as [y H2]. exists kw, (strip y). split; [exact H1|]. exists y. split; [|reflexivity]. now rewrite H2, <- app_assoc.
Qed.
Definition title_token (ms : mstate) (l : nline) (ty : tok) (kw name : str) : token :=
  set_matched ms (new_token (snd l) (fst l)) (Some ty) (Some name) (Some kw) None None [].
Lemma match_title_iff ms n x ty kws ms' t : Forall (fun k => no_colon k = true) kws ->
  match_title ms (new_token x n) ty kws = (Ok true, ms', t) <-> ms' = ms /\ exists kw name, title_line kws x kw name /\ t = title_token ms (n, x) ty kw name.
Proof.
  intros Hc. unfold match_title. change (find (startswith_title_keyword (t_line (new_token x n))) kws) with (find (fun k => startswith (k ++ [ch_colon]) (lstrip x)) kws).
  assert (Rest : forall k y, lstrip x = k ++ ch_colon :: y -> get_rest_trimmed (t_line (new_token x n)) (length k + 1) = strip y).
  { intros k y E. unfold get_rest_trimmed. change (g_trimmed (t_line (new_token x n))) with (lstrip x). f_equal. etransitivity; [apply (f_equal (skipn (length k + 1)) E)|].
    rewrite skipn_app, skipn_all2 by lia. replace (length k + 1 - length k)%nat with 1%nat by lia. reflexivity. }
  destruct (find (fun k => startswith (k ++ [ch_colon]) (lstrip x)) kws) as [k|] eqn:E.
  - pose proof (find_some _ _ E) as [E1 E2]. apply startswith_spec in E2 as [y E2]. rewrite <- app_assoc in E2. cbn [app] in E2.
    rewrite (Rest _ _ E2). split.
    + intros H. injection H as <- <-. split; [reflexivity|]. exists k, (strip y). split; [|reflexivity]. split; [exact E1|]. exists y. auto.
    + intros [-> [kw [name [[H1 [rest [H2 ->]]] ->]]]]. rewrite Forall_forall in Hc. rewrite E2 in H2. apply colon_prefix in H2 as [<- <-]; auto.
  - split; [discriminate|]. intros [-> [kw [name [[H1 [rest [H2 ->]]] ->]]]]. pose proof (find_none _ _ E kw H1) as F. cbn in F. rewrite H2 in F.
    change (kw ++ ch_colon :: rest) with (kw ++ [ch_colon] ++ rest) in F. rewrite app_assoc, startswith_app in F. discriminate F.
Qed.
Lemma match_title_or ms t ty k1 k2 : m_or (match_title ms t ty k1) (fun ms t => match_title ms t ty k2) = match_title ms t ty (k1 ++ k2).
Proof.
  unfold match_title. assert (F : forall f, find f (k1 ++ k2) = match find f k1 with Some k => Some k | None => find f k2 end).
  { intros f. induction k1 as [|a k1 IH]; [reflexivity|]. cbn [app find]. destruct (f a); [reflexivity | exact IH]. }
  rewrite F. destruct (find (startswith_title_keyword (t_line t)) k1); reflexivity.
Qed.

Definition title_kind (k : tok) : bool := match k with TkFeatureLine | TkRuleLine | TkBackgroundLine | TkScenarioLine | TkExamplesLine => true | _ => false end.
Definition keywords_of (d : dialect) (k : tok) : list str :=
  match k with
  | TkFeatureLine => d_feature d | TkRuleLine => d_rule d | TkBackgroundLine => d_background d
  | TkScenarioLine => scenario_keywords d | TkExamplesLine => d_examples d | _ => []
  end.
Lemma lex_title k ms n x ms' t : title_kind k = true -> matcher_ok ms -> x <> [] ->
  lexm k ms n x = (Ok true, ms', t) <-> ms' = ms /\ exists kw name, title_line (keywords_of (ms_dialect ms) k) x kw name /\ t = title_token ms (n, x) k kw name.
Proof.
  intros Hk Hm Hx. rewrite lexm_ne by exact Hx.
  assert (Hc : Forall (fun w => no_colon w = true) (keywords_of (ms_dialect ms) k)).
  { apply Forall_forall. intros w Hw. destruct (mo_classic _ Hm) as [_ Hd]. eapply title_no_colon; [exact Hd|]. unfold title_keywords.
    destruct k; try discriminate Hk; cbn [keywords_of] in Hw; rewrite !in_app_iff; unfold scenario_keywords in Hw; rewrite ?in_app_iff in Hw; tauto. }
  destruct k; try discriminate Hk; cbn [classic_match keywords_of] in *; try (now apply match_title_iff). rewrite match_title_or. now apply match_title_iff.
Qed.
Lemma title_token_loc ms l ty kw name : snd l <> [] -> t_location (title_token ms l ty kw name) = here l.
Proof. destruct l as [n x]. cbn. intros H. unfold t_location, title_token, set_matched. cbn. unfold g_bool. cbn. destruct x; [contradiction|]. reflexivity. Qed.
Lemma title_token_text ms l ty kw rest : t_text (title_token ms l ty kw (strip rest)) = Some (strip rest).
Proof. cbn. now rewrite rstrip_crlf_strip. Qed.

(** ** Blank lines and comments *)
Lemma blank_spec x : all_space x <-> lstrip x = [].
Proof. unfold all_space, lstrip, lstrip_by. symmetry. apply drop_while_nil. Qed.
Lemma lex_empty ms n x ms' t : x <> [] -> lexm TkEmpty ms n x = (Ok true, ms', t) <->
  ms' = ms /\ blank_line (n, x) /\ t = set_matched ms (new_token x n) (Some TkEmpty) None None None (Some 0%nat) [].
Proof.
  intros Hx. rewrite lexm_ne by exact Hx. cbn [classic_match]. unfold c_match_Empty, g_is_empty, blank_line. change (g_trimmed (t_line (new_token x n))) with (lstrip x). cbn [snd].
  rewrite blank_spec. destruct (lstrip x) as [|c y]; cbn [negb].
  - split; [intros H; injection H as <- <-; auto|]. intros [-> [_ ->]]. reflexivity.
  - split; [discriminate|]. intros [_ [H _]]. discriminate H.
Qed.
Lemma lex_comment ms n x ms' t : x <> [] -> lexm TkComment ms n x = (Ok true, ms', t) <->
  ms' = ms /\ comment_line (n, x) /\ t = set_matched ms (new_token x n) (Some TkComment) (Some x) None None (Some 0%nat) [].
Proof.
  intros Hx. rewrite lexm_ne by exact Hx. cbn [classic_match]. unfold c_match_Comment, comment_line, begins, g_startswith. change (g_trimmed (t_line (new_token x n))) with (lstrip x). cbn [snd].
  destruct (startswith [ch_hash] (lstrip x)); cbn [negb].
  - split; [intros H; injection H as <- <-; auto|]. intros [-> [_ ->]]. reflexivity.
  - split; [discriminate|]. intros [_ [H _]]. discriminate H.
Qed.
Lemma comment_com ms n x : tok_eqb TkComment TkComment = true /\ 
  mkComment (t_location (set_matched ms (new_token x n) (Some TkComment) (Some x) None None (Some 0%nat) [])) (t_text (set_matched ms (new_token x n) (Some TkComment) (Some x) None None (Some 0%nat) [])) = comment_at (n, x).
Proof. split; reflexivity. Qed.

(** ** Step lines *)
Lemma is_step_spec d x : is_step d x <-> existsb (fun k => startswith k (lstrip x)) (all_step_keywords d) = true.
Proof.
  rewrite existsb_exists. split.
  - intros [kw [text [before [after [rest [H1 [_ [H2 _]]]]]]]]. exists kw. split; [rewrite H1; apply in_or_app; right; now left|]. rewrite H2. apply startswith_app.
  - intros H. destruct (find (fun k => startswith k (lstrip x)) (all_step_keywords d)) as [k|] eqn:E.
    + apply find_split in E as [b [a [E1 [E2 E3]]]]. apply startswith_spec in E2 as [y E2]. exists k, (strip y), b, a, y.
      split; [exact E1|]. split; [|split; [exact E2 | reflexivity]]. eapply Forall_impl; [|exact E3]. intros w Hw. unfold begins. cbn in Hw. rewrite Hw. discriminate.
    + exfalso. destruct H as [k [H1 H2]]. pose proof (find_none _ _ E k H1) as F. cbn in F. congruence.
Qed.
Definition step_token (ms : mstate) (l : nline) (kw text : str) : token :=
  set_matched ms (new_token (snd l) (fst l)) (Some TkStepLine) (Some text) (Some kw) (Some (classic_ktype (ms_dialect ms) kw)) None [].
Lemma lex_step ms n x ms' t : x <> [] -> lexm TkStepLine ms n x = (Ok true, ms', t) <->
  ms' = ms /\ exists kw text, step_line (ms_dialect ms) x kw text /\ t = step_token ms (n, x) kw text.
Proof.
  intros Hx. rewrite lexm_ne by exact Hx. cbn [classic_match]. unfold c_match_StepLine.
  change (find (g_startswith (t_line (new_token x n))) (step_keywords (ms_dialect ms))) with (find (fun k => startswith k (lstrip x)) (all_step_keywords (ms_dialect ms))).
  assert (Rest : forall k y, lstrip x = k ++ y -> get_rest_trimmed (t_line (new_token x n)) (length k) = strip y).
  { intros k y E. unfold get_rest_trimmed. change (g_trimmed (t_line (new_token x n))) with (lstrip x). f_equal. etransitivity; [apply (f_equal (skipn (length k)) E)|].
    now rewrite skipn_app, skipn_all, Nat.sub_diag. }
  destruct (find (fun k => startswith k (lstrip x)) (all_step_keywords (ms_dialect ms))) as [k|] eqn:E.
  - pose proof (find_split _ _ _ E) as [b [a [E1 [E2 E3]]]]. apply startswith_spec in E2 as [y E2]. rewrite (Rest _ _ E2). split.
    + intros H. injection H as <- <-. split; [reflexivity|]. exists k, (strip y). split; [|reflexivity]. exists b, a, y. split; [exact E1|]. split; [|auto].
      eapply Forall_impl; [|exact E3]. intros w Hw. unfold begins. cbn in Hw. rewrite Hw. discriminate.
    + intros [-> [kw [text [[b' [a' [rest [H1 [H2 [H3 ->]]]]]] ->]]]]. assert (K : kw = k).
      { assert (F : find (fun k => startswith k (lstrip x)) (all_step_keywords (ms_dialect ms)) = Some kw); [|congruence].
        rewrite H1. clear -H2 H3. induction H2 as [|w b' Hw Hb IH]; cbn [app find].
        - now rewrite H3, startswith_app.
        - unfold begins in Hw. apply not_true_iff_false in Hw. now rewrite Hw. }
      subst kw. rewrite E2 in H3. apply app_inv_head in H3. subst y. reflexivity.
  - split; [discriminate|]. intros [-> [kw [text [[b' [a' [rest [H1 [H2 [H3 ->]]]]]] ->]]]]. exfalso.
    pose proof (find_none _ _ E kw ltac:(rewrite H1; apply in_or_app; right; now left)) as F. cbn in F. now rewrite H3, startswith_app in F.
Qed.
Lemma step_token_loc ms l kw text : snd l <> [] -> t_location (step_token ms l kw text) = here l.
Proof. destruct l as [n x]. cbn. intros H. unfold t_location, step_token, set_matched. cbn. unfold g_bool. cbn. destruct x; [contradiction|]. reflexivity. Qed.
Lemma step_token_text ms l kw rest : t_text (step_token ms l kw (strip rest)) = Some (strip rest).
Proof. cbn. now rewrite rstrip_crlf_strip. Qed.
Lemma step_token_type ms l kw text : matcher_ok ms -> t_ktype (step_token ms l kw text) = Some (step_type (ms_dialect ms) kw).
Proof. intros H. cbn. f_equal. destruct (mo_classic _ H) as [_ Hd]. eapply ktype_spec; eauto. Qed.

(** ** Tag lines and table rows *)
Definition items_token (ms : mstate) (l : nline) (ty : tok) (items : list mitem) : token :=
  set_matched ms (new_token (snd l) (fst l)) (Some ty) None None None None items.
Lemma lex_tags ms n x ms' t : x <> [] -> lexm TkTagLine ms n x = (Ok true, ms', t) <->
  ms' = ms /\ exists items, tags_line x items /\ t = items_token ms (n, x) TkTagLine items.
Proof.
  intros Hx. rewrite lexm_ne by exact Hx. cbn [classic_match]. unfold c_match_TagLine, g_startswith. change (g_trimmed (t_line (new_token x n))) with (lstrip x).
  pose proof (g_tags_iff x n) as G. change (t_line (new_token x n)) with (mkLine x n).
  destruct (startswith [ch_at] (lstrip x)); cbn [negb].
  - destruct (g_tags (mkLine x n)) as [items|e] eqn:E.
    + split.
      * intros H. injection H as <- <-. split; [reflexivity|]. exists items. split; [now apply G | reflexivity].
      * intros [-> [items' [H ->]]]. apply G in H as [_ H]. injection H as <-. reflexivity.
    + split; [discriminate|]. intros [-> [items' [H ->]]]. apply G in H as [_ H]. discriminate H.
  - split; [discriminate|]. intros [-> [items' [H ->]]]. apply G in H as [H _]. discriminate H.
Qed.
Lemma lex_row ms n x ms' t : x <> [] -> lexm TkTableRow ms n x = (Ok true, ms', t) <->
  ms' = ms /\ exists items, row_line x items /\ t = items_token ms (n, x) TkTableRow items.
Proof.
  intros Hx. rewrite lexm_ne by exact Hx. cbn [classic_match]. unfold c_match_TableRow, g_startswith. change (g_trimmed (t_line (new_token x n))) with (lstrip x).
  pose proof (table_cells_iff x n) as G. change (t_line (new_token x n)) with (mkLine x n).
  destruct (startswith [ch_pipe] (lstrip x)); cbn [negb].
  - destruct (table_cells (mkLine x n)) as [items|e] eqn:E.
    + split.
      * intros H. injection H as <- <-. split; [reflexivity|]. exists items. split; [now apply G | reflexivity].
      * intros [-> [items' [H ->]]]. apply G in H as [_ H]. injection H as <-. reflexivity.
    + split; [discriminate|]. intros [-> [items' [H ->]]]. apply G in H as [_ H]. discriminate H.
  - split; [discriminate|]. intros [-> [items' [H ->]]]. apply G in H as [H _]. discriminate H.
Qed.
Lemma items_token_loc ms l ty items : snd l <> [] -> t_location (items_token ms l ty items) = here l.
Proof. destruct l as [n x]. cbn. intros H. unfold t_location, items_token, set_matched. cbn. unfold g_bool. cbn. destruct x; [contradiction|]. reflexivity. Qed.
Lemma items_token_col ms l ty items i : (0 < i_column i)%nat -> get_location (items_token ms l ty items) (i_column i) = at_col l (i_column i).
Proof. unfold get_location. destruct (i_column i) eqn:E; [lia|]. reflexivity. Qed.
Lemma tags_line_cols x items : tags_line x items -> Forall (fun i => (0 < i_column i)%nat) items.
Proof.
  intros [ind [l [c [_ [_ ->]]]]]. generalize (length ind) as pos. induction l as [|t l IH]; intros pos; cbn [rtags_at]; constructor; [cbn; lia | apply IH].
Qed.
Lemma row_line_cols x items : row_line x items -> Forall (fun i => (0 < i_column i)%nat) items.
Proof.
  intros [ind [raws [tail [_ [_ [_ [_ ->]]]]]]]. generalize (length ind + 1)%nat as pos. induction raws as [|r raws IH]; intros pos; cbn [cells_at]; constructor; [cbn; lia | apply IH].
Qed.

(** ** The lines that end a description *)
Definition place_of (p : rule) : option place :=
  match p with
  | RFeatureHeader | RRuleHeader => Some InHeader | RBackground => Some InBackground | RScenario => Some InScenario | RExamples => Some InExamples
  | _ => None end.
Lemma cls_has ms x k : good ms -> k <> TkEmpty -> k <> TkOther -> cls ms x = k <-> has (ms_dialect ms) k (lstrip x) = true.
Proof. intros [_ G] H1 H2. unfold cls. rewrite (has_classify _ G). intuition. Qed.
Lemma cls_title ms x k : good ms -> title_kind k = true -> cls ms x = k <-> is_title (keywords_of (ms_dialect ms) k) x.
Proof.
  intros G H. rewrite cls_has; [|exact G|destruct k; discriminate|destruct k; discriminate]. rewrite is_title_spec. unfold has.
  destruct k; try discriminate H; cbn [starts keywords_of]; rewrite has_cons_title; reflexivity.
Qed.
Lemma cls_begins ms x k c : good ms -> k <> TkEmpty -> k <> TkOther -> starts (ms_dialect ms) k = [[c]] -> cls ms x = k <-> begins [c] x.
Proof. intros G H1 H2 E. rewrite cls_has by assumption. unfold has. rewrite E. cbn [existsb]. rewrite orb_false_r. reflexivity. Qed.
Lemma cls_step ms x : good ms -> cls ms x = TkStepLine <-> is_step (ms_dialect ms) x.
Proof. intros G. rewrite cls_has by (exact G || discriminate). rewrite is_step_spec. reflexivity. Qed.
Lemma cls_blank ms x : good ms -> cls ms x = TkEmpty <-> all_space x.
Proof. intros [_ G]. unfold cls. rewrite classify_empty by exact G. symmetry. apply blank_spec. Qed.
Lemma ends_spec ms p pl x : good ms -> place_of p = Some pl -> In (cls ms x) (stop p) <-> ends_description (ms_dialect ms) pl x.
Proof.
  intros G Hp. unfold ends_description. change (scenario_keywords (ms_dialect ms)) with (keywords_of (ms_dialect ms) TkScenarioLine).
  rewrite <- (cls_begins ms x TkComment) by (exact G || discriminate || reflexivity). rewrite <- (cls_begins ms x TkTagLine) by (exact G || discriminate || reflexivity).
  rewrite <- (cls_title ms x TkScenarioLine G eq_refl). rewrite <- (cls_title ms x TkRuleLine G eq_refl).
  destruct p; try discriminate Hp; injection Hp as <-; cbn [stop In];
    rewrite <- ?(cls_step ms x G), <- ?(cls_title ms x TkBackgroundLine G eq_refl), <- ?(cls_title ms x TkExamplesLine G eq_refl),
      <- ?(cls_begins ms x TkTableRow ch_pipe G ltac:(discriminate) ltac:(discriminate) eq_refl); intuition congruence.
Qed.

(** ** Free text *)
Lemma lex_other ms n x ms' t : x <> [] -> lexm TkOther ms n x = (Ok true, ms', t) <-> ms' = ms /\
  t = set_matched ms (new_token x n) (Some TkOther) (Some (unescaped_docstring ms (get_line_text (mkLine x n) (Z.of_nat (ms_indent ms))))) None None (Some 0%nat) [].
Proof.
  intros Hx. rewrite lexm_ne by exact Hx. cbn [classic_match]. unfold match_Other. change (t_line (new_token x n)) with (mkLine x n).
  split; [intros H; injection H as <- <-; auto|]. intros [-> ->]. reflexivity.
Qed.
Lemma other_text ms n x ms' t : x <> [] -> matcher_ok ms -> ms_sep ms = None -> lexm TkOther ms n x = (Ok true, ms', t) -> t_text t = Some (without_eol x).
Proof.
  intros Hx Hm Hs H. apply lex_other in H as [_ ->]; [|exact Hx]. rewrite (mo_indent _ Hm Hs). unfold unescaped_docstring. rewrite Hs. unfold get_line_text.
  assert (E : (Z.of_nat (g_indent {| g_text := x; g_number := n |}) <? Z.of_nat 0)%Z = false) by (apply Z.ltb_ge; lia). rewrite E. reflexivity.
Qed.
Lemma docstring_text ms n x ms' t sep : x <> [] -> separator sep -> ms_sep ms = Some sep -> lexm TkOther ms n x = (Ok true, ms', t) -> t_text t = Some (content_line (ms_indent ms) sep x).
Proof.
  intros Hx Hsep Hs H. apply lex_other in H as [_ ->]; [|exact Hx]. cbn. f_equal. unfold content_line, without_eol. f_equal. unfold unescaped_docstring. rewrite Hs.
  assert (E : get_line_text {| g_text := x; g_number := n |} (Z.of_nat (ms_indent ms)) = if (ms_indent ms <=? indent_of x)%nat then skipn (ms_indent ms) x else lstrip x).
  { unfold get_line_text. assert (F : (Z.of_nat (ms_indent ms) <? 0)%Z = false) by (apply Z.ltb_ge; lia). rewrite F. cbn [orb]. change (g_indent {| g_text := x; g_number := n |}) with (indent_of x).
    destruct (ms_indent ms <=? indent_of x)%nat eqn:L.
    - apply Nat.leb_le in L. assert (Q : (Z.of_nat (indent_of x) <? Z.of_nat (ms_indent ms))%Z = false) by (apply Z.ltb_ge; lia). rewrite Q. now rewrite Nat2Z.id.
    - apply Nat.leb_gt in L. assert (Q : (Z.of_nat (indent_of x) <? Z.of_nat (ms_indent ms))%Z = true) by (apply Z.ltb_lt; lia). now rewrite Q. }
  rewrite E. destruct Hsep as [-> | ->]; reflexivity.
Qed.

(** ** Doc string separators *)
Definition sep_state (ms : mstate) (ind : nat) (sep : option str) : mstate := mkMs (ms_md ms) (ms_default ms) (ms_name ms) (ms_dialect ms) ind sep (ms_feature ms).
Lemma quotes_ticks x : begins sep_quotes x -> begins sep_ticks x -> False.
Proof. unfold begins. intros [y H1]%startswith_spec [z H2]%startswith_spec. rewrite H1 in H2. discriminate H2. Qed.
Lemma lex_open ms n x ms' t : x <> [] -> ms_sep ms = None -> lexm TkDocStringSeparator ms n x = (Ok true, ms', t) <->
  exists sep, separator sep /\ begins sep x /\ ms' = sep_state ms (indent_of x) (Some sep) /\
    t = set_matched ms' (new_token x n) (Some TkDocStringSeparator) (Some (strip (skipn (length sep) (lstrip x)))) (Some sep) None None [].
Proof.
  intros Hx Hs. rewrite lexm_ne by exact Hx. cbn [classic_match]. unfold c_match_DocStringSeparator. rewrite Hs. unfold match_separator, g_startswith.
  change (g_trimmed (t_line (new_token x n))) with (lstrip x).
  destruct (startswith sep_quotes (lstrip x)) eqn:Q; cbn [negb m_or].
  - split.
    + intros H. injection H as <- <-. exists sep_quotes. split; [now left|]. split; [exact Q|]. split; reflexivity.
    + intros [sep [[-> | ->] [B [-> ->]]]]; [reflexivity|]. exfalso. eapply quotes_ticks; eauto.
  - change (g_trimmed (t_line (new_token x n))) with (lstrip x). destruct (startswith sep_ticks (lstrip x)) eqn:K; cbn [negb].
    + split.
      * intros H. injection H as <- <-. exists sep_ticks. split; [now right|]. split; [exact K|]. split; reflexivity.
      * intros [sep [[-> | ->] [B [-> ->]]]]; [|reflexivity]. unfold begins in B. change (s """""""") with sep_quotes in B. congruence.
    + split; [discriminate|]. intros [sep [[-> | ->] [B _]]]; unfold begins in B; [change (s """""""") with sep_quotes in B | change (s "```") with sep_ticks in B]; congruence.
Qed.
Lemma lex_close ms n x ms' t sep : x <> [] -> ms_sep ms = Some sep -> lexm TkDocStringSeparator ms n x = (Ok true, ms', t) <->
  begins sep x /\ ms' = sep_state ms 0 None /\ t = set_matched ms' (new_token x n) (Some TkDocStringSeparator) None (Some sep) None None [].
Proof.
  intros Hx Hs. rewrite lexm_ne by exact Hx. cbn [classic_match]. unfold c_match_DocStringSeparator. rewrite Hs. unfold match_separator, g_startswith, begins.
  change (g_trimmed (t_line (new_token x n))) with (lstrip x). destruct (startswith sep (lstrip x)); cbn [negb].
  - split; [intros H; injection H as <- <-; auto|]. intros [_ [-> ->]]. reflexivity.
  - split; [discriminate|]. intros [H _]. discriminate H.
Qed.
Lemma lex_not_close ms n x sep : x <> [] -> ms_sep ms = Some sep -> fst (fst (lexm TkDocStringSeparator ms n x)) <> Ok true <-> ~ begins sep x.
Proof.
  intros Hx Hs. rewrite lexm_ne by exact Hx. cbn [classic_match]. unfold c_match_DocStringSeparator. rewrite Hs. unfold match_separator, g_startswith, begins.
  change (g_trimmed (t_line (new_token x n))) with (lstrip x). destruct (startswith sep (lstrip x)); cbn; intuition congruence.
Qed.
