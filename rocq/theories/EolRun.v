(** * The matchers and the builder on lines that differ in their line end only (C48) *)
From Verif Require Import PyStr PyStrFacts Types Regex RegexFacts ReSem Line DialectData Matcher Ast ParserTable Parser Table LineSpec StepFacts LangSpec LangFacts MdSpec MdFacts MdRun Rel Rel2 Eol EolMd.

Definition softb (x : str) : bool := forallb is_space x && negb (match x with [] => true | _ => false end).
Lemma softb_iff x : softb x = true <-> soft x.
Proof. unfold softb, soft, all_space. rewrite andb_true_iff. destruct x; cbn; split; intros [A B]; split; auto; try discriminate; now exfalso. Qed.
Lemma softb_not x : softb x = false <-> ~ soft x.
Proof. rewrite <- softb_iff. destruct (softb x); split; intros; try congruence; now exfalso. Qed.
Lemma find_ext_in {A} (f g : A -> bool) l : (forall a, In a l -> f a = g a) -> find f l = find g l.
Proof. induction l as [|a l IH]; intros H; [reflexivity|]. cbn [find]. rewrite <- (H a) by now left. destruct (f a); [reflexivity|]. apply IH. intros b Hb. apply H. now right. Qed.

(** no keyword contains a line end *)
Definition plainb (p : str) : bool := forallb (fun c => negb (N.eqb c ch_nl) && negb (N.eqb c ch_cr)) p.
Lemma plainb_ok p : plainb p = true -> plain p.
Proof.
  unfold plainb. rewrite forallb_forall. intros H. split; intros Hi; specialize (H _ Hi); discriminate H.
Qed.
Definition all_keywords (d : dialect) : list str :=
  d_feature d ++ d_rule d ++ d_background d ++ d_scenario d ++ d_scenarioOutline d ++ d_examples d ++ step_keywords d.
Lemma keywords_plain : forallb (fun p => forallb plainb (all_keywords (snd p))) DIALECTS = true.
Proof. vm_compute. reflexivity. Qed.
Lemma keyword_plain ms k : for_name (ms_name ms) = Some (ms_dialect ms) -> In k (all_keywords (ms_dialect ms)) -> plain k.
Proof.
  intros H Hk. apply for_name_in in H. pose proof keywords_plain as K. rewrite forallb_forall in K. specialize (K _ H). cbn [snd] in K. rewrite forallb_forall in K. apply plainb_ok. now apply K.
Qed.
Lemma plain_app p c : plain p -> c <> ch_nl -> c <> ch_cr -> plain (p ++ [c]).
Proof. intros [A B] C D. split; intros H; apply in_app_iff in H as [H|[H|[]]]; auto. Qed.

Section EolRun.
Context (md : bool) (lang : str).
Definition tok_soft (t : token) : bool := softb (g_text (t_line t)).
Definition lines2 (t t' : token) : Prop := eol (g_text (t_line t)) (g_text (t_line t')) /\ t_loc_line t = t_loc_line t'.
Definition Tr (t t' : token) : Prop := lines2 t t' /\ t_mtype t = t_mtype t' /\ t_text t = t_text t' /\ t_items t = t_items t' /\
  t_keyword t = t_keyword t' /\ t_ktype t = t_ktype t' /\ t_dialect t = t_dialect t' /\ (tok_soft t = true \/ t_loc_col t = t_loc_col t').
(** what the builder sees of a token; in Markdown, not the column of the feature line *)
Definition hide (k : key) (t : token) : token :=
  mkTok (mkLine [] 0) (t_loc_line t) (match k with KTok TkFeatureLine => if md then None else t_loc_col t | _ => t_loc_col t end)
    (t_mtype t) (t_text t) (t_items t) (t_keyword t) (t_ktype t) 0 (t_dialect t).
Definition key_of (t : token) : key := match t_mtype t with Some k => KTok k | None => KNone end.
Definition Bt (t t' : token) : Prop := hide (key_of t) t = hide (key_of t') t'.
Lemma Tr_Bt t t' : Tr t t' -> t_loc_col t = t_loc_col t' \/ (md = true /\ t_mtype t = Some TkFeatureLine) -> Bt t t'.
Proof.
  intros [[_ L] [E1 [E2 [E3 [E4 [E5 [E6 _]]]]]]] H. unfold Bt, hide, key_of. rewrite <- E1, E2, E3, E4, E5, E6, L.
  destruct H as [->|[-> ->]]; reflexivity.
Qed.

Lemma sep_plain d : In d delims -> plain d /\ d <> [].
Proof. cbn. intros [<-|[<-|[<-|[]]]]; (split; [apply plainb_ok; reflexivity | discriminate]). Qed.
Definition sep_fine (ms : mstate) : Prop := match ms_sep ms with Some d => In d delims | None => True end.
Definition J (ms : mstate) : Prop := minv md lang ms /\ sep_fine ms.
Lemma J_name ms : J ms -> for_name (ms_name ms) = Some (ms_dialect ms).
Proof. intros [[_ [_ H]] _]. exact H. Qed.
Definition Msim (r r' : mret) : Prop :=
  fst (fst r) = fst (fst r') /\ snd (fst r) = snd (fst r') /\ J (snd (fst r)) /\ Tr (snd r) (snd r') /\ (fst (fst r) = Ok true -> Bt (snd r) (snd r')).
Lemma Msim_false ms t t' : J ms -> Tr t t' -> Msim (Ok false, ms, t) (Ok false, ms, t').
Proof. intros H1 H2. unfold Msim. cbn. repeat (split; [auto|]). discriminate. Qed.
Lemma Msim_err ms t t' e : J ms -> Tr t t' -> Msim (Err e, ms, t) (Err e, ms, t').
Proof. intros H1 H2. unfold Msim. cbn. repeat (split; [auto|]). discriminate. Qed.
Lemma Msim_or r r' k : Msim r r' -> (forall ms t t', J ms -> Tr t t' -> Msim (k ms t) (k ms t')) -> Msim (m_or r k) (m_or r' k).
Proof.
  destruct r as [[r ms] t], r' as [[r' ms'] t']. intros H K. pose proof H as [H1 [H2 [H3 [H4 H5]]]]. cbn in H1, H2, H3, H4, H5. subst r' ms'.
  destruct r as [[]|]; try exact H. cbn [m_or]. now apply K.
Qed.
Lemma eol_loc ms t t' ty x kw kt ind items ms' ty' x' kw' kt' items' : lines2 t t' -> tok_soft t = false -> t_loc_col (set_matched ms t ty x kw kt ind items) = t_loc_col (set_matched ms' t' ty' x' kw' kt' ind items').
Proof.
  intros [L _] S. cbn. apply softb_not in S. destruct (eol_indent _ _ L) as [X|X]; [contradiction|]. rewrite (eol_bool _ _ L), X. reflexivity.
Qed.
Lemma set_Tr ms t t' ty x x' kw kt ind items : lines2 t t' -> option_map rstrip_crlf x = option_map rstrip_crlf x' -> Tr (set_matched ms t ty x kw kt ind items) (set_matched ms t' ty x' kw kt ind items).
Proof.
  intros L X. pose proof L as [L1 L2]. unfold Tr, lines2. repeat (split; [first [assumption | reflexivity | exact X | cbn; destruct x, x'; cbn in X; congruence]|]).
  cbn [tok_soft set_matched t_line]. destruct (tok_soft t) eqn:S; [now left | right]. now apply eol_loc.
Qed.
Lemma set_Bt ms t t' ty x x' kw kt ind items : lines2 t t' -> option_map rstrip_crlf x = option_map rstrip_crlf x' ->
  ind <> None \/ tok_soft t = false \/ (md = true /\ ty = Some TkFeatureLine) -> Bt (set_matched ms t ty x kw kt ind items) (set_matched ms t' ty x' kw kt ind items).
Proof.
  intros L X H. apply Tr_Bt; [now apply set_Tr|]. destruct H as [H|[H|H]]; [left | left | now right].
  - destruct ind; [reflexivity | easy].
  - now apply eol_loc.
Qed.
Lemma Msim_set ms t t' ty x x' kw kt ind items : J ms -> lines2 t t' -> option_map rstrip_crlf x = option_map rstrip_crlf x' ->
  ind <> None \/ tok_soft t = false \/ (md = true /\ ty = Some TkFeatureLine) ->
  Msim (Ok true, ms, set_matched ms t ty x kw kt ind items) (Ok true, ms, set_matched ms t' ty x' kw kt ind items).
Proof. intros H L X S. unfold Msim. cbn [fst snd]. split; [reflexivity|]. split; [reflexivity|]. split; [exact H|]. split; [now apply set_Tr | intros _; now apply set_Bt]. Qed.
Lemma not_soft_starts t p : p <> [] -> g_startswith (t_line t) p = true -> tok_soft t = false.
Proof. intros P H. apply softb_not. now apply (starts_hard (t_line t) p). Qed.

(** ** The classic matcher *)
Lemma sim_title ms t t' ty kws : J ms -> incl kws (all_keywords (ms_dialect ms)) -> Tr t t' -> Msim (match_title ms t ty kws) (match_title ms t' ty kws).
Proof.
  intros H Hk Ht. pose proof Ht as [L _]. pose proof L as [L1 _]. unfold match_title.
  assert (P : forall k, In k kws -> plain (k ++ [ch_colon])).
  { intros k Hi. apply plain_app; [apply (keyword_plain ms); [now apply J_name | now apply Hk] | discriminate | discriminate]. }
  rewrite (find_ext_in (startswith_title_keyword (t_line t)) (startswith_title_keyword (t_line t'))).
  2:{ intros k Hi. apply (eol_starts (t_line t) (t_line t') L1 (k ++ [ch_colon])). now apply P. }
  destruct (find _ kws) as [k|] eqn:F; [|now apply Msim_false]. apply find_some in F as [F1 F2].
  assert (F3 : g_startswith (t_line t) (k ++ [ch_colon]) = true) by (rewrite (eol_starts _ _ L1) by (now apply P); exact F2).
  apply Msim_set; auto.
  - cbn. f_equal. f_equal. pose proof (eol_rest _ _ L1 (k ++ [ch_colon]) (P k F1) F3) as R. rewrite app_length in R. exact R.
  - right. left. apply (not_soft_starts t (k ++ [ch_colon])); [destruct k; discriminate | exact F3].
Qed.
Lemma sim_row ms t t' : J ms -> Tr t t' -> Msim (c_match_TableRow ms t) (c_match_TableRow ms t').
Proof.
  intros H Ht. pose proof Ht as [L _]. pose proof L as [L1 _]. unfold c_match_TableRow. rewrite (eol_starts _ _ L1) by (apply plainb_ok; reflexivity).
  destruct (g_startswith (t_line t') [ch_pipe]) eqn:E; cbn [negb]; [|now apply Msim_false].
  assert (S : tok_soft t = false) by (apply (not_soft_starts t [ch_pipe]); [discriminate|]; rewrite (eol_starts _ _ L1) by (apply plainb_ok; reflexivity); exact E).
  rewrite (eol_cells _ _ L1) by now apply softb_not. destruct (table_cells (t_line t')); [|now apply Msim_err]. apply Msim_set; auto.
Qed.
Lemma sim_tags ms t t' : J ms -> Tr t t' -> Msim (c_match_TagLine ms t) (c_match_TagLine ms t').
Proof.
  intros H Ht. pose proof Ht as [L _]. pose proof L as [L1 _]. unfold c_match_TagLine. rewrite (eol_starts _ _ L1) by (apply plainb_ok; reflexivity).
  destruct (g_startswith (t_line t') [ch_at]) eqn:E; cbn [negb]; [|now apply Msim_false].
  assert (S : tok_soft t = false) by (apply (not_soft_starts t [ch_at]); [discriminate|]; rewrite (eol_starts _ _ L1) by (apply plainb_ok; reflexivity); exact E).
  rewrite (eol_tags _ _ L1) by now apply softb_not. destruct (g_tags (t_line t')); [|now apply Msim_err]. apply Msim_set; auto.
Qed.
Lemma sim_step ms t t' : J ms -> Tr t t' -> Msim (c_match_StepLine ms t) (c_match_StepLine ms t').
Proof.
  intros H Ht. pose proof Ht as [L _]. pose proof L as [L1 _]. unfold c_match_StepLine.
  assert (P : forall k, In k (step_keywords (ms_dialect ms)) -> plain k).
  { intros k Hi. apply (keyword_plain ms); [now apply J_name|]. unfold all_keywords. rewrite !in_app_iff. auto 10. }
  rewrite (find_ext_in (g_startswith (t_line t)) (g_startswith (t_line t'))).
  2:{ intros k Hi. apply (eol_starts (t_line t) (t_line t') L1). now apply P. }
  destruct (find _ _) as [k|] eqn:F; [|now apply Msim_false]. apply find_some in F as [F1 F2].
  assert (F3 : g_startswith (t_line t) k = true) by (rewrite (eol_starts _ _ L1) by (now apply P); exact F2).
  apply Msim_set; auto.
  - cbn. f_equal. f_equal. exact (eol_rest _ _ L1 k (P k F1) F3).
  - right. left. apply (not_soft_starts t k); [|exact F3]. destruct (step_kws ms) as [_ V]; [now apply J_name|]. specialize (V k F1). intros ->. discriminate V.
Qed.
Lemma sim_separator nt sep op ms t t' : In sep delims -> J ms -> Tr t t' -> Msim (match_separator nt sep op ms t) (match_separator nt sep op ms t').
Proof.
  intros D H Ht. destruct (sep_plain sep D) as [P N]. pose proof Ht as [L _]. pose proof L as [L1 _]. unfold match_separator. rewrite (eol_starts _ _ L1) by exact P.
  destruct (g_startswith (t_line t') sep) eqn:E; cbn [negb]; [|now apply Msim_false].
  assert (E' : g_startswith (t_line t) sep = true) by (rewrite (eol_starts _ _ L1) by (exact P); exact E). assert (S : tok_soft t = false) by now apply (not_soft_starts t sep).
  destruct (eol_indent _ _ L1) as [X|X]; [apply softb_not in S; contradiction|]. rewrite X, (eol_rest _ _ L1 sep P E'). apply Msim_set; auto. destruct H as [H1 H2]. split; [exact H1|]. destruct op; cbn; auto.
Qed.
Lemma sim_eof ms t t' : J ms -> Tr t t' -> Msim (match_EOF ms t) (match_EOF ms t').
Proof.
  intros H Ht. pose proof Ht as [L _]. pose proof L as [L1 _]. unfold match_EOF, t_eof. rewrite (eol_bool _ _ L1). destruct (g_bool (t_line t')) eqn:E; cbn [negb]; [now apply Msim_false|].
  apply Msim_set; auto. right. left. unfold tok_soft. rewrite <- (eol_bool _ _ L1) in E. unfold g_bool in E. destruct (g_text (t_line t)); [reflexivity | discriminate E].
Qed.
Lemma sim_other ms t t' : J ms -> Tr t t' -> Msim (match_Other ms t) (match_Other ms t').
Proof.
  intros H Ht. pose proof Ht as [L _]. pose proof L as [L1 _]. unfold match_Other. apply Msim_set; auto; [|left; discriminate]. cbn. f_equal. now apply eol_other.
Qed.
Lemma sim_language ms t t' : J ms -> Tr t t' -> Msim (c_match_Language ms t) (c_match_Language ms t').
Proof.
  intros H Ht. pose proof Ht as [L _]. pose proof L as [L1 L2]. unfold c_match_Language. change (get_line_text (t_line t) (-1)) with (lstrip (g_text (t_line t))). change (get_line_text (t_line t') (-1)) with (lstrip (g_text (t_line t'))).
  pose proof (language_re (g_text (t_line t))) as A. pose proof (language_re (g_text (t_line t'))) as A'.
  destruct (re_match LANGUAGE_RE (lstrip (g_text (t_line t)))) as [st|], (re_match LANGUAGE_RE (lstrip (g_text (t_line t')))) as [st'|].
  - destruct A as [name [G A]], A' as [name' [G' A']]. rewrite G, G'. apply (eol_language _ _ name L1) in A. assert (name' = name) as -> by now apply (language_unique (g_text (t_line t'))).
    apply (eol_language _ _ name L1) in A. assert (S : tok_soft t = false).
    { apply softb_not. intros [S _]. destruct A as [a [b [c [d [e [A _]]]]]]. unfold all_space in S. rewrite A in S. rewrite !forallb_app in S. cbn in S. rewrite andb_false_r in S. discriminate S. }
    assert (T : t_location (set_matched ms t (Some TkLanguage) (Some name) None None None []) = t_location (set_matched ms t' (Some TkLanguage) (Some name) None None None [])).
    { unfold t_location. rewrite (eol_loc ms t t' (Some TkLanguage) (Some name) None None None [] ms (Some TkLanguage) (Some name) None None [] L S). cbn. now rewrite L2. }
    rewrite T. unfold change_dialect. destruct (for_name name) as [dd|] eqn:F; [|apply Msim_err; [exact H | now apply set_Tr]].
    unfold Msim. cbn [fst snd]. split; [reflexivity|]. split; [reflexivity|]. destruct H as [[H1 [H2 H3]] H4]. split; [repeat split; assumption|]. split; [now apply set_Tr|]. intros _. apply set_Bt; auto.
  - exfalso. destruct A as [name [_ A]]. apply (eol_language _ _ name L1) in A. now apply (A' name).
  - exfalso. destruct A' as [name [_ A']]. apply (eol_language _ _ name L1) in A'. now apply (A name).
  - now apply Msim_false.
Qed.
Lemma sim_comment ms t t' : J ms -> Tr t t' -> Msim (c_match_Comment ms t) (c_match_Comment ms t').
Proof.
  intros H Ht. pose proof Ht as [L _]. pose proof L as [L1 _]. unfold c_match_Comment. rewrite (eol_starts _ _ L1) by (apply plainb_ok; reflexivity).
  destruct (negb _); [now apply Msim_false|]. apply Msim_set; auto; [|left; discriminate]. cbn. f_equal. now apply eol_text.
Qed.
Lemma sim_empty ms t t' : J ms -> Tr t t' -> Msim (c_match_Empty ms t) (c_match_Empty ms t').
Proof.
  intros H Ht. pose proof Ht as [L _]. pose proof L as [L1 _]. unfold c_match_Empty. rewrite (eol_empty _ _ L1). destruct (negb _); [now apply Msim_false|]. apply Msim_set; auto. left. discriminate.
Qed.
Lemma sim_cseparator ms t t' : J ms -> Tr t t' -> Msim (c_match_DocStringSeparator ms t) (c_match_DocStringSeparator ms t').
Proof.
  intros H Ht. unfold c_match_DocStringSeparator. pose proof (proj2 H) as F. unfold sep_fine in F. destruct (ms_sep ms) as [d|]; [now apply sim_separator|].
  apply Msim_or; [apply sim_separator; auto; cbn; auto|]. intros. apply sim_separator; auto; cbn; auto.
Qed.
Lemma sim_classic k ms t t' : J ms -> Tr t t' -> Msim (classic_match k ms t) (classic_match k ms t').
Proof.
  intros H Ht. assert (I : forall l, In l [d_feature (ms_dialect ms); d_rule (ms_dialect ms); d_background (ms_dialect ms); d_scenario (ms_dialect ms); d_scenarioOutline (ms_dialect ms); d_examples (ms_dialect ms)] -> incl l (all_keywords (ms_dialect ms))).
  { intros l Hl k0 Hk0. unfold all_keywords. rewrite !in_app_iff. cbn in Hl. repeat (destruct Hl as [<-|Hl]; [auto 10|]). contradiction. }
  destruct k; cbn [classic_match]; auto using sim_eof, sim_empty, sim_comment, sim_tags, sim_step, sim_cseparator, sim_row, sim_language, sim_other.
  - apply sim_title; auto. apply I. cbn. auto.
  - apply sim_title; auto. apply I. cbn. auto.
  - apply sim_title; auto. apply I. cbn. auto 10.
  - unfold match_title at 1 3. pose proof (sim_title ms t t' TkScenarioLine (d_scenario (ms_dialect ms)) H ltac:(apply I; cbn; auto 10) Ht) as A.
    pose proof (sim_title ms t t' TkScenarioLine (d_scenarioOutline (ms_dialect ms)) H ltac:(apply I; cbn; auto 10) Ht) as A2.
    unfold match_title in A at 1 2. destruct (find (startswith_title_keyword (t_line t)) (d_scenario (ms_dialect ms))), (find (startswith_title_keyword (t_line t')) (d_scenario (ms_dialect ms)));
    cbn [m_or]; try exact A; try exact A2; exfalso; destruct A as [A _]; discriminate A.
  - apply sim_title; auto. apply I. cbn. auto 10.
Qed.

(** ** The Markdown matcher *)
Lemma line_eta t : t_line t = mkLine (g_text (t_line t)) (g_number (t_line t)).
Proof. destruct (t_line t); reflexivity. Qed.
Lemma sim_header kws ty ms t t' : kws_ok kws = true -> J ms -> Tr t t' -> Msim (md_match_title md_header kws [ch_colon] ty ms t) (md_match_title md_header kws [ch_colon] ty ms t').
Proof.
  intros K H Ht. pose proof Ht as [L _]. pose proof L as [L1 L2]. destruct (eol_one_line _ _ L1) as [O O'].
  pose proof (header_match kws ty ms _ _ t K O (line_eta t)) as A. pose proof (header_match kws ty ms _ _ t' K O' (line_eta t')) as A'. unfold md_match_title in *.
  destruct (re_search _ (get_line_text (t_line t) (-1))) as [[? st]|], (re_search _ (get_line_text (t_line t') (-1))) as [[? st']|].
  - destruct A as [_ [k [name [col [A B]]]]], A' as [_ [k' [name' [col' [A' B']]]]]. apply (eol_header kws _ _ k name col L1) in A.
    destruct (header_unique kws _ _ _ _ _ _ _ K A A') as [E1 [E2 E3]]. subst k' name' col'. destruct B as [_ [B1 [B2 B3]]], B' as [_ [B1' [B2' B3']]].
    cbn [set_matched t_keyword t_text t_loc_col] in B1, B2, B3, B1', B2', B3'. injection B1 as B1. injection B1' as B1'. rewrite B1, B1'.
    match goal with |- Msim (_, _, ?a) (_, _, ?b) => assert (T : Tr a b) end.
    { unfold Tr. split; [exact L|]. cbn [set_matched t_mtype t_text t_items t_keyword t_ktype t_dialect]. rewrite B2, B2'. repeat (split; [reflexivity|]). right. cbn [set_matched t_loc_col]. congruence. }
    unfold Msim. cbn [fst snd]. split; [reflexivity|]. split; [reflexivity|]. split; [exact H|]. split; [exact T|]. intros _. apply Tr_Bt; [exact T|]. left. cbn [set_matched t_loc_col]. congruence.
  - exfalso. destruct A as [_ [k [name [col [A _]]]]], A' as [_ [_ A']]. apply (eol_header kws _ _ k name col L1) in A. now apply (A' k name col).
  - exfalso. destruct A' as [_ [k [name [col [A' _]]]]], A as [_ [_ A]]. apply (eol_header kws _ _ k name col L1) in A'. now apply (A k name col).
  - now apply Msim_false.
Qed.
Lemma eol_suffix P c r x' : is_space c = false -> eol (P ++ c :: r) x' -> exists r', x' = P ++ c :: r' /\ eol (c :: r) (c :: r').
Proof.
  intros C [y [e [e' [N [Q [Q' [E1 [E2 _]]]]]]]].
  apply snoc_rest in E1 as [r0 [-> ->]]; [|exact C | now apply ends_space]. exists (r0 ++ e'). split; [rewrite E2, <- app_assoc; reflexivity|]. exists (c :: r0), e, e'.
  split; [intros Hi; apply N, in_app_iff; now right|]. repeat (split; [assumption || reflexivity|]). split; discriminate.
Qed.
Lemma eol_suffix' P c r x : is_space c = false -> eol x (P ++ c :: r) -> exists r', x = P ++ c :: r' /\ eol (c :: r') (c :: r).
Proof. intros C H. apply eol_sym in H. destruct (eol_suffix P c r x C H) as [r' [E F]]. exists r'. split; [exact E | now apply eol_sym]. Qed.
Lemma split_first (l b1 b2 a1 a2 : list str) k1 k2 (f : str -> bool) : l = b1 ++ k1 :: a1 -> l = b2 ++ k2 :: a2 -> f k1 = true -> f k2 = true ->
  Forall (fun k => f k = false) b1 -> Forall (fun k => f k = false) b2 -> k1 = k2.
Proof.
  revert l b2. induction b1 as [|c b1 IH]; intros l [|d b2] -> E F1 F2 A1 A2; cbn in E; injection E as E1 E2.
  - exact E1.
  - subst d. inversion A2; congruence.
  - subst c. inversion A1; congruence.
  - inversion A1; inversion A2; subst. eauto.
Qed.
Lemma sim_bullet ms t t' : J ms -> Tr t t' -> Msim (md_match_StepLine ms t) (md_match_StepLine ms t').
Proof.
  intros H Ht. pose proof Ht as [L _]. pose proof L as [L1 L2]. destruct (eol_one_line _ _ L1) as [O O']. pose proof (J_name ms H) as Hn. destruct (step_kws ms Hn) as [_ V].
  assert (PK : forall k, In k (all_step_keywords (ms_dialect ms)) -> plain k).
  { intros k Hi. apply (keyword_plain ms); [exact Hn|]. unfold all_keywords. rewrite !in_app_iff. auto 10. }
  assert (ES : forall c r c' r', is_space c = false -> is_space c' = false -> eol (c :: r) (c' :: r') -> forall k, In k (all_step_keywords (ms_dialect ms)) -> startswith k (c :: r) = startswith k (c' :: r')).
  { intros c r c' r' C C' E k Hk. pose proof (eol_starts (mkLine (c :: r) 0) (mkLine (c' :: r') 0) E k (PK k Hk)) as X. unfold g_startswith, g_trimmed in X. cbn [g_text] in X.
    unfold lstrip, lstrip_by in X. rewrite !drop_while_id in X by assumption. exact X. }
  assert (VH : forall k y, In k (all_step_keywords (ms_dialect ms)) -> exists c r, k ++ y = c :: r /\ is_space c = false).
  { intros k y Hk. specialize (V k Hk). destruct k as [|c k]; [discriminate V|]. exists c, (k ++ y). split; [reflexivity|]. cbn in V. now destruct (is_space c). }
  pose proof (bullet_match ms _ _ t Hn O (line_eta t)) as A. pose proof (bullet_match ms _ _ t' Hn O' (line_eta t')) as A'. unfold md_match_StepLine, md_match_title in *.
  destruct (re_search _ (get_line_text (t_line t) (-1))) as [[? st]|], (re_search _ (get_line_text (t_line t') (-1))) as [[? st']|].
  - destruct A as [_ [i [b [g [rest [bf [k [af [y [e [A1 [A2 [A3 [A4 [A5 [A6 [A7 A8]]]]]]]]]]]]]]]]]. destruct A' as [_ [i' [b' [g' [rest' [bf' [k' [af' [y' [e' [A1' [A2' [A3' [A4' [A5' [A6' [A7' A8']]]]]]]]]]]]]]]]].
    assert (Ik : In k (all_step_keywords (ms_dialect ms))) by (rewrite A2; apply in_app_iff; right; now left). assert (Ik' : In k' (all_step_keywords (ms_dialect ms))) by (rewrite A2'; apply in_app_iff; right; now left).
    destruct (VH k (y ++ e) Ik) as [c [r [Ec Cc]]]. rewrite <- A3 in Ec. destruct A1 as [B1 [B2 [B3 [B4 B5]]]]. rewrite Ec in B5.
    assert (B5' : g_text (t_line t) = (i ++ [b] ++ g) ++ c :: r) by (rewrite B5; now rewrite <- !app_assoc). rewrite B5' in L1. destruct (eol_suffix _ _ _ _ Cc L1) as [r2 [F1 F2]].
    assert (A1 : bullet_line (g_text (t_line t')) i b g (c :: r2)) by (repeat (split; [assumption|]); rewrite F1; now rewrite <- !app_assoc).
    destruct (bullet_unique _ _ _ _ _ _ _ _ _ A1 A1') as [E1 [E2 [E3 E4]]]. subst i' b' g'. rewrite <- E4 in A3', A6'. clear E4 A1'.
    assert (Sk : startswith k (c :: r) = true) by (rewrite <- Ec, A3; apply startswith_app). assert (Sk' : startswith k' (c :: r2) = true) by (rewrite A3'; apply startswith_app).
    assert (E5 : k = k').
    { apply (split_first _ bf bf' af af' k k' (fun k0 => startswith k0 (c :: r)) A2 A2'); auto.
      - rewrite (ES c r c r2 Cc Cc F2 k' Ik'). exact Sk'.
      - rewrite Ec in A6. exact A6.
      - rewrite Forall_forall in A6' |- *. intros k0 Hk0. rewrite (ES c r c r2 Cc Cc F2 k0); [now apply A6'|]. rewrite A2'. apply in_app_iff. now left. }
    subst k'. assert (E6 : strip y = strip y').
    { pose proof (eol_rest (mkLine (c :: r) 0) (mkLine (c :: r2) 0) F2 k (PK k Ik)) as R. unfold g_startswith, get_rest_trimmed, g_trimmed in R. cbn [g_text] in R. unfold lstrip, lstrip_by in R. rewrite !drop_while_id in R by assumption. specialize (R Sk).
      rewrite <- Ec, A3, A3' in R. rewrite !skipn_app, !skipn_all, !Nat.sub_diag in R. cbn [app skipn] in R.
      assert (LE : forall e, line_end e -> all_space e) by (intros ? [-> | ->]; reflexivity). rewrite !strip_tail in R by auto. exact R. }
    destruct A7 as [_ [D1 [D2 D3]]], A7' as [_ [D1' [D2' D3']]]. cbn [set_matched t_keyword t_text t_loc_col t_ktype] in D1, D2, D3, D1', D2', D3', A8, A8'.
    match goal with |- Msim (_, _, ?a) (_, _, ?b) => assert (T : Tr a b) end.
    { unfold Tr. split; [exact L|]. cbn [set_matched t_mtype t_text t_items t_keyword t_ktype t_dialect]. rewrite D1, D1', D2, D2', A8, A8', E6. repeat (split; [reflexivity|]). right. cbn [set_matched t_loc_col]. congruence. }
    unfold Msim. cbn [fst snd]. split; [reflexivity|]. split; [reflexivity|]. split; [exact H|]. split; [exact T|]. intros _. apply Tr_Bt; [exact T|]. left. cbn [set_matched t_loc_col]. congruence.
  - exfalso. destruct A as [_ [i [b [g [rest [bf [k [af [y [e [A1 [A2 [A3 _]]]]]]]]]]]]]. destruct A' as [_ [_ A']].
    assert (Ik : In k (all_step_keywords (ms_dialect ms))) by (rewrite A2; apply in_app_iff; right; now left).
    destruct (VH k (y ++ e) Ik) as [c [r [Ec Cc]]]. rewrite <- A3 in Ec. destruct A1 as [B1 [B2 [B3 [B4 B5]]]]. rewrite Ec in B5.
    assert (B5' : g_text (t_line t) = (i ++ [b] ++ g) ++ c :: r) by (rewrite B5; now rewrite <- !app_assoc). rewrite B5' in L1. destruct (eol_suffix _ _ _ _ Cc L1) as [r2 [F1 F2]].
    assert (A1 : bullet_line (g_text (t_line t')) i b g (c :: r2)) by (repeat (split; [assumption|]); rewrite F1; now rewrite <- !app_assoc).
    specialize (A' _ _ _ _ k A1 Ik). rewrite <- (ES c r c r2 Cc Cc F2 k Ik), <- Ec, A3, startswith_app in A'. discriminate A'.
  - exfalso. destruct A' as [_ [i [b [g [rest [bf [k [af [y [e [A1 [A2 [A3 _]]]]]]]]]]]]]. destruct A as [_ [_ A]].
    assert (Ik : In k (all_step_keywords (ms_dialect ms))) by (rewrite A2; apply in_app_iff; right; now left).
    destruct (VH k (y ++ e) Ik) as [c [r [Ec Cc]]]. rewrite <- A3 in Ec. destruct A1 as [B1 [B2 [B3 [B4 B5]]]]. rewrite Ec in B5.
    assert (B5' : g_text (t_line t') = (i ++ [b] ++ g) ++ c :: r) by (rewrite B5; now rewrite <- !app_assoc). rewrite B5' in L1. destruct (eol_suffix' _ _ _ _ Cc L1) as [r2 [F1 F2]].
    assert (A1 : bullet_line (g_text (t_line t)) i b g (c :: r2)) by (repeat (split; [assumption|]); rewrite F1; now rewrite <- !app_assoc).
    specialize (A _ _ _ _ k A1 Ik). rewrite (ES c r2 c r Cc Cc F2 k Ik), <- Ec, A3, startswith_app in A. discriminate A.
  - now apply Msim_false.
Qed.
Lemma title_kws_fine ms k : for_name (ms_name ms) = Some (ms_dialect ms) -> In k (title_kws (ms_dialect ms)) -> kws_ok k = true.
Proof.
  intros H Hk. apply for_name_in in H. pose proof title_kws_ok as K. rewrite forallb_forall in K. specialize (K _ H). cbn [snd] in K. rewrite forallb_forall in K. now apply K.
Qed.
Lemma sim_md_title sel ty ms t t' : (forall d, In (sel d) (title_kws d)) -> J ms -> Tr t t' -> Msim (md_match_title md_header (sel (ms_dialect ms)) [ch_colon] ty ms t) (md_match_title md_header (sel (ms_dialect ms)) [ch_colon] ty ms t').
Proof. intros Hs H Ht. apply sim_header; auto. apply (title_kws_fine ms); [now apply J_name | apply Hs]. Qed.
Lemma J_feature ms : J ms -> J (ms_set_feature ms).
Proof. intros [[A [B C]] D]. split; [repeat split; assumption | exact D]. Qed.
Lemma sim_md_feature ms t t' : md = true -> J ms -> Tr t t' -> Msim (md_match_FeatureLine ms t) (md_match_FeatureLine ms t').
Proof.
  intros M H Ht. unfold md_match_FeatureLine. destruct (ms_feature ms); [apply Msim_false; [exact H|]; apply set_Tr; [apply Ht | reflexivity]|].
  pose proof (sim_md_title d_feature TkFeatureLine ms t t' ltac:(intros d; cbn; auto) H Ht) as S.
  destruct (md_match_title _ _ _ _ ms t) as [[r m1] t1], (md_match_title _ _ _ _ ms t') as [[r' m1'] t1']. destruct S as [S1 [S2 [S3 [S4 S5]]]]. cbn [fst snd] in S1, S2, S3, S4, S5. subst r' m1'.
  destruct r as [[]|e]; cbn [fst snd].
  - unfold Msim. cbn [fst snd]. repeat (split; [first [reflexivity | now apply J_feature | assumption]|]). exact S5.
  - pose proof S4 as [L _]. pose proof L as [L1 _]. unfold Msim. cbn [fst snd]. split; [reflexivity|]. split; [reflexivity|]. split; [now apply J_feature|].
    assert (X : option_map rstrip_crlf (Some (get_line_text (t_line t1) (-1))) = option_map rstrip_crlf (Some (get_line_text (t_line t1') (-1)))) by (cbn [option_map]; f_equal; exact (eol_trimmed _ _ L1)).
    split; [now apply set_Tr|]. intros _. apply set_Bt; auto.
  - unfold Msim. cbn [fst snd]. repeat (split; [first [reflexivity | now apply J_feature | assumption]|]). discriminate.
Qed.
Lemma sim_md_scenario ms t t' : J ms -> Tr t t' -> Msim (md_match_ScenarioLine ms t) (md_match_ScenarioLine ms t').
Proof.
  intros H Ht. unfold md_match_ScenarioLine. apply Msim_or; [apply (sim_md_title d_scenario); auto; intros d; cbn; auto 10|].
  intros. apply (sim_md_title d_scenarioOutline); auto; intros d; cbn; auto 10.
Qed.
Lemma get_line_0 l : get_line_text l 0 = g_text l.
Proof. unfold get_line_text. assert ((Z.of_nat (g_indent l) <? 0)%Z = false) as -> by (apply Z.ltb_ge; lia). reflexivity. Qed.
Lemma sim_md_row ms t t' : J ms -> Tr t t' -> Msim (md_match_TableRow ms t) (md_match_TableRow ms t').
Proof.
  intros H Ht. pose proof Ht as [L _]. pose proof L as [L1 _]. unfold md_match_TableRow.
  rewrite !get_line_0.
  pose proof (eol_table_re _ _ L1) as R. destruct (re_match md_table_re (g_text (t_line t))) as [st|] eqn:E, (re_match md_table_re (g_text (t_line t'))); try discriminate R; [|now apply Msim_false].
  assert (S : tok_soft t = false) by (apply (not_soft_starts t [ch_pipe]); [discriminate | exact (table_re_starts _ _ E)]).
  rewrite (eol_cells _ _ L1) by now apply softb_not. destruct (table_cells (t_line t')) as [l|]; [|now apply Msim_err]. destruct (is_gfm_separator l); [now apply Msim_false|]. apply Msim_set; auto.
Qed.
Lemma sim_md_comment ms t t' : J ms -> Tr t t' -> Msim (md_match_Comment ms t) (md_match_Comment ms t').
Proof.
  intros H Ht. pose proof Ht as [L _]. pose proof L as [L1 _]. unfold md_match_Comment. rewrite (eol_starts _ _ L1) by (apply plainb_ok; reflexivity).
  destruct (g_startswith (t_line t') [ch_pipe]) eqn:E; [|apply Msim_false; [exact H | now apply set_Tr]].
  assert (S : tok_soft t = false) by (apply (not_soft_starts t [ch_pipe]); [discriminate|]; rewrite (eol_starts _ _ L1) by (apply plainb_ok; reflexivity); exact E).
  rewrite (eol_cells _ _ L1) by now apply softb_not. destruct (table_cells (t_line t')) as [l|]; [|now apply Msim_err].
  destruct (is_gfm_separator l); [apply Msim_set; auto | apply Msim_false; [exact H | now apply set_Tr]].
Qed.
Lemma sim_md_tags ms t t' : J ms -> Tr t t' -> Msim (md_match_TagLine ms t) (md_match_TagLine ms t').
Proof.
  intros H Ht. pose proof Ht as [L _]. pose proof L as [L1 _]. unfold md_match_TagLine. destruct (tok_soft t) eqn:S.
  - apply softb_iff in S. assert (S' : soft (g_text (t_line t'))) by now apply (eol_soft_iff _ _ L1). rewrite !soft_md_tags by assumption. now apply Msim_false.
  - rewrite (eol_md_tags _ _ L1) by now apply softb_not. destruct (md_tags_go _ _ _ _); [now apply Msim_false | apply Msim_set; auto].
Qed.
Lemma sim_md_separator ms t t' : J ms -> Tr t t' -> Msim (md_match_DocStringSeparator ms t) (md_match_DocStringSeparator ms t').
Proof.
  intros H Ht. unfold md_match_DocStringSeparator. pose proof (proj2 H) as F. unfold sep_fine in F. destruct (ms_sep ms) as [d|]; [now apply sim_separator|].
  apply Msim_or; [apply Msim_or; [apply sim_separator; auto; cbn; auto|]|]; intros; apply sim_separator; auto; cbn; auto.
Qed.
Lemma sim_md_language ms t t' : J ms -> Tr t t' -> Msim (md_match_Language ms t) (md_match_Language ms t').
Proof. intros. now apply Msim_false. Qed.
Lemma sim_md_empty ms t t' : md = true -> J ms -> Tr t t' -> Msim (md_match_Empty ms t) (md_match_Empty ms t').
Proof.
  intros M H Ht. pose proof Ht as [[L1 _] _]. unfold md_match_Empty. rewrite (eol_empty _ _ L1).
  cbv zeta. match goal with |- Msim (match ?a with _ => _ end) (match ?b with _ => _ end) => assert (S : Msim a b) end.
  { repeat (apply Msim_or; [|intros; auto using sim_md_feature, sim_md_scenario, sim_md_row, sim_md_comment, sim_md_language, sim_md_separator, sim_eof, sim_bullet]).
    - now apply sim_md_tags.
    - apply (sim_md_title d_background); auto; intros d; cbn; auto 10.
    - apply (sim_md_title d_examples); auto; intros d; cbn; auto 10.
    - apply (sim_md_title d_rule); auto; intros d; cbn; auto 10. }
  match goal with |- Msim (match ?a with _ => _ end) (match ?b with _ => _ end) => destruct a as [[r m1] t1], b as [[r' m1'] t1'] end.
  destruct S as [S1 [S2 [S3 [S4 S5]]]]. cbn [fst snd] in S1, S2, S3, S4, S5. subst r' m1'. destruct r as [b|e]; [|now apply Msim_err].
  destruct (negb b || g_is_empty (t_line t')); [|now apply Msim_false]. apply Msim_set; auto; [apply S4 | left; discriminate].
Qed.
Lemma sim_match k ms t t' : J ms -> Tr t t' -> Msim (do_match k ms t) (do_match k ms t').
Proof.
  intros H Ht. unfold do_match. pose proof (proj1 (proj1 H)) as M. rewrite M. destruct md eqn:Em; [|now apply sim_classic].
  rewrite <- Em in *. destruct k; cbn [md_match]; auto using sim_md_feature, sim_md_scenario, sim_md_row, sim_md_comment, sim_md_language, sim_md_separator, sim_eof, sim_bullet, sim_md_tags, sim_md_empty, sim_other.
  - apply (sim_md_title d_rule); auto; intros d; cbn; auto 10.
  - apply (sim_md_title d_background); auto; intros d; cbn; auto 10.
  - apply (sim_md_title d_examples); auto; intros d; cbn; auto 10.
Qed.

(** ** The conditions of [parse_b_rel2] that speak of the matcher *)
Lemma sim_read x x' n : eol x x' -> Tr (new_token x n) (new_token x' n).
Proof. intros H. unfold Tr, lines2. repeat (split; [first [exact H | reflexivity | split; [exact H | reflexivity]]|]). now right. Qed.
Lemma sim_end t t' : Tr t t' -> t_eof t = t_eof t'.
Proof. intros [[L _] _]. unfold t_eof. now rewrite (eol_bool _ _ L). Qed.
Lemma classic_line k ms t : t_line (snd (classic_match k ms t)) = t_line t.
Proof.
  assert (O : forall r f, t_line (snd r) = t_line t -> (forall m u, t_line (snd (f m u)) = t_line u) -> t_line (snd (m_or r f)) = t_line t).
  { intros [[[[]|] m] u] f H F; cbn in *; auto. now rewrite F. }
  assert (T : forall m u ty ks, t_line (snd (match_title m u ty ks)) = t_line u) by (intros; unfold match_title; destruct (find _ _); reflexivity).
  assert (P : forall nt sp op m u, t_line (snd (match_separator nt sp op m u)) = t_line u) by (intros; unfold match_separator; destruct (negb _); reflexivity).
  destruct k; cbn [classic_match]; auto.
  - unfold match_EOF. destruct (negb _); reflexivity.
  - unfold c_match_Empty. destruct (negb _); reflexivity.
  - unfold c_match_Comment. destruct (negb _); reflexivity.
  - unfold c_match_TagLine. destruct (negb _); [reflexivity|]. destruct (g_tags _); reflexivity.
  - unfold c_match_StepLine. destruct (find _ _); reflexivity.
  - unfold c_match_DocStringSeparator. destruct (ms_sep ms); auto.
  - unfold c_match_TableRow. destruct (negb _); [reflexivity|]. destruct (table_cells _); reflexivity.
  - unfold c_match_Language. destruct (re_match _ _) as [st|]; [|reflexivity]. destruct (group 1 st); [|reflexivity]. cbv zeta. destruct (change_dialect _ _ _); reflexivity.
Qed.
Lemma match_line k ms t : t_line (snd (do_match k ms t)) = t_line t.
Proof. unfold do_match. destruct (ms_md ms); [apply (kp_line _ _ _ (kept_match k ms t)) | apply classic_line]. Qed.
Lemma sim_soft k ms t : tok_soft (snd (do_match k ms t)) = tok_soft t.
Proof. unfold tok_soft. now rewrite match_line. Qed.
Lemma soft_eof t : tok_soft t = true -> t_eof t = false.
Proof. intros H. apply softb_iff in H as [_ H]. unfold t_eof, g_bool. now destruct (g_text (t_line t)). Qed.
Lemma soft_pipe t : tok_soft t = true -> g_startswith (t_line t) [ch_pipe] = false.
Proof. intros H. destruct (g_startswith _ _) eqn:E; [|reflexivity]. rewrite (not_soft_starts t [ch_pipe]) in H; [discriminate H | discriminate | exact E]. Qed.
Lemma soft_empty t : tok_soft t = true -> g_is_empty (t_line t) = true.
Proof. intros H. apply softb_iff in H. unfold g_is_empty, g_trimmed. now rewrite lstrip_soft. Qed.
Definition calmly (m : mstate -> token -> mret) : Prop := forall ms t, tok_soft t = true -> exists b, fst (fst (m ms t)) = Ok b.
Lemma calmly_or r f t : (exists b, fst (fst r) = Ok b) -> t_line (snd r) = t_line t -> tok_soft t = true -> calmly f -> exists b, fst (fst (m_or r f)) = Ok b.
Proof.
  destruct r as [[o m] u]. cbn. intros [b ->] L S F. destruct b; [now exists true|]. apply F. unfold tok_soft in *. now rewrite L.
Qed.
Lemma sim_blank ms t : J ms -> tok_soft t = true -> fst (fst (do_match TkEmpty ms t)) = Ok true.
Proof.
  intros H S. unfold do_match. destruct (ms_md ms); cbn [md_match classic_match].
  - unfold md_match_Empty. cbv zeta. match goal with |- fst (fst (match ?a with _ => _ end)) = _ => assert (C : exists b, fst (fst a) = Ok b) end.
    { assert (CT : forall p ks sf ty, calmly (fun m u => md_match_title p ks sf ty m u)) by (intros p ks sf ty m u _; unfold md_match_title; destruct (re_search _ _) as [[? ?]|]; eexists; reflexivity).
      assert (CP : forall nt sp op, calmly (match_separator nt sp op)) by (intros nt sp op m u _; unfold match_separator; destruct (negb _); eexists; reflexivity).
      assert (C1 : forall m, exists b, fst (fst (md_match_TagLine m t)) = Ok b) by (intros m; unfold md_match_TagLine; destruct (md_tags_go _ _ _ _); eexists; reflexivity).
      assert (C2 : calmly md_match_FeatureLine). { intros m u Su. unfold md_match_FeatureLine. destruct (ms_feature m); [now exists false|]. destruct (CT md_header (d_feature (ms_dialect m)) [ch_colon] TkFeatureLine m u Su) as [b E]. destruct (md_match_title _ _ _ _ m u) as [[r m1] u1]. cbn in E. subst r. destruct b; eexists; reflexivity. }
      assert (C3 : calmly md_match_ScenarioLine). { intros m u Su. unfold md_match_ScenarioLine. apply (calmly_or _ _ u); [now apply CT | apply (kp_line _ _ _ (kept_title _ _ _ _ _ _)) | exact Su|]. intros m' u' Su'. now apply CT. }
      assert (C4 : calmly md_match_BackgroundLine) by (intros m u Su; now apply CT). assert (C5 : calmly md_match_ExamplesLine) by (intros m u Su; now apply CT). assert (C6 : calmly md_match_RuleLine) by (intros m u Su; now apply CT).
      assert (C12 : calmly md_match_StepLine) by (intros m u Su; now apply CT).
      assert (C7 : calmly md_match_TableRow). { intros m u Su. unfold md_match_TableRow. rewrite get_line_0. destruct (re_match _ _) as [st|] eqn:E; [|now exists false]. apply table_re_starts in E. exfalso. pose proof (soft_pipe u Su) as X. unfold g_startswith, g_trimmed in X. congruence. }
      assert (C8 : calmly md_match_Comment). { intros m u Su. unfold md_match_Comment. rewrite (soft_pipe u Su). now exists false. }
      assert (C9 : calmly md_match_Language) by (intros m u Su; now exists false).
      assert (C10 : calmly md_match_DocStringSeparator). { intros m u Su. unfold md_match_DocStringSeparator. destruct (ms_sep m); [now apply CP|]. assert (PL : forall nt sp op m u, t_line (snd (match_separator nt sp op m u)) = t_line u) by (intros; unfold match_separator; destruct (negb _); reflexivity).
        apply (calmly_or _ _ u); [apply (calmly_or _ _ u); [now apply CP | apply PL | exact Su | apply CP] | | exact Su | apply CP].
        pose proof (PL (Some []) sep_quotes true m u) as Q. destruct (match_separator (Some []) sep_quotes true m u) as [[[[]|] ?] ?]; cbn [m_or]; auto. now rewrite PL. }
      assert (C11 : calmly match_EOF) by (intros m u Su; unfold match_EOF; destruct (negb _); eexists; reflexivity).
      assert (G : forall r f, (exists b, fst (fst r) = Ok b) /\ kept ms t r -> calmly f -> (forall ms t, kept ms t (f ms t)) -> (exists b, fst (fst (m_or r f)) = Ok b) /\ kept ms t (m_or r f)).
      { intros r f [A B] F K. split; [|now apply kept_or]. apply (calmly_or _ _ t); auto. apply (kp_line _ _ _ B). }
      match goal with |- ?P => enough (Q : P /\ kept ms t (m_or (m_or (m_or (m_or (m_or (m_or (m_or (m_or (m_or (m_or (m_or (md_match_TagLine ms t) md_match_FeatureLine) md_match_ScenarioLine) md_match_BackgroundLine) md_match_ExamplesLine) md_match_RuleLine) md_match_TableRow) md_match_Comment) md_match_Language) md_match_DocStringSeparator) match_EOF) md_match_StepLine)) by apply Q end.
      repeat (apply G; [|assumption | intros; auto using kept_feature, kept_scenario, kept_row, kept_comment, kept_eof, kept_separator; apply kept_title || apply kept_refl]).
      split; [apply C1 | apply kept_tag]. }
    match goal with |- fst (fst (match ?a with _ => _ end)) = _ => destruct a as [[r m1] t1] end. cbn in C. destruct C as [b ->]. rewrite (soft_empty t S), orb_true_r. reflexivity.
  - unfold c_match_Empty. rewrite (soft_empty t S). reflexivity.
Qed.
Lemma sim_unexpected t t' e : Tr t t' -> tok_soft t = false -> unexpected t e = unexpected t' e.
Proof.
  intros Ht S. pose proof (sim_end _ _ Ht) as E. pose proof Ht as [[L1 L2] T]. destruct T as [_ [_ [_ [_ [_ [_ C]]]]]]. destruct C as [C|C]; [rewrite S in C; discriminate C|].
  unfold unexpected, t_location. rewrite E, C, L2. destruct (t_eof t') eqn:F; [reflexivity|].
  assert (X : g_indent (t_line t) = g_indent (t_line t')) by (destruct (eol_indent _ _ L1) as [X|X]; [apply softb_not in S; contradiction | exact X]).
  rewrite X. assert (V : strip (token_value t) = strip (token_value t')) by (unfold token_value; rewrite E, F; exact (eol_strip _ _ L1)). now rewrite V.
Qed.

(** ** The builder does not see what [hide] removes *)
Definition unplace (l : location) : location := if md then mkLoc (l_line l) None else l.
Definition unplace_f (f : feature) : feature :=
  mkFeature (fe_tags f) (unplace (fe_loc f)) (fe_language f) (fe_keyword f) (fe_name f) (fe_desc f) (fe_background f) (fe_scenarios f) (fe_rules f).
Definition unplace_d (d : gdoc) : gdoc := mkGdoc (option_map unplace_f (gd_feature d)) (gd_comments d).
Fixpoint bi (k : key) (i : item) : item :=
  match i with
  | ITok t => ITok (hide k t)
  | INode r subs => INode r (map (fun p => match p with (k', i') => (k', bi k' i') end) subs)
  | IFeature f => IFeature (unplace_f f)
  | IGdoc d => IGdoc (unplace_d d)
  | i => i
  end.
Definition bsubs (l : list (key * item)) : list (key * item) := map (fun p => match p with (k', i') => (k', bi k' i') end) l.
Definition bn (n : node) : node := mkNode (n_rule n) (bsubs (n_subs n)).
Definition bmap (b : astb) : astb := mkAb (map bn (ab_stack b)) (ab_comments b) (ab_ids b).
Lemma bsubs_items l k : map snd (filter (fun p => key_eqb (fst p) k) (bsubs l)) = map (bi k) (map snd (filter (fun p => key_eqb (fst p) k) l)).
Proof.
  assert (KE : forall a b, key_eqb a b = true -> a = b).
  { intros [t|r|] [t'|r'|] H; try discriminate H; try reflexivity; cbn in H; f_equal; [destruct t, t'; try discriminate H; reflexivity | destruct r, r'; try discriminate H; reflexivity]. }
  induction l as [|[k' i] l IH]; [reflexivity|]. cbn [bsubs map filter fst]. destruct (key_eqb k' k) eqn:E; [|exact IH].
  apply KE in E. subst k'. cbn [map snd]. f_equal. exact IH.
Qed.
Lemma bn_items n k : get_items (bn n) k = map (bi k) (get_items n k).
Proof. unfold get_items. apply bsubs_items. Qed.
Lemma bn_single n k : get_single (bn n) k = option_map (bi k) (get_single n k).
Proof. unfold get_single. rewrite bn_items. now destruct (get_items n k). Qed.
Lemma bn_tokens n k : get_tokens (bn n) k = map (hide (KTok k)) (get_tokens n k).
Proof. unfold get_tokens. rewrite bn_items. induction (get_items n (KTok k)) as [|[] l IH]; cbn; auto. now f_equal. Qed.
Lemma bn_token n k : get_token (bn n) k = rbind (get_token n k) (fun t => Ok (hide (KTok k) t)).
Proof. unfold get_token. rewrite bn_single. destruct (get_single n (KTok k)) as [[]|]; reflexivity. Qed.
Lemma bn_node n r : get_node (bn n) r = option_map bn (get_node n r).
Proof. unfold get_node. rewrite bn_single. destruct (get_single n (KRule r)) as [[]|]; reflexivity. Qed.
Lemma bn_desc n : get_description (bn n) = get_description n.
Proof. unfold get_description. rewrite bn_single. destruct (get_single n _) as [[]|]; reflexivity. Qed.
Lemma bn_background n : get_background (bn n) = get_background n.
Proof. unfold get_background. rewrite bn_single. destruct (get_single n _) as [[]|]; reflexivity. Qed.
Lemma bn_flat {A} (f : item -> list A) k l : (forall i, f (bi k i) = f i) -> flat_map f (map (bi k) l) = flat_map f l.
Proof. intros H. induction l as [|i l IH]; [reflexivity|]. cbn. now rewrite H, IH. Qed.
Lemma bn_steps n : get_steps (bn n) = get_steps n.
Proof. unfold get_steps. rewrite bn_items. apply bn_flat. now intros []. Qed.
Lemma bn_examples n : get_examples (bn n) = get_examples n.
Proof. unfold get_examples. rewrite bn_items. apply bn_flat. now intros []. Qed.
Lemma bn_scenarios n : get_scenarios (bn n) = get_scenarios n.
Proof. unfold get_scenarios. rewrite bn_items. apply bn_flat. now intros []. Qed.
Lemma bn_rules n : get_rules (bn n) = get_rules n.
Proof. unfold get_rules. rewrite bn_items. apply bn_flat. now intros []. Qed.
Lemma hide_loc k t : k <> KTok TkFeatureLine -> t_location (hide k t) = t_location t.
Proof. intros H. unfold t_location, hide. cbn. destruct k as [[]|r|]; try reflexivity. now destruct H. Qed.
Lemma hide_tags t items : forall id, tags_of_items (hide (KTok TkTagLine) t) items id = tags_of_items t items id.
Proof. induction items as [|i l IH]; intros id; [reflexivity|]. cbn [tags_of_items]. rewrite IH. destruct (tags_of_items t l (S id)). reflexivity. Qed.
Lemma hide_tag_tokens ts : forall id, tags_of_tokens (map (hide (KTok TkTagLine)) ts) id = tags_of_tokens ts id.
Proof.
  induction ts as [|t ts IH]; intros id; [reflexivity|]. cbn [map tags_of_tokens]. change (t_items (hide (KTok TkTagLine) t)) with (t_items t). rewrite hide_tags.
  destruct (tags_of_items t (t_items t) id) as [l1 id1]. rewrite IH. reflexivity.
Qed.
Lemma bn_tags n id : get_tags (bn n) id = get_tags n id.
Proof.
  unfold get_tags. rewrite bn_single. destruct (get_single n (KRule RTags)) as [[]|]; cbn [option_map bi]; try reflexivity.
  change (tags_of_tokens (get_tokens (bn (mkNode r subs)) TkTagLine) id = tags_of_tokens (get_tokens (mkNode r subs) TkTagLine) id). rewrite bn_tokens. apply hide_tag_tokens.
Qed.
Lemma hide_rows ts : forall id, rows_of_tokens (map (hide (KTok TkTableRow)) ts) id = rows_of_tokens ts id.
Proof. induction ts as [|t ts IH]; intros id; [reflexivity|]. cbn [map rows_of_tokens]. rewrite IH. reflexivity. Qed.
Lemma bn_rows n id : get_table_rows (bn n) id = get_table_rows n id.
Proof. unfold get_table_rows. rewrite bn_tokens, hide_rows. reflexivity. Qed.
Lemma hide_last k l : last_non_empty (map (hide k) l) = last_non_empty l.
Proof. induction l as [|t l IH]; [reflexivity|]. cbn [map last_non_empty]. rewrite IH. reflexivity. Qed.
Lemma hide_texts k l : map text_of (map (hide k) l) = map text_of l.
Proof. rewrite map_map. reflexivity. Qed.
Definition map_fst {A B C} (f : A -> B) (p : result A * C) : result B * C := (rbind (fst p) (fun a => Ok (f a)), snd p).
Lemma bn_transform n cs id : transform_node (bn n) cs id = map_fst (bi (KRule (n_rule n))) (transform_node n cs id).
Proof.
  unfold transform_node. change (n_rule (bn n)) with (n_rule n). destruct (n_rule n) eqn:R; try (unfold map_fst; cbn [fst snd rbind bi]; reflexivity).
  - rewrite bn_single. destruct (get_single n (KRule RFeature)) as [[]|]; reflexivity.
  - rewrite bn_node. destruct (get_node n RFeatureHeader) as [h|]; cbn [option_map]; [|reflexivity]. rewrite bn_tags. destruct (get_tags h id) as [tags id1]. rewrite bn_token.
    destruct (get_token h TkFeatureLine) as [line|]; cbn [rbind]; [|reflexivity]. rewrite bn_desc, bn_background, bn_scenarios, bn_rules. unfold map_fst. cbn [fst snd rbind bi]. unfold unplace_f. cbn [fe_tags fe_loc fe_language fe_keyword fe_name fe_desc fe_background fe_scenarios fe_rules].
    unfold unplace, t_location, hide. cbn. destruct md; reflexivity.
  - rewrite bn_node. destruct (get_node n RRuleHeader) as [h|]; cbn [option_map]; [|reflexivity]. rewrite bn_tags. destruct (get_tags h id) as [tags id1]. rewrite bn_token.
    destruct (get_token h TkRuleLine) as [line|]; cbn [rbind]; [|reflexivity]. rewrite bn_desc, bn_background, bn_scenarios. reflexivity.
  - rewrite bn_token. destruct (get_token n TkBackgroundLine) as [line|]; cbn [rbind]; [|reflexivity]. rewrite bn_desc, bn_steps. reflexivity.
  - rewrite bn_tags. destruct (get_tags n id) as [tags id1]. rewrite bn_node. destruct (get_node n RScenario) as [h|]; cbn [option_map]; [|reflexivity]. rewrite bn_token.
    destruct (get_token h TkScenarioLine) as [line|]; cbn [rbind]; [|reflexivity]. rewrite bn_desc, bn_steps, bn_examples. reflexivity.
  - rewrite bn_tags. destruct (get_tags n id) as [tags id1]. rewrite bn_node. destruct (get_node n RExamples) as [h|]; cbn [option_map]; [|reflexivity]. rewrite bn_token.
    destruct (get_token h TkExamplesLine) as [line|]; cbn [rbind]; [|reflexivity]. rewrite bn_desc, bn_single. destruct (get_single h (KRule RExamplesTable)) as [[]|]; reflexivity.
  - rewrite bn_rows. destruct (get_table_rows n id) as [[]]; reflexivity.
  - rewrite bn_token. destruct (get_token n TkStepLine) as [line|]; cbn [rbind]; [|reflexivity]. rewrite !bn_single.
    destruct (get_single n (KRule RDataTable)) as [[]|]; try reflexivity; cbn [option_map bi]; destruct (get_single n (KRule RDocString)) as [[]|]; reflexivity.
  - rewrite bn_rows. destruct (get_table_rows n id) as [[[|]|]]; reflexivity.
  - rewrite !bn_tokens. destruct (get_tokens n TkDocStringSeparator) as [|t l]; [reflexivity|]. cbn [map]. change (t_text (hide (KTok TkDocStringSeparator) t)) with (t_text t). rewrite hide_texts. destruct (t_text t) as [[|]|]; reflexivity.
  - rewrite bn_tokens, hide_last. destruct (last_non_empty _); [|reflexivity]. rewrite firstn_map, hide_texts. reflexivity.
Qed.
Definition RB (b b' : astb) : Prop := bmap b = bmap b'.
Lemma bmap_start r b : bmap (snd (ab_start_rule r b)) = mkAb (mkNode r [] :: ab_stack (bmap b)) (ab_comments (bmap b)) (ab_ids (bmap b)).
Proof. reflexivity. Qed.
Lemma bmap_end r b : ab_end_rule r (bmap b) = (fst (ab_end_rule r b), bmap (snd (ab_end_rule r b))).
Proof.
  destruct b as [st cs ids]. unfold ab_end_rule, bmap. cbn [ab_stack ab_comments ab_ids]. destruct st as [|n [|p st]]; [reflexivity | reflexivity|]. cbn [map]. rewrite bn_transform.
  destruct (transform_node n cs ids) as [[i|e] ids']; unfold map_fst; cbn [fst snd rbind]; [|reflexivity]. unfold bn at 1, n_add. cbn [n_rule n_subs fst snd ab_stack ab_comments ab_ids map].
  unfold bn. cbn [n_rule n_subs]. unfold bsubs. rewrite map_app. reflexivity.
Qed.
Lemma sim_b_start r : resp2 RB (ab_start_rule r) (ab_start_rule r).
Proof. intros b1 b2 H. unfold RB in *. split; [reflexivity|]. now rewrite !bmap_start, H. Qed.
Lemma sim_b_end r : resp2 RB (ab_end_rule r) (ab_end_rule r).
Proof.
  intros b1 b2 H. unfold RB in *. pose proof (bmap_end r b1) as E1. pose proof (bmap_end r b2) as E2. rewrite H, E2 in E1. split; [exact (eq_sym (f_equal fst E1)) | exact (eq_sym (f_equal snd E1))].
Qed.
Lemma sim_b_build t t' : Bt t t' -> resp2 RB (ab_build t) (ab_build t').
Proof.
  intros Ht b1 b2 H. unfold RB in *. destruct b1 as [s1 c1 i1], b2 as [s2 c2 i2]. unfold bmap in *. cbn [ab_stack ab_comments ab_ids] in *. injection H as H1 H2 H3. subst c2 i2.
  unfold Bt in Ht. assert (M : t_mtype t = t_mtype t') by (injection Ht; auto).
  assert (K : key_of t = key_of t') by (unfold key_of; now rewrite M). unfold ab_build. cbn [ab_stack ab_comments ab_ids].
  assert (G : forall k, k = key_of t -> bn (n_add (mkNode RNone []) k (ITok t)) = bn (n_add (mkNode RNone []) k (ITok t'))).
  { intros k ->. unfold bn, n_add, bsubs. cbn [n_rule n_subs app map bi]. rewrite Ht, <- K. reflexivity. }
  assert (GG : forall k, k = key_of t -> 
    fst (match s1 with [] => (Err EIndexError, mkAb s1 c1 i1) | n :: st => (Ok tt, mkAb (n_add n k (ITok t) :: st) c1 i1) end) = fst (match s2 with [] => (Err EIndexError, mkAb s2 c1 i1) | n :: st => (Ok tt, mkAb (n_add n k (ITok t') :: st) c1 i1) end) /\
    bmap (snd (match s1 with [] => (Err EIndexError, mkAb s1 c1 i1) | n :: st => (@Ok unit tt, mkAb (n_add n k (ITok t) :: st) c1 i1) end)) = bmap (snd (match s2 with [] => (Err EIndexError, mkAb s2 c1 i1) | n :: st => (@Ok unit tt, mkAb (n_add n k (ITok t') :: st) c1 i1) end))).
  { intros k ->. destruct s1 as [|n1 s1], s2 as [|n2 s2]; try discriminate H1; [split; reflexivity|]. split; [reflexivity|]. cbn [map] in H1. injection H1 as H1 H4 H5. unfold bmap. cbn [snd ab_stack ab_comments ab_ids map].
    f_equal. f_equal; [|exact H5]. unfold bn, n_add. cbn [n_rule n_subs]. unfold bsubs in *. rewrite !map_app. cbn [map bi]. rewrite H1, H4, Ht, <- K. reflexivity. }
  destruct (t_mtype t) as [k|] eqn:Mt; rewrite <- M; [destruct k|]; try (apply GG; unfold key_of; rewrite Mt; reflexivity).
  split; [reflexivity|]. unfold bmap. cbn [snd ab_stack ab_comments ab_ids]. f_equal; [exact H1|]. f_equal. f_equal.
  unfold key_of in Ht. rewrite Mt, <- M in Ht. unfold hide in Ht. injection Ht as A B C D E. unfold t_location. congruence.
Qed.
Lemma bmap_result b : ab_get_result (bmap b) = rbind (ab_get_result b) (fun d => Ok (unplace_d d)).
Proof.
  destruct b as [[|n st] cs ids]; [reflexivity|]. unfold ab_get_result, bmap. cbn [ab_stack map]. rewrite bn_single. destruct (get_single n _) as [[]|]; reflexivity.
Qed.
Lemma table_soft q st : ptable q = Some st -> existsb takes_soft (st_trans st) = true.
Proof. apply (all_states_spec (fun _ st => existsb takes_soft (st_trans st))). vm_compute. reflexivity. Qed.

Theorem parse_lines_eol stop ids ms lines lines' : minv md lang ms -> Forall2 eol lines lines' ->
  rbind (fst (parse_lines stop ids ms lines)) (fun d => Ok (unplace_d d)) = rbind (fst (parse_lines stop ids ms lines')) (fun d => Ok (unplace_d d)).
Proof.
  intros H L. unfold parse_lines.
  assert (HJ : forall ms0, ms_reset ms = Ok ms0 -> J ms0).
  { intros ms0 E. split.
    - unfold ms_reset, change_dialect in E. destruct H as [H1 [H2 H3]].
      destruct (str_eqb (ms_name ms) (ms_default ms)); [injection E as <-; repeat split; assumption|]. destruct (for_name (ms_default ms)) as [dd|] eqn:F; [|discriminate E]. injection E as <-. repeat split; assumption.
    - unfold ms_reset, change_dialect in E. destruct (str_eqb (ms_name ms) (ms_default ms)); [injection E as <-; exact I|]. destruct (for_name (ms_default ms)); [|discriminate E]. injection E as <-. exact I. }
  destruct (parse_b_rel2 ast_builder RB J eol Tr Bt tok_soft sim_b_start sim_b_end sim_b_build ltac:(reflexivity) sim_read ltac:(exists [], [], []; unfold ends; split; [intros []|]; tauto) sim_end sim_match sim_soft soft_eof sim_blank sim_unexpected table_soft
    stop (ab_reset ids) (ab_reset ids) ms lines lines' eq_refl L HJ) as [E1 E2].
  destruct (ms_reset ms) as [ms0|e] eqn:MR.
  - specialize (E2 ms0 eq_refl). destruct (parse_b ast_builder stop _ ms lines) as [r c], (parse_b ast_builder stop _ ms lines') as [r' c']. cbn [fst snd] in *. subst r'. destruct r; [|reflexivity]. cbn [rbind].
    rewrite <- !bmap_result. assert (RB (c_b c) (c_b c')) as R by apply E2. unfold RB in R. now rewrite R.
  - unfold parse_b in *. rewrite MR in *. reflexivity.
Qed.
End EolRun.
