(** * One line in both notations: the content of its token (for C68) *)
From Verif Require Import PyStr PyStrFacts Types Regex RegexFacts ReSem Line DialectData Matcher Ast ParserTable Parser Classify Scan LineSpec StepFacts LangSpec LangFacts TagIff MdSpec MdFacts MdRun MdTags PropMarkdown TransSpec Flat TransFacts TransPair.
From Verif Require Eol.
Local Open Scope N_scope.

Section Match.
Context (lang : str) (d : dialect) (Hd : for_name lang = Some d).
Local Notation okm := (okm lang d).

(** ** The class of the classic line *)
Lemma lstrip_vis c y : is_space c = false -> lstrip (c :: y) = c :: y.
Proof. intros H. unfold lstrip, lstrip_by. cbn [drop_while]. now rewrite H. Qed.
Lemma lstrip_kw kw y : visible kw = true -> lstrip (kw ++ y) = kw ++ y.
Proof. destruct kw as [|c kw]; [discriminate|]. cbn [visible]. intros H. apply negb_true_iff in H. cbn [app]. now apply lstrip_vis. Qed.
Definition lined (κ : kind) : bool := match κ with LText _ | LClose _ => false | _ => true end.
Lemma class κ x y : lined κ = true -> stands d κ x y -> y <> [] /\ classify d (lstrip y) = kind_tok κ.
Proof.
  assert (Ok : dialect_ok d = true) by (eapply for_name_ok; exact Hd).
  assert (H1 : forall k p z, In p (starts d k) -> startswith p z = true -> classify d z = k).
  { intros k p z I S. apply (has_classify d Ok). unfold has. apply existsb_exists. exists p. auto. }
  intros L H. destruct H as [x Hn Ho P | x n cells Ho T P C S | ind l Hi Hl Hok Ho | k ind h c kw rest e K I Hi Hh Hc Hn Hr He T | x ind b gap rest kw Ho T Hb I Hs
    | x n ind rest cells Ho T Hi Hlen -> C S | q x P1 P2 | q x P1 P2 | q x P]; try discriminate L; cbn [kind_tok].
  - split; [discriminate | reflexivity].
  - split; [discriminate|]. apply (H1 _ [ch_hash]); [now left | reflexivity].
  - destruct l as [|[n g] l]; [contradiction|]. split; [discriminate|]. apply (H1 _ [ch_at]); [now left | reflexivity].
  - destruct (kw_line lang d Hd k kw K I) as [_ V]. split; [destruct kw; [discriminate V | discriminate]|]. rewrite lstrip_kw by exact V.
    apply (H1 _ (kw ++ [ch_colon])); [|rewrite app_assoc; apply startswith_app].
    cbn in K. destruct K as [<- | [<- | [<- | [<- | [<- | []]]]]]; cbn [starts head_keywords title_keywords] in *; unfold with_colon; apply (in_map (fun k => k ++ [ch_colon])); exact I.
  - destruct Hb as [_ [_ [_ [Hr _]]]]. pose proof Hs as Hs2. apply startswith_spec in Hs2 as [z Hz].
    assert (V : visible kw = true).
    { pose proof visible_kws as V. rewrite forallb_forall in V. pose proof Hd as H. apply for_name_in in H. specialize (V _ H). cbn [snd] in V. apply andb_true_iff in V as [V _]. rewrite forallb_forall in V. now apply V. }
    destruct rest as [|c rest]; [destruct kw; [discriminate V | discriminate Hs]|]. split; [discriminate|]. rewrite lstrip_vis by exact Hr. apply (H1 _ kw); [exact I | exact Hs].
  - split; [intros F; now apply app_eq_nil in F as [_ F]|]. apply (H1 _ [ch_pipe]); [now left|]. apply (begins_iff [ch_pipe]); [reflexivity|]. exists ind, rest. auto.
  - split; [intros ->; destruct P1 as [ind [rest [_ P]]]; symmetry in P; apply app_eq_nil in P as [_ P]; destruct q; discriminate P|]. apply (H1 _ (delimiter q)); [destruct q; cbn; auto|]. apply begins_iff; [destruct q; reflexivity | exact P1].
Qed.
Record okc (ms : mstate) : Prop := mkOkc { oc_md : ms_md ms = false; oc_name : ms_name ms = lang; oc_dialect : ms_dialect ms = d }.
Lemma okc_good ms : okc ms -> Scan.good ms.
Proof. intros [A B C]. split; [exact A|]. rewrite C. eapply for_name_ok; exact Hd. Qed.
Lemma c_no κ x y k ms t : lined κ = true -> stands d κ x y -> okc ms -> g_text (t_line t) = y -> plain k = true -> tok_eqb (kind_tok κ) k = false -> classic_match k ms t = (Ok false, ms, t).
Proof.
  intros L H M Ht P N. apply (classic_false ms (okc_good ms M) k t y (g_number (t_line t))); [exact P | now apply line_of|].
  unfold cls. rewrite (oc_dialect _ M). destruct (class κ x y L H) as [_ ->]. intros E. rewrite E in N. now rewrite tok_eqb_refl in N.
Qed.
Lemma c_no_sep κ x y ms t : lined κ = true -> stands d κ x y -> okc ms -> ms_sep ms = None -> g_text (t_line t) = y -> tok_eqb (kind_tok κ) TkDocStringSeparator = false ->
  classic_match TkDocStringSeparator ms t = (Ok false, ms, t).
Proof.
  intros L H M S Ht N. destruct (class κ x y L H) as [_ C]. assert (F : has d TkDocStringSeparator (lstrip y) = false).
  { apply (has_false d); [eapply for_name_ok; exact Hd|]. rewrite C. intros E. rewrite E in N. discriminate N. }
  unfold has in F. cbn [starts existsb] in F. rewrite orb_false_r in F. apply orb_false_iff in F as [F1 F2].
  cbn [classic_match]. unfold c_match_DocStringSeparator. rewrite S. unfold match_separator, g_startswith, g_trimmed. rewrite Ht, F1. cbn [negb m_or]. rewrite Ht, F2. reflexivity.
Qed.
Lemma c_no_language x ms t : first x <> Some ch_hash -> g_text (t_line t) = x -> classic_match TkLanguage ms t = (Ok false, ms, t).
Proof.
  intros F Ht. cbn [classic_match]. unfold c_match_Language. change (get_line_text (t_line t) (-1)) with (lstrip (g_text (t_line t))). rewrite Ht. pose proof (language_re x) as R.
  destruct (re_match LANGUAGE_RE (lstrip x)); [|reflexivity]. destruct R as [name [_ [a [b [c [d0 [e [-> [Ha _]]]]]]]]]. destruct F. cbn [s app]. now apply first_app.
Qed.
Lemma c_no_eof x ms t : x <> [] -> g_text (t_line t) = x -> match_EOF ms t = (Ok false, ms, t).
Proof. intros H Ht. unfold match_EOF, t_eof, g_bool. rewrite Ht. destruct x; [contradiction | reflexivity]. Qed.

(** ** The content *)
Definition mkflat (n : nat) (k : tok) (text : option str) (items : list str) (kw : option str) (kt : option ktype) : token :=
  mkTok (mkLine [] 0) n None (Some k) text (map (mkItem 0) items) kw kt 0%Z (Some lang).

Lemma md_title_more p kws suf ty ms t ms1 t1 : md_match_title p kws suf ty ms t = (Ok true, ms1, t1) -> ms1 = ms /\ same_line t1 t /\ t_items t1 = [] /\ t_dialect t1 = Some (ms_name ms).
Proof. unfold md_match_title. destruct (re_search _ _) as [[? ?]|]; [|discriminate]. intros H. injection H as <- <-. repeat split. Qed.
Lemma md_kind_more k ms t ms1 t1 : In k (TkStepLine :: md_title_kinds) -> md_match k ms t = (Ok true, ms1, t1) -> ms1 = ms /\ same_line t1 t /\ t_items t1 = [] /\ t_dialect t1 = Some (ms_name ms).
Proof.
  cbn. intros [<- | [<- | [<- | [<- | [<- | []]]]]]; cbn [md_match]; try (apply md_title_more).
  unfold md_match_ScenarioLine. pose proof (md_title_more md_header (d_scenario (ms_dialect ms)) [ch_colon] TkScenarioLine ms t) as A.
  destruct (md_match_title md_header (d_scenario (ms_dialect ms)) [ch_colon] TkScenarioLine ms t) as [[[[|]|] ms2] t2] eqn:E; cbn [m_or].
  - intros H. injection H as <- <-. now apply A.
  - assert (ms2 = ms /\ t2 = t) as [-> ->] by (unfold md_match_title in E; destruct (re_search _ _) as [[? ?]|]; [discriminate E|]; injection E as <- <-; split; reflexivity). apply md_title_more.
  - discriminate.
Qed.
Definition title_kind (k : tok) : bool := match k with TkFeatureLine | TkRuleLine | TkBackgroundLine | TkScenarioLine | TkExamplesLine => true | _ => false end.
Lemma flat_title k t kw name : title_kind k = true -> t_mtype t = Some k -> t_items t = [] -> t_dialect t = Some lang -> t_keyword t = Some kw -> t_text t = Some name ->
  flat_tok d t = mkflat (t_loc_line t) k (Some name) [] (Some kw) None.
Proof. intros K A B C D E. unfold flat_tok, mkflat. rewrite A, B, C, D, E. destruct k; try discriminate K; reflexivity. Qed.
Lemma tags_text_iff x items : forall ms t, g_text (t_line t) = x -> md_tags 0 x items -> items <> [] -> exists t1, md_match_TagLine ms t = (Ok true, ms, t1) /\ same_line t1 t /\
  t_mtype t1 = Some TkTagLine /\ t_text t1 = None /\ t_keyword t1 = None /\ t_dialect t1 = Some (ms_name ms) /\ map i_text (t_items t1) = map snd items.
Proof.
  intros ms t Ht H Hn. pose proof (tag_line_items t) as T. rewrite Ht in T. pose proof (tags_fun _ _ _ T _ H) as E. unfold md_match_TagLine.
  destruct (md_tags_go _ _ _ _) as [|i l]; [cbn in E; congruence|]. eexists. split; [reflexivity|]. split; [split; reflexivity|]. repeat split. rewrite <- E, map_map. reflexivity.
Qed.
Lemma space_no_tag w : all_space w -> ~ has_md_tag w.
Proof.
  intros H [p [v [q [_ [_ ->]]]]]. unfold all_space in H. rewrite forallb_app in H. apply andb_true_iff in H as [_ H]. discriminate H.
Qed.
Lemma md_tags_line l : (forall name gap, In (name, gap) l -> tag_name_ok name /\ name <> [] /\ ~ In ch_btick name /\ all_space gap) -> forall ind p, all_space ind ->
  exists items, md_tags p (ind ++ md_tags_text l) items /\ map snd items = map (fun q => ch_at :: fst q) l.
Proof.
  induction l as [|[n g] l IH]; intros Hok ind p Hi.
  - exists []. split; [|reflexivity]. cbn [md_tags_text flat_map]. rewrite app_nil_r. constructor. now apply space_no_tag.
  - destruct (Hok n g) as [_ [O1 [O2 O3]]]; [now left|].
    destruct (IH ltac:(intros; apply Hok; now right) g (p + length ind + length n + 3)%nat O3) as [items [I1 I2]].
    exists ((p + length ind + 2, [ch_at] ++ n)%nat :: items). split; [|cbn [map snd fst app]; now rewrite I2].
    cbn [md_tags_text flat_map fst snd]. change (flat_map (fun p0 => s "`@" ++ fst p0 ++ s "`" ++ snd p0) l) with (md_tags_text l).
    replace (ind ++ (s "`@" ++ n ++ s "`" ++ g) ++ md_tags_text l) with (ind ++ ([ch_btick; ch_at] ++ n ++ [ch_btick] ++ (g ++ md_tags_text l))) by (rewrite <- !app_assoc; reflexivity).
    econstructor; [split; [exact O1 | split; [exact O2 | reflexivity]] | | exact I1].
    intros a b -> Hb v' q' [_ [_ E]]. destruct b as [|c b]; [contradiction|]. cbn [app] in E. injection E as Ec _. unfold all_space in Hi. rewrite forallb_app in Hi. apply andb_true_iff in Hi as [_ Hi]. cbn [forallb] in Hi. rewrite Ec in Hi. discriminate Hi.
Qed.
Fixpoint rts (l : list (str * str)) : list rtag :=
  match l with
  | [] => []
  | [(n, _)] => [mkRtag [] n (s " " ++ [ch_nl])]
  | (n, _) :: l' => mkRtag [] n (s " ") :: rts l'
  end.
Lemma rts_text l : l <> [] -> classic_tags_text l = rtags_text (rts l).
Proof.
  unfold classic_tags_text. induction l as [|[n g] [|[n2 g2] l] IH]; intros H; [contradiction| |].
  - cbn [rts flat_map rtags_text rtag_text rt_lead rt_name rt_sep fst app]. rewrite !app_nil_r, <- !app_assoc. reflexivity.
  - change (rts ((n, g) :: (n2, g2) :: l)) with (mkRtag [] n (s " ") :: rts ((n2, g2) :: l)). cbn [rtags_text]. change (rtags_text (mkRtag [] n (s " ") :: rts ((n2, g2) :: l))) with (rtag_text (mkRtag [] n (s " ")) ++ rtags_text (rts ((n2, g2) :: l))).
    rewrite <- IH by discriminate. unfold rtag_text. cbn [flat_map fst rt_lead rt_name rt_sep app]. rewrite <- !app_assoc. reflexivity.
Qed.
Lemma rts_ok l : (forall name gap, In (name, gap) l -> tag_name_ok name) -> Forall rtag_ok (rts l).
Proof.
  induction l as [|[n g] [|[n2 g2] l] IH]; intros H; [constructor| |].
  - constructor; [|constructor]. repeat split; [apply (H n g); now left | now left].
  - change (rts ((n, g) :: (n2, g2) :: l)) with (mkRtag [] n (s " ") :: rts ((n2, g2) :: l)). constructor; [|apply IH; intros; eapply H; right; eassumption]. repeat split; [apply (H n g); now left | now left].
Qed.
Lemma rts_items l : forall p, map i_text (rtags_at p (rts l)) = map (fun q => ch_at :: fst q) l.
Proof.
  induction l as [|[n g] [|[n2 g2] l] IH]; intros p; [reflexivity | reflexivity|].
  change (rts ((n, g) :: (n2, g2) :: l)) with (mkRtag [] n (s " ") :: rts ((n2, g2) :: l)). cbn [rtags_at map i_text]. rewrite IH. reflexivity.
Qed.
Lemma g_tags_line l : l <> [] -> (forall name gap, In (name, gap) l -> tag_name_ok name) -> exists items, g_tags (mkLine (classic_tags_text l) 0) = Ok items /\ map i_text items = map (fun q => ch_at :: fst q) l.
Proof.
  intros Hl H. exists (rtags_at 0 (rts l)). split; [|apply rts_items]. rewrite rts_text by exact Hl.
  destruct (g_tags_complete [] (rts l) [] 0) as [_ E].
  - split; [reflexivity|]. split; [destruct l as [|[? ?] [|[? ?] ?]]; [contradiction | discriminate | discriminate]|]. split; [now apply rts_ok | now left].
  - cbn [app length] in E. rewrite app_nil_r in E. exact E.
Qed.
Lemma strip_line_end y e : line_end e -> strip (y ++ e) = strip y.
Proof.
  intros [-> | ->]; [now rewrite app_nil_r|]. now apply Eol.strip_tail.
Qed.
End Match.
