(** * One match attempt in both notations (for C68) *)
From Verif Require Import PyStr PyStrFacts Types Regex RegexFacts ReSem Line DialectData Matcher Ast ParserTable Parser Classify Scan LineSpec StepFacts LangSpec LangFacts TagIff MdSpec MdFacts MdRun MdTags PropMarkdown TransSpec Flat TransFacts TransPair TransMatch.
From Verif Require Eol.
Local Open Scope N_scope.

Section Step.
Context (lang : str) (d : dialect) (Hd : for_name lang = Some d).
Local Notation okm := (okm lang d).
Local Notation okc := (okc lang d).
Local Notation mkflat := (mkflat lang).

Lemma empty_shape ms t ms1 t1 : md_match_Empty ms t = (Ok true, ms1, t1) -> exists t0, t1 = set_matched ms1 t0 (Some TkEmpty) None None None (Some 0%nat) [].
Proof.
  unfold md_match_Empty. fold (or_chain ms t). destruct (or_chain ms t) as [[[b|e] ms2] t2]; [|discriminate]. destruct (negb b || g_is_empty (t_line t)); [|discriminate].
  intros H. injection H as <- <-. now exists t2.
Qed.
Definition both (κ : kind) (m m' : mret) (ms ms' : mstate) (t t' : token) : Prop :=
  exists t1 t1', m = (Ok true, ms, t1) /\ m' = (Ok true, ms', t1') /\ same_line t1 t /\ same_line t1' t' /\
    flat_tok d t1 = flat_tok d t1' /\ t_mtype t1 = Some (kind_tok κ) /\ t_mtype t1' = Some (kind_tok κ).
Lemma title_classic k kws ms t kw rest : k = k -> Forall (fun w => ~ In ch_colon w) kws -> In kw kws -> visible kw = true -> g_text (t_line t) = kw ++ s ":" ++ rest ->
  match_title ms t k kws = (Ok true, ms, set_matched ms t (Some k) (Some (strip rest)) (Some kw) None None []).
Proof.
  intros _ Hc I V Ht. assert (L : g_trimmed (t_line t) = kw ++ s ":" ++ rest) by (unfold g_trimmed; rewrite Ht; now apply lstrip_kw).
  assert (F : find (startswith_title_keyword (t_line t)) kws = Some kw).
  { destruct (find (startswith_title_keyword (t_line t)) kws) as [w|] eqn:E.
    - apply find_some in E as [E1 E2]. unfold startswith_title_keyword in E2. rewrite L in E2. apply startswith_spec in E2 as [z E2]. rewrite <- app_assoc in E2.
      rewrite Forall_forall in Hc. f_equal. symmetry. eapply (colon_inj kw w rest z); auto.
    - pose proof (find_none _ _ E kw I) as N. unfold startswith_title_keyword in N. rewrite L, app_assoc in N. change (s ":") with [ch_colon] in N. rewrite startswith_app in N. discriminate N. }
  unfold match_title. rewrite F. unfold get_rest_trimmed. rewrite L. do 3 f_equal. f_equal. rewrite skipn_app, skipn_all2 by lia. replace (length kw + 1 - length kw)%nat with 1%nat by lia. reflexivity.
Qed.
Lemma classic_head k ms t kw rest : okc ms -> In k (TkFeatureLine :: md_title_kinds) -> In kw (head_keywords d k) -> g_text (t_line t) = kw ++ s ":" ++ rest ->
  classic_match k ms t = (Ok true, ms, set_matched ms t (Some k) (Some (strip rest)) (Some kw) None None []).
Proof.
  intros [_ _ D] K I Ht. destruct (kw_line lang d Hd k kw K I) as [_ V]. destruct (colon_free _ (kinds_kws lang d Hd k K)) as [_ C]. apply Forall_forall in C.
  cbn in K. destruct K as [<- | [<- | [<- | [<- | [<- | []]]]]]; cbn [head_keywords title_keywords] in *; cbn [classic_match]; rewrite D.
  - now apply title_classic.
  - now apply title_classic.
  - now apply title_classic.
  - assert (M : forall m t ty k1 k2, m_or (match_title m t ty k1) (fun m t => match_title m t ty k2) = match_title m t ty (k1 ++ k2)).
    { intros m t0 ty k1 k2. unfold match_title. assert (F : forall f, find f (k1 ++ k2) = match find f k1 with Some k => Some k | None => find f k2 end).
      { intros f. induction k1 as [|a k1 IH]; [reflexivity|]. cbn [app find]. destruct (f a); [reflexivity | exact IH]. }
      rewrite F. destruct (find (startswith_title_keyword (t_line t0)) k1); reflexivity. }
    rewrite M. now apply title_classic.
  - now apply title_classic.
Qed.
Lemma body_yes κ x y ms ms' t t' : body_kind κ = true -> stands d κ x y -> okm ms -> okc ms' ->
  g_text (t_line t) = x -> g_text (t_line t') = y -> t_loc_line t = t_loc_line t' ->
  both κ (md_match (kind_tok κ) ms t) (classic_match (kind_tok κ) ms' t') ms ms' t t'.
Proof.
  intros B H M M' Ht Ht' Hl. pose proof (stands_profile lang d Hd κ x y B H) as PR. pose proof (class lang d Hd κ x y) as CL.
  pose proof M as [_ MN MD MF MS]. pose proof M' as [_ MN' MD'].
  destruct H as [x Hn Ho P | x n cells Ho T P C S | ind l Hi Hll Hok Ho | k ind h c kw rest e K I Hi Hh Hc Hn Hr He T | x ind b gap rest kw Ho T Hb I Hs
    | x n ind rest cells Ho T Hi Hlen -> C S | q x P1 P2 | q x P1 P2 | q x P]; try discriminate B; cbn [kind_tok] in *.
  - destruct (profile_empty lang d x LBlank eq_refl PR ms t M Ht) as [t1 [E S]]. cbn [does kind_tok tok_eqb] in E. cbn [md_match classic_match]. rewrite E. pose proof (empty_shape _ _ _ _ E) as [t0 E0].
    eexists _, _. split; [reflexivity|]. unfold c_match_Empty, g_is_empty, g_trimmed. rewrite Ht'. cbn [lstrip]. split; [reflexivity|]. split; [exact S|]. split; [split; reflexivity|].
    destruct S as [S1 S2]. subst t1. cbn [set_matched t_loc_line] in S2. split; [|split; reflexivity]. unfold flat_tok. cbn. now rewrite S2, Hl, MN, MN'.
  - cbn [md_match classic_match]. unfold md_match_Comment. rewrite (pipe_starts t x Ht P), (gtext_cells t x Ht), (table_cells_number x 0 n), C. rewrite (proj2 (gfm_iff cells) S).
    eexists _, _. split; [reflexivity|]. unfold c_match_Comment, g_startswith, g_trimmed. rewrite Ht'. split; [reflexivity|]. split; [split; reflexivity|]. split; [split; reflexivity|].
    split; [|split; reflexivity]. unfold flat_tok. cbn. now rewrite Hl, MN, MN'.
  - cbn [md_match classic_match]. destruct (md_tags_line l Hok ind 0 Hi) as [items [I1 I2]]. destruct (g_tags_line l Hll ltac:(intros n g Hng; apply (Hok n g Hng))) as [gi [G1 G2]].
    destruct (tags_text_iff _ items ms t Ht I1) as [t1 [E [S [A1 [A2 [A3 [A4 A5]]]]]]].
    { intros ->. destruct l; [contradiction | discriminate I2]. }
    rewrite E. eexists _, _. split; [reflexivity|]. unfold c_match_TagLine. rewrite (gtext_tags t' _ Ht'), G1.
    replace (g_startswith (t_line t') [ch_at]) with true. 2: { unfold g_startswith, g_trimmed. rewrite Ht'. destruct l as [|[n g] l]; [contradiction | reflexivity]. }
    split; [reflexivity|]. split; [exact S|]. split; [split; reflexivity|]. split; [|split; [exact A1 | reflexivity]].
    unfold flat_tok. rewrite A1, A2, A3, A4, MN. destruct S as [_ S2]. rewrite S2, Hl. cbn. rewrite MN'. f_equal.
    rewrite <- (map_map i_text (mkItem 0)), <- (map_map i_text (mkItem 0) gi). f_equal. now rewrite A5, I2, G2.
  - assert (K2 : In k md_title_kinds) by (destruct K as [<- | K]; [discriminate B | exact K]).
    assert (EK : head_keywords d k = title_keywords d k) by (cbn in K2; destruct K2 as [<- | [<- | [<- | [<- | []]]]]; reflexivity).
    destruct (stands_head d k ind h c kw rest e K I Hi Hh Hc Hn Hr He) as [HL F]. pose proof (head_one_line lang d Hd k ind h c kw rest e K I Hn Hr He) as Ho.
    set (x := ind ++ repeat ch_hash h ++ [c] ++ kw ++ s ":" ++ rest ++ e) in *. pose proof (line_of _ _ Ht) as HLn.
    pose proof (title_match ms x _ t k ltac:(rewrite MN, MD; exact Hd) K2 Ho HLn) as TM. rewrite MD in TM. pose proof (md_kind_more k ms t) as MM.
    rewrite (classic_head k ms' t' kw (rest ++ e) M' K I) by exact Ht'.
    destruct (md_match k ms t) as [[[[|]|] ms1] t1]; [| |contradiction].
    + destruct TM as [-> [kw2 [name [col [HL2 [A1 [A2 [A3 A4]]]]]]]]. destruct (MM ms t1 ltac:(now right) eq_refl) as [_ [S [B1 B2]]].
      rewrite EK in HL. destruct (header_unique _ _ _ _ _ _ _ _ ltac:(eapply kind_kws; eauto) HL2 HL) as [-> [-> _]].
      eexists _, _. split; [reflexivity|]. split; [reflexivity|]. split; [exact S|]. split; [split; reflexivity|]. split; [|split; [exact A1 | reflexivity]].
      assert (TK : title_kind k = true) by (cbn in K2; destruct K2 as [<- | [<- | [<- | [<- | []]]]]; reflexivity).
      rewrite (flat_title lang d k t1 kw (strip rest)) by (try assumption; now rewrite B2, MN).
      rewrite (flat_title lang d k (set_matched ms' t' (Some k) (Some (strip (rest ++ e))) (Some kw) None None []) kw (strip rest)); try assumption; try reflexivity.
      * destruct S as [_ S]. cbn [set_matched t_loc_line]. now rewrite S, Hl.
      * cbn. now rewrite MN'.
      * cbn [set_matched t_text]. f_equal. rewrite (strip_line_end rest e He). apply rstrip_crlf_strip.
    + destruct TM as [_ [_ TM]]. rewrite EK in HL. now destruct (TM _ _ _ HL).
  - pose proof (line_of _ _ Ht) as HLn. pose proof (bullet_match ms x _ t ltac:(rewrite MN, MD; exact Hd) Ho HLn) as TM. rewrite MD in TM. pose proof (md_kind_more TkStepLine ms t) as MM. cbn [md_match] in *.
    destruct (md_match_StepLine ms t) as [[[[|]|] ms1] t1]; [| |contradiction].
    + destruct TM as [-> [ind2 [b2 [gap2 [rest2 [before [k [after [y [e [HB [E1 [E2 [Hy [He [FB [[A1 [A2 [A3 A4]]] A5]]]]]]]]]]]]]]]]].
      destruct (bullet_unique _ _ _ _ _ _ _ _ _ HB Hb) as [-> [-> [-> ->]]]. destruct (MM ms t1 ltac:(now left) eq_refl) as [_ [S [B1 B2]]].
      destruct (CL eq_refl ltac:(econstructor; eauto)) as [Hne _].
      assert (V : lstrip rest = rest). { destruct Hb as [_ [_ [_ [Hr _]]]]. destruct rest as [|c0 rest]; [reflexivity|]. now apply lstrip_vis. }
      assert (FD : find (g_startswith (t_line t')) (step_keywords d) = Some k).
      { change (step_keywords d) with (all_step_keywords d). rewrite E1. clear - FB Ht' V E2. unfold g_startswith, g_trimmed. rewrite Ht', V. induction FB as [|w l Hw Hl IH]; cbn [app find].
        - now rewrite E2, startswith_app.
        - now rewrite Hw. }
      eexists _, _. split; [reflexivity|]. cbn [classic_match]. unfold c_match_StepLine. rewrite MD', FD. split; [reflexivity|]. split; [exact S|]. split; [split; reflexivity|]. split; [|split; [exact A1 | reflexivity]].
      unfold flat_tok. rewrite A1, A2, A3, A5, B1, B2, MN. destruct S as [_ S]. rewrite S, Hl. cbn [set_matched t_loc_line t_mtype t_text t_items t_keyword t_ktype t_dialect]. rewrite MN'. f_equal.
      * f_equal. unfold get_rest_trimmed, g_trimmed. rewrite Ht', V, E2. rewrite skipn_app, skipn_all, Nat.sub_diag. cbn [app skipn]. rewrite (strip_line_end y e He). symmetry. apply rstrip_crlf_strip.
      * unfold plain_type. rewrite (ktype_spec lang d k Hd). assert (Ik : In k (all_step_keywords d)) by (rewrite E1; apply in_elt).
        pose proof (first_type d k Ik) as FT. pose proof (ktype_spec lang d k Hd) as CT. unfold classic_ktype in CT.
        destruct (keyword_types d k) as [|kt [|kt2 l]]; [discriminate FT | | now rewrite <- CT]. injection FT as <-. rewrite <- CT. now destruct kt.
    + destruct TM as [_ [_ TM]]. rewrite (TM _ _ _ _ _ Hb I) in Hs. discriminate Hs.
  - set (x := ind ++ s "|" ++ rest) in *. assert (P : begins (s "|") x) by (exists ind, rest; auto).
    assert (G : is_gfm_separator cells = false). { destruct (is_gfm_separator cells) eqn:G; [|reflexivity]. apply gfm_iff in G as [i [G1 G2]]. now destruct (S i G1). }
    cbn [md_match classic_match]. unfold md_match_TableRow. rewrite (text0 t x Ht). destruct (proj2 (table_re_iff x)) as [st E]; [exists ind, rest; auto|]. rewrite E, (gtext_cells t x Ht), (table_cells_number x 0 n), C, G.
    eexists _, _. split; [reflexivity|]. unfold c_match_TableRow. rewrite (pipe_starts t' x Ht' P), (gtext_cells t' x Ht'), (table_cells_number x 0 n), C. split; [reflexivity|].
    split; [split; reflexivity|]. split; [split; reflexivity|]. split; [|split; reflexivity]. unfold flat_tok. cbn. now rewrite Hl, MN, MN'.
Qed.
End Step.
