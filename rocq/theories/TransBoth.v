(** * Every match attempt in both notations (for C68) *)
From Verif Require Import PyStr PyStrFacts Types Regex RegexFacts ReSem Line DialectData Matcher Ast ParserTable Parser Classify Scan LineSpec StepFacts LangSpec LangFacts TagIff MdSpec MdFacts MdRun MdTags PropMarkdown TransSpec Flat TransFacts TransPair TransMatch TransStep.
Local Open Scope N_scope.

Section Both.
Context (lang : str) (d : dialect) (Hd : for_name lang = Some d).

(** the state of the two matchers: before the feature header, after it, in a doc string *)
Inductive phase := PStart | PBody | PDoc (q : bool).
Definition sep_of (σ : phase) : option str := match σ with PDoc q => Some (delimiter q) | _ => None end.
Record RM (σ : phase) (ms ms' : mstate) : Prop := mkRM {
  rm_md : ms_md ms = true; rm_md' : ms_md ms' = false;
  rm_name : ms_name ms = lang; rm_name' : ms_name ms' = lang;
  rm_dialect : ms_dialect ms = d; rm_dialect' : ms_dialect ms' = d;
  rm_feature : ms_feature ms = match σ with PStart => false | _ => true end;
  rm_sep : ms_sep ms = sep_of σ; rm_sep' : ms_sep ms' = sep_of σ;
  rm_indent : ms_indent ms = ms_indent ms' }.
Definition RT (κ : option kind) (t t' : token) : Prop :=
  t_loc_line t = t_loc_line t' /\
  match κ with Some κ => stands d κ (g_text (t_line t)) (g_text (t_line t')) | None => g_text (t_line t) = [] /\ g_text (t_line t') = [] end.
Lemma RT_same κ t t' t1 t1' : RT κ t t' -> same_line t1 t -> same_line t1' t' -> RT κ t1 t1'.
Proof. intros [H1 H2] [A1 A2] [B1 B2]. split; [congruence|]. now rewrite A1, B1. Qed.

Definition hit (κ : kind) (k : tok) : bool := tok_eqb (kind_tok κ) k.
Definition after (σ : phase) (κ : kind) : phase := match κ with LHead TkFeatureLine => PBody | LOpen q => PDoc q | LClose _ => PBody | _ => σ end.
(** the attempts that can happen *)
Definition allowed (σ : phase) (κ : kind) (k : tok) : bool :=
  match σ, κ with
  | PStart, LTags => match k with TkEOF | TkLanguage | TkTagLine => true | _ => false end
  | PStart, LHead TkFeatureLine => match k with TkEOF | TkLanguage | TkTagLine | TkFeatureLine => true | _ => false end
  | PStart, _ => false
  | PBody, LOpen _ => match k with TkEOF | TkTableRow | TkDocStringSeparator => true | _ => false end
  | PBody, _ => body_kind κ && match k with TkFeatureLine | TkLanguage | TkOther => false | _ => true end
  | PDoc q, LText r => Bool.eqb q r && match k with TkDocStringSeparator | TkOther => true | _ => false end
  | PDoc q, LClose r => Bool.eqb q r && match k with TkDocStringSeparator => true | _ => false end
  | PDoc _, _ => false
  end.
Definition pairs (σ : phase) (κ : kind) (k : tok) (m m' : mret) (t t' : token) : Prop :=
  exists ms1 ms1' t1 t1', m = (Ok (hit κ k), ms1, t1) /\ m' = (Ok (hit κ k), ms1', t1') /\ same_line t1 t /\ same_line t1' t' /\
    RM (if hit κ k then after σ κ else σ) ms1 ms1' /\
    (hit κ k = true -> flat_tok d t1 = flat_tok d t1' /\ t_mtype t1 = Some k /\ t_mtype t1' = Some k).
Lemma pairs_no σ κ k ms ms' t t' t1 : RM σ ms ms' -> hit κ k = false -> md_match k ms t = (Ok false, ms, t1) -> same_line t1 t -> classic_match k ms' t' = (Ok false, ms', t') ->
  pairs σ κ k (md_match k ms t) (classic_match k ms' t') t t'.
Proof. intros M N E S E'. exists ms, ms', t1, t'. rewrite N, E, E'. repeat (split; [first [reflexivity | exact S | apply same_line_refl | exact M]|]). discriminate. Qed.
Lemma RM_okm ms ms' : RM PBody ms ms' -> okm lang d ms.
Proof. intros [A B C D E F G H I J]. now constructor. Qed.
Lemma RM_okc σ ms ms' : RM σ ms ms' -> okc lang d ms'.
Proof. intros [A B C D E F G H I J]. now constructor. Qed.
Lemma stands_ne κ x y : stands d κ x y -> x <> [] /\ y <> [].
Proof.
  intros H. assert (Y : forall p z, begins p z -> p <> [] -> z <> []). { intros p z [ind [r [_ ->]]] N F. apply app_eq_nil in F as [_ F]. apply app_eq_nil in F as [F _]. contradiction. }
  assert (DN : forall q, delimiter q <> []) by (intros []; discriminate).
  destruct (lined κ) eqn:L.
  - split; [|eapply class; eauto]. destruct H as [x Hn Ho P | x n cells Ho T P C S | ind l Hi Hl Hok Ho | k ind h c kw rest e K I Hi Hh Hc Hn Hr He T | x ind b gap rest kw Ho T Hb I Hs
    | x n ind rest cells Ho T Hi Hlen -> C S | q x P1 P2 | q x P1 P2 | q x P]; try discriminate L; auto.
    + eapply Y; [exact P | discriminate].
    + intros F. apply app_eq_nil in F as [_ F]. destruct l as [|[? ?] l]; [contradiction | discriminate F].
    + intros F. apply app_eq_nil in F as [_ F]. apply app_eq_nil in F as [_ F]. discriminate F.
    + destruct Hb as [_ [_ [_ [_ ->]]]]. intros F. apply app_eq_nil in F as [_ F]. discriminate F.
    + intros F. apply app_eq_nil in F as [_ F]. discriminate F.
    + eapply Y; eauto.
  - destruct H; try discriminate L; split; auto; eapply Y; eauto.
Qed.
Lemma md_eof ms t x : x <> [] -> g_text (t_line t) = x -> md_match TkEOF ms t = (Ok false, ms, t).
Proof. intros N Ht. cbn [md_match]. now apply (c_no_eof x). Qed.

Lemma pair_body κ k ms ms' t t' : body_kind κ = true -> allowed PBody κ k = true -> RM PBody ms ms' -> RT (Some κ) t t' ->
  pairs PBody κ k (md_match k ms t) (classic_match k ms' t') t t'.
Proof.
  intros B A M [Hl H]. pose proof (RM_okm _ _ M) as Om. pose proof (RM_okc _ _ _ M) as Oc. destruct (stands_ne _ _ _ H) as [Nx Ny].
  assert (A2 : match k with TkFeatureLine | TkLanguage | TkOther => false | _ => true end = true).
  { destruct κ; cbn [allowed] in A; try (apply andb_true_iff in A as [_ A]; exact A). discriminate B. }
  destruct (hit κ k) eqn:E.
  - assert (K : k = kind_tok κ). { unfold hit in E. clear - E. destruct (kind_tok κ), k; try discriminate E; reflexivity. }
    subst k. destruct (body_yes lang d Hd κ _ _ ms ms' t t' B H Om Oc eq_refl eq_refl Hl) as [t1 [t1' [E1 [E2 [S1 [S2 [F [T1 T2]]]]]]]].
    exists ms, ms', t1, t1'. rewrite E. repeat (split; [assumption|]). split; [|intros _; auto].
    assert (X : after PBody κ = PBody). { destruct κ as [| | |k| | | | |]; try destruct k; try reflexivity; discriminate B. } now rewrite X.
  - assert (L : lined κ = true) by (destruct κ; try discriminate B; reflexivity).
    pose proof (stands_profile lang d Hd κ _ _ B H) as PR. pose proof (profile_empty lang d _ κ B PR) as PE. destruct PR as [H0 HV H1 H2 H3 H4 H5 H6 H7 H8 H9].
    assert (D : k = TkEOF \/ decides lang d (g_text (t_line t)) (md_match k) false).
    { destruct k; try discriminate A2; [now left | right..]; unfold hit in E; cbn [md_match]; cbn [does] in *; rewrite E in *; assumption. }
    assert (C : classic_match k ms' t' = (Ok false, ms', t')).
    { destruct k; try discriminate A2; try (eapply c_no; eauto; fail).
      - now apply (c_no_eof (g_text (t_line t'))).
      - eapply c_no_sep; eauto. exact (rm_sep' _ _ _ M). }
    destruct D as [-> | D].
    + eapply pairs_no; eauto; [now apply (md_eof ms t (g_text (t_line t))) | apply same_line_refl].
    + destruct (D ms t Om eq_refl) as [t1 [E1 S1]]. eapply pairs_no; eauto.
Qed.
Lemma begins_g p x t : visible p = true -> g_text (t_line t) = x -> begins p x -> g_startswith (t_line t) p = true.
Proof. intros V Ht B. unfold g_startswith, g_trimmed. rewrite Ht. now apply begins_iff. Qed.
Lemma begins_not p x t : visible p = true -> g_text (t_line t) = x -> ~ begins p x -> g_startswith (t_line t) p = false.
Proof. intros V Ht B. destruct (g_startswith (t_line t) p) eqn:E; [|reflexivity]. destruct B. apply begins_iff; [exact V|]. unfold g_startswith, g_trimmed in E. now rewrite Ht in E. Qed.
Lemma begins_other x : begins (s "```") x -> ~ begins (s """""""") x.
Proof. intros B C. assert (E1 : first x = Some 96) by (eapply begins_hd; [|exact B]; reflexivity). assert (E2 : first x = Some 34) by (eapply begins_hd; [|exact C]; reflexivity). congruence. Qed.
Lemma same_text t t' : g_text (t_line t) = g_text (t_line t') -> g_trimmed (t_line t) = g_trimmed (t_line t') /\ g_indent (t_line t) = g_indent (t_line t').
Proof. unfold g_trimmed, g_indent, g_trimmed. intros ->. split; reflexivity. Qed.

Lemma pairs_or σ κ k m m' f f' t t' : hit κ k = true -> pairs σ κ k m m' t t' -> pairs σ κ k (m_or m f) (m_or m' f') t t'.
Proof. intros H [ms1 [ms1' [t1 [t1' [-> [-> R]]]]]]. exists ms1, ms1', t1, t1'. rewrite H in *. split; [reflexivity|]. split; [reflexivity | exact R]. Qed.
Lemma pairs_or1 σ κ k m m' f t t' : hit κ k = true -> pairs σ κ k m m' t t' -> pairs σ κ k (m_or m f) m' t t'.
Proof. intros H [ms1 [ms1' [t1 [t1' [-> [-> R]]]]]]. exists ms1, ms1', t1, t1'. rewrite H in *. split; [reflexivity|]. split; [reflexivity | exact R]. Qed.

(** a delimiter line matched by both *)
Lemma sep_pair κ σ σ' nt nt' sep op ms ms' t t' : kind_tok κ = TkDocStringSeparator -> RM σ ms ms' -> RT (Some κ) t t' -> g_text (t_line t) = g_text (t_line t') -> g_startswith (t_line t) sep = true ->
  (op = false -> (nt = Some [] \/ nt = None) /\ (nt' = Some [] \/ nt' = None)) ->
  σ' = after σ κ -> sep_of σ' = (if op then Some sep else None) -> (match σ' with PStart => false | _ => true end = ms_feature ms) ->
  pairs σ κ TkDocStringSeparator (match_separator nt sep op ms t) (match_separator nt' sep op ms' t') t t'.
Proof.
  intros K M [Hl _] Ht G N -> S F. destruct (same_text _ _ Ht) as [T1 T2]. unfold match_separator. unfold g_startswith in *. rewrite <- T1, G. cbn [negb].
  assert (H : hit κ TkDocStringSeparator = true) by (unfold hit; now rewrite K).
  eexists _, _, _, _. rewrite H. split; [reflexivity|]. split; [reflexivity|]. split; [split; reflexivity|]. split; [split; reflexivity|].
  destruct M as [M1 M2 M3 M4 M5 M6 M7 M8 M9 M10]. split.
  - constructor; cbn [ms_md ms_name ms_dialect ms_feature ms_sep ms_indent]; auto. destruct op; [exact T2 | reflexivity].
  - intros _. split; [|split; reflexivity]. unfold flat_tok. cbn [set_matched t_mtype t_text t_items t_keyword t_ktype t_dialect t_loc_line ms_name]. rewrite Hl, M3, M4. f_equal.
    destruct op.
    + unfold get_rest_trimmed. rewrite T1. reflexivity.
    + destruct (N eq_refl) as [[-> | ->] [-> | ->]]; reflexivity.
Qed.
Lemma pair_open q k ms ms' t t' : allowed PBody (LOpen q) k = true -> RM PBody ms ms' -> RT (Some (LOpen q)) t t' ->
  pairs PBody (LOpen q) k (md_match k ms t) (classic_match k ms' t') t t'.
Proof.
  intros A M H. pose proof H as [Hl H2]. cbn in H2. inversion H2 as [ | | | | | |q' x P1 P2 Eq Ex Ey| | ]. subst q'. clear x Ex.
  destruct (stands_ne _ _ _ H2) as [Nx Ny].
  assert (V : begins (delimiter q) (g_text (t_line t))) by exact P1.
  assert (F : first (g_text (t_line t)) <> Some ch_pipe). { destruct q; cbn [delimiter] in V; apply begins_hd in V; try reflexivity; rewrite V; discriminate. }
  cbn [allowed] in A. destruct k; try discriminate A; cbn [md_match classic_match].
  - eapply (pairs_no _ _ TkEOF); eauto; [now apply (c_no_eof (g_text (t_line t))) | apply same_line_refl | now apply (c_no_eof (g_text (t_line t')))].
  - unfold md_match_DocStringSeparator, c_match_DocStringSeparator. rewrite (rm_sep _ _ _ M), (rm_sep' _ _ _ M). cbn [sep_of].
    destruct q; cbn [delimiter] in *.
    + apply pairs_or; [reflexivity|]. apply pairs_or1; [reflexivity|].
      exact (sep_pair (LOpen true) PBody (PDoc true) (Some []) None sep_quotes true ms ms' t t' eq_refl M H ltac:(congruence) ltac:(eapply begins_g; [reflexivity | reflexivity | exact P1]) ltac:(discriminate) eq_refl eq_refl ltac:(symmetry; exact (rm_feature _ _ _ M))).
    + pose proof (begins_other _ P1) as P3.
      assert (G : forall t nt ms, g_text (t_line t) = g_text (t_line t') -> match_separator nt sep_quotes true ms t = (Ok false, ms, t)).
      { intros t0 nt m0 E0. unfold match_separator. rewrite (begins_not sep_quotes (g_text (t_line t)) t0 eq_refl); [reflexivity | congruence | exact P3]. }
      assert (G4 : match_separator (Some []) sep_ticks4 true ms t = (Ok false, ms, t)).
      { unfold match_separator. rewrite (begins_not sep_ticks4 (g_text (t_line t)) t eq_refl); [reflexivity | reflexivity | exact P2]. }
      rewrite !G by congruence. cbn [m_or]. rewrite G4. cbn [m_or].
      exact (sep_pair (LOpen false) PBody (PDoc false) (Some []) None sep_ticks true ms ms' t t' eq_refl M H ltac:(congruence) ltac:(eapply begins_g; [reflexivity | reflexivity | exact P1]) ltac:(discriminate) eq_refl eq_refl ltac:(symmetry; exact (rm_feature _ _ _ M))).
  - destruct (dec_row_no lang d _ F ms t (RM_okm _ _ M) eq_refl) as [t1 [E1 S1]].
    eapply (pairs_no _ _ TkTableRow); eauto. cbn [classic_match]. unfold c_match_TableRow. rewrite (begins_not [ch_pipe] (g_text (t_line t')) t' eq_refl eq_refl); [reflexivity|].
    intros Bp. apply begins_one in Bp; [|reflexivity]. congruence.
Qed.
Lemma pair_doc q κ k ms ms' t t' : allowed (PDoc q) κ k = true -> RM (PDoc q) ms ms' -> RT (Some κ) t t' ->
  pairs (PDoc q) κ k (md_match k ms t) (classic_match k ms' t') t t'.
Proof.
  intros A M H. pose proof H as [Hl H2]. cbn in H2. cbn [allowed] in A. destruct κ as [| | | | | | |r|r]; try discriminate A; apply andb_true_iff in A as [Q A]; apply eqb_prop in Q as <-.
  - inversion H2 as [ | | | | | | |q' x P1 P2 Eq Ex Ey| ]. subst q'. clear x Ex. destruct k; try discriminate A; cbn [md_match classic_match].
    + unfold md_match_DocStringSeparator, c_match_DocStringSeparator. rewrite (rm_sep _ _ _ M), (rm_sep' _ _ _ M). cbn [sep_of].
      assert (V : visible (delimiter q) = true) by (destruct q; reflexivity).
      assert (G : forall t nt ms, g_text (t_line t) = g_text (t_line t') -> match_separator nt (delimiter q) false ms t = (Ok false, ms, t)).
      { intros t0 nt m0 E0. unfold match_separator. rewrite (begins_not (delimiter q) (g_text (t_line t)) t0 V); [reflexivity | congruence | exact P2]. }
      rewrite !G by congruence. exists ms, ms', t, t'. repeat (split; [first [reflexivity | apply same_line_refl | exact M]|]). discriminate.
    + destruct (same_text t t' ltac:(congruence)) as [T1 T2]. destruct M as [M1 M2 M3 M4 M5 M6 M7 M8 M9 M10]. eexists _, _, _, _. split; [reflexivity|]. split; [reflexivity|]. split; [split; reflexivity|]. split; [split; reflexivity|].
      split; [now constructor|]. intros _. split; [|split; reflexivity]. unfold flat_tok. cbn [set_matched t_mtype t_text t_items t_keyword t_ktype t_dialect t_loc_line map]. rewrite Hl, M3, M4. do 3 f_equal.
      unfold unescaped_docstring. rewrite M8, M9. unfold get_line_text. now rewrite M10, T1, T2, Ey.
  - inversion H2 as [ | | | | | | | |q' x P1 Eq Ex Ey]. subst q'. clear x Ex. destruct k; try discriminate A; cbn [md_match classic_match].
    unfold md_match_DocStringSeparator, c_match_DocStringSeparator. rewrite (rm_sep _ _ _ M), (rm_sep' _ _ _ M). cbn [sep_of].
    assert (V : visible (delimiter q) = true) by (destruct q; reflexivity).
    exact (sep_pair (LClose q) (PDoc q) PBody (Some []) None (delimiter q) false ms ms' t t' eq_refl M H ltac:(congruence) ltac:(eapply begins_g; [exact V | reflexivity | exact P1]) ltac:(intros _; auto) eq_refl eq_refl ltac:(symmetry; exact (rm_feature _ _ _ M))).
Qed.
Lemma pair_start κ k ms ms' t t' : allowed PStart κ k = true -> RM PStart ms ms' -> RT (Some κ) t t' ->
  pairs PStart κ k (md_match k ms t) (classic_match k ms' t') t t'.
Proof.
  intros A M H. pose proof H as [Hl H2]. cbn in H2. destruct (stands_ne _ _ _ H2) as [Nx Ny]. pose proof (RM_okc _ _ _ M) as Oc.
  destruct (class lang d Hd κ _ _ ltac:(destruct κ; try discriminate A; reflexivity) H2) as [_ CL].
  assert (HS : first (g_text (t_line t')) <> Some ch_hash).
  { intros Fh. apply begins_one in Fh; [|reflexivity]. apply begins_iff in Fh; [|reflexivity]. assert (C2 : classify d (lstrip (g_text (t_line t'))) = TkComment).
    { apply (has_classify d); [eapply for_name_ok; exact Hd|]. unfold has. cbn [starts existsb]. now rewrite Fh. }
    rewrite C2 in CL. destruct κ as [| | |k0| | | | |]; try discriminate A; [discriminate CL|]. destruct k0; try discriminate A. discriminate CL. }
  assert (Feof : k = TkEOF -> pairs PStart κ k (md_match k ms t) (classic_match k ms' t') t t').
  { intros ->. eapply (pairs_no _ _ TkEOF); eauto.
    - destruct κ as [| | |k0| | | | |]; try discriminate A; [|destruct k0; try discriminate A]; reflexivity.
    - now apply (md_eof ms t (g_text (t_line t))).
    - apply same_line_refl.
    - now apply (c_no_eof (g_text (t_line t'))). }
  assert (Flang : k = TkLanguage -> pairs PStart κ k (md_match k ms t) (classic_match k ms' t') t t').
  { intros ->. eapply (pairs_no _ _ TkLanguage); eauto.
    - destruct κ as [| | |k0| | | | |]; try discriminate A; [|destruct k0; try discriminate A]; reflexivity.
    - reflexivity.
    - apply same_line_refl.
    - now apply (c_no_language (g_text (t_line t'))). }
  destruct κ as [| | |k0| | | | |]; try discriminate A.
  - destruct k; try discriminate A; auto. clear Feof Flang A.
    assert (M2 : RM PBody (ms_set_feature ms) ms'). { destruct M. constructor; auto. }
    destruct (body_yes lang d Hd LTags _ _ (ms_set_feature ms) ms' t t' eq_refl H2 (RM_okm _ _ M2) Oc eq_refl eq_refl Hl) as [t1 [t1' [E1 [E2 [S1 [S2 [F [T1 T2]]]]]]]].
    cbn [kind_tok] in *. exists ms, ms', t1, t1'. cbn [hit kind_tok tok_eqb after]. cbn [md_match] in *.
    assert (E3 : md_match_TagLine ms t = (Ok true, ms, t1)). { unfold md_match_TagLine in *. destruct (md_tags_go _ _ _ _); [discriminate E1|]. injection E1 as <-. reflexivity. }
    repeat (split; [assumption|]). auto.
  - destruct k0; try discriminate A. inversion H2 as [ | | |k0 ind h c kw rest e K I Hi Hh Hc Hn Hr He T Ek Ex Ey| | | | | ]. subst k0.
    destruct k; try discriminate A; auto; clear Feof Flang A.
    + assert (E : md_match_TagLine ms t = (Ok false, ms, t)) by (apply tag_line_not; rewrite <- Ex; exact T).
      eapply (pairs_no _ _ TkTagLine); eauto; [apply same_line_refl|]. eapply c_no; eauto; reflexivity.
    + destruct (stands_head d TkFeatureLine ind h c kw rest e K I Hi Hh Hc Hn Hr He) as [HL _]. pose proof (head_one_line lang d Hd TkFeatureLine ind h c kw rest e K I Hn Hr He) as Ho.
      symmetry in Ex. set (x := ind ++ repeat ch_hash h ++ [c] ++ kw ++ s ":" ++ rest ++ e) in *. pose proof (line_of _ _ Ex) as HLn.
      pose proof (header_match (d_feature d) TkFeatureLine ms x _ t (kinds_kws lang d Hd TkFeatureLine K) Ho HLn) as TM.
      pose proof (md_title_more md_header (d_feature d) [ch_colon] TkFeatureLine ms t) as MM.
      pose proof (classic_head lang d Hd TkFeatureLine ms' t' kw (rest ++ e) Oc K I ltac:(symmetry; exact Ey)) as CH.
      cbn [md_match]. unfold md_match_FeatureLine. rewrite (rm_feature _ _ _ M), (rm_dialect _ _ _ M), CH.
      destruct (md_match_title md_header (d_feature d) [ch_colon] TkFeatureLine ms t) as [[[[|]|] ms1] t1]; [| |contradiction].
      * destruct TM as [-> [kw2 [name [col [HL2 [A1 [A2 [A3 A4]]]]]]]]. destruct (MM ms t1 eq_refl) as [_ [S [B1 B2]]].
        destruct (header_unique _ _ _ _ _ _ _ _ (kinds_kws lang d Hd TkFeatureLine K) HL2 HL) as [-> [-> _]].
        eexists _, _, _, _. cbn [hit kind_tok tok_eqb after]. split; [reflexivity|]. split; [reflexivity|]. split; [exact S|]. split; [split; reflexivity|].
        destruct M as [M1 M2 M3 M4 M5 M6 M7 M8 M9 M10]. split; [constructor; auto|]. intros _. split; [|split; [exact A1 | reflexivity]].
        rewrite (flat_title lang d TkFeatureLine t1 kw (strip rest)) by (try assumption; try reflexivity; now rewrite B2, M3).
        rewrite (flat_title lang d TkFeatureLine (set_matched ms' t' (Some TkFeatureLine) (Some (strip (rest ++ e))) (Some kw) None None []) kw (strip rest)); try assumption; try reflexivity.
        -- destruct S as [_ S]. cbn [set_matched t_loc_line]. now rewrite S, Hl.
        -- cbn. now rewrite M4.
        -- cbn [set_matched t_text]. f_equal. rewrite (strip_line_end rest e He). apply rstrip_crlf_strip.
      * destruct TM as [_ [_ TM]]. now destruct (TM _ _ _ HL).
Qed.
Theorem match_pair σ κ k ms ms' t t' : allowed σ κ k = true -> RM σ ms ms' -> RT (Some κ) t t' -> pairs σ κ k (do_match k ms t) (do_match k ms' t') t t'.
Proof.
  intros A M H. unfold do_match. rewrite (rm_md _ _ _ M), (rm_md' _ _ _ M). destruct σ as [| |q]; [now apply pair_start | | now apply pair_doc].
  destruct (body_kind κ) eqn:B; [now apply pair_body|]. destruct κ as [| | |k0| | | | |]; try discriminate B; try (cbn [allowed] in A; rewrite ?B in A; discriminate A).
  now apply pair_open.
Qed.
End Both.
