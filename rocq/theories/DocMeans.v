(** * Documents: the lines before the feature, the feature, the end *)
From Verif Require Import PyStr PyStrFacts Types Regex Line DialectData Matcher Ast ParserTable Parser Classify Table Scan Grammar Deriv Cert LineSpec StepFacts Cst Report Eval LangSpec LangFacts Complete DocSpec Erase Den LineIff Means Layout Texts DocStr Blocks DocRun FeatureDoc.

Lemma noise_inv (l : list ltree) : matches noise (lsyms l) -> exists ls, l = map Leaf ls /\ Forall (fun a => lkind a = TkEmpty \/ lkind a = TkComment) ls.
Proof.
  remember (lsyms l) as w eqn:Ew. unfold noise. remember (GStar (GAlt (T TkEmpty) (T TkComment))) as g eqn:Eg. intros H. revert l Ew. induction H; try discriminate Eg; injection Eg as ->; intros l Ew.
  - destruct l; [exists []; split; constructor | discriminate Ew].
  - assert (Q : exists k, u = [ST k] /\ (k = TkEmpty \/ k = TkComment)) by (apply alt_inv in H as [X|X]; apply sym_inv in X; eauto). destruct Q as [k [Q Hk]]. subst u. destruct l as [|[b|r l'] l]; try discriminate Ew. cbn in Ew. injection Ew as -> Ew.
    destruct (IHmatches2 eq_refl _ Ew) as [ls [-> F]]. exists (b :: ls). split; [reflexivity|]. now constructor.
Qed.
Lemma noise_back (ls : list leaf) : Forall (fun a => lkind a = TkEmpty \/ lkind a = TkComment) ls -> matches noise (lsyms (map Leaf ls)).
Proof.
  induction 1 as [|a ls H F IH]; [constructor|]. cbn. apply (m_star _ [ST (lkind a)]); [|exact IH]. destruct H as [-> | ->]; [apply m_altl | apply m_altr]; constructor.
Qed.
Lemma yields_leaves (ls : list leaf) : yields (map Leaf ls) = ls.
Proof. induction ls as [|a ls IH]; [reflexivity|]. cbn [map]. change (a :: yields (map Leaf ls) = a :: ls). f_equal. exact IH. Qed.
Lemma blank_not_lang x name : all_space x -> ~ language_line x name.
Proof.
  intros H [a [b [c [d [e [-> _]]]]]]. unfold all_space in H. rewrite !forallb_app in H. apply andb_true_iff in H as [_ H]. apply andb_true_iff in H as [H _]. discriminate H.
Qed.
Definition empty_subs (ls : list leaf) : list (key * item) := flat_map (fun a => tok_sub (lkind a) (lf_t a)) ls.
Lemma evals0_leaves ls : evals0 (map Leaf ls) = (empty_subs ls, []).
Proof.
  induction ls as [|a ls IH]; [reflexivity|]. cbn [map]. rewrite evals0_cons, IH. cbn [eval0 empty_subs flat_map]. unfold tok_sub. now destruct (tok_eqb (lkind a) TkComment).
Qed.
Lemma empty_blanks ls : Forall (fun a => lkind a = TkEmpty \/ lkind a = TkComment) ls -> blanks (empty_subs ls).
Proof. induction 1 as [|a ls H F IH]; [constructor|]. cbn. apply blanks_app; [|exact IH]. unfold tok_sub. destruct H as [-> | ->]; repeat constructor. Qed.
Lemma not_language ms n x : x <> [] -> fst (fst (lexm TkLanguage ms n x)) <> Ok true -> (forall e, fst (fst (lexm TkLanguage ms n x)) <> Err e) -> forall name, ~ language_line x name.
Proof.
  intros Hx H1 H2 name H. destruct (for_name name) as [d|] eqn:D.
  - rewrite (lexm_lang_true ms n x name d Hx H D) in H1. now elim H1.
  - rewrite (lexm_lang_err ms n x name Hx H D) in H2. eapply H2. reflexivity.
Qed.
Lemma preamble_reads ls : forall ms nls ms', seg ms nls ls ms' -> Forall (fun a => lkind a = TkEmpty \/ lkind a = TkComment) ls -> Forall (leafc RGherkinDocument) ls -> Forall lang_ok ls ->
  ms' = ms /\ preamble nls (comments_of ls).
Proof.
  induction ls as [|a ls IH]; intros ms nls ms' S K L G.
  - inversion S; subst. split; [reflexivity|]. split; constructor.
  - inversion S as [|? n x t ms1 nls0 ls0 m2 Hx Lx S']; subst. inversion K as [|? ? K1 K2]; subst. inversion L as [|? ? L1 L2]; subst. inversion G as [|? ? G1 G2]; subst.
    unfold lkind in K1. cbn [lf_t] in K1. destruct K1 as [K1|K1]; rewrite K1 in Lx.
    + apply lex_empty in Lx as [-> [B _]]; [|exact Hx]. destruct (IH _ _ _ S' K2 L2 G2) as [-> [P1 P2]]. split; [reflexivity|].
      unfold comments_of. cbn [flat_map]. unfold lkind at 1. cbn [lf_t]. rewrite K1. cbn [tok_eqb app]. split; [now apply nz_blank|]. constructor; [|exact P2]. intros name. now apply blank_not_lang.
    + assert (NL : forall name, ~ language_line x name).
      { destruct L1 as [_ [_ L1]]. unfold lang_ok, lkind in *. cbn [lf_ms lf_n lf_x lf_t] in *. apply (not_language ms n x Hx); auto. }
      apply lex_comment in Lx as [-> [B ->]]; [|exact Hx]. destruct (IH _ _ _ S' K2 L2 G2) as [-> [P1 P2]]. split; [reflexivity|]. split; [|constructor; [exact NL | exact P2]].
      assert (E : forall t, t = set_matched ms (new_token x n) (Some TkComment) (Some x) None None (Some 0%nat) [] -> comments_of (mkLeaf ms n x t :: ls) = comment_at (n, x) :: comments_of ls) by (intros ? ->; reflexivity).
      rewrite (E _ eq_refl). now apply nz_comment.
Qed.
Lemma preamble_back nls cs : preamble nls cs -> forall ms, idle ms -> nonempty nls ->
  exists ls, seg ms nls ls ms /\ Forall (fun a => lkind a = TkEmpty \/ lkind a = TkComment) ls /\ Forall (leafc RGherkinDocument) ls /\ Forall lang_ok ls /\ comments_of ls = cs.
Proof.
  intros [H F] ms [Hi1 Hi2]. induction H as [|[n x] nls cs H H0 IH|[n x] nls cs H H0 IH]; intros Hn.
  - exists []. repeat split; constructor.
  - inversion F as [|? ? F1 F2]; subst. inversion Hn as [|? ? N1 N2]; subst. destruct (IH F2 N2) as [ls [S [K [L [G E]]]]]. cbn in N1.
    set (t := set_matched ms (new_token x n) (Some TkEmpty) None None None (Some 0%nat) []). exists (mkLeaf ms n x t :: ls).
    split; [econstructor; [exact N1 | apply lex_empty; [exact N1 | auto] | exact S]|]. split; [constructor; [now left | exact K]|]. split; [constructor; [|exact L]; split; [exact Hi1|]; split; [exact Hi2 | discriminate]|].
    split; [constructor; [discriminate | exact G]|]. exact E.
  - inversion F as [|? ? F1 F2]; subst. inversion Hn as [|? ? N1 N2]; subst. destruct (IH F2 N2) as [ls [S [K [L [G E]]]]]. cbn in N1, F1.
    set (t := set_matched ms (new_token x n) (Some TkComment) (Some x) None None (Some 0%nat) []). exists (mkLeaf ms n x t :: ls).
    split; [econstructor; [exact N1 | apply lex_comment; [exact N1 | auto] | exact S]|]. split; [constructor; [now right | exact K]|].
    split; [constructor; [|exact L]; split; [exact Hi1|]; split; [exact Hi2|]; intros _ _; cbn; rewrite lexm_lang_false by assumption; discriminate|].
    split; [constructor; [|exact G]; intros _ e; cbn; rewrite lexm_lang_false by assumption; discriminate|].
    assert (E' : comments_of (mkLeaf ms n x t :: ls) = comment_at (n, x) :: comments_of ls) by reflexivity. rewrite E'. congruence.
Qed.

(** ** Documents *)
Definition doc_lines (ms0 : mstate) (nls : list nline) (d0 : gdoc) : Prop :=
  exists pre rest cs0, nls = pre ++ rest /\ preamble pre cs0 /\
    (rest = [] /\ d0 = mkGdoc None cs0 \/
     exists n1 n2 ms' c1 c2 f, rest = n1 ++ n2 /\ lang_part ms0 n1 ms' c1 /\ feature_S ms' n2 f c2 /\ d0 = mkGdoc (Some f) (cs0 ++ c1 ++ c2)).
Definition doc_gx : gx := GCat noise (gopt (R RFeature)).
Lemma doc_prod w : matches (prod RGherkinDocument) w <-> exists w0, w = w0 ++ [ST TkEOF] /\ matches doc_gx w0.
Proof.
  cbn [prod gseq]. split.
  - intros H. apply cat_inv in H as [u [v [-> [H1 H2]]]]. apply cat_inv in H2 as [u2 [v2 [-> [H2 H3]]]]. apply sym_inv in H3. subst v2. exists (u ++ u2). split; [now rewrite app_assoc|]. now constructor.
  - intros [w0 [-> H]]. apply cat_inv in H as [u [v [-> [H1 H2]]]]. rewrite <- app_assoc. constructor; [exact H1|]. constructor; [exact H2 | constructor].
Qed.
Lemma blanks_feature r bs s k : blanks bs -> k <> KTok TkEmpty -> get_single (mkNode r (bs ++ s)) k = get_single (mkNode r s) k.
Proof. intros B K. unfold get_single. now rewrite get_items_app, gi_blanks. Qed.
Theorem doc_means ms0 lines ids d0 : idle ms0 -> lines_ok lines ->
  (exists l subs ids', doc_tree ms0 lines l /\ langs_ok l /\ evals l ids = (subs, [], ids') /\ no_ids (mkGdoc (feature_in subs) (comments_of (yields l))) = d0) <-> doc_lines ms0 (lines_from 0 lines) d0.
Proof.
  intros Hi Hl. split.
  - intros [l [subs [ids' [[O Ch] [Lg [Ev <-]]]]]]. pose proof (doc_no_doc _ O) as Nd. pose proof (evals_no _ Nd _ _ _ _ Ev) as E0.
    inversion O as [|? ? Mt Lv Ot]; subst. apply doc_prod in Mt as [w0 [Ew Mt]]. unfold lsyms, syms in Ew. apply map_eq_app in Ew as [l0 [le [-> [<- Ee]]]].
    destruct le as [|[a|] [|]]; try discriminate Ee. injection Ee as Ka. rewrite yields_app' in *. cbn [yields flat_map yield app] in Ch. apply lchain_seg in Ch as [ms' [ls0 [t [S [E [m L]]]]]].
    apply app_inj_tail in E as [E Ea]. change (yields l0 = ls0) in E. subst ls0. apply cat_inv in Mt as [u [v [Eu [M1 M2]]]]. unfold syms in Eu. apply map_eq_app in Eu as [l1 [l2 [-> [<- <-]]]].
    change (matches noise (lsyms l1)) in M1. apply noise_inv in M1 as [ls [-> K]]. change (list (tree leaf)) with (list ltree) in *. rewrite yields_app', yields_leaves in S. apply seg_app_inv in S as [n1 [n2 [ms1 [En [S1 S2]]]]].
    pose proof (leaves_ok_c RNone RGherkinDocument _ eq_refl Lv) as Lc. apply Forall_app in Lc as [Lc _]. apply Forall_app in Lc as [Lc1 Lc2]. apply Forall_app in Ot as [Ot _]. apply Forall_app in Ot as [_ Ot2].
    destruct (preamble_reads ls _ _ _ S1 K) as [-> P].
    { clear -Lc1. induction ls as [|a ls IH]; [constructor|]. inversion Lc1; subst. constructor; [assumption | now apply IH]. }
    { apply Forall_forall. intros b Hb. apply Lg. apply in_or_app. left. apply in_or_app. left. now apply in_map. }
    rewrite <- app_assoc, evals0_app, evals0_leaves, evals0_app in E0. destruct (evals0 l2) as [s2 e2] eqn:E2. cbn [evals0 map fold_right] in E0.
    assert (Ee : evals0 [Leaf a] = ([(KTok TkEOF, ITok (lf_t a))], [])) by (cbn; now rewrite Ka). rewrite Ee in E0. cbn [app] in E0. injection E0 as E0 E0'. rewrite app_nil_r in E0'. subst e2.
    assert (Ec : comments_of [a] = []) by (cbn; now rewrite Ka).
    exists n1, n2, (comments_of ls). split; [exact En|]. split; [exact P|]. unfold no_ids. cbn [gd_feature gd_comments]. rewrite <- feature_no, <- E0.
    assert (Ef : feature_in (empty_subs ls ++ s2 ++ [(KTok TkEOF, ITok (lf_t a))]) = feature_in (s2 ++ [(KTok TkEOF, ITok (lf_t a))])) by (unfold feature_in; rewrite blanks_feature by (now apply empty_blanks || discriminate); reflexivity).
    rewrite Ef, !comments_of_app, !yields_app', !comments_of_app, yields_leaves. assert (Ec' : comments_of (yields [Leaf a]) = []) by exact Ec. rewrite Ec', !app_nil_r.
    assert (Vo : V RGherkinDocument (gopt (R RFeature)) ms0 n2 ms' s2 (comments_of (yields l2))) by (exists l2; split; [split; [exact M2 | auto] | auto]).
    apply V_opt in Vo as [Vo|[-> [-> [-> Ec2]]]].
    + right. destruct (feature_means RGherkinDocument ms0 Hi) as [F _]. destruct (F _ _ _ _ Vo) as [m1 [m2 [c1 [c2 [f [-> [Ec2 [Lp [Fs ->]]]]]]]]]. exists m1, m2, ms', c1, c2, f. split; [reflexivity|]. split; [exact Lp|]. split; [exact Fs|]. rewrite Ec2. reflexivity.
    + left. split; [reflexivity|]. rewrite Ec2, app_nil_r. reflexivity.
  - intros [pre [rest [cs0 [En [P D]]]]]. pose proof (lines_from_nonempty 0 lines Hl) as Hn. rewrite En in Hn. apply Forall_app in Hn as [N1 N2]. destruct (preamble_back _ _ P ms0 Hi N1) as [ls [S1 [K [L [G Ec]]]]].
    assert (Q : exists ms' s2 c2 o, V RGherkinDocument (gopt (R RFeature)) ms0 rest ms' s2 c2 /\ d0 = mkGdoc o (cs0 ++ c2) /\ (forall t, feature_in (s2 ++ [(KTok TkEOF, t)]) = o) /\ idle ms').
    { destruct D as [[-> ->]|[n1 [n2 [ms' [c1 [c2 [f [-> [Lp [Fs ->]]]]]]]]]].
      - exists ms0, [], [], None. split; [apply V_opt; auto|]. rewrite app_nil_r. split; [reflexivity|]. split; [reflexivity | exact Hi].
      - destruct (feature_means RGherkinDocument ms0 Hi) as [_ B]. pose proof (B _ _ _ _ _ _ N2 Lp Fs) as Vf. exists ms', [(KRule RFeature, IFeature f)], (c1 ++ c2), (Some f). split; [apply V_opt; auto|]. split; [reflexivity|]. split; [reflexivity|].
        apply Forall_app in N2 as [N2 _]. destruct (lang_read_back _ _ _ _ Hi N2 Lp) as [sl L1]. now destruct (lang_reads _ _ _ _ _ Hi L1) as [_ [_ ?]]. }
    destruct Q as [ms' [s2 [c2 [o [[l2 [[M2 [T2 [O2 S2]]] [Ev2 Ec2]]] [-> [Ho Hi']]]]]]].
    set (n := S (0 + length lines)). assert (Le : exists m t, lexm TkEOF ms' n [] = (Ok true, m, t) /\ tok_kind t = TkEOF).
    { destruct (lexm TkEOF ms' n []) as [[r m] t] eqn:E. exists m, t. assert (r = Ok true) by (unfold lexm in E; cbn in E; now injection E). subst r. split; [reflexivity|]. unfold tok_kind. now rewrite (lexm_kind _ _ _ _ _ _ E). }
    destruct Le as [m [t [Le Kt]]]. set (a := mkLeaf ms' n [] t). assert (Ka : lkind a = TkEOF) by exact Kt.
    set (l := map Leaf ls ++ l2). pose proof (seg_app _ _ _ _ _ _ _ S1 S2) as Sg. rewrite <- En in Sg.
    assert (Y : yields l = ls ++ yields l2) by (unfold l; rewrite yields_app', yields_leaves; reflexivity).
    assert (O : ok_tree RNone (Node RGherkinDocument (l ++ [Leaf a]))).
    { constructor.
      - apply doc_prod. exists (lsyms l). split; [unfold lsyms, syms; rewrite map_app; cbn; now rewrite Ka|]. unfold l. rewrite lsyms_app'. constructor; [now apply noise_back | exact M2].
      - apply leaves_ok_leaf.
        + eapply leaves_c_ok; [reflexivity | rewrite Y; exact Sg|]. apply Forall_app. split; [|exact T2]. clear -L. induction L; constructor; assumption.
        + destruct Hi' as [Hi1 Hi2]. constructor.
          * exact Hi1. * exists m. unfold lkind. cbn [a lf_t]. rewrite Kt. exact Le. * split; [reflexivity | intros _; exact Hi2]. * unfold priority. now rewrite Ka. * intros _. exact Ka.
      - apply Forall_app. split; [|repeat constructor]. apply Forall_app. split; [|exact O2]. clear. induction ls; constructor; [constructor | assumption]. }
    destruct (evals (l ++ [Leaf a]) ids) as [[subs es] ids'] eqn:Ev. pose proof (evals_no _ (doc_no_doc _ O) _ _ _ _ Ev) as E0.
    unfold l in E0. rewrite <- app_assoc, evals0_app, evals0_leaves, evals0_app, Ev2 in E0. assert (Ee : evals0 [Leaf a] = ([(KTok TkEOF, ITok t)], [])) by (cbn; now rewrite Ka). rewrite Ee in E0. cbn [app] in E0. injection E0 as E0 <-.
    exists (l ++ [Leaf a]), subs, ids'. split; [split; [exact O|]|]. 2: split; [|split; [exact Ev|]].
    + rewrite yields_app'. cbn [yields flat_map yield app]. change (lchain ms0 0 lines (yields l ++ [a])). apply lchain_seg. exists ms', (yields l), t. split; [rewrite Y; exact Sg|]. split; [reflexivity|]. exists m. exact Le.
    + intros b Hb. apply in_app_or in Hb as [Hb|[Hb|[]]].
      * unfold l in Hb. apply in_app_or in Hb as [Hb|Hb].
        -- apply in_map_iff in Hb as [c [Hc Hc']]. injection Hc as ->. rewrite Forall_forall in G. now apply G.
        -- exfalso. apply alt_inv in M2 as [M2|M2]; [apply sym_inv in M2; destruct l2 as [|[|] [|]]; try discriminate M2; destruct Hb as [Hb|[]]; discriminate Hb|]. destruct l2; [destruct Hb | inversion M2].
      * injection Hb as <-. intros X. rewrite Ka in X. discriminate X.
    + unfold no_ids. cbn [gd_feature gd_comments]. rewrite <- feature_no, <- E0.
      assert (Ef : feature_in (empty_subs ls ++ s2 ++ [(KTok TkEOF, ITok t)]) = feature_in (s2 ++ [(KTok TkEOF, ITok t)])) by (unfold feature_in; rewrite blanks_feature by (now apply empty_blanks || discriminate); reflexivity).
      rewrite Ef, Ho. f_equal. rewrite yields_app', comments_of_app, Y, comments_of_app, Ec, Ec2. assert (Ec' : comments_of (yields [Leaf a]) = []) by (cbn; now rewrite Ka). now rewrite Ec', app_nil_r.
Qed.
