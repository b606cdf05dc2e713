(** * One line in both notations: the same decisions and the same content (for C68) *)
From Verif Require Import PyStr PyStrFacts Types Regex RegexFacts ReSem Line DialectData Matcher Ast ParserTable Parser Classify Scan LineSpec StepFacts LangFacts TagIff MdSpec MdFacts MdRun MdTags PropMarkdown TransSpec Flat TransFacts.
Local Open Scope N_scope.

Section Pair.
Context (lang : str) (d : dialect) (Hd : for_name lang = Some d).
Local Notation decides := (decides lang d).
Local Notation okm := (okm lang d).
Local Notation profile := (profile lang d).

Lemma first_not x c c' : first x = Some c -> c <> c' -> first x <> Some c'. Proof. congruence. Qed.
Lemma begins_pipe x : begins (s "|") x -> first x = Some ch_pipe.
Proof. intros H. now apply begins_hd in H. Qed.
Lemma not_pipe x : ~ begins (s "|") x -> first x <> Some ch_pipe.
Proof. intros H F. apply H. change (s "|") with [ch_pipe]. now apply begins_one. Qed.
Lemma tags_first ind l : all_space ind -> l <> [] -> first (ind ++ md_tags_text l) = Some ch_btick.
Proof. intros Hi Hl. destruct l as [|[n g] l]; [contradiction|]. cbn [md_tags_text flat_map fst snd]. now apply first_app. Qed.
Lemma tags_no_fence ind l : all_space ind -> l <> [] -> ~ begins (s "```") (ind ++ md_tags_text l).
Proof.
  intros Hi Hl H. apply begins_iff in H; [|reflexivity]. destruct l as [|[n g] l]; [contradiction|].
  unfold lstrip, lstrip_by in H. rewrite drop_while_app in H by exact Hi. discriminate H.
Qed.
Lemma tags_has ind n g l : n <> [] -> ~ In ch_btick n -> has_md_tag (ind ++ md_tags_text ((n, g) :: l)).
Proof. intros H1 H2. exists ind, n, (g ++ md_tags_text l). split; [exact H1|]. split; [exact H2|]. cbn [md_tags_text flat_map fst snd]. change (s "`@") with [ch_btick; ch_at]. change (s "`") with [ch_btick]. now rewrite <- !app_assoc. Qed.

Ltac tk := first [left; reflexivity | right; tk].
Lemma stands_profile κ x y : body_kind κ = true -> stands d κ x y -> profile x κ.
Proof.
  intros B H. destruct H as [x Hn Ho P | x n cells Ho T P C S | ind l Hi Hl Hok Ho | k ind h c kw rest e K I Hi Hh Hc Hn Hr He T | x ind b gap rest kw Ho T Hb I Hs
    | x n ind rest cells Ho T Hi Hlen -> C S | q x P1 P2 | q x P1 P2 | q x P]; try discriminate B.
  - destruct P as [P1 [P2 [P3 [P4 [P5 P6]]]]]. pose proof (not_pipe x P4) as F.
    constructor; cbn [does kind_tok tok_eqb]; [exact Hn | now right | now apply dec_tag | | | | | now apply dec_row_no | now apply dec_comment_no | now apply dec_sep_no | now apply dec_step_no].
    + apply (dec_title lang d Hd x TkScenarioLine); [exact Ho | cbn; tauto | apply P1; cbn; tauto].
    + apply (dec_title lang d Hd x TkBackgroundLine); [exact Ho | cbn; tauto | apply P1; cbn; tauto].
    + apply (dec_title lang d Hd x TkExamplesLine); [exact Ho | cbn; tauto | apply P1; cbn; tauto].
    + apply (dec_title lang d Hd x TkRuleLine); [exact Ho | cbn; tauto | apply P1; cbn; tauto].
  - pose proof (begins_pipe x P) as F. pose proof (proj2 (gfm_iff cells) S) as G. rewrite (table_cells_number x n 0) in C.
    assert (Hh : first x <> Some ch_hash) by (rewrite F; discriminate).
    constructor; cbn [does kind_tok tok_eqb]; [eapply first_ne; eauto | left; eapply first_vis; eauto | now apply dec_tag | | | | | | | | ].
    + apply (dec_title_hash lang d Hd x TkScenarioLine); [exact Ho | cbn; tauto | exact Hh].
    + apply (dec_title_hash lang d Hd x TkBackgroundLine); [exact Ho | cbn; tauto | exact Hh].
    + apply (dec_title_hash lang d Hd x TkExamplesLine); [exact Ho | cbn; tauto | exact Hh].
    + apply (dec_title_hash lang d Hd x TkRuleLine); [exact Ho | cbn; tauto | exact Hh].
    + intros ms t _ Ht. unfold md_match_TableRow. destruct (re_match _ _); [|exists t; split; [reflexivity | apply same_line_refl]].
      rewrite (gtext_cells t x Ht), C, G. exists t; split; [reflexivity | apply same_line_refl].
    + intros ms t _ Ht. unfold md_match_Comment. rewrite (pipe_starts t x Ht P), (gtext_cells t x Ht), C, G. eexists; split; [reflexivity | split; reflexivity].
    + apply dec_sep_first; rewrite F; discriminate.
    + eapply dec_step_first; eauto; discriminate.
  - pose proof (tags_first ind l Hi Hl) as F. set (x := ind ++ md_tags_text l) in *. assert (Hh : first x <> Some ch_hash) by (rewrite F; discriminate).
    constructor; cbn [does kind_tok tok_eqb]; [eapply first_ne; eauto | left; eapply first_vis; eauto | | | | | | | | | ].
    + apply dec_tag_yes. subst x. destruct l as [|[n g] l]; [contradiction|]. destruct (Hok n g) as [_ [O1 [O2 _]]]; [now left|]. now apply tags_has.
    + apply (dec_title_hash lang d Hd x TkScenarioLine); [exact Ho | cbn; tauto | exact Hh].
    + apply (dec_title_hash lang d Hd x TkBackgroundLine); [exact Ho | cbn; tauto | exact Hh].
    + apply (dec_title_hash lang d Hd x TkExamplesLine); [exact Ho | cbn; tauto | exact Hh].
    + apply (dec_title_hash lang d Hd x TkRuleLine); [exact Ho | cbn; tauto | exact Hh].
    + apply dec_row_no. rewrite F. discriminate.
    + apply dec_comment_no. rewrite F. discriminate.
    + apply dec_sep_no; [|now apply tags_no_fence]. intros Q. apply begins_hd in Q; [|reflexivity]. rewrite F in Q. discriminate Q.
    + eapply dec_step_first; eauto; discriminate.
  - destruct (stands_head d k ind h c kw rest e K I Hi Hh Hc Hn Hr He) as [HL F]. pose proof (head_one_line lang d Hd k ind h c kw rest e K I Hn Hr He) as Ho.
    set (x := ind ++ repeat ch_hash h ++ [c] ++ kw ++ s ":" ++ rest ++ e) in *.
    assert (TT : forall k2, In k2 md_title_kinds -> decides x (md_match k2) (tok_eqb k k2)).
    { intros k2 K2. destruct (tok_eqb k k2) eqn:E.
      - apply tok_eqb_spec in E. subst k2. eapply dec_head_yes; eauto.
      - eapply dec_head_no; eauto. intros ->. now rewrite tok_eqb_refl in E. }
    constructor; cbn [does kind_tok]; [eapply first_ne; eauto | left; eapply first_vis; eauto | | | | | | | | | ].
    + replace (tok_eqb k TkTagLine) with false by (destruct k; try discriminate B; reflexivity). now apply dec_tag.
    + apply (TT TkScenarioLine). cbn; tauto.
    + apply (TT TkBackgroundLine). cbn; tauto.
    + apply (TT TkExamplesLine). cbn; tauto.
    + apply (TT TkRuleLine). cbn; tauto.
    + replace (tok_eqb k TkTableRow) with false by (destruct k; try discriminate B; reflexivity). apply dec_row_no. rewrite F. discriminate.
    + replace (tok_eqb k TkComment) with false by (destruct k; try discriminate B; reflexivity). apply dec_comment_no. rewrite F. discriminate.
    + replace (tok_eqb k TkDocStringSeparator) with false by (destruct k; try discriminate B; reflexivity). apply dec_sep_first; rewrite F; discriminate.
    + replace (tok_eqb k TkStepLine) with false by (destruct k; try discriminate B; reflexivity). eapply dec_step_first; eauto; discriminate.
  - destruct (bullet_first _ _ _ _ _ Hb) as [F Hb2]. assert (NN : forall c, c <> 42 -> c <> 43 -> c <> 45 -> first x <> Some c) by (intros c C1 C2 C3; rewrite F; destruct Hb2 as [-> | [-> | ->]]; congruence).
    assert (Hh : first x <> Some ch_hash) by (apply NN; discriminate).
    constructor; cbn [does kind_tok tok_eqb]; [eapply first_ne; eauto | left; eapply first_vis; eauto | now apply dec_tag | | | | | | | | ].
    + apply (dec_title_hash lang d Hd x TkScenarioLine); [exact Ho | cbn; tauto | exact Hh].
    + apply (dec_title_hash lang d Hd x TkBackgroundLine); [exact Ho | cbn; tauto | exact Hh].
    + apply (dec_title_hash lang d Hd x TkExamplesLine); [exact Ho | cbn; tauto | exact Hh].
    + apply (dec_title_hash lang d Hd x TkRuleLine); [exact Ho | cbn; tauto | exact Hh].
    + apply dec_row_no. apply NN; discriminate.
    + apply dec_comment_no. apply NN; discriminate.
    + apply dec_sep_first; apply NN; discriminate.
    + intros ms t Hm Ht. pose proof Hm as [_ N D _ _]. pose proof (line_of _ _ Ht) as Hl. pose proof (bullet_match ms x _ t ltac:(rewrite N, D; exact Hd) Ho Hl) as M. rewrite D in M.
      pose proof (kept_match TkStepLine ms t) as P. cbn [md_match] in P. destruct (md_match_StepLine ms t) as [[[[|]|] ms1] t1]; [| |contradiction].
      * destruct M as [-> _]. exists t1. split; [reflexivity|]. split; apply P.
      * destruct M as [_ [_ M]]. rewrite (M _ _ _ _ _ Hb I) in Hs. discriminate Hs.
  - set (x := ind ++ s "|" ++ rest) in *. assert (P : begins (s "|") x) by (exists ind, rest; auto). pose proof (begins_pipe x P) as F. rewrite (table_cells_number x n 0) in C.
    assert (G : is_gfm_separator cells = false). { destruct (is_gfm_separator cells) eqn:G; [|reflexivity]. apply gfm_iff in G as [i [G1 G2]]. now destruct (S i G1). }
    assert (Hh : first x <> Some ch_hash) by (rewrite F; discriminate).
    constructor; cbn [does kind_tok tok_eqb]; [eapply first_ne; eauto | left; eapply first_vis; eauto | now apply dec_tag | | | | | | | | ].
    + apply (dec_title_hash lang d Hd x TkScenarioLine); [exact Ho | cbn; tauto | exact Hh].
    + apply (dec_title_hash lang d Hd x TkBackgroundLine); [exact Ho | cbn; tauto | exact Hh].
    + apply (dec_title_hash lang d Hd x TkExamplesLine); [exact Ho | cbn; tauto | exact Hh].
    + apply (dec_title_hash lang d Hd x TkRuleLine); [exact Ho | cbn; tauto | exact Hh].
    + intros ms t _ Ht. unfold md_match_TableRow. rewrite (text0 t x Ht). destruct (proj2 (table_re_iff x)) as [st E]; [exists ind, rest; auto|]. rewrite E, (gtext_cells t x Ht), C, G.
      eexists; split; [reflexivity | split; reflexivity].
    + intros ms t _ Ht. unfold md_match_Comment. rewrite (pipe_starts t x Ht P), (gtext_cells t x Ht), C, G. eexists; split; [reflexivity | split; reflexivity].
    + apply dec_sep_first; rewrite F; discriminate.
    + eapply dec_step_first; eauto; discriminate.
Qed.
End Pair.
