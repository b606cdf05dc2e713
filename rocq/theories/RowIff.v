(** * Which lines are table rows *)
From Verif Require Import PyStr PyStrFacts Types Regex RegexFacts Line LineSpec LineFacts TagIff.
Local Open Scope N_scope.

Notation raw_ok := (fun r => unescape_cell r <> None).
Lemma raws_of row : unpaired row = false -> exists raws tail,
  row = flat_map (fun r => r ++ [ch_pipe]) raws ++ tail /\ Forall raw_ok raws /\ unescape_cell tail <> None.
Proof.
  induction row as [row IH] using str_len_ind. destruct row as [|c row]; intros H; [exists [], []; repeat split; [constructor | discriminate]|].
  cbn [unpaired] in H. destruct (c =? ch_bslash) eqn:Eb.
  - destruct row as [|d row]; [discriminate|]. destruct (IH row ltac:(cbn; lia) H) as [raws [tail [E [H1 H2]]]].
    assert (Ep : c =? ch_pipe = false) by (apply N.eqb_eq in Eb; subst c; reflexivity).
    assert (U : forall r, unescape_cell r <> None -> unescape_cell (c :: d :: r) <> None).
    { intros r Hr. cbn [unescape_cell]. rewrite Ep, Eb. destruct (unescape_cell r); [discriminate | congruence]. }
    destruct raws as [|r raws].
    + exists [], (c :: d :: tail). split; [cbn in E; subst; reflexivity|]. split; [constructor | now apply U].
    + exists ((c :: d :: r) :: raws), tail. split; [rewrite E; reflexivity|]. split; [|exact H2].
      inversion H1; subst. constructor; [now apply U | assumption].
  - destruct (IH row ltac:(cbn; lia) H) as [raws [tail [E [H1 H2]]]]. destruct (c =? ch_pipe) eqn:Ep.
    + apply N.eqb_eq in Ep. subst c. exists ([] :: raws), tail. split; [rewrite E; reflexivity|]. split; [|exact H2]. constructor; [discriminate | exact H1].
    + assert (U : forall r, unescape_cell r <> None -> unescape_cell (c :: r) <> None).
      { intros r Hr. cbn [unescape_cell]. rewrite Ep, Eb. destruct (unescape_cell r); [discriminate | congruence]. }
      destruct raws as [|r raws].
      * exists [], (c :: tail). split; [cbn in E; subst; reflexivity|]. split; [constructor | now apply U].
      * exists ((c :: r) :: raws), tail. split; [rewrite E; reflexivity|]. split; [|exact H2].
        inversion H1; subst. constructor; [now apply U | assumption].
Qed.
Lemma split_unpaired row : unpaired row = true -> forall col st cell fc, split_cells_go row col st cell fc = Err ERuntimeError.
Proof.
  induction row as [row IH] using str_len_ind. destruct row as [|c row]; intros H col st cell fc; [discriminate|].
  cbn [unpaired] in H. cbn [split_cells_go]. destruct (c =? ch_bslash) eqn:Eb.
  - assert (Ep : c =? ch_pipe = false) by (apply N.eqb_eq in Eb; subst c; reflexivity). rewrite Ep.
    destruct row as [|d row]; [reflexivity|]. pose proof (IH row ltac:(cbn; lia) H) as I.
    destruct (d =? ch_n); [apply I|]. destruct (_ || _); apply I.
  - pose proof (IH row ltac:(cbn; lia) H) as I. destruct (c =? ch_pipe); [|apply I]. rewrite I. now destruct fc.
Qed.
Lemma pipe_parts x : startswith [ch_pipe] (lstrip x) = true -> exists ind y w,
  x = ind ++ (ch_pipe :: y) ++ w /\ all_space ind /\ all_space w /\ strip x = ch_pipe :: y /\ lstrip x = (ch_pipe :: y) ++ w.
Proof.
  intros H. destruct (lstrip_parts x) as [ind [Ex Hi]].
  destruct (lstrip x) as [|c z] eqn:Ez; [discriminate H|]. cbn [startswith] in H. rewrite andb_true_r in H. apply N.eqb_eq in H. subst c.
  destruct (rstrip_by_prefix is_space (ch_pipe :: z)) as [w [Ew Hw]].
  assert (V : exists y, rstrip_by is_space (ch_pipe :: z) = ch_pipe :: y).
  { rewrite rstrip_by_cons. change (is_space ch_pipe) with false. destruct (forallb is_space z); eauto. }
  destruct V as [y V]. rewrite V in Ew. exists ind, y, w. split; [rewrite Ex, Ew; reflexivity|].
  split; [exact Hi|]. split; [exact Hw|]. split; [|exact Ew]. unfold strip, rstrip. rewrite Ez. exact V.
Qed.
Lemma strip_end x r c : strip x = r ++ [c] -> is_space c = false.
Proof. unfold strip, rstrip. apply rstrip_by_last. Qed.

Lemma strip_lstrip x : strip (lstrip x) = strip x.
Proof.
  unfold strip. apply (f_equal rstrip). unfold lstrip, lstrip_by. induction x as [|c x IH]; [reflexivity|]. cbn [drop_while].
  destruct (is_space c) eqn:E; [exact IH|]. cbn [drop_while]. now rewrite E.
Qed.

Theorem table_cells_sound x n items : startswith [ch_pipe] (lstrip x) = true -> table_cells (mkLine x n) = Ok items -> row_line x items.
Proof.
  intros Hp H. destruct (pipe_parts x Hp) as [ind [y [w [Ex [Hi [Hw [Es El]]]]]]].
  assert (Hu : unpaired y = false).
  { destruct (unpaired y) eqn:E; [|reflexivity]. unfold table_cells, split_table_cells in H.
    change (g_trimmed (mkLine x n)) with (lstrip x) in H. rewrite strip_lstrip, Es in H. cbn [split_cells_go] in H.
    rewrite N.eqb_refl, split_unpaired in H by exact E. discriminate H. }
  destruct (raws_of y Hu) as [raws [tail [Ey [H1 H2]]]].
  assert (Hr : rstrip (tail ++ w) = tail).
  { apply rstrip_app_visible; [exact Hw|]. intros r c ->. apply (strip_end x (ch_pipe :: flat_map (fun r => r ++ [ch_pipe]) raws ++ r)).
    etransitivity; [exact Es|]. rewrite Ey. cbn [app]. now rewrite <- app_assoc. }
  assert (Ex' : x = ind ++ row_text raws ++ (tail ++ w)).
  { etransitivity; [exact Ex|]. rewrite Ey. unfold row_text. cbn [app]. now rewrite <- app_assoc. }
  exists ind, raws, (tail ++ w). split; [exact Ex'|]. split; [exact Hi|]. split; [exact H1|]. rewrite Hr. split; [exact H2|].
  rewrite Ex' in H. rewrite table_cells_spec in H; [now injection H as <- | exact Hi | exact H1 | now rewrite Hr].
Qed.
Theorem table_cells_iff x n items :
  (startswith [ch_pipe] (lstrip x) = true /\ table_cells (mkLine x n) = Ok items) <-> row_line x items.
Proof.
  split; [intros [H1 H2]; eapply table_cells_sound; eauto|].
  intros [ind [raws [tail [-> [H1 [H2 [H3 ->]]]]]]]. split; [|now apply table_cells_spec].
  rewrite lstrip_space by exact H1. unfold row_text. cbn [app]. rewrite lstrip_id by reflexivity. reflexivity.
Qed.
Lemma table_cells_err x n e : startswith [ch_pipe] (lstrip x) = true ->
  (table_cells (mkLine x n) = Err e <-> (e = ERuntimeError /\ unpaired (strip x) = true)).
Proof.
  intros Hp. destruct (pipe_parts x Hp) as [ind [y [w [Ex [Hi [Hw [Es El]]]]]]].
  unfold table_cells, split_table_cells. change (g_trimmed (mkLine x n)) with (lstrip x). rewrite strip_lstrip, Es.
  cbn [split_cells_go unpaired]. rewrite N.eqb_refl. change (ch_pipe =? ch_bslash) with false. cbn iota.
  destruct (unpaired y) eqn:E.
  - rewrite split_unpaired by exact E. cbn. split; [intros H; injection H as <-; auto | intros [-> _]; reflexivity].
  - destruct (raws_of y E) as [raws [tail [Ey [H1 H2]]]]. rewrite Ey, split_rows by assumption. cbn. split; [discriminate | intros [_ H]; discriminate].
Qed.
Lemma g_tags_err x n e : startswith [ch_at] (lstrip x) = true ->
  (g_tags (mkLine x n) = Err e <-> (e = EAttributeError /\ ~ exists items, tags_line x items)).
Proof.
  intros Hp. assert (X : forall items col e, tags_go items col = Err e -> e = EAttributeError).
  { induction items as [|i items IH]; intros col e'; [discriminate|]. cbn [tags_go]. destruct (re_search _ _); [congruence|].
    destruct (tags_go items _) eqn:F; cbn; [discriminate|]. intros H. injection H as <-. eapply IH, F. }
  split.
  - intros H. split; [unfold g_tags in H; eapply X, H|]. intros [items I]. apply (g_tags_iff x n) in I as [_ I]. congruence.
  - intros [-> H]. destruct (g_tags (mkLine x n)) as [items|e'] eqn:E.
    + elim H. exists items. apply (g_tags_iff x n). now split.
    + f_equal. unfold g_tags in E. eapply X, E.
Qed.
