From Verif Require Import PyStr PyStrFacts Types Regex RegexFacts Line LineSpec LineFacts.
Local Open Scope N_scope.

Fixpoint uncomment' (x : str) : str :=
  match x with
  | [] => []
  | c :: x' => if is_space c && (match x' with d :: _ => d =? ch_hash | [] => false end) then [] else c :: uncomment' x'
  end.
Lemma exec_tag_comment p x :
  exec re_tag_comment (mkR p x []) =
  match x with
  | c :: d :: y => if is_space c && (d =? ch_hash) then [mkR (Some d) y []] else []
  | _ => []
  end.
Proof.
  unfold re_tag_comment. rewrite exec_seq. cbn [exec]. unfold step1. cbn [r_rest r_caps].
  destruct x as [|c x]; [reflexivity|]. unfold cset_has. cbn [existsb citem_has xorb]. rewrite orb_false_r.
  destruct (is_space c); cbn [flat_map andb]; [|now destruct x]. rewrite exec_char, app_nil_r.
  destruct x as [|d x]; [reflexivity|]. destruct (d =? ch_hash); reflexivity.
Qed.
Lemma search_uncomment x : forall p b,
  match search_go re_tag_comment p x b with Some (bf, _) => bf | None => rev b ++ x end = rev b ++ uncomment' x.
Proof.
  induction x as [|c x IH]; intros p b; cbn [search_go]; rewrite exec_tag_comment.
  - reflexivity.
  - cbn [uncomment']. destruct x as [|d x].
    + rewrite andb_false_r. specialize (IH (Some c) (c :: b)). cbn [rev] in IH. rewrite <- !app_assoc in IH. exact IH.
    + destruct (is_space c && (d =? ch_hash)); [now rewrite app_nil_r|].
      specialize (IH (Some c) (c :: b)). cbn [rev] in IH. rewrite <- !app_assoc in IH. exact IH.
Qed.
Lemma uncomment_eq x : uncomment x = uncomment' x.
Proof. exact (search_uncomment x None []). Qed.

(** no white space directly before a hash, [prev] before the first character *)
Fixpoint nopair (prev : bool) (x : str) : bool :=
  match x with
  | [] => true
  | c :: x' => negb (prev && (c =? ch_hash)) && nopair (is_space c) x'
  end.
Lemma nopair_app p x y : nopair p (x ++ y) = true -> nopair p x = true.
Proof.
  revert p. induction x as [|c x IH]; intros p H; [reflexivity|]. cbn in *.
  apply andb_true_iff in H as [H1 H2]. rewrite H1. now apply IH.
Qed.
Lemma uncomment_nopair x : nopair false x = true -> uncomment' x = x.
Proof.
  assert (G : forall x p, nopair p x = true -> uncomment' x = x); [|apply G].
  clear x. induction x as [|c x IH]; intros p H; [reflexivity|]. cbn in H. apply andb_true_iff in H as [_ H].
  cbn [uncomment']. assert (E : is_space c && match x with d :: _ => d =? ch_hash | [] => false end = false).
  { destruct x as [|d x]; [apply andb_false_r|]. cbn in H. apply andb_true_iff in H as [H _]. now apply negb_true_iff in H. }
  rewrite E. f_equal. eapply IH; eauto.
Qed.
Lemma uncomment_at x w y : is_space w = true -> nopair false (x ++ [w]) = true ->
  uncomment' (x ++ w :: ch_hash :: y) = x.
Proof.
  intros Hw. assert (G : forall x p, nopair p (x ++ [w]) = true -> uncomment' (x ++ w :: ch_hash :: y) = x); [|intros; eapply G; eauto].
  clear x. induction x as [|c x IH]; intros p H.
  - cbn [app uncomment']. now rewrite Hw.
  - cbn [app] in H. cbn in H. apply andb_true_iff in H as [_ H]. cbn [app uncomment'].
    assert (E : is_space c && match x ++ w :: ch_hash :: y with d :: _ => d =? ch_hash | [] => false end = false).
    { destruct x as [|d x]; cbn [app].
      - destruct (w =? ch_hash) eqn:F; [|apply andb_false_r]. apply N.eqb_eq in F. subst w. discriminate Hw.
      - cbn in H. apply andb_true_iff in H as [H _]. now apply negb_true_iff in H. }
    rewrite E. f_equal. eapply IH; eauto.
Qed.

Lemma nopair_visible x p : forallb (fun c => negb (is_space c)) x = true -> p = false -> forall y, nopair p (x ++ y) = nopair false y.
Proof.
  revert p. induction x as [|c x IH]; intros p H -> y; [reflexivity|]. cbn in H. apply andb_true_iff in H as [H1 H2].
  cbn [app nopair andb negb]. apply negb_true_iff in H1. apply IH; assumption.
Qed.
Lemma nopair_space x : forall p, forallb is_space x = true -> nopair p x = true.
Proof.
  induction x as [|c x IH]; intros p H; [reflexivity|]. cbn in H. apply andb_true_iff in H as [H1 H2].
  cbn [nopair]. assert (c =? ch_hash = false) as ->.
  { destruct (c =? ch_hash) eqn:F; [|reflexivity]. apply N.eqb_eq in F. subst c. discriminate H1. }
  rewrite andb_false_r. cbn. now apply IH.
Qed.
Lemma nopair_space_at x y : forallb is_space x = true -> forall p, nopair p (x ++ ch_at :: y) = nopair false y.
Proof.
  intros H. induction x as [|c x IH]; intros p; [cbn; now rewrite andb_false_r|].
  cbn in H. apply andb_true_iff in H as [H1 H2]. cbn [app nopair].
  assert (c =? ch_hash = false) as ->.
  { destruct (c =? ch_hash) eqn:F; [|reflexivity]. apply N.eqb_eq in F. subst c. discriminate H1. }
  rewrite andb_false_r. cbn. now apply IH.
Qed.

Definition tag_ok (p : str * str) : Prop := tag_name_ok (fst p) /\ forallb is_space (snd p) = true.
Lemma name_visible x : tag_name_ok x -> forallb (fun c => negb (is_space c)) x = true.
Proof.
  unfold tag_name_ok. rewrite !forallb_forall. intros H c Hc. specialize (H c Hc). now apply andb_true_iff in H as [H _].
Qed.
Lemma tags_nopair l : Forall tag_ok l -> forall p, nopair p (tags_text l) = true.
Proof.
  induction 1 as [|[nm sp] l [H1 H2] Hl IH]; intros p; [reflexivity|]. cbn [fst snd] in *.
  unfold tags_text. cbn [flat_map fst snd app]. fold (tags_text l). cbn [nopair].
  change (ch_at =? ch_hash) with false. rewrite andb_false_r. cbn [negb andb].
  change (is_space ch_at) with false. rewrite <- app_assoc. rewrite nopair_visible; [|now apply name_visible | reflexivity].
  destruct l as [|q l].
  - cbn [tags_text flat_map]. rewrite app_nil_r. now apply nopair_space.
  - unfold tags_text. cbn [flat_map app]. rewrite nopair_space_at by exact H2.
    specialize (IH false). unfold tags_text in IH. cbn [flat_map app nopair] in IH. rewrite andb_false_r in IH. exact IH.
Qed.

(** ** split *)
Lemma split_on_none c p : forallb (fun d => negb (d =? c)) p = true -> split_on c p = [p].
Proof.
  induction p as [|a p IH]; [reflexivity|]. cbn [forallb split_on]. intros [H1 H2]%andb_true_iff.
  apply negb_true_iff in H1. rewrite H1, (IH H2). reflexivity.
Qed.
Lemma split_on_app c p x : forallb (fun d => negb (d =? c)) p = true ->
  split_on c (p ++ c :: x) = p :: split_on c x.
Proof.
  induction p as [|a p IH]; cbn [forallb split_on app]; [now rewrite N.eqb_refl|]. intros [H1 H2]%andb_true_iff.
  apply negb_true_iff in H1. rewrite H1, (IH H2). reflexivity.
Qed.
Lemma no_at_item p : tag_ok p -> forallb (fun d => negb (d =? ch_at)) (fst p ++ snd p) = true.
Proof.
  intros [H1 H2]. rewrite forallb_app. apply andb_true_iff. split.
  - unfold tag_name_ok in H1. rewrite forallb_forall in *. intros c Hc. specialize (H1 c Hc). now apply andb_true_iff in H1 as [_ H1].
  - rewrite forallb_forall in *. intros c Hc. specialize (H2 c Hc). apply negb_true_iff.
    destruct (c =? ch_at) eqn:E; [|reflexivity]. apply N.eqb_eq in E. subst c. discriminate H2.
Qed.
(** the pieces, the last one without its separator *)
Definition strip_last (l : list (str * str)) (nm : str) : list (str * str) := l ++ [(nm, [])].
Lemma split_tags l : Forall tag_ok l -> split_on ch_at (tags_text l) = [] :: map (fun p => fst p ++ snd p) l.
Proof.
  induction l as [|p l IH]; intros H; [reflexivity|]. inversion H as [|? ? H1 H2]; subst.
  unfold tags_text. cbn [flat_map map app split_on]. rewrite N.eqb_refl. f_equal.
  specialize (IH H2). destruct l as [|q l].
  - cbn [flat_map map]. rewrite app_nil_r. apply split_on_none. now apply no_at_item.
  - unfold tags_text in IH. cbn [flat_map app] in IH |- *. rewrite split_on_app by (now apply no_at_item).
    cbn [split_on] in IH. rewrite N.eqb_refl in IH. injection IH as IH. now rewrite IH.
Qed.

Lemma search_space x : forall p b, forallb (fun c => negb (is_space c)) x = true -> search_go re_tag_space p x b = None.
Proof.
  induction x as [|c x IH]; intros p b H; [reflexivity|]. cbn in H. apply andb_true_iff in H as [H1 H2].
  apply negb_true_iff in H1. cbn [search_go]. unfold re_tag_space. cbn [exec]. unfold step1. cbn [r_rest].
  unfold cset_has. cbn [existsb citem_has]. rewrite H1. cbn. now apply IH.
Qed.
Lemma strip_name nm sp : tag_ok (nm, sp) -> strip (nm ++ sp) = nm.
Proof.
  intros [H1 H2]. cbn [fst snd] in *. apply name_visible in H1. unfold strip. destruct nm as [|c nm].
  - cbn [app]. unfold lstrip, lstrip_by. rewrite (proj2 (drop_while_nil _ _) H2). reflexivity.
  - cbn in H1. apply andb_true_iff in H1 as [Hc H1]. apply negb_true_iff in Hc. cbn [app]. rewrite lstrip_id by exact Hc.
    apply (rstrip_app_visible (c :: nm) sp H2). intros r d E.
    assert (In d (c :: nm)) as Hin by (rewrite E; apply in_or_app; right; now left).
    destruct Hin as [<-|Hin]; [exact Hc|]. rewrite forallb_forall in H1. specialize (H1 d Hin). now apply negb_true_iff.
Qed.
Lemma tags_go_spec l : Forall tag_ok l -> forall pos,
  tags_go (map (fun p => fst p ++ snd p) l) (pos + 1) = Ok (tags_at pos l).
Proof.
  induction 1 as [|[nm sp] l H Hl IH]; intros pos; [reflexivity|]. cbn [map fst snd tags_go tags_at].
  rewrite strip_name by exact H.
  assert (E : re_search re_tag_space (ch_at :: nm) = None).
  { apply search_space. cbn. now apply name_visible, (proj1 H). }
  rewrite E. replace (pos + 1 + length (nm ++ sp) + 1)%nat with ((pos + 1 + length nm + length sp) + 1)%nat
    by (rewrite app_length; lia).
  rewrite IH. reflexivity.
Qed.

Lemma tags_at_last l nm sp sp' : forall pos, tags_at pos (l ++ [(nm, sp)]) = tags_at pos (l ++ [(nm, sp')]).
Proof. induction l as [|[n' s'] l IH]; intros pos; [reflexivity|]. cbn [app tags_at]. now rewrite IH. Qed.
Lemma tags_text_app a b : tags_text (a ++ b) = tags_text a ++ tags_text b.
Proof. apply flat_map_app. Qed.
Lemma tags_text_last l nm sp : tags_text (l ++ [(nm, sp)]) = tags_text (l ++ [(nm, [])]) ++ sp.
Proof.
  rewrite !tags_text_app, <- app_assoc. f_equal. unfold tags_text. cbn [flat_map fst snd app]. now rewrite !app_nil_r.
Qed.
Lemma tags_end_visible l nm sp : tag_ok (nm, sp) -> forall r c, tags_text (l ++ [(nm, [])]) = r ++ [c] -> is_space c = false.
Proof.
  intros [H _] r c E. cbn [fst] in H. rewrite tags_text_app in E. unfold tags_text at 2 in E. cbn [flat_map fst snd app] in E.
  rewrite !app_nil_r in E. destruct (last_case nm) as [->|[z [b ->]]].
  - apply app_inj_tail in E as [_ <-]. reflexivity.
  - rewrite app_comm_cons, app_assoc in E. apply app_inj_tail in E as [_ <-].
    apply name_visible in H. rewrite forallb_app in H. apply andb_true_iff in H as [_ H]. cbn in H. rewrite andb_true_r in H.
    now apply negb_true_iff.
Qed.

Lemma strip_tags l nm sp w : tag_ok (nm, sp) -> forallb is_space w = true ->
  strip (tags_text (l ++ [(nm, [])]) ++ w) = tags_text (l ++ [(nm, [])]).
Proof.
  intros H Hw. unfold strip.
  assert (E : exists y, tags_text (l ++ [(nm, [])]) = ch_at :: y).
  { destruct l as [|p l]; unfold tags_text; cbn; eauto. }
  destruct E as [y E]. rewrite E. cbn [app]. rewrite lstrip_id by reflexivity.
  rewrite app_comm_cons, <- E. apply rstrip_app_visible; [exact Hw|]. eapply tags_end_visible; eauto.
Qed.

Lemma Forall_last {A} (P : A -> Prop) l a : Forall P (l ++ [a]) <-> Forall P l /\ P a.
Proof. rewrite Forall_app. split; intros [H1 H2]; split; auto. now inversion H2. Qed.

Theorem g_tags_spec ind l comment n :
  forallb is_space ind = true -> l <> [] -> Forall tag_ok l -> tag_comment l comment ->
  g_tags (mkLine (ind ++ tags_text l ++ comment) n) = Ok (tags_at (length ind) l).
Proof.
  intros Hi Hne Hl Hc. unfold g_tags.
  destruct (last_case l) as [->|[l' [[nm sp] ->]]]; [easy|]. clear Hne.
  apply Forall_last in Hl as [Hl' Hlast]. pose proof Hlast as [Hnm Hsp]. cbn [fst snd] in Hnm, Hsp.
  assert (E : exists y, tags_text (l' ++ [(nm, sp)]) = ch_at :: y).
  { destruct l' as [|p l'']; unfold tags_text; cbn; eauto. }
  destruct E as [y E].
  assert (T : g_trimmed (mkLine (ind ++ tags_text (l' ++ [(nm, sp)]) ++ comment) n) = tags_text (l' ++ [(nm, sp)]) ++ comment
            /\ g_indent (mkLine (ind ++ tags_text (l' ++ [(nm, sp)]) ++ comment) n) = length ind).
  { rewrite E. cbn [app]. apply g_indent_space; [exact Hi | reflexivity]. }
  destruct T as [T1 T2]. rewrite T1, T2, uncomment_eq.
  assert (Hok : Forall tag_ok (l' ++ [(nm, sp)])) by (apply Forall_last; now split).
  assert (Hok' : Forall tag_ok (l' ++ [(nm, [])])).
  { apply Forall_last. split; [exact Hl' | now split]. }
  assert (S : strip (uncomment' (strip (tags_text (l' ++ [(nm, sp)]) ++ comment))) = tags_text (l' ++ [(nm, [])])).
  { destruct Hc as [->|[[z ->] [p0 [nm0 [sp0 [Hl0 Hsp0]]]]]].
    - rewrite (app_nil_r (tags_text _)), (tags_text_last l' nm sp). 
      transitivity (strip (uncomment' (tags_text (l' ++ [(nm, [])]))));
        [apply f_equal, f_equal; exact (strip_tags l' nm sp sp Hlast Hsp)|].
      rewrite uncomment_nopair by (apply tags_nopair; exact Hok').
      rewrite <- (app_nil_r (tags_text (l' ++ [(nm, [])]))) at 1. apply (strip_tags l' nm sp); auto.
    - apply app_inj_tail in Hl0 as [<- Hl0]. injection Hl0 as <- <-.
      assert (R : exists z', strip (tags_text (l' ++ [(nm, sp)]) ++ ch_hash :: z) = tags_text (l' ++ [(nm, sp)]) ++ ch_hash :: z').
      { unfold strip. rewrite E. cbn [app]. rewrite lstrip_id by reflexivity.
        destruct (rstrip_by_prefix is_space (ch_hash :: z)) as [w [Hw1 Hw2]].
        assert (V : exists z', rstrip_by is_space (ch_hash :: z) = ch_hash :: z').
        { rewrite rstrip_by_cons. change (is_space ch_hash) with false. destruct (forallb is_space z); eauto. }
        destruct V as [z' V]. exists z'. rewrite V in Hw1.
        change (ch_at :: y ++ ch_hash :: z) with ((ch_at :: y) ++ ch_hash :: z). rewrite Hw1.
        change ((ch_at :: y) ++ (ch_hash :: z') ++ w) with ((ch_at :: y) ++ (ch_hash :: z') ++ w).
        rewrite app_assoc. rewrite rstrip_app_visible; [reflexivity | exact Hw2|].
        intros r c Er. destruct (last_case z') as [->|[u [b ->]]].
        - apply app_inj_tail in Er as [_ <-]. reflexivity.
        - rewrite app_comm_cons, app_assoc in Er. apply app_inj_tail in Er as [_ <-].
          rewrite app_comm_cons in V. now apply rstrip_by_last in V. }
      destruct R as [z' R]. rewrite R, (tags_text_last l' nm sp).
      destruct (last_case sp) as [->|[sp1 [w ->]]]; [easy|].
      rewrite forallb_app in Hsp. apply andb_true_iff in Hsp as [Hsp1 Hw]. cbn in Hw. rewrite andb_true_r in Hw.
      rewrite app_assoc, <- app_assoc. cbn [app]. rewrite uncomment_at; [| exact Hw |].
      + apply (strip_tags l' nm (sp1 ++ [w]) sp1); assumption.
      + rewrite <- app_assoc, <- tags_text_last. apply tags_nopair. exact Hok. }
  rewrite S, split_tags by exact Hok'. cbn [tl]. rewrite tags_go_spec by exact Hok'. f_equal. apply tags_at_last.
Qed.

(** ** Tags with white space *)
Lemma search_space_some x : forall p b, forallb (fun c => negb (is_space c)) x = false ->
  exists r, search_go re_tag_space p x b = Some r.
Proof.
  induction x as [|c x IH]; intros p b H; [discriminate|]. cbn in H. cbn [search_go].
  unfold re_tag_space. cbn [exec]. unfold step1. cbn [r_rest].
  unfold cset_has. cbn [existsb citem_has]. destruct (is_space c) eqn:E.
  - cbn [negb orb xorb]. assert (c =? 43 = false) as ->.
    { destruct (c =? 43) eqn:F; [|reflexivity]. apply N.eqb_eq in F. subst c. discriminate E. }
    cbn. eauto.
  - cbn [negb orb xorb]. apply IH. cbn in H. exact H.
Qed.
Lemma tags_go_err items : forall col,
  (exists e, tags_go items col = Err e) <-> existsb (fun i => negb (forallb (fun c => negb (is_space c)) (strip i))) items = true.
Proof.
  induction items as [|i items IH]; intros col; cbn [tags_go existsb].
  - split; [intros [e H]; discriminate | discriminate].
  - destruct (forallb (fun c => negb (is_space c)) (strip i)) eqn:F; cbn [negb orb].
    + unfold re_search. rewrite search_space by (cbn; exact F). rewrite <- (IH (col + length i + 1)%nat).
      destruct (tags_go items (col + length i + 1)); cbn; (split; [intros [e' H] | intros [e' H]]); eauto; discriminate.
    + destruct (search_space_some (ch_at :: strip i) None []) as [r Hr]; [cbn; exact F|].
      unfold re_search. rewrite Hr. split; [reflexivity|]. eauto.
Qed.
