(** * Which lines are tag lines *)
From Verif Require Import PyStr PyStrFacts Types Regex RegexFacts Line LineSpec LineFacts TagFacts.
Local Open Scope N_scope.

Lemma rname_visible x : tag_name_ok x -> forallb (fun c => negb (is_space c)) x = true.
Proof. apply name_visible. Qed.
Lemma space_not_at x : all_space x -> forallb (fun d => negb (d =? ch_at)) x = true.
Proof.
  unfold all_space. rewrite !forallb_forall. intros H c Hc. specialize (H c Hc). apply negb_true_iff.
  destruct (c =? ch_at) eqn:E; [|reflexivity]. apply N.eqb_eq in E. subst c. discriminate H.
Qed.
Definition item_of (t : rtag) : str := rt_lead t ++ rt_name t ++ rt_sep t.
Lemma item_no_at t : rtag_ok t -> forallb (fun d => negb (d =? ch_at)) (item_of t) = true.
Proof.
  intros [H1 [H2 [H3 _]]]. unfold item_of. apply space_not_at in H1, H2. unfold char in *. rewrite !forallb_app, H1, H2, andb_true_r. cbn.
  unfold tag_name_ok in H3. rewrite forallb_forall in *. intros c Hc. specialize (H3 c Hc). now apply andb_true_iff in H3 as [_ H3].
Qed.
Lemma split_rtags l : Forall rtag_ok l -> split_on ch_at (rtags_text l) = [] :: map item_of l.
Proof.
  induction l as [|p l IH]; intros H; [reflexivity|]. inversion H as [|? ? H1 H2]; subst.
  unfold rtags_text. cbn [flat_map map app split_on rtag_text]. rewrite N.eqb_refl. f_equal.
  specialize (IH H2). fold (item_of p). destruct l as [|q l].
  - cbn [flat_map map]. rewrite app_nil_r. apply split_on_none. now apply item_no_at.
  - unfold rtags_text in IH. cbn [flat_map app rtag_text] in IH |- *. rewrite split_on_app by (now apply item_no_at).
    cbn [split_on] in IH. rewrite N.eqb_refl in IH. injection IH as IH. f_equal. exact IH.
Qed.
Lemma strip_mid a b c : all_space a -> all_space c -> forallb (fun c => negb (is_space c)) b = true -> strip (a ++ b ++ c) = b.
Proof.
  intros Ha Hc Hb. unfold strip. destruct b as [|d b].
  - cbn [app]. assert (E : forallb is_space (a ++ c) = true) by (rewrite forallb_app, Ha; exact Hc).
    unfold lstrip, lstrip_by. rewrite (proj2 (drop_while_nil _ _) E). reflexivity.
  - unfold lstrip, lstrip_by. rewrite drop_while_app by exact Ha. pose proof Hb as Hb'. cbn in Hb. apply andb_true_iff in Hb as [Hd Hb].
    apply negb_true_iff in Hd. cbn [app drop_while]. rewrite Hd. rewrite app_comm_cons. apply rstrip_app_visible; [exact Hc|].
    intros r e E. assert (In e (d :: b)) as Hin by (rewrite E; apply in_or_app; right; now left).
    rewrite forallb_forall in Hb'. specialize (Hb' e Hin). now apply negb_true_iff.
Qed.
Lemma tags_go_rspec l : Forall rtag_ok l -> forall pos, tags_go (map item_of l) (pos + 1) = Ok (rtags_at pos l).
Proof.
  induction 1 as [|t l H Hl IH]; intros pos; [reflexivity|]. cbn [map tags_go rtags_at].
  destruct H as [H1 [H2 [H3 _]]]. 
  assert (Es : strip (item_of t) = rt_name t) by (unfold item_of; apply strip_mid; auto using rname_visible). rewrite Es.
  assert (E : re_search re_tag_space (ch_at :: rt_name t) = None) by (apply search_space; cbn; now apply rname_visible).
  rewrite E. replace (pos + 1 + length (item_of t) + 1)%nat with (pos + length (rtag_text t) + 1)%nat
    by (unfold rtag_text, item_of; cbn [length]; lia).
  rewrite IH. reflexivity.
Qed.

Lemma nopair_prefix p x y : nopair p (x ++ y) = true -> nopair p x = true.
Proof. apply nopair_app. Qed.
Lemma rtags_nopair l : Forall rtag_ok l -> forall p, nopair p (rtags_text l) = true.
Proof.
  induction 1 as [|t l [H1 [H2 [H3 H4]]] Hl IH]; intros p; [reflexivity|].
  unfold rtags_text. cbn [flat_map rtag_text app]. fold (rtags_text l). cbn [nopair].
  change (ch_at =? ch_hash) with false. rewrite andb_false_r. cbn [negb andb]. change (is_space ch_at) with false.
  rewrite <- !app_assoc.
  assert (G : forall p, (p = false \/ forall y, rt_name t <> ch_hash :: y) -> nopair p (rt_name t ++ rt_sep t ++ rtags_text l) = true).
  { intros p0 Hp. assert (T : nopair false (rt_name t ++ rt_sep t ++ rtags_text l) = true /\ (rt_name t = [] -> forall p, nopair p (rt_sep t ++ rtags_text l) = true)).
    { assert (S : forall p, nopair p (rt_sep t ++ rtags_text l) = true).
      { intros p1. destruct l as [|q l]; [cbn; rewrite app_nil_r; now apply nopair_space|].
        unfold rtags_text. cbn [flat_map rtag_text app]. rewrite nopair_space_at by exact H2.
        specialize (IH false). unfold rtags_text in IH. cbn [flat_map rtag_text app nopair] in IH. rewrite andb_false_r in IH. exact IH. }
      split; [|auto]. rewrite nopair_visible; [apply S | now apply rname_visible | reflexivity]. }
    destruct T as [T1 T2]. destruct (rt_name t) as [|c y] eqn:E; [apply T2; reflexivity|].
    cbn [app nopair] in T1 |- *. destruct Hp as [->|Hp]; [exact T1|].
    assert (c =? ch_hash = false) as ->. { destruct (c =? ch_hash) eqn:F; [|reflexivity]. apply N.eqb_eq in F. subst c. now elim (Hp y). }
    rewrite andb_false_r. exact T1. }
  revert G H1. generalize (rt_name t ++ rt_sep t ++ rtags_text l) as z. intros z G H1.
  assert (Q : rt_lead t <> [] -> forall y, rt_name t <> ch_hash :: y) by (destruct H4 as [H4|H4]; [congruence | auto]).
  destruct (rt_lead t) as [|c a]; [apply G; now left|]. specialize (Q ltac:(discriminate)).
  assert (G' : forall p, nopair p z = true) by (intros; apply G; now right). clear -G' H1.
  assert (F : forall x p, all_space x -> nopair p (x ++ z) = true); [|now apply F].
  induction x as [|d x IH]; intros p H; [apply G'|]. cbn [app nopair]. unfold all_space in H. cbn in H. apply andb_true_iff in H as [Hd H].
  rewrite IH by exact H. assert (d =? ch_hash = false) as ->.
  { destruct (d =? ch_hash) eqn:F; [|reflexivity]. apply N.eqb_eq in F. subst d. discriminate Hd. } now rewrite andb_false_r.
Qed.

(** the last tag without the white space at its end *)
Definition rtrim (t : rtag) : rtag := match rt_name t with [] => mkRtag [] [] [] | _ => mkRtag (rt_lead t) (rt_name t) [] end.
Lemma rtrim_ok t : rtag_ok t -> rtag_ok (rtrim t).
Proof.
  intros [H1 [H2 [H3 H4]]]. unfold rtrim. destruct (rt_name t) eqn:E; repeat split; cbn; auto; rewrite ?E in *; auto.
Qed.
Lemma rtrim_text t : rtag_ok t -> exists w, rtag_text t = rtag_text (rtrim t) ++ w /\ all_space w.
Proof.
  intros [H1 [H2 _]]. unfold rtrim, rtag_text. destruct (rt_name t) as [|c y] eqn:E; cbn [rt_lead rt_name rt_sep app].
  - exists (rt_lead t ++ rt_sep t). split; [reflexivity|]. unfold all_space. now rewrite forallb_app, H1, H2.
  - exists (rt_sep t). split; [|exact H2]. rewrite app_nil_r. cbn. now rewrite <- app_assoc.
Qed.
Lemma rtrim_end t r c : rtag_ok t -> rtag_text (rtrim t) = r ++ [c] -> is_space c = false.
Proof.
  intros [_ [_ [H3 _]]]. unfold rtrim, rtag_text. destruct (last_case (rt_name t)) as [E|[z [b E]]].
  - rewrite E. cbn. intros F. destruct r as [|? [|? ?]]; try discriminate F. now injection F as <-.
  - rewrite E in *. destruct (z ++ [b]) eqn:Z; [destruct z; discriminate Z|]. cbn [rt_lead rt_name rt_sep]. rewrite <- Z. rewrite app_nil_r.
    intros F. rewrite app_comm_cons, app_assoc in F. apply app_inj_tail in F as [_ <-]. rewrite <- Z in H3. apply rname_visible in H3.
    rewrite forallb_app in H3. apply andb_true_iff in H3 as [_ H3]. cbn in H3. rewrite andb_true_r in H3. now apply negb_true_iff.
Qed.
Lemma rtags_text_app a b : rtags_text (a ++ b) = rtags_text a ++ rtags_text b.
Proof. apply flat_map_app. Qed.
Lemma rtags_at_last l t : forall pos, rtags_at pos (l ++ [t]) = rtags_at pos (l ++ [rtrim t]).
Proof.
  induction l as [|x l IH]; intros pos; cbn [app rtags_at]; [|now rewrite IH].
  unfold rtrim. destruct (rt_name t) eqn:E; cbn; now rewrite ?E.
Qed.
Lemma rstrip_text l t w : Forall rtag_ok (l ++ [t]) -> all_space w -> strip (rtags_text (l ++ [t]) ++ w) = rtags_text (l ++ [rtrim t]).
Proof.
  intros H Hw. apply Forall_last in H as [Hl Ht]. destruct (rtrim_text t Ht) as [v [E Hv]].
  assert (Q : rtags_text (l ++ [t]) ++ w = rtags_text (l ++ [rtrim t]) ++ (v ++ w)).
  { rewrite !rtags_text_app. unfold rtags_text at 2 4. cbn [flat_map]. rewrite !app_nil_r, E. now rewrite !app_assoc. }
  rewrite Q. unfold strip.
  assert (Y : exists y, rtags_text (l ++ [rtrim t]) = ch_at :: y) by (destruct l as [|p l]; unfold rtags_text; cbn; eauto).
  destruct Y as [y Y]. rewrite Y. cbn [app]. rewrite lstrip_id by reflexivity. rewrite app_comm_cons, <- Y.
  apply rstrip_app_visible; [unfold all_space in *; now rewrite forallb_app, Hv, Hw|].
  intros r c F. rewrite rtags_text_app in F. unfold rtags_text at 2 in F. cbn [flat_map] in F. rewrite app_nil_r in F.
  assert (N : rtag_text (rtrim t) <> []) by discriminate.
  destruct (last_case (rtag_text (rtrim t))) as [C|[z [b C]]]; [contradiction|]. pose proof C as C'. rewrite C, app_assoc in F.
  apply app_inj_tail in F as [_ <-]. eapply rtrim_end; eauto.
Qed.

Lemma strip_hash x z : (exists y, x = ch_at :: y) -> exists z', strip (x ++ ch_hash :: z) = x ++ ch_hash :: z'.
Proof.
  intros [y ->]. unfold strip. cbn [app]. rewrite lstrip_id by reflexivity.
  destruct (rstrip_by_prefix is_space (ch_hash :: z)) as [w [Hw1 Hw2]].
  assert (V : exists z', rstrip_by is_space (ch_hash :: z) = ch_hash :: z').
  { rewrite rstrip_by_cons. change (is_space ch_hash) with false. destruct (forallb is_space z); eauto. }
  destruct V as [z' V]. exists z'. rewrite V in Hw1.
  change (ch_at :: y ++ ch_hash :: z) with ((ch_at :: y) ++ ch_hash :: z). rewrite Hw1.
  rewrite app_assoc. rewrite rstrip_app_visible; [reflexivity | exact Hw2|].
  intros r c Er. destruct (last_case z') as [->|[u [b ->]]].
  - apply app_inj_tail in Er as [_ <-]. reflexivity.
  - rewrite app_comm_cons, app_assoc in Er. apply app_inj_tail in Er as [_ <-].
    rewrite app_comm_cons in V. now apply rstrip_by_last in V.
Qed.

Theorem g_tags_complete ind l comment n : tag_line ind l comment ->
  startswith [ch_at] (lstrip (ind ++ rtags_text l ++ comment)) = true /\
  g_tags (mkLine (ind ++ rtags_text l ++ comment) n) = Ok (rtags_at (length ind) l).
Proof.
  intros [Hi [Hne [Hl Hc]]]. unfold g_tags.
  destruct (last_case l) as [->|[l' [t ->]]]; [easy|]. clear Hne.
  assert (Y : exists y, rtags_text (l' ++ [t]) = ch_at :: y) by (destruct l' as [|p l'']; unfold rtags_text; cbn; eauto).
  destruct Y as [y Y].
  assert (T : g_trimmed (mkLine (ind ++ rtags_text (l' ++ [t]) ++ comment) n) = rtags_text (l' ++ [t]) ++ comment
            /\ g_indent (mkLine (ind ++ rtags_text (l' ++ [t]) ++ comment) n) = length ind).
  { rewrite Y. cbn [app]. apply g_indent_space; [exact Hi | reflexivity]. }
  destruct T as [T1 T2]. split; [change (lstrip ?x) with (g_trimmed (mkLine x n)); rewrite T1, Y; reflexivity|].
  rewrite T1, T2, uncomment_eq.
  pose proof Hl as Hl0. apply Forall_last in Hl0 as [Hl' Ht].
  assert (Hok' : Forall rtag_ok (l' ++ [rtrim t])) by (apply Forall_last; split; [exact Hl' | now apply rtrim_ok]).
  assert (N : forall w, strip (rtags_text (l' ++ [rtrim t]) ++ w) = rtags_text (l' ++ [rtrim t]) \/ ~ all_space w).
  { intros w. destruct (forallb is_space w) eqn:E; [|right; unfold all_space; congruence]. left.
    rewrite (rstrip_text _ _ _ Hok' E). f_equal. f_equal. unfold rtrim. destruct (rt_name t) eqn:Q; cbn; rewrite ?Q; reflexivity. }
  assert (S : strip (uncomment' (strip (rtags_text (l' ++ [t]) ++ comment))) = rtags_text (l' ++ [rtrim t])).
  { destruct Hc as [->|[[z ->] [r [c [Er Hcs]]]]].
    - rewrite rstrip_text by (auto; reflexivity). rewrite uncomment_nopair by (apply rtags_nopair; exact Hok').
      destruct (N []) as [N1|N1]; [|elim N1; reflexivity]. unfold str in *. rewrite app_nil_r in N1. exact N1.
    - destruct (strip_hash (rtags_text (l' ++ [t])) z (ex_intro _ y Y)) as [z' ->].
      rewrite Er, <- app_assoc. cbn [app]. rewrite uncomment_at; [| exact Hcs | rewrite <- Er; now apply rtags_nopair].
      pose proof (rstrip_text l' t [] Hl eq_refl) as R. rewrite app_nil_r, Er in R. rewrite <- R.
      destruct r as [|a r]; [|].
      + rewrite Y in Er. destruct y; [|discriminate Er]. injection Er as <-. discriminate Hcs.
      + rewrite Y in Er. injection Er as <- _. unfold strip. cbn [app]. rewrite !lstrip_id by reflexivity.
        rewrite app_comm_cons. symmetry. apply rstrip_by_app. cbn. now rewrite Hcs. }
  rewrite S, split_rtags by exact Hok'. cbn [tl]. rewrite tags_go_rspec by exact Hok'. f_equal. symmetry. apply rtags_at_last.
Qed.

(** ** Conversely, a line that is read as a tag line has this form *)
Lemma split_on_ne c x : split_on c x <> [].
Proof. destruct x as [|a x]; cbn [split_on]; [discriminate|]. destruct (a =? c); [discriminate|]. destruct (split_on c x); discriminate. Qed.
Lemma split_on_join c x : x = match split_on c x with [] => [] | p :: l => p ++ flat_map (fun y => c :: y) l end.
Proof.
  induction x as [|a x IH]; [reflexivity|]. cbn [split_on]. pose proof (split_on_ne c x) as Hn. destruct (a =? c) eqn:E.
  - apply N.eqb_eq in E. subst a. destruct (split_on c x) as [|p l]; cbn in *; [congruence | f_equal; exact IH].
  - destruct (split_on c x) as [|p l]; cbn in *; [congruence | f_equal; exact IH].
Qed.
Lemma split_on_clean c x : Forall (fun y => forallb (fun d => negb (d =? c)) y = true) (split_on c x).
Proof.
  induction x as [|a x IH]; cbn [split_on]; [repeat constructor|]. destruct (a =? c) eqn:E; [constructor; [reflexivity | exact IH]|].
  destruct (split_on c x) as [|p l]; [repeat constructor; cbn; now rewrite E|].
  inversion IH; subst. constructor; [cbn; rewrite E; assumption | assumption].
Qed.
Lemma strip_parts x : exists a b, x = a ++ strip x ++ b /\ all_space a /\ all_space b.
Proof.
  unfold strip, lstrip, lstrip_by, rstrip. destruct (drop_while_suffix is_space x) as [a [E1 H1]].
  destruct (rstrip_by_prefix is_space (drop_while is_space x)) as [b [E2 H2]]. exists a, b. split; [|now split].
  rewrite E1 at 1. f_equal. exact E2.
Qed.
Lemma nopair_mid p x c y : nopair p (x ++ c :: ch_hash :: y) = true -> is_space c = false.
Proof.
  revert p. induction x as [|d x IH]; intros p H; cbn [app nopair] in H.
  - apply andb_true_iff in H as [_ H]. apply andb_true_iff in H as [H _]. destruct (is_space c); [discriminate H | reflexivity].
  - apply andb_true_iff in H as [_ H]. eapply IH; eauto.
Qed.
Lemma nopair_app_r p x y : nopair p (x ++ y) = true -> exists q, nopair q y = true.
Proof. revert p. induction x as [|c x IH]; intros p H; [eauto|]. cbn [app nopair] in H. apply andb_true_iff in H as [_ H]. eapply IH; eauto. Qed.

Lemma items_rtags items : forall p, Forall (fun y => forallb (fun d => negb (d =? ch_at)) y = true) items ->
  existsb (fun i => negb (forallb (fun c => negb (is_space c)) (strip i))) items = false ->
  nopair p (flat_map (fun y => ch_at :: y) items) = true ->
  exists l, Forall rtag_ok l /\ map item_of l = items.
Proof.
  induction items as [|i items IH]; intros p H1 H2 H3; [exists []; split; [constructor | reflexivity]|].
  inversion H1 as [|? ? Hi H1']; subst. cbn [existsb] in H2. apply orb_false_iff in H2 as [H2 H2'].
  apply negb_false_iff in H2. cbn [flat_map app] in H3. pose proof H3 as H3'. cbn [nopair] in H3'. apply andb_true_iff in H3' as [_ H3'].
  destruct (nopair_app_r _ _ _ H3') as [q Hq]. destruct (IH q H1' H2' Hq) as [l [L1 L2]].
  destruct (strip_parts i) as [a [b [E [Ha Hb]]]].
  exists (mkRtag a (strip i) b :: l). split; [|cbn [map]; f_equal; [unfold item_of; cbn [rt_lead rt_name rt_sep]; now rewrite <- E | exact L2]].
  constructor; [|exact L1]. split; [exact Ha|]. split; [exact Hb|]. cbn [rt_lead rt_name rt_sep]. split.
  - unfold tag_name_ok. rewrite forallb_forall. intros c Hc. rewrite forallb_forall in H2. rewrite (H2 c Hc). cbn.
    rewrite forallb_forall in Hi. apply Hi. rewrite E. apply in_or_app. right. apply in_or_app. now left.
  - destruct (last_case a) as [->|[a' [c ->]]]; [now left|]. right. intros y Ey.
    assert (Q : nopair p ((ch_at :: a') ++ c :: ch_hash :: y ++ b ++ flat_map (fun y => ch_at :: y) items) = true).
    { etransitivity; [|exact H3]. apply (f_equal (nopair p)). apply (f_equal (cons ch_at)). rewrite E, Ey, <- !app_assoc. cbn [app]. rewrite <- ?app_assoc. reflexivity. }
    apply nopair_mid in Q. unfold all_space in Ha. rewrite forallb_app in Ha. apply andb_true_iff in Ha as [_ Ha]. cbn in Ha.
    rewrite Q in Ha. discriminate.
Qed.
Lemma rtags_items l : rtags_text l = flat_map (fun y => ch_at :: y) (map item_of l).
Proof. unfold rtags_text. induction l as [|t l IH]; [reflexivity|]. cbn [flat_map map]. now rewrite IH. Qed.

Lemma uncomment_cases x : (uncomment' x = x /\ nopair false x = true) \/
  exists c y, x = uncomment' x ++ c :: ch_hash :: y /\ is_space c = true /\ nopair false (uncomment' x) = true.
Proof.
  assert (G : forall x p, (forall y, p = true -> x <> ch_hash :: y) -> (uncomment' x = x /\ nopair p x = true) \/
     exists c y, x = uncomment' x ++ c :: ch_hash :: y /\ is_space c = true /\ nopair p (uncomment' x) = true).
  { clear x. induction x as [|a x IH]; intros p Hp; [left; now split|]. cbn [uncomment'].
    assert (Hh : negb (p && (a =? ch_hash)) = true).
    { destruct p; [|reflexivity]. destruct (a =? ch_hash) eqn:E; [|reflexivity]. apply N.eqb_eq in E. subst. now elim (Hp x eq_refl). }
    destruct (is_space a && _) eqn:E.
    - apply andb_true_iff in E as [E1 E2]. destruct x as [|d x]; [discriminate|]. apply N.eqb_eq in E2. subst d.
      right. exists a, x. repeat split; assumption.
    - destruct (IH (is_space a)) as [[I1 I2]|[c [y [I1 [I2 I3]]]]].
      + intros y Hs ->. rewrite Hs, N.eqb_refl in E. discriminate.
      + left. rewrite I1. split; [reflexivity|]. cbn. now rewrite Hh, I2.
      + right. exists c, y. split; [cbn; congruence|]. split; [exact I2|]. cbn. now rewrite Hh, I3. }
  apply G. discriminate.
Qed.
Lemma lstrip_parts x : exists a, x = a ++ lstrip x /\ all_space a.
Proof. destruct (drop_while_suffix is_space x) as [a [E H]]. exists a. now split. Qed.
Lemma rstrip_at v : (exists y, v = ch_at :: y) -> exists y, rstrip v = ch_at :: y.
Proof.
  intros [y ->]. unfold rstrip. rewrite rstrip_by_cons. destruct (forallb is_space y); change (is_space ch_at) with false; eauto.
Qed.
Lemma strip_at v : (exists y, v = ch_at :: y) -> (exists y, strip v = ch_at :: y) /\ exists b, v = strip v ++ b /\ all_space b.
Proof.
  intros [y ->]. unfold strip. rewrite lstrip_id by reflexivity. split; [apply rstrip_at; eauto|].
  destruct (rstrip_by_prefix is_space (ch_at :: y)) as [b [E H]]. exists b. now split.
Qed.

Theorem g_tags_sound x n items : startswith [ch_at] (lstrip x) = true -> g_tags (mkLine x n) = Ok items ->
  tags_line x items.
Proof.
  intros Hs H. destruct (lstrip_parts x) as [ind [Ex Hi]].
  assert (Y : exists y, lstrip x = ch_at :: y).
  { destruct (lstrip x) as [|c y]; [discriminate Hs|]. cbn [startswith] in Hs. rewrite andb_true_r in Hs. apply N.eqb_eq in Hs. subst c. eauto. }
  assert (In_ : g_indent (mkLine x n) = length ind).
  { unfold g_indent, g_trimmed. cbn [g_text]. rewrite Ex at 1. rewrite app_length. lia. }
  unfold g_tags in H. rewrite In_ in H. change (g_trimmed (mkLine x n)) with (lstrip x) in H. rewrite uncomment_eq in H.
  set (z := strip (lstrip x)) in *. destruct (strip_at _ Y) as [Z [w [Ew Hw]]]. fold z in Z, Ew.
  assert (U : exists y, uncomment' z = ch_at :: y).
  { destruct Z as [y ->]. cbn [uncomment']. change (is_space ch_at) with false. cbn. eauto. }
  set (u := uncomment' z) in *. set (v := strip u) in *. destruct (strip_at _ U) as [V [w2 [Ev Hw2]]]. fold v in V, Ev.
  assert (NP : nopair false u = true).
  { destruct (uncomment_cases z) as [[E1 E2]|[c [y [E1 [E2 E3]]]]]; [unfold u; now rewrite E1 | exact E3]. }
  assert (NPv : nopair false v = true) by (rewrite Ev in NP; eapply nopair_app; eauto).
  assert (Sp : exists items0, split_on ch_at v = [] :: items0).
  { destruct V as [y ->]. cbn [split_on]. rewrite N.eqb_refl. eauto. }
  destruct Sp as [its Sp]. rewrite Sp in H. cbn [tl] in H.
  assert (Ejoin : v = flat_map (fun y => ch_at :: y) its).
  { pose proof (split_on_join ch_at v) as J. rewrite Sp in J. exact J. }
  assert (Hne : its <> []) by (intros ->; destruct V as [y V]; rewrite V in Ejoin; discriminate).
  assert (NE : existsb (fun i => negb (forallb (fun c => negb (is_space c)) (strip i))) its = false).
  { match goal with |- ?g = _ => destruct g eqn:E; [|reflexivity] end. apply (tags_go_err its (length ind + 1)) in E as [e E]. congruence. }
  pose proof (split_on_clean ch_at v) as Cl. rewrite Sp in Cl. inversion Cl as [|? ? _ Cl']; subst.
  destruct (items_rtags its false Cl' NE) as [l [L1 L2]]; [rewrite <- Ejoin; exact NPv|].
  assert (Et : v = rtags_text l) by (rewrite rtags_items, L2; exact Ejoin).
  destruct (last_case l) as [->|[l' [t ->]]]; [rewrite <- L2 in Hne; contradiction|].
  rewrite <- L2, tags_go_rspec in H by exact L1. injection H as <-.
  set (add := fun sp => l' ++ [mkRtag (rt_lead t) (rt_name t) (rt_sep t ++ sp)]).
  assert (Hadd : forall sp, all_space sp -> Forall rtag_ok (add sp)).
  { intros sp Hsp. unfold add. apply Forall_last in L1 as [La [Lb [Lc [Ld Le]]]]. apply Forall_last. split; [exact La|].
    split; [exact Lb|]. split; [|split; [exact Ld | exact Le]]. cbn. unfold all_space in *. now rewrite forallb_app, Lc, Hsp. }
  assert (Tadd : forall sp, rtags_text (add sp) = v ++ sp).
  { intros sp. unfold add. rewrite Et, !rtags_text_app. unfold rtags_text at 2 4. cbn [flat_map]. rewrite !app_nil_r, <- app_assoc. f_equal.
    unfold rtag_text. cbn. rewrite !app_assoc. reflexivity. }
  assert (Aadd : forall sp pos, rtags_at pos (add sp) = rtags_at pos (l' ++ [t])).
  { intros sp. unfold add. clear. induction l' as [|q l' IH]; intros pos; cbn [app rtags_at]; [reflexivity | now rewrite IH]. }
  assert (Nadd : forall sp, add sp <> []) by (intros sp F; unfold add in F; now apply app_eq_nil in F as [_ F]).
  destruct (uncomment_cases z) as [[E1 E2]|[c [y [E1 [E2 E3]]]]].
  - exists ind, (add (w2 ++ w)), []. rewrite Tadd, Aadd. split.
    { etransitivity; [exact Ex|]. apply (f_equal (app ind)). etransitivity; [exact Ew|]. rewrite app_nil_r.
      transitivity (u ++ w); [apply (f_equal (fun q => q ++ w)); symmetry; exact E1|]. rewrite Ev at 1. symmetry. apply app_assoc. }
    split; [|reflexivity]. split; [exact Hi|]. split; [apply Nadd|]. split; [|now left]. apply Hadd. unfold all_space in *. now rewrite forallb_app, Hw2, Hw.
  - change (uncomment' z) with u in E1. exists ind, (add (w2 ++ [c])), (ch_hash :: y ++ w). rewrite Tadd, Aadd. split.
    + etransitivity; [exact Ex|]. apply (f_equal (app ind)). etransitivity; [exact Ew|].
      transitivity ((u ++ c :: ch_hash :: y) ++ w); [apply (f_equal (fun q => q ++ w)); exact E1|]. rewrite Ev at 1. rewrite <- !app_assoc. reflexivity.
    + split; [|reflexivity]. split; [exact Hi|]. split; [apply Nadd|]. split.
      * apply Hadd. unfold all_space in *. rewrite forallb_app, Hw2. cbn. now rewrite E2.
      * right. split; [eauto|]. exists (v ++ w2), c. split; [now rewrite Tadd, app_assoc | exact E2].
Qed.

(** the line [x] is read as a tag line with these items *)
Theorem g_tags_iff x n items :
  (startswith [ch_at] (lstrip x) = true /\ g_tags (mkLine x n) = Ok items) <-> tags_line x items.
Proof.
  split.
  - intros [H1 H2]. eapply g_tags_sound; eauto.
  - intros [ind [l [comment [-> [H1 ->]]]]]. now apply g_tags_complete.
Qed.
