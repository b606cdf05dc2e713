From Verif Require Import PyStr PyStrFacts Types Regex RegexFacts Line LineSpec.
Local Open Scope N_scope.

Definition blank_set := RSet true [CNonSpace; CChar ch_nl].
Lemma blank_set_has c : cset_has true [CNonSpace; CChar ch_nl] c = blank c.
Proof.
  unfold cset_has, blank. cbn [existsb citem_has]. rewrite orb_false_r.
  destruct (is_space c), (c =? ch_nl); reflexivity.
Qed.
Lemma star1_ext f g p x caps : (forall c, f c = g c) -> star1 f p x caps = star1 g p x caps.
Proof.
  intros H. revert p. induction x as [|c x IH]; intros p; [reflexivity|].
  cbn [star1]. rewrite H, IH. reflexivity.
Qed.
Lemma exec_blanks p x caps : exec (RStar blank_set) (mkR p x caps) = star1 blank p x caps.
Proof. unfold blank_set. rewrite exec_star_set. apply star1_ext, blank_set_has. Qed.

(** ^[^\S\n]* *)
Lemma exec_lead p x :
  exec re_cell_lead (mkR p x []) = match p with None => star1 blank None x [] | Some _ => [] end.
Proof.
  unfold re_cell_lead. rewrite exec_seq. cbn [exec r_prev]. destruct p; [reflexivity|].
  cbn [flat_map]. rewrite app_nil_r. apply exec_blanks.
Qed.
Lemma star1_head f p x caps :
  hd_error (star1 f p x caps) = Some (mkR (lastc p (run f x)) (drop_while f x) caps).
Proof.
  revert p. induction x as [|c x IH]; intros p; [reflexivity|]. cbn [star1 drop_while].
  destruct (f c) eqn:E.
  - rewrite run_cons by exact E. rewrite lastc_cons.
    specialize (IH (Some c)). destruct (star1 f (Some c) x caps); [discriminate|]. cbn in *. congruence.
  - now rewrite run_stop.
Qed.
Lemma find_true {A} (l : list A) : find (fun _ => true) l = hd_error l.
Proof. now destruct l. Qed.

Lemma sub_lead_inner x : forall c k, sub_go re_cell_lead [] (Some c) k x = skipn k x.
Proof.
  induction x as [|d x IH]; intros c k.
  - cbn [sub_go]. unfold first_match. rewrite exec_lead. now rewrite skipn_nil.
  - cbn [sub_go]. destruct k as [|k]; [|apply IH].
    unfold first_match. rewrite exec_lead. cbn [find]. now rewrite IH.
Qed.
Lemma sub_lead x : re_sub re_cell_lead [] x = drop_while blank x.
Proof.
  unfold re_sub. destruct x as [|c x].
  - reflexivity.
  - cbn [sub_go]. unfold first_match. rewrite exec_lead, find_true, star1_head. cbn [r_rest].
    pose proof (run_split blank (c :: x)) as Hs.
    destruct (length (c :: x) - length (drop_while blank (c :: x)))%nat as [|k] eqn:E.
    + assert (drop_while blank (c :: x) = c :: x) as D.
      { destruct (drop_while_suffix blank (c :: x)) as [p [Hp _]].
        assert (length p = 0)%nat by (rewrite Hp in E at 1; rewrite app_length in E; lia).
        destruct p; [now rewrite Hp at 2 | discriminate]. }
      cbn [app]. rewrite D. 
      assert (B : blank c = false).
      { destruct (blank c) eqn:B; [|reflexivity]. cbn [drop_while] in D. rewrite B in D.
        pose proof (drop_while_length blank x). rewrite D in H. cbn in H. lia. }
      cbn [star1]. rewrite B. cbn [find r_rest]. rewrite Nat.ltb_irrefl.
      rewrite sub_lead_inner. reflexivity.
    + cbn [app]. rewrite sub_lead_inner.
      change (skipn k x) with (skipn (S k) (c :: x)). rewrite <- E.
      rewrite Hs at 3.
      assert (L : (length (c :: x) - length (drop_while blank (c :: x)))%nat = length (run blank (c :: x))).
      { rewrite Hs at 1. rewrite app_length. lia. }
      rewrite L, skipn_app, skipn_all, Nat.sub_diag. reflexivity.
Qed.

(** [^\S\n]*$ *)
Definition at_end (x : str) : bool := match x with [] => true | [c] => c =? ch_nl | _ => false end.
Lemma exec_eol p x caps : exec REol (mkR p x caps) = if at_end x then [mkR p x caps] else [].
Proof. destruct x as [|c [|d x]]; reflexivity. Qed.
Lemma exec_trail p x :
  exec re_cell_trail (mkR p x []) =
  if at_end (drop_while blank x) then [mkR (lastc p (run blank x)) (drop_while blank x) []] else [].
Proof.
  unfold re_cell_trail. rewrite exec_seq. fold blank_set. rewrite exec_blanks, star1_greedy.
  - apply exec_eol.
  - intros q c y caps Hc. rewrite exec_eol. destruct y; [|reflexivity]. cbn [at_end].
    unfold blank in Hc. apply andb_true_iff in Hc as [_ Hc]. apply negb_true_iff in Hc. now rewrite Hc.
Qed.
(** closed form *)
Fixpoint cut (x : str) : str :=
  match x with
  | [] => []
  | c :: x' => if at_end (drop_while blank x) then drop_while blank x else c :: cut x'
  end.
Lemma sub_trail_skip k : forall p x, (k <= length x)%nat ->
  sub_go re_cell_trail [] p k x = sub_go re_cell_trail [] (lastc p (firstn k x)) 0 (skipn k x).
Proof.
  induction k as [|k IH]; intros p [|c x] H; try reflexivity.
  cbn [sub_go firstn skipn]. rewrite IH by (cbn in H; lia). now rewrite lastc_cons.
Qed.
Lemma sub_trail_end p x : at_end x = true -> sub_go re_cell_trail [] p 0 x = x.
Proof.
  destruct x as [|c [|d x]]; cbn [at_end]; try discriminate; intros H.
  - cbn [sub_go]. unfold first_match. rewrite exec_trail. reflexivity.
  - cbn [sub_go]. unfold first_match. rewrite !exec_trail. apply N.eqb_eq in H. subst c. reflexivity.
Qed.
Lemma sub_trail_go x : forall p, sub_go re_cell_trail [] p 0 x = cut x.
Proof.
  induction x as [|c x IH]; intros p.
  - cbn [sub_go cut]. unfold first_match. now rewrite exec_trail.
  - cbn [sub_go]. unfold first_match. rewrite exec_trail. cbn [cut].
    destruct (at_end (drop_while blank (c :: x))) eqn:E; cbn [find]; [|now rewrite IH].
    cbn [r_rest]. pose proof (run_split blank (c :: x)) as Hs.
    assert (L : (length (c :: x) - length (drop_while blank (c :: x)))%nat = length (run blank (c :: x))).
    { rewrite Hs at 1. rewrite app_length. lia. }
    rewrite L. destruct (run blank (c :: x)) as [|r rs] eqn:R.
    + cbn [length app]. assert (D : drop_while blank (c :: x) = c :: x) by (symmetry; exact Hs).
      rewrite D in *. rewrite Nat.ltb_irrefl. rewrite IH.
      destruct x as [|d x]; [reflexivity | discriminate E].
    + cbn [length]. cbn [app]. 
      assert (Hc : r = c /\ x = rs ++ drop_while blank (c :: x)) by (cbn [app] in Hs; injection Hs; auto).
      destruct Hc as [-> Hx].
      rewrite sub_trail_skip by (rewrite Hx at 1; rewrite app_length; lia).
      rewrite Hx at 2. rewrite skipn_app, skipn_all, Nat.sub_diag. cbn [app skipn].
      now apply sub_trail_end.
Qed.
Lemma sub_trail x : re_sub re_cell_trail [] x = cut x.
Proof. apply sub_trail_go. Qed.

Lemma endswith_last c v : endswith [c] v = match rev v with d :: _ => c =? d | [] => false end.
Proof. unfold endswith. cbn [rev app startswith]. destruct (rev v); [reflexivity|]. now rewrite andb_true_r. Qed.
Lemma drop_blank_end x : at_end (drop_while blank x) = true ->
  forallb blank x = true /\ drop_while blank x = [] \/
  exists r, x = r ++ [ch_nl] /\ forallb blank r = true /\ drop_while blank x = [ch_nl].
Proof.
  intros H. destruct (drop_while_suffix blank x) as [p [E Hp]].
  destruct (drop_while blank x) as [|c [|]] eqn:D; try discriminate H.
  - left. split; [|reflexivity]. rewrite E, app_nil_r. exact Hp.
  - right. cbn [at_end] in H. apply N.eqb_eq in H. subst c. eauto.
Qed.
Lemma drop_blank_end_conv r : forallb blank r = true -> drop_while blank (r ++ [ch_nl]) = [ch_nl].
Proof. intros H. rewrite drop_while_app by exact H. reflexivity. Qed.
Lemma last_case {A} (x : list A) : x = [] \/ exists r b, x = r ++ [b].
Proof. destruct x as [|a x]; [now left|]. right. destruct (@exists_last _ (a :: x)) as [r [b E]]; [discriminate|]. eauto. Qed.

Lemma cut_rtrim x : cut x = rtrim_cell x.
Proof.
  induction x as [|c x IH]; [reflexivity|]. cbn [cut].
  destruct (at_end (drop_while blank (c :: x))) eqn:E.
  - apply drop_blank_end in E as [[E ->]|[r [-> [E ->]]]].
    + unfold rtrim_cell. rewrite endswith_last.
      destruct (last_case (c :: x)) as [|[r [b Hb]]]; [discriminate|]. rewrite Hb, rev_unit in *.
      rewrite forallb_app in E. apply andb_true_iff in E as [E1 E2]. cbn in E2. rewrite andb_true_r in E2.
      destruct (ch_nl =? b) eqn:F. { apply N.eqb_eq in F. now subst b. }
      symmetry. apply rstrip_by_nil. rewrite forallb_app, E1. cbn. now rewrite E2.
    + unfold rtrim_cell. rewrite endswith_last, rev_unit, N.eqb_refl, removelast_last.
      rewrite (proj2 (rstrip_by_nil blank r) E). reflexivity.
  - rewrite IH. unfold rtrim_cell. rewrite !endswith_last.
    destruct (last_case x) as [->|[r [b ->]]].
    + cbn [rev app]. cbn [drop_while] in E. destruct (blank c) eqn:B; [discriminate E|].
      cbn [at_end] in E. rewrite N.eqb_sym, E. symmetry. exact (rstrip_by_id blank [] c B).
    + cbn [rev]. rewrite rev_unit. cbn [app]. destruct (ch_nl =? b) eqn:F.
      * apply N.eqb_eq in F. subst b.
        change (c :: r ++ [ch_nl]) with ((c :: r) ++ [ch_nl]) in *. rewrite !removelast_last.
        rewrite rstrip_by_cons. destruct (forallb blank r) eqn:G; [|reflexivity].
        rewrite (proj2 (rstrip_by_nil blank r) G). destruct (blank c) eqn:B; [|reflexivity].
        rewrite drop_blank_end_conv in E; [discriminate E|]. cbn. now rewrite B, G.
      * rewrite rstrip_by_cons. destruct (forallb blank (r ++ [b])) eqn:G; [|reflexivity].
        rewrite (proj2 (rstrip_by_nil blank _) G). destruct (blank c) eqn:B; [|reflexivity].
        assert (X : drop_while blank (c :: r ++ [b]) = []) by (apply drop_while_nil; cbn [forallb]; now rewrite B, G).
        rewrite X in E. discriminate E.
Qed.

Lemma cell_item_spec indent cell col :
  cell_item indent (cell, col) =
  mkItem (col + indent + (length cell - length (drop_while blank cell))) (trim_cell cell).
Proof. unfold cell_item. rewrite sub_lead, sub_trail, cut_rtrim. reflexivity. Qed.

(** ** Splitting a row *)
Lemma str_len_ind (P : str -> Prop) :
  (forall x, (forall y, (length y < length x)%nat -> P y) -> P x) -> forall x, P x.
Proof.
  intros H x. remember (length x) as n eqn:E. revert x E.
  induction n as [n IH] using lt_wf_ind. intros x ->. apply H. intros y Hy. eapply IH; eauto.
Qed.

Lemma split_raw raw : forall v rest col start cell first, unescape_cell raw = Some v ->
  split_cells_go (raw ++ ch_pipe :: rest) col start cell first =
  let r := split_cells_go rest (col + length raw + 1) (col + length raw + 2) [] false in
  if first then r else rbind r (fun l => Ok ((cell ++ v, start) :: l)).
Proof.
  induction raw as [raw IH] using str_len_ind. intros v rest col start cell first H.
  destruct raw as [|c raw].
  - cbn in H. injection H as <-. cbn [app split_cells_go length]. rewrite N.eqb_refl, app_nil_r.
    replace (col + 0 + 1)%nat with (S col) by lia. replace (col + 0 + 2)%nat with (S (S col)) by lia. reflexivity.
  - cbn [unescape_cell] in H. cbn [app split_cells_go].
    destruct (c =? ch_pipe) eqn:Ep; [discriminate|]. destruct (c =? ch_bslash) eqn:Eb.
    + destruct raw as [|d raw]; [discriminate|]. cbn [app].
      destruct (unescape_cell raw) as [v'|] eqn:Ev; [|discriminate]. cbn in H. injection H as <-.
      assert (L : forall cell', split_cells_go (raw ++ ch_pipe :: rest) (S (S col)) start cell' first =
        let r := split_cells_go rest (col + length (c :: d :: raw) + 1) (col + length (c :: d :: raw) + 2) [] false in
        if first then r else rbind r (fun l => Ok ((cell' ++ v', start) :: l))).
      { intros cell'. rewrite (IH raw ltac:(cbn; lia) v') by exact Ev. cbn [length].
        replace (S (S col) + length raw + 1)%nat with (col + S (S (length raw)) + 1)%nat by lia.
        replace (S (S col) + length raw + 2)%nat with (col + S (S (length raw)) + 2)%nat by lia. reflexivity. }
      destruct (d =? ch_n); [|destruct ((d =? ch_pipe) || (d =? ch_bslash))]; rewrite L, <- app_assoc; reflexivity.
    + destruct (unescape_cell raw) as [v'|] eqn:Ev; [|discriminate]. cbn in H. injection H as <-.
      rewrite (IH raw ltac:(cbn; lia) v') by exact Ev. cbn [length]. rewrite <- app_assoc.
      replace (S col + length raw + 1)%nat with (col + S (length raw) + 1)%nat by lia.
      replace (S col + length raw + 2)%nat with (col + S (length raw) + 2)%nat by lia. reflexivity.
Qed.
Lemma split_tail raw : forall v col start cell first, unescape_cell raw = Some v ->
  split_cells_go raw col start cell first = Ok [].
Proof.
  induction raw as [raw IH] using str_len_ind. intros v col start cell first H.
  destruct raw as [|c raw]; [reflexivity|]. cbn [unescape_cell] in H. cbn [split_cells_go].
  destruct (c =? ch_pipe) eqn:Ep; [discriminate|]. destruct (c =? ch_bslash) eqn:Eb.
  - destruct raw as [|d raw]; [discriminate|]. destruct (unescape_cell raw) as [v'|] eqn:Ev; [|discriminate].
    assert (L : forall cell', split_cells_go raw (S (S col)) start cell' first = Ok []).
    { intros. apply (IH raw ltac:(cbn; lia) v' _ _ _ _ Ev). }
    destruct (d =? ch_n); [|destruct ((d =? ch_pipe) || (d =? ch_bslash))]; apply L.
  - destruct (unescape_cell raw) as [v'|] eqn:Ev; [|discriminate]. apply (IH raw ltac:(cbn; lia) v' _ _ _ _ Ev).
Qed.

Fixpoint split_at (col : nat) (raws : list str) : list (str * nat) :=
  match raws with
  | [] => []
  | raw :: raws' => (match unescape_cell raw with Some v => v | None => [] end, S col)
                    :: split_at (col + length raw + 1) raws'
  end.
Lemma split_rows raws : forall tail col, Forall (fun r => unescape_cell r <> None) raws -> unescape_cell tail <> None ->
  split_cells_go (flat_map (fun r => r ++ [ch_pipe]) raws ++ tail) col (S col) [] false = Ok (split_at col raws).
Proof.
  induction raws as [|raw raws IH]; intros tail col Hr Ht; cbn [flat_map app split_at].
  - destruct (unescape_cell tail) as [v|] eqn:E; [|easy]. eapply split_tail; eauto.
  - inversion Hr as [|? ? H1 H2]; subst. destruct (unescape_cell raw) as [v|] eqn:E; [|easy].
    rewrite <- !app_assoc. cbn [app]. rewrite (split_raw _ _ _ _ _ _ _ E). cbv zeta.
    replace (col + length raw + 2)%nat with (S (col + length raw + 1)) by lia.
    rewrite IH by assumption. reflexivity.
Qed.

Lemma unescape_blanks raw v : unescape_cell raw = Some v ->
  (length v - length (drop_while blank v) = length raw - length (drop_while blank raw))%nat.
Proof.
  revert v. induction raw as [|c raw IH]; intros v H; [cbn in H; now injection H as <-|].
  cbn [unescape_cell] in H. destruct (c =? ch_pipe) eqn:Ep; [discriminate|].
  destruct (c =? ch_bslash) eqn:Eb.
  - apply N.eqb_eq in Eb. subst c. cbn [drop_while]. change (blank ch_bslash) with false. cbv iota.
    destruct raw as [|d raw]; [discriminate|]. destruct (unescape_cell raw) as [v'|]; [|discriminate].
    cbn in H. injection H as <-.
    destruct (d =? ch_n); [cbn; lia|]. destruct ((d =? ch_pipe) || (d =? ch_bslash)) eqn:F; [|cbn; lia].
    apply orb_true_iff in F as [F|F]; apply N.eqb_eq in F; subst d; cbn; lia.
  - destruct (unescape_cell raw) as [v'|] eqn:E; [|discriminate]. cbn in H. injection H as <-.
    specialize (IH v' eq_refl). cbn [drop_while]. destruct (blank c); [|lia].
    cbn [length]. pose proof (drop_while_length blank raw). pose proof (drop_while_length blank v'). lia.
Qed.

Lemma items_at indent raws : forall col, Forall (fun r => unescape_cell r <> None) raws ->
  map (cell_item indent) (split_at col raws) = cells_at (indent + col) raws.
Proof.
  induction raws as [|raw raws IH]; intros col H; [reflexivity|].
  inversion H as [|? ? H1 H2]; subst. cbn [split_at map cells_at].
  rewrite cell_item_spec, IH by assumption. destruct (unescape_cell raw) as [v|] eqn:E; [|easy].
  rewrite (unescape_blanks _ _ E). f_equal; [f_equal; lia | f_equal; lia].
Qed.

(** white space around a row *)
Lemma lstrip_space ind x : forallb is_space ind = true -> lstrip (ind ++ x) = lstrip x.
Proof. apply drop_while_app. Qed.
Lemma lstrip_id c x : is_space c = false -> lstrip (c :: x) = c :: x.
Proof. apply drop_while_id. Qed.

Lemma g_indent_space ind c x n : forallb is_space ind = true -> is_space c = false ->
  g_trimmed (mkLine (ind ++ c :: x) n) = c :: x /\ g_indent (mkLine (ind ++ c :: x) n) = length ind.
Proof.
  intros H1 H2. assert (E : g_trimmed (mkLine (ind ++ c :: x) n) = c :: x).
  { unfold g_trimmed. cbn [g_text]. now rewrite lstrip_space, lstrip_id. }
  split; [exact E|]. unfold g_indent. rewrite E. cbn [g_text]. rewrite app_length. lia.
Qed.

Lemma rstrip_app_visible x w : forallb is_space w = true -> (forall r c, x = r ++ [c] -> is_space c = false) ->
  rstrip (x ++ w) = x.
Proof.
  intros Hw Hx. unfold rstrip. rewrite rstrip_by_app by exact Hw.
  destruct (last_case x) as [->|[r [b ->]]]; [reflexivity|]. apply rstrip_by_id. now apply (Hx r).
Qed.

Lemma table_cells_spec ind raws tail n :
  forallb is_space ind = true -> Forall (fun r => unescape_cell r <> None) raws ->
  unescape_cell (rstrip tail) <> None ->
  table_cells (mkLine (ind ++ row_text raws ++ tail) n) = Ok (cells_at (length ind + 1) raws).
Proof.
  intros Hi Hr Ht. unfold table_cells, row_text. cbn [app].
  destruct (g_indent_space ind ch_pipe (flat_map (fun r => r ++ [ch_pipe]) raws ++ tail) n Hi eq_refl) as [E1 E2].
  rewrite E1, E2.
  assert (S : strip (ch_pipe :: flat_map (fun r => r ++ [ch_pipe]) raws ++ tail)
            = ch_pipe :: flat_map (fun r => r ++ [ch_pipe]) raws ++ rstrip tail).
  { unfold strip. rewrite lstrip_id by reflexivity.
    destruct (rstrip_by_prefix is_space tail) as [w [Ew Hw]].
    rewrite Ew at 1. fold (rstrip tail).
    change (ch_pipe :: flat_map (fun r => r ++ [ch_pipe]) raws ++ rstrip tail ++ w)
      with ((ch_pipe :: flat_map (fun r => r ++ [ch_pipe]) raws) ++ rstrip tail ++ w).
    rewrite app_assoc, rstrip_app_visible; [reflexivity | exact Hw |].
    intros r c E. destruct (last_case (rstrip tail)) as [T|[r' [b T]]].
    - rewrite T, app_nil_r in E.
      destruct (last_case raws) as [->|[rs [rw ->]]].
      + destruct r as [|? [|]]; cbn in E; try discriminate. injection E as <-. reflexivity.
      + rewrite flat_map_app in E. cbn [flat_map] in E. rewrite app_nil_r in E.
        rewrite app_comm_cons, app_assoc in E. apply app_inj_tail in E as [_ <-]. reflexivity.
    - rewrite T, app_assoc in E. apply app_inj_tail in E as [_ <-].
      unfold rstrip in T. now apply rstrip_by_last in T. }
  rewrite S. unfold split_table_cells. cbn [split_cells_go]. rewrite N.eqb_refl.
  rewrite split_rows by assumption. cbn [rbind]. rewrite items_at by assumption. reflexivity.
Qed.

(** ** Round trip *)
Lemma unescape_escape v : forall y w, unescape_cell y = Some w -> unescape_cell (escape_cell v ++ y) = Some (v ++ w).
Proof.
  induction v as [|c v IH]; intros y w H; [exact H|]. specialize (IH y w H).
  cbn [escape_cell flat_map]. fold (escape_cell v).
  destruct (c =? ch_pipe) eqn:E1.
  { apply N.eqb_eq in E1; subst c. cbn. rewrite IH. reflexivity. }
  destruct (c =? ch_bslash) eqn:E2.
  { apply N.eqb_eq in E2; subst c. cbn. rewrite IH. reflexivity. }
  destruct (c =? ch_nl) eqn:E3.
  { apply N.eqb_eq in E3; subst c. cbn. rewrite IH. reflexivity. }
  cbn [app unescape_cell]. now rewrite E1, E2, IH.
Qed.
Lemma blank_plain c : blank c = true -> (c =? ch_pipe) = false /\ (c =? ch_bslash) = false.
Proof.
  intros H. split; destruct (c =? _) eqn:E; try reflexivity; apply N.eqb_eq in E; subst c; discriminate H.
Qed.
Lemma unescape_blank_app p : forall y w, forallb blank p = true -> unescape_cell y = Some w ->
  unescape_cell (p ++ y) = Some (p ++ w).
Proof.
  induction p as [|c p IH]; intros y w Hp H; [exact H|]. cbn in Hp. apply andb_true_iff in Hp as [Hc Hp].
  destruct (blank_plain _ Hc) as [E1 E2]. cbn [app unescape_cell]. rewrite E1, E2, (IH _ _ Hp H). reflexivity.
Qed.
Lemma unescape_padded p : padded_ok p ->
  unescape_cell (padded_text p) = Some (pd_left p ++ pd_value p ++ pd_right p).
Proof.
  intros [H1 [H2 _]]. unfold padded_text. apply unescape_blank_app; [exact H1|]. apply unescape_escape.
  rewrite <- (app_nil_r (pd_right p)). now apply unescape_blank_app.
Qed.
Lemma blank_not_nl c : blank c = true -> c <> ch_nl.
Proof. intros H ->. discriminate H. Qed.
Lemma rtrim_app_blank v w : rtrim_cell v = v -> forallb blank w = true -> rtrim_cell (v ++ w) = v.
Proof.
  intros Hv Hw. destruct (last_case w) as [->|[r [b ->]]]; [now rewrite app_nil_r|].
  unfold rtrim_cell at 1. rewrite endswith_last, app_assoc, rev_unit.
  assert (Hb : blank b = true) by (rewrite forallb_app in Hw; apply andb_true_iff in Hw as [_ Hw]; cbn in Hw; now rewrite andb_true_r in Hw).
  destruct (ch_nl =? b) eqn:E. { apply N.eqb_eq in E. subst b. discriminate Hb. }
  rewrite <- app_assoc, rstrip_by_app by exact Hw.
  unfold rtrim_cell in Hv. rewrite endswith_last in Hv.
  destruct (last_case v) as [->|[z [d ->]]]; [reflexivity|]. rewrite rev_unit in Hv.
  destruct (ch_nl =? d) eqn:Ed; [|exact Hv]. apply N.eqb_eq in Ed. subst d. now apply rstrip_by_id.
Qed.
Lemma rtrim_nil : rtrim_cell [] = []. Proof. reflexivity. Qed.
Lemma rtrim_blank w : forallb blank w = true -> rtrim_cell w = [].
Proof. intros H. apply (rtrim_app_blank [] w eq_refl H). Qed.
Lemma rtrim_head c v : blank c = false -> exists v', rtrim_cell (c :: v) = c :: v'.
Proof.
  intros H. rewrite <- cut_rtrim. cbn [cut]. cbn [drop_while]. rewrite H.
  destruct (at_end (c :: v)) eqn:E; eauto.
Qed.
Lemma trim_padded p : padded_ok p -> trim_cell (pd_left p ++ pd_value p ++ pd_right p) = pd_value p.
Proof.
  intros [H1 [H2 H3]]. unfold trim_cell in *. rewrite drop_while_app by exact H1.
  destruct (pd_value p) as [|c v].
  - cbn [app]. apply (fun e => eq_trans (f_equal rtrim_cell e) rtrim_nil). now apply drop_while_nil.
  - destruct (blank c) eqn:E.
    + (* a value beginning with a blank is not trimmed *)
      exfalso. cbn [drop_while] in H3. rewrite E in H3.
      destruct (drop_while blank v) as [|d u] eqn:D; [discriminate H3|].
      pose proof (drop_while_head _ _ _ _ D) as Hd.
      destruct (rtrim_head d u Hd) as [v' Hv']. rewrite Hv' in H3. injection H3 as H3 _. subst d. congruence.
    + cbn [app drop_while] in *. rewrite E in *. exact (rtrim_app_blank (c :: v) _ H3 H2).
Qed.

Lemma table_round_trip ind ps tail n :
  forallb is_space ind = true -> forallb is_space tail = true -> Forall padded_ok ps ->
  exists items, table_cells (mkLine (ind ++ row_text (map padded_text ps) ++ tail) n) = Ok items /\
    map i_text items = map pd_value ps.
Proof.
  intros Hi Ht Hp. eexists. split.
  - apply table_cells_spec; [exact Hi | |].
    + apply Forall_map. eapply Forall_impl; [|exact Hp]. intros p H. cbn. rewrite (unescape_padded _ H). discriminate.
    + unfold rstrip. rewrite (proj2 (rstrip_by_nil _ _) Ht). discriminate.
  - generalize (length ind + 1)%nat. induction Hp as [|p ps H1 H2 IH]; intros pos; [reflexivity|].
    cbn [map cells_at i_text]. rewrite IH, (unescape_padded _ H1), (trim_padded _ H1). reflexivity.
Qed.
