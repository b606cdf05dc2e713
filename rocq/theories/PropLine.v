(** * Lines: C07, C08, C09, C10, C12, C13, C14 *)
From Verif Require Import PyStr PyStrFacts Types Regex Line DialectData Matcher Ast Parser Classify Table Scan LineSpec LineFacts TagFacts StepFacts.

(** What the matcher makes of the line [x], number [n], when asked for kind [k]. *)
Definition recognise (k : tok) (ms : mstate) (x : str) (n : nat) : result bool * token :=
  let '(r, _, t) := do_match k ms (new_token x n) in (r, t).

Lemma recognise_row ms ind raws tail n : ms_md ms = false ->
  forallb is_space ind = true -> Forall (fun r => unescape_cell r <> None) raws ->
  unescape_cell (rstrip tail) <> None ->
  exists t, recognise TkTableRow ms (ind ++ row_text raws ++ tail) n = (Ok true, t) /\
            t_items t = cells_at (length ind + 1) raws.
Proof.
  intros Hm Hi Hr Ht. unfold recognise, do_match. rewrite Hm. cbn [classic_match]. unfold c_match_TableRow.
  unfold g_startswith, g_trimmed. cbn [t_line new_token g_text].
  assert (L : lstrip (ind ++ row_text raws ++ tail) = row_text raws ++ tail).
  { rewrite lstrip_space by exact Hi. apply lstrip_id. reflexivity. }
  rewrite L. cbn [row_text app startswith N.eqb]. 
  change (negb (startswith [ch_pipe] (ch_pipe :: flat_map (fun r : list char => r ++ [ch_pipe]) raws ++ tail))) with false.
  cbv iota. pose proof (table_cells_spec ind raws tail n Hi Hr Ht) as T. cbn [row_text app] in T. rewrite T.
  eexists. split; reflexivity.
Qed.

(** C07.  A row written with escapes and padding reads back as its values. *)
Theorem C07_cells_round_trip : forall ms ind ps tail n,
  ms_md ms = false -> all_space ind -> all_space tail -> Forall padded_ok ps ->
  exists t, recognise TkTableRow ms (ind ++ row_text (map padded_text ps) ++ tail) n = (Ok true, t) /\
            map i_text (t_items t) = map pd_value ps.
Proof.
  intros ms ind ps tail n Hm Hi Ht Hp.
  destruct (recognise_row ms ind (map padded_text ps) tail n Hm Hi) as [t [E1 E2]].
  - apply Forall_map. eapply Forall_impl; [|exact Hp]. intros p H. cbn. rewrite (unescape_padded _ H). discriminate.
  - unfold rstrip. rewrite (proj2 (rstrip_by_nil _ _) Ht). discriminate.
  - exists t. split; [exact E1|]. rewrite E2.
    destruct (table_round_trip ind ps tail n Hi Ht Hp) as [items [E3 E4]].
    rewrite table_cells_spec in E3; [injection E3 as <-; exact E4 | exact Hi | |].
    + apply Forall_map. eapply Forall_impl; [|exact Hp]. intros p H. cbn. rewrite (unescape_padded _ H). discriminate.
    + unfold rstrip. rewrite (proj2 (rstrip_by_nil _ _) Ht). discriminate.
Qed.
Print Assumptions C07_cells_round_trip.

Definition en_matcher : mstate := match new_matcher false (s "en") with Ok m => m | Err _ => mkMs true [] [] (mkDialect [] [] [] [] [] [] [] [] [] [] []) 0 None false end.
Example C07_case :
  let p := mkPad (s "  ") (s "a|b\c" ++ [ch_nl] ++ s "d") (s " ") in
  padded_ok p /\ padded_text p = s "  a\|b\\c\nd " /\
  (forall items, snd (recognise TkTableRow en_matcher (s " " ++ row_text (map padded_text [p; mkPad [] [] []]) ++ s " ") 3) = items ->
     map i_text (t_items items) = [s "a|b\c" ++ [ch_nl] ++ s "d"; []]).
Proof. vm_compute. repeat split; try discriminate. intros ? <-. reflexivity. Qed.

(** The one kind of value without blanks around it that does not round-trip: blanks before a final line feed. *)
Theorem C07_blank_before_final_newline_lost : exists v,
  (exists a b r, v = a :: r ++ [b] /\ blank a = false /\ blank b = false) /\
  forall t, snd (recognise TkTableRow en_matcher (row_text [escape_cell v]) 1) = t ->
  map i_text (t_items t) <> [v].
Proof.
  exists (s "x " ++ [ch_nl]). split.
  - exists 120%N, ch_nl, (s " "). repeat split.
  - intros t <-. vm_compute. discriminate.
Qed.
Print Assumptions C07_blank_before_final_newline_lost.

(** C08.  The columns: [cells_at], and what that means in the physical line: at the column of a cell
    stands its text without leading blanks, followed by the closing bar. *)
Theorem C08_cell_columns : forall ms ind raws tail n,
  ms_md ms = false -> all_space ind -> Forall (fun r => unescape_cell r <> None) raws ->
  unescape_cell (rstrip tail) <> None ->
  exists t, recognise TkTableRow ms (ind ++ row_text raws ++ tail) n = (Ok true, t) /\
            t_items t = cells_at (length ind + 1) raws.
Proof. exact recognise_row. Qed.
Print Assumptions C08_cell_columns.

Lemma drop_while_skip f (x : str) : drop_while f x = skipn (length x - length (drop_while f x)) x.
Proof.
  assert (H : exists p, x = p ++ drop_while f x).
  { induction x as [|a x [p IH]]; [exists []; reflexivity|]. cbn. destruct (f a); [exists (a :: p); cbn; now f_equal | exists []; reflexivity]. }
  destruct H as [p H]. set (d := drop_while f x) in *. clearbody d. subst x.
  rewrite app_length, Nat.add_sub, skipn_app, skipn_all, Nat.sub_diag. reflexivity.
Qed.
Lemma drop_while_le f (x : str) : (length (drop_while f x) <= length x)%nat.
Proof. induction x as [|a x IH]; cbn; [lia|]. destruct (f a); cbn; lia. Qed.

Lemma cells_at_nth raws : forall pos i raw,
  nth_error raws i = Some raw ->
  exists it, nth_error (cells_at pos raws) i = Some it /\
    i_column it = (pos + length (flat_map (fun r => r ++ [ch_pipe]) (firstn i raws)) + (length raw - length (drop_while blank raw)) + 1)%nat.
Proof.
  induction raws as [|r raws IH]; intros pos i raw H; [destruct i; discriminate|].
  destruct i as [|i]; cbn in H.
  - injection H as ->. eexists. split; [reflexivity|]. cbn. lia.
  - destruct (IH (pos + length r + 1)%nat i raw H) as [it [E1 E2]]. exists it. split; [exact E1|].
    rewrite E2. cbn [firstn flat_map]. rewrite !app_length. cbn. lia.
Qed.
Lemma flat_map_split {A} (f : A -> str) l i a : nth_error l i = Some a ->
  flat_map f l = flat_map f (firstn i l) ++ f a ++ flat_map f (skipn (S i) l).
Proof.
  revert i. induction l as [|b l IH]; intros [|i] H; try discriminate; cbn in H.
  - injection H as ->. reflexivity.
  - cbn [firstn flat_map]. rewrite (IH i H), <- app_assoc. reflexivity.
Qed.
Lemma skipn_app_plus {A} n (x y : list A) : skipn (length x + n) (x ++ y) = skipn n y.
Proof. induction x; cbn; auto. Qed.

Theorem C08_column_points_at_text : forall ind raws tail i raw,
  nth_error raws i = Some raw ->
  exists it rest, nth_error (cells_at (length ind + 1) raws) i = Some it /\
    skipn (i_column it - 1) (ind ++ row_text raws ++ tail) = drop_while blank raw ++ ch_pipe :: rest.
Proof.
  intros ind raws tail i raw H. destruct (cells_at_nth raws (length ind + 1) i raw H) as [it [E1 E2]].
  exists it. eexists. split; [exact E1|]. rewrite E2. unfold row_text. rewrite (flat_map_split _ _ _ _ H).
  set (A := flat_map _ (firstn i raws)). set (C := flat_map _ (skipn (S i) raws)).
  match goal with |- skipn ?k _ = _ =>
    replace k with (length (ind ++ ch_pipe :: A) + (length raw - length (drop_while blank raw)))%nat
      by (unfold A; unfold str in *; rewrite app_length; cbn [length]; lia) end.
  replace (ind ++ (ch_pipe :: A ++ (raw ++ [ch_pipe]) ++ C) ++ tail)
    with ((ind ++ ch_pipe :: A) ++ raw ++ (ch_pipe :: C ++ tail)) by (repeat (rewrite <- ?app_assoc; cbn); reflexivity).
  etransitivity; [apply skipn_app_plus|]. etransitivity; [apply skipn_app|].
  replace (length raw - length (drop_while blank raw) - length raw)%nat with 0%nat by lia.
  cbn [skipn]. rewrite <- drop_while_skip. reflexivity.
Qed.
Print Assumptions C08_column_points_at_text.
Example C08_case :
  map i_column (cells_at (length (s "  ") + 1) [s " a\|b "; s "c"]) = [5; 11]%nat /\
  Forall (fun r => unescape_cell r <> None) [s " a\|b "; s "c"].
Proof. split; [reflexivity|]. repeat constructor; vm_compute; discriminate. Qed.

(** C09.  A line of tags. *)
Theorem C09_tags_round_trip : forall ms ind l comment n,
  ms_md ms = false -> all_space ind -> l <> [] ->
  Forall (fun p => tag_name_ok (fst p) /\ all_space (snd p)) l ->
  tag_comment l comment ->
  exists t, recognise TkTagLine ms (ind ++ tags_text l ++ comment) n = (Ok true, t) /\
            t_items t = tags_at (length ind) l.
Proof.
  intros ms ind l comment n Hm Hi Hl Ht Hc. unfold recognise, do_match. rewrite Hm. cbn [classic_match]. unfold c_match_TagLine.
  unfold g_startswith, g_trimmed. cbn [t_line new_token g_text].
  assert (L : exists y, tags_text l = ch_at :: y).
  { destruct l as [|[a b] l]; [easy|]. eexists. reflexivity. }
  destruct L as [y Ly].
  assert (L : lstrip (ind ++ tags_text l ++ comment) = tags_text l ++ comment).
  { rewrite lstrip_space by exact Hi. rewrite Ly. apply lstrip_id. reflexivity. }
  rewrite L. replace (startswith [ch_at] (tags_text l ++ comment)) with true by (rewrite Ly; reflexivity). cbn [negb].
  rewrite g_tags_spec by assumption. eexists. split; reflexivity.
Qed.
Print Assumptions C09_tags_round_trip.
Lemma tags_at_nth l : forall pos i name sep, nth_error l i = Some (name, sep) ->
  nth_error (tags_at pos l) i = Some (mkItem (pos + length (tags_text (firstn i l)) + 1) (ch_at :: name)).
Proof.
  induction l as [|[a b] l IH]; intros pos [|i] name sep H; try discriminate; cbn in H.
  - injection H as -> ->. cbn. f_equal. f_equal. lia.
  - cbn [tags_at nth_error]. rewrite (IH _ _ _ _ H). f_equal. f_equal. unfold tags_text; cbn; unfold str in *; rewrite !app_length; lia.
Qed.
(** at the column of a tag stands the tag *)
Theorem C09_column_points_at_tag : forall ind l comment i name sep,
  nth_error l i = Some (name, sep) ->
  exists col rest, nth_error (tags_at (length ind) l) i = Some (mkItem col (ch_at :: name)) /\
    skipn (col - 1) (ind ++ tags_text l ++ comment) = ch_at :: name ++ rest.
Proof.
  intros ind l comment i name sep H. eexists. eexists. split; [exact (tags_at_nth l _ _ _ _ H)|].
  unfold tags_text at 2. rewrite (flat_map_split _ _ _ _ H). fold (tags_text (firstn i l)).
  replace (length ind + length (tags_text (firstn i l)) + 1 - 1)%nat with (length (ind ++ tags_text (firstn i l)) + 0)%nat by (rewrite app_length; lia).
  rewrite <- app_assoc. rewrite app_assoc. etransitivity; [apply skipn_app_plus|]. cbn. rewrite <- !app_assoc. reflexivity.
Qed.
Print Assumptions C09_column_points_at_tag.
Example C09_case :
  snd (recognise TkTagLine en_matcher (s "  @a @b:c  # x @y") 1) = snd (recognise TkTagLine en_matcher (s "  " ++ tags_text [(s "a", s " "); (s "b:c", s "  ")] ++ s "# x @y") 1) /\
  tags_at 2 [(s "a", s " "); (s "b:c", s "  ")] = [mkItem 3 (s "@a"); mkItem 6 (s "@b:c")].
Proof. split; reflexivity. Qed.

(** C10.  What the line scanner raises is never a parser error: malformed tag lines and table rows
    always surface as AttributeError and RuntimeError. *)
Lemma tags_go_exn items : forall col e, tags_go items col = Err e -> e = EAttributeError.
Proof.
  induction items as [|i items IH]; intros col e; [discriminate|]. cbn [tags_go].
  destruct (re_search _ _); [congruence|]. destruct (tags_go items _) eqn:E; cbn; [discriminate|].
  intros H. injection H as <-. eapply IH, E.
Qed.
Lemma split_cells_exn m : forall row, (length row <= m)%nat -> forall col st cell fc e, split_cells_go row col st cell fc = Err e -> e = ERuntimeError.
Proof.
  induction m as [|m IH]; intros row L; destruct row as [|c row1]; intros col st cell fc e; cbn in *; try discriminate; try lia.
  destruct (c =? ch_pipe)%N.
  - destruct fc; [apply IH; lia|]. destruct (split_cells_go row1 _ _ _ _) eqn:E; cbn; [discriminate|].
    intros H. injection H as <-. eapply IH; [|exact E]. lia.
  - destruct (c =? ch_bslash)%N; [|apply IH; lia]. destruct row1 as [|d row2]; [congruence|]. cbn in L.
    destruct (d =? ch_n)%N; [apply IH; lia|]. destruct (_ || _); apply IH; lia.
Qed.
Theorem C10_never_a_parser_error : forall ms x n k e t,
  ms_md ms = false -> k = TkTagLine \/ k = TkTableRow ->
  recognise k ms x n = (Err e, t) -> e = EAttributeError \/ e = ERuntimeError.
Proof.
  intros ms x n k e t Hm Hk. unfold recognise, do_match. rewrite Hm. destruct Hk as [-> | ->]; cbn [classic_match].
  - unfold c_match_TagLine. destruct (negb _); [discriminate|]. destruct (g_tags _) eqn:E; [discriminate|].
    intros H. injection H as <- <-. left. unfold g_tags in E. eapply tags_go_exn, E.
  - unfold c_match_TableRow. destruct (negb _); [discriminate|]. destruct (table_cells _) eqn:E; [discriminate|].
    intros H. injection H as <- <-. right. unfold table_cells in E. destruct (split_table_cells _) eqn:F; [discriminate|].
    cbn in E. injection E as <-. eapply split_cells_exn; [|exact F]. reflexivity.
Qed.
Print Assumptions C10_never_a_parser_error.

Definition text_of_lines (l : list str) : str := flat_map (fun x => x ++ [ch_nl]) l.
Theorem C10_refuted :
  (exists text, parse text = Err EAttributeError) /\ (exists text, parse text = Err ERuntimeError).
Proof.
  split.
  - exists (text_of_lines [s "@two words"; s "Feature: f"]). vm_compute. reflexivity.
  - exists (text_of_lines [s "Feature: f"; s "Scenario: s"; s "Given x"; s "|a|\"]). vm_compute. reflexivity.
Qed.
Print Assumptions C10_refuted.

(** C12.  Step lines. *)
Theorem C12_step_lines : forall ms x n, classic_state ms ->
  (forall t, recognise TkStepLine ms x n = (Ok true, t) ->
     exists before k after,
       all_step_keywords (ms_dialect ms) = before ++ k :: after /\
       startswith k (lstrip x) = true /\ Forall (fun k' => startswith k' (lstrip x) = false) before /\
       t_keyword t = Some k /\ t_ktype t = Some (step_type (ms_dialect ms) k) /\
       t_text t = Some (strip (skipn (length k) (lstrip x)))) /\
  (fst (recognise TkStepLine ms x n) = Ok true <->
     exists k, In k (all_step_keywords (ms_dialect ms)) /\ startswith k (lstrip x) = true).
Proof.
  intros ms x n Hc. destruct (step_recognised ms x n Hc) as [H1 H2]. unfold recognise.
  destruct (do_match TkStepLine ms (new_token x n)) as [[r ms'] t'] eqn:E. split; [|exact H2].
  intros t H. injection H as -> ->. exact (H1 ms' t eq_refl).
Qed.
Print Assumptions C12_step_lines.
Example en_matcher_ok : classic_state en_matcher. Proof. vm_compute. auto. Qed.
Example C12_case :
  let t := snd (recognise TkStepLine en_matcher (s "  Given I eat ") 7) in
  (t_keyword t, t_ktype t, t_text t) = (Some (s "Given "), Some KtContext, Some (s "I eat")) /\
  t_ktype (snd (recognise TkStepLine en_matcher (s "* x") 7)) = Some KtUnknown.
Proof. vm_compute. auto. Qed.

(** C13.  A keyword is recognised unless it begins with one listed before it; the ten exceptions. *)
Theorem C13_keyword_usable_partial : forall ms k x n, classic_state ms ->
  In k (all_step_keywords (ms_dialect ms)) -> ~ In (ms_name ms, k) shadowed ->
  startswith k (lstrip x) = true ->
  (forall k', In k' (all_step_keywords (ms_dialect ms)) -> startswith k' (lstrip x) = true -> (length k' <= length k)%nat) ->
  exists t, recognise TkStepLine ms x n = (Ok true, t) /\ t_keyword t = Some k.
Proof.
  intros ms k x n H1 H2 H3 H4 H5. destruct (keyword_usable ms k x n H1 H2 H3 H4 H5) as [t [E1 E2]].
  exists t. unfold recognise. rewrite E1. auto.
Qed.
Print Assumptions C13_keyword_usable_partial.
Theorem C13_shadowed_never_recognised : forall ms k x n t, classic_state ms ->
  In k (all_step_keywords (ms_dialect ms)) -> In (ms_name ms, k) shadowed ->
  recognise TkStepLine ms x n = (Ok true, t) -> t_keyword t <> Some k.
Proof.
  intros ms k x n t H1 H2 H3 H4 H5. unfold recognise in H4.
  destruct (do_match TkStepLine ms (new_token x n)) as [[r ms'] t'] eqn:E. injection H4 as -> ->.
  destruct (proj1 (step_recognised ms x n H1) ms' t E) as [b [k0 [a [_ [Hs [_ [Hk _]]]]]]].
  assert (k0 = k) by congruence. subst k0.
  destruct (keyword_shadowed ms k x n H1 H2 H3 Hs) as [t1 [k1 [E1 [E2 E3]]]]. rewrite E in E1. injection E1 as _ <-. congruence.
Qed.
Print Assumptions C13_shadowed_never_recognised.
(** the exceptions exist: each is a step keyword of its language *)
Theorem C13_refuted : Forall (fun p => exists d, for_name (fst p) = Some d /\ In (snd p) (all_step_keywords d)) shadowed.
Proof.
  assert (H : forallb (fun p => match for_name (fst p) with Some d => str_mem (snd p) (all_step_keywords d) | None => false end) shadowed = true) by (vm_compute; reflexivity).
  rewrite Forall_forall. rewrite forallb_forall in H. intros p Hp. specialize (H p Hp).
  destruct (for_name (fst p)) as [d|]; [|discriminate]. exists d. split; [reflexivity|].
  unfold str_mem in H. apply existsb_exists in H as [y [H1 H2]]. apply str_eqb_spec in H2. now subst.
Qed.
Print Assumptions C13_refuted.
(** a keyword in English, where none is hidden *)
Example C13_case : In (s "But ") (all_step_keywords (ms_dialect en_matcher)) /\ ~ In (ms_name en_matcher, s "But ") shadowed /\
  (forall k', In k' (all_step_keywords (ms_dialect en_matcher)) -> startswith k' (lstrip (s "  But x")) = true -> (length k' <= length (s "But "))%nat) /\
  t_keyword (snd (recognise TkStepLine en_matcher (s "  But x") 3)) = Some (s "But ").
Proof.
  split; [vm_compute; tauto|]. split; [vm_compute; intuition discriminate|]. split; [|vm_compute; reflexivity].
  intros k' H E. assert (F : forallb (fun k => implb (startswith k (lstrip (s "  But x"))) (Nat.leb (length k) 4)) (all_step_keywords (ms_dialect en_matcher)) = true) by (vm_compute; reflexivity).
  rewrite forallb_forall in F. specialize (F k' H). rewrite E in F. now apply Nat.leb_le.
Qed.

(** C14.  Outside doc strings no line (the end of the file is the empty line text) is of two kinds. *)
Theorem C14_line_kinds_exclusive : forall ms x k1 k2, classic_state ms -> ms_sep ms = None -> x <> [] ->
  In k1 line_kinds -> In k2 line_kinds -> claims ms x k1 = true -> claims ms x k2 = true -> k1 = k2.
Proof. exact kinds_exclusive. Qed.
Print Assumptions C14_line_kinds_exclusive.
Theorem C14_order_irrelevant : forall ms x l1 l2, classic_state ms -> ms_sep ms = None -> x <> [] ->
  incl l1 line_kinds -> (forall k, In k l1 <-> In k l2) ->
  find (claims ms x) l1 = find (claims ms x) l2.
Proof. exact order_irrelevant. Qed.
Print Assumptions C14_order_irrelevant.
Example C14_case : ms_sep en_matcher = None /\ claims en_matcher (s "  * Background: x") TkStepLine = true /\
  claims en_matcher (s "  Background: x") TkBackgroundLine = true.
Proof. vm_compute. auto. Qed.
