(** * Formatting a document in VS Code: C73 *)
From Verif Require Import PyStr PyStrFacts Format EditSpec.

Lemma split_through x cur rest : no_end x -> js_split cur (x ++ rest) = js_split (rev x ++ cur) rest.
Proof.
  revert cur. induction x as [|c x IH]; intros cur [A B]; [reflexivity|]. cbn [app js_split].
  destruct (N.eqb_spec c ch_nl) as [->|N]; [exfalso; apply A; now left|]. rewrite IH by (split; intros F; [apply A | apply B]; now right). f_equal. cbn [rev]. now rewrite <- app_assoc.
Qed.
Lemma split_lines_eq text l : text_lines text l -> no_lone_cr l -> js_split [] text = map fst l.
Proof.
  induction 1 as [x N|x e rest l N E C T IH]; intros L.
  - rewrite <- (app_nil_r x) at 1. rewrite split_through by exact N. cbn. now rewrite app_nil_r, rev_involutive.
  - inversion L as [|? ? L1 L2]; subst. cbn [snd] in L1. rewrite split_through by exact N. rewrite app_nil_r. cbn [map fst]. rewrite <- IH by exact L2.
    destruct E as [-> | [-> | ->]]; [|congruence|].
    + cbn [app js_split]. rewrite N.eqb_refl. destruct (rev x) as [|d cur'] eqn:R; [apply (f_equal (@rev _)) in R; rewrite rev_involutive in R; now subst x|].
      destruct (N.eqb_spec d ch_cr) as [->|D]; [exfalso; apply (proj2 N); apply in_rev; rewrite R; now left|]. rewrite <- R, rev_involutive. reflexivity.
    + cbn [app js_split]. change (ch_cr =? ch_nl)%N with false. cbv iota. rewrite N.eqb_refl. cbv iota beta. rewrite N.eqb_refl, rev_involutive. reflexivity.
Qed.
Lemma lines_last text l : text_lines text l -> exists l' x, l = l' ++ [(x, [])].
Proof. induction 1 as [x N|x e rest l N E C T [l' [y ->]]]; [exists [], x; reflexivity | exists ((x, e) :: l'), y; reflexivity]. Qed.
Lemma lines_text text l : text_lines text l -> text = flat_map (fun p => fst p ++ snd p) l.
Proof. induction 1 as [x N|x e rest l N E C T IH]; cbn; [now rewrite !app_nil_r | now rewrite <- IH, <- app_assoc]. Qed.

(** C73.  Formatting replaces the document by exactly the formatted text; when the parser gives no document, nothing is changed. *)
Theorem C73_format : forall format text l, text_lines text l -> no_lone_cr l ->
  match format text with
  | Some new => exists p q, provide_edits format text = [mkEdit p q new] /\ replaced text l p q new = new
  | None => provide_edits format text = []
  end.
Proof.
  intros format text l T L. unfold provide_edits. destruct (format text) as [new|]; [|reflexivity]. eexists _, _. split; [reflexivity|].
  rewrite (split_lines_eq text l T L). destruct (lines_last text l T) as [l' [x ->]]. rewrite map_length, app_length. cbn [length]. replace (length l' + 1 - 1) with (length l') by lia.
  rewrite map_app, app_nth2 by (rewrite map_length; lia). rewrite map_length, Nat.sub_diag. cbn [map nth fst]. unfold replaced.
  assert (A : offset (l' ++ [(x, [])]) (0, 0) = 0) by (unfold offset; cbn [fst snd]; destruct l' as [|[y e] l']; reflexivity).
  assert (B : offset (l' ++ [(x, [])]) (length l', length x) = length text).
  { unfold offset. cbn [fst snd]. rewrite nth_error_app2 by lia. rewrite Nat.sub_diag. cbn [nth_error]. rewrite firstn_app, Nat.sub_diag, firstn_all. cbn [firstn]. rewrite app_nil_r, Nat.min_id.
    rewrite (lines_text _ _ T). unfold width. rewrite flat_map_app, app_length. cbn. now rewrite !app_nil_r. }
  rewrite A, B, skipn_all. cbn [firstn app]. now rewrite app_nil_r.
Qed.
Print Assumptions C73_format.
Example C73_case : exists l, text_lines (s "Feature:x" ++ [ch_cr; ch_nl] ++ s "  Rule:" ++ [ch_nl] ++ s "ab") l /\ no_lone_cr l /\
  provide_edits (fun _ => Some (s "new")) (s "Feature:x" ++ [ch_cr; ch_nl] ++ s "  Rule:" ++ [ch_nl] ++ s "ab") = [mkEdit (0, 0) (2, 2) (s "new")].
Proof.
  assert (N : forall x, existsb (fun c => N.eqb c ch_nl || N.eqb c ch_cr) x = false -> no_end x).
  { intros x H. split; intros F; (assert (existsb (fun c => N.eqb c ch_nl || N.eqb c ch_cr) x = true); [|congruence]); apply existsb_exists; eexists; (split; [exact F|]); rewrite ?N.eqb_refl, ?orb_true_r; reflexivity. }
  exists [(s "Feature:x", [ch_cr; ch_nl]); (s "  Rule:", [ch_nl]); (s "ab", [])]. split; [|split; [repeat constructor; discriminate | reflexivity]].
  apply tl_line; [apply N; reflexivity | unfold ends_line; tauto | discriminate|]. apply tl_line; [apply N; reflexivity | unfold ends_line; tauto | discriminate|]. apply tl_last, N. reflexivity.
Qed.
(** every text has lines; with a lone CR the end of the document would stay *)
Example C73_lone_cr : exists l p q, text_lines (s "a" ++ [ch_cr] ++ s "bc") l /\ provide_edits (fun _ => Some (s "new")) (s "a" ++ [ch_cr] ++ s "bc") = [mkEdit p q (s "new")] /\
  replaced (s "a" ++ [ch_cr] ++ s "bc") l p q (s "new") <> s "new".
Proof.
  exists [(s "a", [ch_cr]); (s "bc", [])], (0, 0), (0, 4). split; [|split; [reflexivity | vm_compute; discriminate]].
  assert (N : forall x, existsb (fun c => N.eqb c ch_nl || N.eqb c ch_cr) x = false -> no_end x).
  { intros x H. split; intros F; (assert (existsb (fun c => N.eqb c ch_nl || N.eqb c ch_cr) x = true); [|congruence]); apply existsb_exists; eexists; (split; [exact F|]); rewrite ?N.eqb_refl, ?orb_true_r; reflexivity. }
  apply tl_line; [apply N; reflexivity | unfold ends_line; tauto | discriminate |]. apply tl_last, N. reflexivity.
Qed.
