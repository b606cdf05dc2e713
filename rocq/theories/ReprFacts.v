(** * repr of strings, lists and dictionaries is read back by the literal reader (no modelled code) *)
From Verif Require Import PyStr PyStrFacts Types Compiler Robot RobotSpec EscapeFacts.
Local Open Scope N_scope.

Lemma py_string_skip q x y : py_string q (length x) (x ++ y) = py_string q 0 y.
Proof. induction x; [reflexivity|]. cbn [length app py_string]. exact IHx. Qed.

Lemma escaped_py_string q c e r : is_quote q -> escaped q c e ->
  py_string q 0 (e ++ r) = match py_string q 0 r with Some (y, z) => Some (c :: y, z) | None => None end.
Proof.
  intros Q H.
  assert (B : (ch_bslash =? q) = false) by (destruct Q as [-> | ->]; reflexivity).
  destruct H.
  - cbn [app py_string]. apply N.eqb_neq in H, H0, H1. rewrite H, H0, H1. reflexivity.
  - destruct H as [->| ->]; cbn [app py_string]; rewrite B; destruct Q as [-> | ->]; reflexivity.
  - subst; cbn [app py_string]; rewrite B; reflexivity.
  - subst; cbn [app py_string]; rewrite B; reflexivity.
  - subst; cbn [app py_string]; rewrite B; reflexivity.
  - destruct (hex_seq 2 c r) as (h & -> & L & E). cbn [app py_string]. rewrite B, E by (rewrite pow16_2; lia).
    destruct h as [|a1 [|a2 [|]]]; try discriminate L. reflexivity.
  - destruct (hex_seq 4 c r) as (h & -> & L & E). cbn [app py_string]. rewrite B, E by (rewrite pow16_4; lia).
    destruct h as [|a1 [|a2 [|a3 [|a4 [|]]]]]; try discriminate L. reflexivity.
  - destruct (hex_seq 8 c r) as (h & -> & L & E). cbn [app py_string]. rewrite B, E by (rewrite pow16_8; lia).
    destruct h as [|a1 [|a2 [|a3 [|a4 [|a5 [|a6 [|a7 [|a8 [|]]]]]]]]]; try discriminate L. reflexivity.
Qed.

Lemma py_string_repr printable q x r : is_quote q -> valid_str x ->
  py_string q 0 (flat_map (repr_char printable q) x ++ q :: r) = Some (x, r).
Proof.
  intros Q V; induction V as [|c x Hc V IH].
  - cbn [flat_map app py_string]. rewrite N.eqb_refl. reflexivity.
  - cbn [flat_map]. rewrite <- app_assoc.
    rewrite (escaped_py_string q c) by (auto using repr_char_escaped). rewrite IH. reflexivity.
Qed.

Lemma py_value_str printable f x r : valid_str x -> py_value (S f) (repr_str printable x ++ r) = Some (PvStr x, r).
Proof.
  intros V. unfold repr_str, repr_body. set (q := repr_quote x).
  assert (Q : is_quote q) by apply repr_quote_is_quote.
  cbn [app]. rewrite <- app_assoc. cbn [app py_value].
  assert (B : blanks (q :: flat_map (repr_char printable q) x ++ q :: r) = q :: flat_map (repr_char printable q) x ++ q :: r).
  { unfold blanks. destruct Q as [-> | ->]; reflexivity. }
  rewrite B. assert (E : ((q =? ch_apos) || (q =? ch_quote)) = true) by (destruct Q as [-> | ->]; reflexivity).
  rewrite E, py_string_repr by assumption. reflexivity.
Qed.

Lemma py_value_str' printable f x r : valid_str x -> (1 <= f)%nat -> py_value f (repr_str printable x ++ r) = Some (PvStr x, r).
Proof. intros V F. destruct f; [lia|]. apply py_value_str, V. Qed.

(** repr of a value *)
Fixpoint pv_repr (printable : char -> bool) (v : pyval) : str :=
  match v with
  | PvStr x => repr_str printable x
  | PvList l => s "[" ++ join (s ", ") (map (pv_repr printable) l) ++ s "]"
  | PvDict l => s "{" ++ join (s ", ") (map (fun kv => repr_str printable (fst kv) ++ s ": " ++ pv_repr printable (snd kv)) l) ++ s "}"
  end.
Fixpoint pv_valid (v : pyval) : Prop :=
  match v with
  | PvStr x => valid_str x
  | PvList l => fold_right (fun v P => pv_valid v /\ P) True l
  | PvDict l => fold_right (fun kv P => (valid_str (fst kv) /\ pv_valid (snd kv)) /\ P) True l
  end.
Fixpoint pv_fuel (v : pyval) : nat :=
  match v with
  | PvStr _ => 1
  | PvList l => 1 + fold_right (fun v n => 1 + pv_fuel v + n) 0 l
  | PvDict l => 1 + fold_right (fun kv n => 2 + pv_fuel (snd kv) + n) 0 l
  end%nat.

Section PvInd.
Variable P : pyval -> Prop.
Hypothesis HS : forall x, P (PvStr x).
Hypothesis HL : forall l, Forall P l -> P (PvList l).
Hypothesis HD : forall l, Forall (fun kv => P (snd kv)) l -> P (PvDict l).
Fixpoint pyval_ind' (v : pyval) : P v :=
  match v with
  | PvStr x => HS x
  | PvList l => HL l ((fix go l : Forall P l := match l with [] => Forall_nil _ | v :: l' => Forall_cons _ (pyval_ind' v) (go l') end) l)
  | PvDict l => HD l ((fix go l : Forall (fun kv => P (snd kv)) l := match l with [] => Forall_nil _ | kv :: l' => Forall_cons _ (pyval_ind' (snd kv)) (go l') end) l)
  end.
End PvInd.

Ltac lits :=
  change (length (s "[")) with 1%nat; change (length (s "]")) with 1%nat;
  change (length (s "{")) with 1%nat; change (length (s "}")) with 1%nat;
  change (length (s ", ")) with 2%nat; change (length (s ": ")) with 2%nat; cbn [length].
Lemma repr_length printable v : (pv_fuel v <= length (pv_repr printable v))%nat.
Proof.
  induction v as [x|l IH|l IH] using pyval_ind'.
  - cbn [pv_fuel pv_repr]. unfold repr_str. rewrite !app_length. cbn. lia.
  - change (pv_fuel (PvList l)) with (1 + fold_right (fun v n => 1 + pv_fuel v + n) 0 l)%nat.
    cbn [pv_repr]. rewrite !app_length. lits.
    enough (fold_right (fun v n => 1 + pv_fuel v + n) 0 l <= 1 + length (join (s ", ") (map (pv_repr printable) l)))%nat by lia.
    induction IH as [|v l Hv IHl]; [cbn; lia|]. cbn [fold_right map join].
    destruct (map (pv_repr printable) l) eqn:E.
    + destruct l; [|discriminate]. cbn [fold_right]. lia.
    + rewrite !app_length. lits. lia.
  - change (pv_fuel (PvDict l)) with (1 + fold_right (fun kv n => 2 + pv_fuel (snd kv) + n) 0 l)%nat.
    cbn [pv_repr]. rewrite !app_length. lits.
    set (g := fun kv : str * pyval => repr_str printable (fst kv) ++ s ": " ++ pv_repr printable (snd kv)).
    enough (fold_right (fun kv n => 2 + pv_fuel (snd kv) + n) 0 l <= 1 + length (join (s ", ") (map g l)))%nat by lia.
    assert (G : forall kv, (4 + length (pv_repr printable (snd kv)) <= length (g kv))%nat).
    { intros kv. unfold g. unfold repr_str. rewrite !app_length. lits. lia. }
    clearbody g. induction IH as [|v l Hv IHl]; [cbn; lia|]. cbn [fold_right map join]. specialize (G v).
    destruct (map g l) eqn:E.
    + destruct l; [|discriminate]. cbn [fold_right]. lia.
    + rewrite !app_length. lits. lia.
Qed.

Definition value_start (x : str) := match x with c :: _ => c = ch_apos \/ c = ch_quote \/ c = 91 \/ c = 123 | [] => False end.
Lemma repr_start printable v r : value_start (pv_repr printable v ++ r).
Proof.
  destruct v; cbn [pv_repr].
  - unfold repr_str. cbn [app value_start]. destruct (repr_quote_is_quote x); auto.
  - cbn. auto.
  - cbn. auto.
Qed.
Lemma start_blanks x : value_start x -> blanks x = x.
Proof. destruct x as [|c x]; [contradiction|]. intros [->|[->|[->| ->]]]; reflexivity. Qed.
Lemma start_close_list x : value_start x -> close 93 x = None.
Proof. intros H. unfold close. rewrite start_blanks by exact H. destruct x as [|c x]; [contradiction|]. destruct H as [->|[->|[->| ->]]]; reflexivity. Qed.
Lemma start_close_dict x : value_start x -> close 125 x = None.
Proof. intros H. unfold close. rewrite start_blanks by exact H. destruct x as [|c x]; [contradiction|]. destruct H as [->|[->|[->| ->]]]; reflexivity. Qed.
Lemma blanks_space x : blanks (ch_space :: x) = blanks x. Proof. reflexivity. Qed.
Lemma py_value_space f x : py_value f (ch_space :: x) = py_value f x.
Proof. destruct f; [reflexivity|]. cbn [py_value]. rewrite blanks_space. reflexivity. Qed.
Lemma py_items_space f x : py_items f (ch_space :: x) = py_items f x.
Proof. destruct f; [reflexivity|]. cbn [py_items]. rewrite py_value_space. reflexivity. Qed.
Lemma py_pairs_space f x : py_pairs f (ch_space :: x) = py_pairs f x.
Proof. destruct f; [reflexivity|]. cbn [py_pairs]. rewrite py_value_space. reflexivity. Qed.

Definition reads printable v := forall f r, (pv_fuel v <= f)%nat -> py_value f (pv_repr printable v ++ r) = Some (v, r).

Lemma items_read printable l : Forall (reads printable) l -> l <> [] ->
  forall f r, (fold_right (fun v n => 1 + pv_fuel v + n) 0 l <= f)%nat ->
  py_items f (join (s ", ") (map (pv_repr printable) l) ++ s "]" ++ r) = Some (l, r).
Proof.
  induction 1 as [|v l Hv Hl IH]; [congruence|]. intros _ f r F. cbn [fold_right] in F.
  destruct f as [|f]; [lia|]. cbn [map join].
  destruct l as [|w l].
  - cbn [map py_items]. rewrite Hv by (cbn in F; lia). reflexivity.
  - cbn [map]. cbn [map] in IH. rewrite <- !app_assoc. cbn [py_items]. rewrite Hv by lia.
    match goal with |- context [close ch_comma (s ", " ++ ?x)] => change (close ch_comma (s ", " ++ x)) with (Some (ch_space :: x)) end.
    cbv beta iota. rewrite py_items_space. rewrite IH by (auto; try discriminate; lia). reflexivity.
Qed.

Lemma pairs_read printable l : Forall (fun kv => reads printable (snd kv)) l -> Forall (fun kv => valid_str (fst kv)) l -> l <> [] ->
  forall f r, (fold_right (fun kv n => 2 + pv_fuel (snd kv) + n) 0 l <= f)%nat ->
  py_pairs f (join (s ", ") (map (fun kv => repr_str printable (fst kv) ++ s ": " ++ pv_repr printable (snd kv)) l) ++ s "}" ++ r) = Some (l, r).
Proof.
  induction 1 as [|[k v] l Hv Hl IH]; [congruence|]. intros V _ f r F. cbn [fold_right snd] in F. cbn [snd] in Hv.
  inversion V as [|? ? Vk V']; subst. cbn [fst] in Vk.
  destruct f as [|f]; [lia|]. cbn [map join fst snd].
  destruct l as [|w l].
  - cbn [map]. rewrite <- !app_assoc. cbn [py_pairs]. rewrite py_value_str' by (exact Vk || lia).
    match goal with |- context [close ch_colon (s ": " ++ ?x)] => change (close ch_colon (s ": " ++ x)) with (Some (ch_space :: x)) end.
    cbv beta iota.
    rewrite py_value_space, Hv by (cbn in F; lia). reflexivity.
  - cbn [map]. cbn [map] in IH. rewrite <- !app_assoc. cbn [py_pairs]. rewrite py_value_str' by (exact Vk || lia).
    match goal with |- context [close ch_colon (s ": " ++ ?x)] => change (close ch_colon (s ": " ++ x)) with (Some (ch_space :: x)) end.
    cbv beta iota. rewrite py_value_space, Hv by lia.
    match goal with |- context [close ch_comma (s ", " ++ ?x)] => change (close ch_comma (s ", " ++ x)) with (Some (ch_space :: x)) end.
    cbv beta iota. rewrite py_pairs_space. rewrite IH by (auto; try discriminate; lia). reflexivity.
Qed.

Lemma pv_reads printable v : pv_valid v -> reads printable v.
Proof.
  induction v as [x|l IH|l IH] using pyval_ind'; intros V f r F.
  - destruct f; [cbn in F; lia|]. apply py_value_str. exact V.
  - destruct f as [|f]; [cbn in F; lia|]. change (pv_fuel (PvList l)) with (1 + fold_right (fun v n => 1 + pv_fuel v + n) 0 l)%nat in F. cbn [pv_repr]. rewrite <- !app_assoc.
    assert (R : Forall (reads printable) l).
    { clear F. cbn in V. induction IH; [constructor|]. cbn in V. destruct V. constructor; auto. }
    destruct l as [|w l]; [reflexivity|].
    set (x := join _ _ ++ _). assert (E : x = join (s ", ") (map (pv_repr printable) (w :: l)) ++ s "]" ++ r) by reflexivity.
    assert (ST : value_start x).
    { unfold x. cbn [map join]. destruct (map (pv_repr printable) l); rewrite <- ?app_assoc; apply repr_start. }
    change (match close 93 x with Some r => Some (PvList [], r) | None => match py_items f x with Some (l, r) => Some (PvList l, r) | None => None end end = Some (PvList (w :: l), r)).
    rewrite start_close_list by exact ST. rewrite E, items_read; [reflexivity|exact R|discriminate|lia].
  - destruct f as [|f]; [cbn in F; lia|]. change (pv_fuel (PvDict l)) with (1 + fold_right (fun kv n => 2 + pv_fuel (snd kv) + n) 0 l)%nat in F. cbn [pv_repr]. rewrite <- !app_assoc.
    assert (R : Forall (fun kv => reads printable (snd kv)) l /\ Forall (fun kv => valid_str (fst kv)) l).
    { clear F. cbn in V. induction IH; [split; constructor|]. cbn in V. destruct V as [[V1 V2] V3].
      destruct (IHIH V3). split; constructor; auto. }
    destruct R as [R1 R2].
    destruct l as [|w l]; [reflexivity|].
    set (g := fun kv : str * pyval => repr_str printable (fst kv) ++ s ": " ++ pv_repr printable (snd kv)) in *.
    set (x := join _ _ ++ _). assert (E : x = join (s ", ") (map g (w :: l)) ++ s "}" ++ r) by reflexivity.
    assert (ST : value_start x).
    { unfold x. cbn [map join]. destruct (map g l); unfold g; rewrite <- ?app_assoc; apply (repr_start printable (PvStr (fst w))). }
    change (match close 125 x with Some r => Some (PvDict [], r) | None => match py_pairs f x with Some (l, r) => Some (PvDict l, r) | None => None end end = Some (PvDict (w :: l), r)).
    rewrite start_close_dict by exact ST. rewrite E. unfold g. rewrite pairs_read; [reflexivity|exact R1|exact R2|discriminate|lia].
Qed.

Theorem literal_repr printable v : pv_valid v -> py_literal (pv_repr printable v) = Some v.
Proof.
  intros V. unfold py_literal. pose proof (pv_reads printable v V (S (length (pv_repr printable v))) []) as H.
  rewrite app_nil_r in H. rewrite H; [reflexivity|]. pose proof (repr_length printable v). lia.
Qed.

(** the dictionaries of the builder *)
Lemma repr_docstring_value printable content media :
  repr_docstring printable content media = pv_repr printable (arg_value (PDoc content media)).
Proof.
  unfold repr_docstring, arg_value. cbn [pv_repr]. destruct media; cbn [app map join fst snd pv_repr].
  - rewrite <- !app_assoc. reflexivity.
  - rewrite <- ?app_assoc. reflexivity.
Qed.
Lemma repr_datatable_value printable rows :
  repr_datatable printable rows = pv_repr printable (arg_value (PTable rows)).
Proof.
  unfold repr_datatable, arg_value. cbn [pv_repr map join fst snd]. rewrite <- !app_assoc.
  rewrite !map_map.
  assert (E : forall a b : list str, a = b -> s "{'rows': [" ++ join (s ", ") a ++ s "]}" =
    s "{" ++ repr_str printable (s "rows") ++ s ": " ++ s "[" ++ join (s ", ") b ++ s "]" ++ s "}").
  { intros a b ->. reflexivity. }
  apply E. apply map_ext. intros cells. unfold repr_row. cbn [pv_repr map join fst snd]. rewrite <- !app_assoc, map_map.
  assert (E' : forall a b : list str, a = b -> s "{'cells': [" ++ join (s ", ") a ++ s "]}" =
    s "{" ++ repr_str printable (s "cells") ++ s ": " ++ s "[" ++ join (s ", ") b ++ s "]" ++ s "}").
  { intros a b ->. reflexivity. }
  apply E'. apply map_ext. intros v. cbn [pv_repr map join fst snd]. rewrite <- !app_assoc. reflexivity.
Qed.
