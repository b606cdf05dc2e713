(** * Facts about Python strings *)
From Verif Require Import PyStr.
From Coq Require Import ZifyBool ZifyN ZifyNat.
Local Open Scope N_scope.

Lemma str_eqb_spec a b : str_eqb a b = true <-> a = b.
Proof.
  revert b; induction a as [|x a IH]; intros [|y b]; cbn; split; intro H; try easy.
  - apply andb_true_iff in H as [H1 H2]. apply N.eqb_eq in H1. apply IH in H2. now subst.
  - injection H as -> ->. rewrite N.eqb_refl; cbn. now apply IH.
Qed.
Lemma str_eqb_refl a : str_eqb a a = true.
Proof. now apply str_eqb_spec. Qed.
Lemma str_eqb_neq a b : str_eqb a b = false <-> a <> b.
Proof. rewrite <- str_eqb_spec. destruct (str_eqb a b); split; congruence. Qed.
Lemma str_eqb_sym a b : str_eqb a b = str_eqb b a.
Proof.
  destruct (str_eqb a b) eqn:E.
  - apply str_eqb_spec in E as ->. now rewrite str_eqb_refl.
  - symmetry. apply str_eqb_neq. apply str_eqb_neq in E. congruence.
Qed.
Lemma str_eq_dec (a b : str) : {a = b} + {a <> b}.
Proof. apply list_eq_dec, N.eq_dec. Defined.

Lemma str_mem_spec x l : str_mem x l = true <-> In x l.
Proof.
  unfold str_mem. rewrite existsb_exists. split.
  - intros [y [H1 H2]]. apply str_eqb_spec in H2 as ->. easy.
  - intros H. exists x. now rewrite str_eqb_refl.
Qed.

(** ** startswith *)
Lemma startswith_spec p x : startswith p x = true <-> exists y, x = p ++ y.
Proof.
  revert x; induction p as [|a p IH]; intros x; cbn.
  - split; [intros _; now exists x | easy].
  - destruct x as [|b x]; cbn.
    + split; [easy | intros [y Hy]; discriminate].
    + rewrite andb_true_iff, IH, N.eqb_eq. split.
      * intros [-> [y ->]]. now exists y.
      * intros [y Hy]. injection Hy as -> ->. split; [easy | now exists y].
Qed.
Lemma startswith_app p x : startswith p (p ++ x) = true.
Proof. apply startswith_spec. now exists x. Qed.
Lemma startswith_refl p : startswith p p = true.
Proof. apply startswith_spec. exists []. now rewrite app_nil_r. Qed.
Lemma startswith_length p x : startswith p x = true -> (length p <= length x)%nat.
Proof. intros [y ->]%startswith_spec. rewrite app_length. lia. Qed.
Lemma startswith_trans p q x : startswith p q = true -> startswith q x = true -> startswith p x = true.
Proof.
  intros [y ->]%startswith_spec [z ->]%startswith_spec. apply startswith_spec.
  exists (y ++ z). now rewrite app_assoc.
Qed.
(** two prefixes of one string are comparable *)
Lemma startswith_both p q x :
  startswith p x = true -> startswith q x = true -> startswith p q = true \/ startswith q p = true.
Proof.
  revert q x; induction p as [|a p IH]; intros q x Hp Hq; [now left|].
  destruct q as [|b q]; [now right|].
  destruct x as [|c x]; cbn in *; [discriminate|].
  apply andb_true_iff in Hp as [Ha Hp], Hq as [Hb Hq].
  apply N.eqb_eq in Ha, Hb. subst. rewrite N.eqb_refl. cbn. eauto.
Qed.

(** ** stripping *)
Lemma drop_while_suffix f x : exists p, x = p ++ drop_while f x /\ forallb f p = true.
Proof.
  induction x as [|c x [p [IH1 IH2]]]; cbn; [now exists []|].
  destruct (f c) eqn:E.
  - exists (c :: p). cbn. rewrite E. now rewrite <- IH1.
  - now exists [].
Qed.
Lemma drop_while_head f x c y : drop_while f x = c :: y -> f c = false.
Proof.
  induction x as [|d x IH]; cbn; [discriminate|].
  destruct (f d) eqn:E; [easy|]. intros H; injection H as -> ->. easy.
Qed.
Lemma drop_while_app f p x : forallb f p = true -> drop_while f (p ++ x) = drop_while f x.
Proof.
  induction p as [|c p IH]; cbn; [easy|]. intros [H1 H2]%andb_true_iff. now rewrite H1, IH.
Qed.
Lemma drop_while_id f c x : f c = false -> drop_while f (c :: x) = c :: x.
Proof. cbn. now intros ->. Qed.
Lemma drop_while_nil f x : drop_while f x = [] <-> forallb f x = true.
Proof.
  induction x as [|c x IH]; cbn; [easy|]. destruct (f c); cbn; [easy|]. split; discriminate.
Qed.
Lemma drop_while_idem f x : drop_while f (drop_while f x) = drop_while f x.
Proof.
  induction x as [|c x IH]; cbn; [easy|]. destruct (f c) eqn:E; [easy|]. cbn. now rewrite E.
Qed.
Lemma drop_while_length f x : (length (drop_while f x) <= length x)%nat.
Proof. induction x as [|c x IH]; cbn; [lia|]. destruct (f c); cbn; lia. Qed.

Lemma lstrip_nil x : lstrip x = [] <-> forallb is_space x = true.
Proof. apply drop_while_nil. Qed.
Lemma lstrip_head x c y : lstrip x = c :: y -> is_space c = false.
Proof. apply drop_while_head. Qed.
Lemma lstrip_idem x : lstrip (lstrip x) = lstrip x.
Proof. apply drop_while_idem. Qed.

Lemma forallb_rev {A} (f : A -> bool) x : forallb f (rev x) = forallb f x.
Proof.
  induction x as [|a x IH]; cbn; [easy|]. rewrite forallb_app, IH. cbn.
  destruct (f a), (forallb f x); easy.
Qed.

Lemma rstrip_by_prefix f x : exists p, x = rstrip_by f x ++ p /\ forallb f p = true.
Proof.
  unfold rstrip_by. destruct (drop_while_suffix f (rev x)) as [p [H1 H2]].
  exists (rev p). rewrite forallb_rev. split; [|easy].
  rewrite <- rev_app_distr, <- H1. now rewrite rev_involutive.
Qed.
Lemma rstrip_by_app f x p : forallb f p = true -> rstrip_by f (x ++ p) = rstrip_by f x.
Proof.
  intros H. unfold rstrip_by. rewrite rev_app_distr, drop_while_app; [easy|]. now rewrite forallb_rev.
Qed.
Lemma rstrip_by_id f x c : f c = false -> rstrip_by f (x ++ [c]) = x ++ [c].
Proof.
  intros H. unfold rstrip_by. rewrite rev_app_distr. cbn. rewrite H. cbn. now rewrite rev_involutive.
Qed.
Lemma rstrip_by_nil f x : rstrip_by f x = [] <-> forallb f x = true.
Proof.
  unfold rstrip_by. rewrite <- forallb_rev, <- drop_while_nil.
  destruct (drop_while f (rev x)) as [|a l]; cbn; [easy|]. split; [|discriminate].
  intros H. exfalso. symmetry in H. now apply app_cons_not_nil in H.
Qed.
Lemma rstrip_by_idem f x : rstrip_by f (rstrip_by f x) = rstrip_by f x.
Proof. unfold rstrip_by. now rewrite rev_involutive, drop_while_idem. Qed.
(** the last character of a stripped string is not dropped *)
Lemma rstrip_by_last f x y c : rstrip_by f x = y ++ [c] -> f c = false.
Proof.
  unfold rstrip_by. intros H. apply (f_equal (@rev _)) in H. rewrite rev_involutive, rev_app_distr in H.
  cbn in H. now apply drop_while_head in H.
Qed.
Lemma rstrip_by_cons f c x :
  rstrip_by f (c :: x) = if forallb f x then (if f c then [] else [c]) else c :: rstrip_by f x.
Proof.
  destruct (forallb f x) eqn:E.
  - change (c :: x) with ([c] ++ x). rewrite rstrip_by_app by easy. unfold rstrip_by. cbn. now destruct (f c).
  - unfold rstrip_by. cbn [rev].
    assert (H : drop_while f (rev x ++ [c]) = drop_while f (rev x) ++ [c]).
    { rewrite <- forallb_rev in E. revert E. generalize (rev x) as z. clear.
      induction z as [|a z IH]; cbn; [discriminate|]. destruct (f a); cbn; [exact IH | easy]. }
    rewrite H, rev_app_distr. easy.
Qed.

(** ** list helpers *)
Lemma find_app {A} (f : A -> bool) l1 l2 :
  find f (l1 ++ l2) = match find f l1 with Some a => Some a | None => find f l2 end.
Proof. induction l1 as [|a l1 IH]; cbn; [easy|]. now destruct (f a). Qed.
Lemma find_none_iff {A} (f : A -> bool) l : find f l = None <-> existsb f l = false.
Proof. induction l as [|a l IH]; cbn; [easy|]. destruct (f a); cbn; [split; discriminate | easy]. Qed.
Lemma find_some_exists {A} (f : A -> bool) l a : find f l = Some a -> existsb f l = true.
Proof. intros H. apply existsb_exists. exists a. now apply find_some in H. Qed.

(** ** split_lines *)
Lemma split_lines_concat x : concat (split_lines x) = x.
Proof.
  induction x as [|c x IH]; cbn; [easy|].
  destruct (c =? ch_nl); cbn; [now rewrite IH|].
  destruct (split_lines x) as [|l ls]; cbn in *; now rewrite <- IH.
Qed.
Lemma split_lines_nonempty x : Forall (fun l => l <> []) (split_lines x).
Proof.
  induction x as [|c x IH]; cbn; [constructor|].
  destruct (c =? ch_nl); [now constructor|].
  destruct (split_lines x) as [|l ls]; constructor; try easy. now inversion IH.
Qed.

(** ** str_of_nat is injective *)
Definition digits_val (x : str) : N := fold_left (fun a c => 10 * a + (c - 48)) x 0.
Lemma digits_val_app a x : fold_left (fun a c => 10 * a + (c - 48)) x a
  = a * 10 ^ N.of_nat (length x) + digits_val x.
Proof.
  unfold digits_val. revert a. induction x as [|c x IH]; intros a.
  - cbn. lia.
  - cbn [fold_left length]. rewrite IH, (IH (10 * 0 + (c - 48))).
    rewrite Nat2N.inj_succ, N.pow_succ_r'. lia.
Qed.
Lemma digits_go_val fuel n acc :
  (N.to_nat (N.log2 n) < fuel)%nat ->
  digits_val (digits_go fuel n acc) = n * 10 ^ N.of_nat (length acc) + digits_val acc.
Proof.
  revert n acc; induction fuel as [|f IH]; intros n acc Hf; [lia|]. cbn [digits_go].
  assert (Hc : digits_val ((48 + n mod 10) :: acc) = (n mod 10) * 10 ^ N.of_nat (length acc) + digits_val acc).
  { unfold digits_val at 1. cbn [fold_left]. rewrite digits_val_app. f_equal. f_equal. lia. }
  destruct (n <? 10) eqn:E.
  - rewrite Hc. rewrite N.mod_small by lia. easy.
  - rewrite IH.
    + rewrite Hc. cbn [length]. rewrite Nat2N.inj_succ, N.pow_succ_r'.
      pose proof (N.div_mod n 10). nia.
    + assert (N.log2 (n / 10) < N.log2 n); [|lia].
      apply N.lt_le_trans with (N.log2 (n / 2)).
      * pose proof (N.log2_lt_pow2 (n / 10) (N.log2 (n/2))).
        assert (Hd : n / 10 < 2 ^ N.log2 (n/2)).
        { pose proof (N.log2_spec (n/2)) as Hs.
          assert (Hpos : 0 < n / 2) by (apply N.div_str_pos; lia).
          destruct (Hs Hpos) as [H1 H2]. rewrite N.pow_succ_r' in H2.
          assert (n / 10 * 5 <= n / 2).
          { apply N.div_le_lower_bound; [lia|]. pose proof (N.mul_div_le n 10). lia. }
          assert (0 < 2 ^ N.log2 (n / 2)) by (apply N.neq_0_lt_0, N.pow_nonzero; lia).
          lia. }
        destruct (N.eq_dec (n / 10) 0) as [E0|E0].
        -- exfalso. assert (1 <= n / 10) by (apply N.div_le_lower_bound; lia). lia.
        -- apply H; lia.
      * apply N.log2_le_mono. apply N.div_le_upper_bound; [lia|].
        lia.
Qed.
Lemma digits_val_str_of_N n : digits_val (str_of_N n) = n.
Proof. unfold str_of_N. rewrite digits_go_val by lia. cbn. lia. Qed.
Lemma str_of_nat_inj a b : str_of_nat a = str_of_nat b -> a = b.
Proof.
  unfold str_of_nat. intros H. apply (f_equal digits_val) in H. rewrite !digits_val_str_of_N in H. lia.
Qed.
Lemma str_of_nat_eqb a b : str_eqb (str_of_nat a) (str_of_nat b) = Nat.eqb a b.
Proof.
  destruct (Nat.eqb_spec a b) as [->|H]; [apply str_eqb_refl|].
  apply str_eqb_neq. intros E. now apply H, str_of_nat_inj.
Qed.
