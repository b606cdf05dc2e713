(** * Derivatives of right-hand sides *)
From Verif Require Import PyStr Types Line Classify Grammar.

Lemma rule_eqb_spec a b : rule_eqb a b = true <-> a = b.
Proof. destruct a, b; cbn; split; congruence. Qed.
Lemma rule_eqb_refl a : rule_eqb a a = true.
Proof. now apply rule_eqb_spec. Qed.
Lemma sym_eqb_spec a b : sym_eqb a b = true <-> a = b.
Proof.
  destruct a, b; cbn; try (split; congruence).
  - rewrite tok_eqb_spec. split; congruence.
  - rewrite rule_eqb_spec. split; congruence.
Qed.
Fixpoint gx_eqb (a b : gx) : bool :=
  match a, b with
  | GVoid, GVoid | GEps, GEps => true
  | GSym x, GSym y => sym_eqb x y
  | GCat a1 a2, GCat b1 b2 | GAlt a1 a2, GAlt b1 b2 => gx_eqb a1 b1 && gx_eqb a2 b2
  | GStar a, GStar b => gx_eqb a b
  | _, _ => false
  end.
Lemma gx_eqb_spec a b : gx_eqb a b = true <-> a = b.
Proof.
  revert b. induction a; destruct b; cbn; try (split; congruence).
  - rewrite sym_eqb_spec. split; congruence.
  - rewrite andb_true_iff, IHa1, IHa2. split; [intros [-> ->]; easy | intros H; injection H; auto].
  - rewrite andb_true_iff, IHa1, IHa2. split; [intros [-> ->]; easy | intros H; injection H; auto].
  - rewrite IHa. split; congruence.
Qed.

Fixpoint nullable (a : gx) : bool :=
  match a with
  | GVoid | GSym _ => false
  | GEps | GStar _ => true
  | GCat a b => nullable a && nullable b
  | GAlt a b => nullable a || nullable b
  end.
(** smart constructors *)
Definition mkcat (a b : gx) : gx :=
  match a, b with
  | GVoid, _ | _, GVoid => GVoid
  | GEps, b => b
  | a, GEps => a
  | a, b => GCat a b
  end.
Definition mkalt (a b : gx) : gx :=
  match a, b with
  | GVoid, b => b
  | a, GVoid => a
  | a, b => if gx_eqb a b then a else GAlt a b
  end.
Fixpoint deriv (s : sym) (a : gx) : gx :=
  match a with
  | GVoid | GEps => GVoid
  | GSym x => if sym_eqb x s then GEps else GVoid
  | GCat a b => let d := mkcat (deriv s a) b in if nullable a then mkalt d (deriv s b) else d
  | GAlt a b => mkalt (deriv s a) (deriv s b)
  | GStar a => mkcat (deriv s a) (GStar a)
  end.

Lemma void_inv w : ~ matches GVoid w.
Proof. inversion 1. Qed.
Lemma eps_inv w : matches GEps w <-> w = [].
Proof. split; [now inversion 1 | intros ->; constructor]. Qed.
Lemma sym_inv s w : matches (GSym s) w <-> w = [s].
Proof. split; [now inversion 1 | intros ->; constructor]. Qed.
Lemma cat_inv a b w : matches (GCat a b) w <-> exists u v, w = u ++ v /\ matches a u /\ matches b v.
Proof. split; [inversion 1; subst; eauto 6 | intros [u [v [-> [A B]]]]; now constructor]. Qed.
Lemma alt_inv a b w : matches (GAlt a b) w <-> matches a w \/ matches b w.
Proof. split; [inversion 1; subst; auto | intros [H|H]; [now apply m_altl | now apply m_altr]]. Qed.
Lemma mkcat_ok a b w : matches (mkcat a b) w <-> matches (GCat a b) w.
Proof.
  assert (E1 : matches GVoid w <-> matches (GCat GVoid b) w).
  { rewrite cat_inv. split; [now intros []%void_inv | now intros [u [v [_ [[]%void_inv _]]]]]. }
  assert (E2 : forall a, matches GVoid w <-> matches (GCat a GVoid) w).
  { intros. rewrite cat_inv. split; [now intros []%void_inv | now intros [u [v [_ [_ []%void_inv]]]]]. }
  assert (E3 : forall b, matches b w <-> matches (GCat GEps b) w).
  { intros. rewrite cat_inv. split; [intros H; exists [], w; repeat split; auto; constructor |
      intros [u [v [-> [->%eps_inv H]]]]; exact H]. }
  assert (E4 : forall a, matches a w <-> matches (GCat a GEps) w).
  { intros. rewrite cat_inv. split; [intros H; exists w, []; rewrite app_nil_r; repeat split; auto; constructor |
      intros [u [v [-> [H ->%eps_inv]]]]; now rewrite app_nil_r]. }
  destruct a, b; cbn [mkcat]; auto; reflexivity.
Qed.
Lemma mkalt_ok a b w : matches (mkalt a b) w <-> matches (GAlt a b) w.
Proof.
  assert (E1 : forall b, matches b w <-> matches (GAlt GVoid b) w).
  { intros. rewrite alt_inv. split; [auto | intros [[]%void_inv|H]; exact H]. }
  assert (E2 : forall a, matches a w <-> matches (GAlt a GVoid) w).
  { intros. rewrite alt_inv. split; [auto | intros [H|[]%void_inv]; exact H]. }
  assert (E3 : forall a b, matches (if gx_eqb a b then a else GAlt a b) w <-> matches (GAlt a b) w).
  { intros x y. destruct (gx_eqb x y) eqn:E; [|easy]. apply gx_eqb_spec in E as ->.
    rewrite alt_inv. tauto. }
  destruct a, b; cbn [mkalt]; auto; try apply E3; reflexivity.
Qed.
Lemma nullable_ok a : nullable a = true <-> matches a [].
Proof.
  induction a; cbn.
  - split; [discriminate | now intros []%void_inv].
  - split; [constructor | easy].
  - split; [discriminate | now intros H%sym_inv].
  - rewrite andb_true_iff, IHa1, IHa2, cat_inv. split.
    + intros [A B]. exists [], []. auto.
    + intros [u [v [E [A B]]]]. symmetry in E. apply app_eq_nil in E as [-> ->]. auto.
  - rewrite orb_true_iff, IHa1, IHa2, alt_inv. tauto.
  - split; [constructor | easy].
Qed.
Lemma deriv_ok s a w : matches (deriv s a) w <-> matches a (s :: w).
Proof.
  revert w. induction a; intros w; cbn [deriv].
  - split; now intros []%void_inv.
  - split; [now intros []%void_inv | now intros H%eps_inv].
  - destruct (sym_eqb s0 s) eqn:E.
    + apply sym_eqb_spec in E as ->. rewrite eps_inv, sym_inv. split; congruence.
    + rewrite sym_inv. split; [now intros []%void_inv|]. intros H. injection H as -> ->.
      rewrite (proj2 (sym_eqb_spec _ _)) in E by reflexivity. discriminate.
  - assert (H1 : matches (mkcat (deriv s a1) a2) w <-> exists u v, w = u ++ v /\ matches a1 (s :: u) /\ matches a2 v).
    { rewrite mkcat_ok, cat_inv. split; intros [u [v [A [B C]]]]; exists u, v; rewrite IHa1 in *; auto. }
    assert (H2 : matches (GCat a1 a2) (s :: w) <->
      (exists u v, w = u ++ v /\ matches a1 (s :: u) /\ matches a2 v) \/ (matches a1 [] /\ matches a2 (s :: w))).
    { rewrite cat_inv. split.
      - intros [[|x u] [v [A [B C]]]]; cbn in A; [right; subst; auto|]. injection A as <- ->. left; eauto.
      - intros [[u [v [-> [B C]]]]|[B C]]; [exists (s :: u), v; auto | exists [], (s :: w); auto]. }
    rewrite H2. destruct (nullable a1) eqn:N.
    + rewrite mkalt_ok, alt_inv, H1, IHa2. apply nullable_ok in N. tauto.
    + rewrite H1. split; [auto|]. intros [H|[H _]]; [exact H|]. apply nullable_ok in H. congruence.
  - rewrite mkalt_ok, !alt_inv, IHa1, IHa2. tauto.
  - rewrite mkcat_ok, cat_inv. split.
    + intros [u [v [-> [A B]]]]. rewrite IHa in A. change (s :: u ++ v) with ((s :: u) ++ v). now constructor.
    + intros H. remember (GStar a) as x eqn:Ex. remember (s :: w) as y eqn:Ey.
      induction H as [| | | | | |a' u v H1 _ H2 IH2]; try discriminate.
      injection Ex as ->. destruct u as [|c u]; cbn in Ey.
      * subst v. now apply IH2.
      * injection Ey as -> <-. exists u, v. rewrite IHa. auto.
Qed.
Lemma deriv_void s a w : deriv s a = GVoid -> ~ matches a (s :: w).
Proof. intros H M. apply deriv_ok in M. rewrite H in M. now apply void_inv in M. Qed.
