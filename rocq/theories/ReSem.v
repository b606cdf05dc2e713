(** * What a match of a regular expression is, without the order of attempts (no modelled code) *)
From Verif Require Import PyStr Types Regex.
Local Open Scope N_scope.

(** [M r p x p' x']: [r] matches a piece of text between [x] and [x'], where [p] is the
    character before [x] and [p'] the character before [x'] *)
Inductive M : re -> option char -> str -> option char -> str -> Prop :=
| M_eps p x : M REps p x p x
| M_set neg l p c x : cset_has neg l c = true -> M (RSet neg l) p (c :: x) (Some c) x
| M_any p c x : M RAny p (c :: x) (Some c) x
| M_dot p c x : c <> ch_nl -> M RDot p (c :: x) (Some c) x
| M_seq a b p x p1 x1 p2 x2 : M a p x p1 x1 -> M b p1 x1 p2 x2 -> M (RSeq a b) p x p2 x2
| M_altl a b p x p1 x1 : M a p x p1 x1 -> M (RAlt a b) p x p1 x1
| M_altr a b p x p1 x1 : M b p x p1 x1 -> M (RAlt a b) p x p1 x1
| M_star0 a p x : M (RStar a) p x p x
| M_star1 a p x p1 x1 p2 x2 : M a p x p1 x1 -> M (RStar a) p1 x1 p2 x2 -> M (RStar a) p x p2 x2
| M_grp n a p x p1 x1 : M a p x p1 x1 -> M (RGrp n a) p x p1 x1
| M_bol x : M RBol None x None x
| M_bolm0 x : M RBolM None x None x
| M_bolm1 x : M RBolM (Some ch_nl) x (Some ch_nl) x
| M_eol0 p : M REol p [] p []
| M_eol1 p : M REol p [ch_nl] p [ch_nl]
| M_eolm0 p : M REolM p [] p []
| M_eolm1 p x : M REolM p (ch_nl :: x) p (ch_nl :: x).

(** a match takes a piece of the text; one that takes nothing stays where it is *)
Lemma M_split r p x p' x' : M r p x p' x' -> exists w, x = w ++ x' /\ (w = [] -> p' = p).
Proof.
  induction 1 as [| | | |a b p x p1 x1 p2 x2 _ [w1 [-> E1]] _ [w2 [-> E2]]| | | |a p x p1 x1 p2 x2 _ [w1 [-> E1]] _ [w2 [-> E2]]| | | | | | | |];
    try (exists []; split; reflexivity); try (eexists [_]; split; [reflexivity | discriminate]); try assumption.
  - exists (w1 ++ w2). split; [now rewrite app_assoc|]. intros E. apply app_eq_nil in E as [-> ->]. now rewrite E2, E1.
  - exists (w1 ++ w2). split; [now rewrite app_assoc|]. intros E. apply app_eq_nil in E as [-> ->]. now rewrite E2, E1.
Qed.

Lemma step1_in f p x caps st : In st (step1 f (mkR p x caps)) <-> exists c x', x = c :: x' /\ f c = true /\ st = mkR (Some c) x' caps.
Proof.
  unfold step1. cbn. destruct x as [|c x]; [split; [intros []|intros [? [? [? _]]]; discriminate]|].
  destruct (f c) eqn:E.
  - split; [intros [<-|[]]; eauto|]. intros [c' [x' [H [_ ->]]]]. injection H as <- <-. now left.
  - split; [intros []|]. intros [c' [x' [H [F _]]]]. injection H as <- <-. congruence.
Qed.

Lemma star_sound a (Ha : forall st st', In st' (exec a st) -> M a (r_prev st) (r_rest st) (r_prev st') (r_rest st')) :
  forall n st st', In st' (star_go (exec a) n st) -> M (RStar a) (r_prev st) (r_rest st) (r_prev st') (r_rest st').
Proof.
  induction n as [|n IH]; intros st st'; cbn [star_go]; [intros [<-|[]]; constructor|].
  intros H. apply in_app_iff in H as [H|[<-|[]]]; [|constructor]. apply in_flat_map in H as [st1 [H1 H2]].
  destruct (Nat.ltb _ _); [|destruct H2]. eapply M_star1; [apply Ha; exact H1 | now apply IH].
Qed.
Lemma exec_sound r : forall st st', In st' (exec r st) -> M r (r_prev st) (r_rest st) (r_prev st') (r_rest st').
Proof.
  induction r as [|neg l| | |a IHa b IHb|a IHa b IHb|a IHa|n a IHa| | | |]; intros [p x caps] st' H; cbn [exec] in H; cbn [r_prev r_rest] in *.
  - destruct H as [<-|[]]. constructor.
  - apply step1_in in H as [c [x' [-> [H ->]]]]. now constructor.
  - apply step1_in in H as [c [x' [-> [H ->]]]]. constructor.
  - apply step1_in in H as [c [x' [-> [H ->]]]]. constructor. intros ->. discriminate H.
  - apply in_flat_map in H as [st1 [H1 H2]]. econstructor; [apply IHa in H1; exact H1 | now apply IHb].
  - apply in_app_iff in H as [H|H]; [apply M_altl; apply IHa in H; exact H | apply M_altr; apply IHb in H; exact H].
  - apply star_sound in H; assumption.
  - apply in_map_iff in H as [st1 [<- H1]]. constructor. apply IHa in H1. exact H1.
  - destruct p; [destruct H|destruct H as [<-|[]]; constructor].
  - destruct x as [|c [|d x]]; [|destruct (c =? ch_nl) eqn:E; [apply N.eqb_eq in E as ->|]|]; cbn in H; try contradiction; destruct H as [<-|[]]; constructor.
  - destruct p as [c|]; [destruct (c =? ch_nl) eqn:E; [apply N.eqb_eq in E as ->|destruct H]|]; destruct H as [<-|[]]; constructor.
  - destruct x as [|c x]; [|destruct (c =? ch_nl) eqn:E; [apply N.eqb_eq in E as ->|destruct H]]; destruct H as [<-|[]]; constructor.
Qed.

Lemma star_complete a (Ha : forall p x p' x', M a p x p' x' -> forall caps, exists caps', In (mkR p' x' caps') (exec a (mkR p x caps))) :
  forall n p x p' x' caps, M (RStar a) p x p' x' -> (length x <= n)%nat -> exists caps', In (mkR p' x' caps') (star_go (exec a) n (mkR p x caps)).
Proof.
  intros n p x p' x' caps H. remember (RStar a) as r eqn:Er. revert n caps. induction H; try discriminate Er; injection Er as ->.
  - intros n caps _. exists caps. destruct n; cbn [star_go]; [now left | apply in_or_app; right; now left].
  - intros n caps L. destruct (M_split _ _ _ _ _ H) as [w [-> W]]. destruct w as [|c w].
    + rewrite (W eq_refl) in *. apply IHM2; [reflexivity | exact L].
    + destruct n as [|n]; [cbn in L; lia|]. cbn [app length] in L. rewrite app_length in L. destruct (Ha _ _ _ _ H caps) as [c1 H1].
      destruct (IHM2 eq_refl n c1) as [c2 H2]; [lia|]. exists c2. cbn [star_go]. apply in_or_app. left. apply in_flat_map. eexists. split; [exact H1|].
      cbn [r_rest]. assert (E : Nat.ltb (length x1) (length ((c :: w) ++ x1)) = true) by (apply Nat.ltb_lt; cbn; rewrite app_length; lia). rewrite E. exact H2.
Qed.
Lemma exec_complete r : forall p x p' x', M r p x p' x' -> forall caps, exists caps', In (mkR p' x' caps') (exec r (mkR p x caps)).
Proof.
  induction r as [|neg l| | |a IHa b IHb|a IHa b IHb|a IHa|n a IHa| | | |]; intros p x p' x' H caps; cbn [exec].
  7: { eapply star_complete; [exact IHa | exact H | cbn; lia]. }
  all: inversion H; subst; try (exists caps; apply step1_in; eexists _, _; split; [reflexivity|]; split; [|reflexivity]; first [assumption | reflexivity | now apply negb_true_iff, N.eqb_neq]);
    try (exists caps; now left).
  - edestruct IHa as [c1 X1]; [eassumption|]. edestruct IHb as [c2 X2]; [eassumption|]. exists c2. apply in_flat_map. eexists. split; [exact X1 | exact X2].
  - edestruct IHa as [c1 X1]; [eassumption|]. exists c1. apply in_or_app. left. exact X1.
  - edestruct IHb as [c1 X1]; [eassumption|]. exists c1. apply in_or_app. right. exact X1.
  - edestruct IHa as [c1 X1]; [eassumption|]. eexists. apply in_map_iff. eexists. split; [|exact X1]. reflexivity.
Qed.

Theorem fullmatch_M r x : re_fullmatch r x = true <-> exists p, M r None x p [].
Proof.
  unfold re_fullmatch, rinit. rewrite existsb_exists. split.
  - intros [[p y caps] [H1 H2]]. cbn in H2. destruct y; [|discriminate]. exists p. apply exec_sound in H1. exact H1.
  - intros [p H]. destruct (exec_complete _ _ _ _ _ H []) as [caps H1]. eexists. split; [exact H1 | reflexivity].
Qed.
