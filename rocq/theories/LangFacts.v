(** * The pattern of the language header *)
From Verif Require Import PyStr PyStrFacts Types Regex ReSem Line DialectData Matcher LineSpec LangSpec.
Local Open Scope N_scope.

Fixpoint nogrp (r : re) : bool :=
  match r with
  | RSeq a b | RAlt a b => nogrp a && nogrp b
  | RStar a => nogrp a
  | RGrp _ _ => false
  | _ => true
  end.
Lemma exec_caps r : nogrp r = true -> forall st st', In st' (exec r st) -> r_caps st' = r_caps st.
Proof.
  induction r as [|neg l| | |a IHa b IHb|a IHa b IHb|a IHa|n a IHa| | | |]; cbn [nogrp]; intros G [p x caps] st' H; cbn [exec] in H; cbn [r_prev r_rest r_caps] in *.
  - now destruct H as [<-|[]].
  - now apply step1_in in H as [c [x' [-> [H ->]]]].
  - now apply step1_in in H as [c [x' [-> [H ->]]]].
  - now apply step1_in in H as [c [x' [-> [H ->]]]].
  - apply andb_true_iff in G as [G1 G2]. apply in_flat_map in H as [st1 [H1 H2]]. rewrite (IHb G2 _ _ H2). now rewrite (IHa G1 _ _ H1).
  - apply andb_true_iff in G as [G1 G2]. apply in_app_iff in H as [H|H]; [now rewrite (IHa G1 _ _ H) | now rewrite (IHb G2 _ _ H)].
  - enough (K : forall n st, In st' (star_go (exec a) n st) -> r_caps st' = r_caps st) by apply (K _ _ H).
    induction n as [|n IH]; intros st K; cbn [star_go] in K; [now destruct K as [<-|[]]|].
    apply in_app_iff in K as [K|[<-|[]]]; [|reflexivity]. apply in_flat_map in K as [st1 [K1 K2]]. destruct (Nat.ltb _ _); [|destruct K2].
    rewrite (IH _ K2). now apply IHa.
  - discriminate.
  - destruct p; [destruct H | now destruct H as [<-|[]]].
  - destruct x as [|c [|d x]]; [|destruct (c =? ch_nl)|]; cbn in H; try contradiction; now destruct H as [<-|[]].
  - destruct p as [c|]; [destruct (c =? ch_nl); [|destruct H]|]; now destruct H as [<-|[]].
  - destruct x as [|c x]; [|destruct (c =? ch_nl); [|destruct H]]; now destruct H as [<-|[]].
Qed.

Lemma M_stars neg l p x p' x' : M (RStar (RSet neg l)) p x p' x' -> exists w, x = w ++ x' /\ forallb (cset_has neg l) w = true.
Proof.
  intros H. remember (RStar (RSet neg l)) as r eqn:E. induction H; try discriminate E; injection E as ->.
  - now exists [].
  - inversion H; subst. destruct (IHM2 eq_refl) as [w [-> W]]. exists (c :: w). split; [reflexivity|]. cbn [forallb]. rewrite W. match goal with H : cset_has _ _ _ = true |- _ => now rewrite H end.
Qed.
Lemma stars_M neg l w : forallb (cset_has neg l) w = true -> forall p x, exists p', M (RStar (RSet neg l)) p (w ++ x) p' x.
Proof.
  induction w as [|c w IH]; intros H p x; [exists p; constructor|]. cbn in H. apply andb_true_iff in H as [H1 H2].
  destruct (IH H2 (Some c) x) as [p' P]. exists p'. eapply M_star1; [now constructor | exact P].
Qed.
Lemma M_char c p x p' x' : M (RChar c) p x p' x' <-> x = c :: x' /\ p' = Some c.
Proof.
  split.
  - inversion 1 as [|? ? ? c' ? E| | | | | | | | | | | | | | |]; subst. unfold cset_has in E. cbn [existsb citem_has] in E. rewrite orb_false_r in E. cbn [xorb] in E. destruct (c' =? c) eqn:Q; [|discriminate E]. apply N.eqb_eq in Q as ->. auto.
  - intros [-> ->]. constructor. cbn. now rewrite N.eqb_refl.
Qed.
Lemma M_lit w : forall p x p' x', M (RLit w) p x p' x' -> x = w ++ x'.
Proof.
  induction w as [|c w IH]; intros p x p' x' H; cbn [RLit] in H; [now inversion H|].
  inversion H; subst. match goal with H : M (RChar _) _ _ _ _ |- _ => apply M_char in H as [-> _] end. cbn. f_equal. eauto.
Qed.
Lemma lit_M w : forall p x, exists p', M (RLit w) p (w ++ x) p' x.
Proof.
  induction w as [|c w IH]; intros p x; cbn [RLit]; [exists p; constructor|]. destruct (IH (Some c) x) as [p' P]. exists p'.
  econstructor; [apply M_char; split; reflexivity | exact P].
Qed.
Lemma cset_space w : forallb (cset_has false [CSpace]) w = forallb is_space w.
Proof. induction w as [|c w IH]; [reflexivity|]. cbn [forallb]. rewrite IH. f_equal. unfold cset_has. cbn [existsb citem_has]. destruct (is_space c); reflexivity. Qed.
Lemma cset_name w : forallb (cset_has false [CRange 97 122; CRange 65 90; CChar 45; CChar 95]%N) w = forallb name_char w.
Proof.
  induction w as [|c w IH]; [reflexivity|]. cbn [forallb]. rewrite IH. f_equal. unfold cset_has, name_char. cbn [existsb citem_has].
  destruct (97 <=? c), (c <=? 122), (65 <=? c), (c <=? 90), (c =? 45), (c =? 95); reflexivity.
Qed.
Lemma M_spaces p x p' x' : M re_spaces p x p' x' -> exists w, x = w ++ x' /\ all_space w.
Proof. intros H. apply M_stars in H as [w [-> W]]. exists w. split; [reflexivity|]. unfold all_space. now rewrite <- cset_space. Qed.
Lemma spaces_M w p x : all_space w -> exists p', M re_spaces p (w ++ x) p' x.
Proof. intros H. apply stars_M. now rewrite cset_space. Qed.

Lemma in_seq a b st st' : In st' (exec (RSeq a b) st) <-> exists m, In m (exec a st) /\ In st' (exec b m).
Proof. cbn [exec]. apply in_flat_map. Qed.
Lemma nogrp_in r st st' : nogrp r = true -> In st' (exec r st) -> M r (r_prev st) (r_rest st) (r_prev st') (r_rest st') /\ r_caps st' = r_caps st.
Proof. intros G H. split; [now apply exec_sound | now apply (exec_caps r G)]. Qed.

Lemma name_not_space c : name_char c = true -> is_space c = false.
Proof.
  intros H. destruct (is_space c) eqn:E; [|reflexivity]. exfalso. unfold is_space in E. unfold name_char in H.
  rewrite !orb_true_iff, !andb_true_iff, !N.leb_le, !N.eqb_eq in *. lia.
Qed.
Lemma eol_rest p x p' x' : M REol p x p' x' -> x' = x /\ all_space x.
Proof. inversion 1; subst; split; reflexivity. Qed.
Lemma firstn_prefix (a b : str) : firstn (length (a ++ b) - length b) (a ++ b) = a.
Proof. rewrite app_length, Nat.add_sub, firstn_app, firstn_all, Nat.sub_diag. cbn. apply app_nil_r. Qed.

Lemma language_success x st : In st (exec LANGUAGE_RE (rinit x)) -> exists name, group 1 st = Some name /\ language_line x name.
Proof.
  unfold LANGUAGE_RE, rinit. intros H.
  apply in_seq in H as [s0 [H0 H]]. apply nogrp_in in H0 as [H0 K0]; [|reflexivity].
  apply in_seq in H as [s1 [H1 H]]. apply nogrp_in in H1 as [H1 K1]; [|reflexivity]. apply M_spaces in H1 as [a [E1 A]].
  apply in_seq in H as [s2 [H2 H]]. apply nogrp_in in H2 as [H2 K2]; [|reflexivity]. apply M_char in H2 as [E2 _].
  apply in_seq in H as [s3 [H3 H]]. apply nogrp_in in H3 as [H3 K3]; [|reflexivity]. apply M_spaces in H3 as [b [E3 B]].
  apply in_seq in H as [s4 [H4 H]]. apply nogrp_in in H4 as [H4 K4]; [|reflexivity]. apply M_lit in H4.
  apply in_seq in H as [s5 [H5 H]]. apply nogrp_in in H5 as [H5 K5]; [|reflexivity]. apply M_spaces in H5 as [c [E5 C]].
  apply in_seq in H as [s6 [H6 H]]. apply nogrp_in in H6 as [H6 K6]; [|reflexivity]. apply M_char in H6 as [E6 _].
  apply in_seq in H as [s7 [H7 H]]. apply nogrp_in in H7 as [H7 K7]; [|reflexivity]. apply M_spaces in H7 as [d [E7 D]].
  apply in_seq in H as [s8 [H8 H]]. apply in_seq in H as [s9 [H9 H]]. apply nogrp_in in H9 as [H9 K9]; [|reflexivity]. apply M_spaces in H9 as [e [E9 Ee]].
  apply nogrp_in in H as [H K10]; [|reflexivity]. apply eol_rest in H as [H Hs].
  cbn [exec] in H8. apply in_map_iff in H8 as [m [Em H8]]. change (In m (exec (RPlus language_name_set) s7)) in H8. apply nogrp_in in H8 as [H8 K8]; [|reflexivity].
  assert (N : exists name, r_rest s7 = name ++ r_rest m /\ name <> [] /\ forallb name_char name = true).
  { unfold RPlus in H8. inversion H8 as [| | | |? ? ? ? p1 x1 ? ? N1 N2| | | | | | | | | | | |]; subst. unfold language_name_set in N1. inversion N1 as [|? ? ? y ? Ny| | | | | | | | | | | | | | |]; subst.
    apply M_stars in N2 as [w [-> W]]. exists (y :: w). split; [reflexivity|]. split; [discriminate|]. rewrite <- cset_name. cbn [forallb]. now rewrite Ny, W. }
  destruct N as [name [En [N1 N2]]]. exists name. subst s8. cbn [r_prev r_rest r_caps] in *.
  assert (E0 : r_rest s0 = x) by (inversion H0; subst; reflexivity). split.
  - unfold group. rewrite K10, K9. cbn [find fst Nat.eqb]. rewrite En. now rewrite firstn_prefix.
  - exists a, b, c, d, (e ++ r_rest s9). repeat split; auto; [|unfold all_space in *; rewrite forallb_app, Ee; exact Hs].
    rewrite <- E0, E1, E2, E3, H4, E5, E6, E7, En, E9. change (s "#") with [ch_hash]. change (s ":") with [ch_colon]. now cbn [app].
Qed.
Lemma language_exists x name : language_line x name -> exec LANGUAGE_RE (rinit x) <> [].
Proof.
  intros [a [b [c [d [e [-> [A [B [C [D [E [N1 N2]]]]]]]]]]]].
  assert (G : exists p y, M LANGUAGE_RE None (a ++ s "#" ++ b ++ s "language" ++ c ++ s ":" ++ d ++ name ++ e) p y).
  { unfold LANGUAGE_RE. change (s "#") with [ch_hash]. change (s ":") with [ch_colon]. cbn [app].
    destruct (spaces_M a None (ch_hash :: b ++ s "language" ++ c ++ ch_colon :: d ++ name ++ e) A) as [p1 P1].
    destruct (spaces_M b (Some ch_hash) (s "language" ++ c ++ ch_colon :: d ++ name ++ e) B) as [p2 P2].
    destruct (lit_M (s "language") p2 (c ++ ch_colon :: d ++ name ++ e)) as [p3 P3].
    destruct (spaces_M c p3 (ch_colon :: d ++ name ++ e) C) as [p4 P4].
    destruct (spaces_M d (Some ch_colon) (name ++ e) D) as [p5 P5].
    destruct name as [|n0 name]; [contradiction|]. rewrite <- cset_name in N2. cbn [forallb] in N2. apply andb_true_iff in N2 as [N2 N3].
    destruct (stars_M _ _ name N3 (Some n0) e) as [p6 P6].
    destruct (spaces_M e p6 [] E) as [p7 P7]. rewrite app_nil_r in P7.
    exists p7, []. repeat (eapply M_seq; [first [exact P1 | exact P2 | exact P3 | exact P4 | exact P5 | apply M_bol | apply M_char; split; reflexivity] |]).
    eapply M_seq; [|eapply M_seq; [exact P7 | apply M_eol0]]. apply M_grp. unfold RPlus. eapply M_seq; [apply M_set; exact N2 | exact P6]. }
  destruct G as [p [y G]]. destruct (exec_complete _ _ _ _ _ G []) as [caps H]. unfold rinit. intros Q. rewrite Q in H. destruct H.
Qed.

Lemma span_unique (P Q : char -> bool) (a b a' b' : str) :
  (forall c, P c = true -> Q c = false) -> a ++ b = a' ++ b' -> forallb P a = true -> forallb P a' = true ->
  match b with [] => True | c :: _ => Q c = true end -> match b' with [] => True | c :: _ => Q c = true end -> a = a' /\ b = b'.
Proof.
  intros PQ. revert a'. induction a as [|c a IH]; intros [|c' a'] E A A' B B'; cbn in *.
  - auto.
  - subst b. apply andb_true_iff in A' as [A' _]. rewrite (PQ _ A') in B. discriminate.
  - subst b'. apply andb_true_iff in A as [A _]. rewrite (PQ _ A) in B'. discriminate.
  - injection E as <- E. apply andb_true_iff in A as [_ A]. apply andb_true_iff in A' as [_ A']. destruct (IH a' E A A' B B') as [-> ->]. auto.
Qed.
Lemma space_nonspace c : is_space c = true -> negb (is_space c) = false.
Proof. now intros ->. Qed.
Lemma name_head name e : name <> [] -> forallb name_char name = true -> match name ++ e with [] => True | c :: _ => negb (is_space c) = true end.
Proof. destruct name as [|c name]; [contradiction|]. cbn. intros _ H. apply andb_true_iff in H as [H _]. now rewrite (name_not_space _ H). Qed.
(** the name is determined by the line *)
Lemma language_unique x n1 n2 : language_line x n1 -> language_line x n2 -> n1 = n2.
Proof.
  intros [a [b [c [d [e [E [A [B [C [D [Ee [N1 N2]]]]]]]]]]]] [a' [b' [c' [d' [e' [E' [A' [B' [C' [D' [Ee' [N1' N2']]]]]]]]]]]].
  rewrite E in E'. clear E. unfold all_space in *.
  apply (span_unique is_space (fun c => negb (is_space c)) _ _ _ _ space_nonspace) in E' as [_ E']; auto; try reflexivity.
  apply app_inv_head in E'.
  apply (span_unique is_space (fun c => negb (is_space c)) _ _ _ _ space_nonspace) in E' as [_ E']; auto; try reflexivity.
  apply app_inv_head in E'.
  apply (span_unique is_space (fun c => negb (is_space c)) _ _ _ _ space_nonspace) in E' as [_ E']; auto; try reflexivity.
  apply app_inv_head in E'.
  apply (span_unique is_space (fun c => negb (is_space c)) _ _ _ _ space_nonspace) in E' as [_ E']; auto; try now apply name_head.
  apply (span_unique name_char is_space _ _ _ _) in E' as [E' _]; auto using name_not_space.
  - destruct e; [exact I|]. cbn in Ee. now apply andb_true_iff in Ee as [Ee _].
  - destruct e'; [exact I|]. cbn in Ee'. now apply andb_true_iff in Ee' as [Ee' _].
Qed.

(** the pattern, whether or not white space before the hash has been removed *)
Lemma language_lstrip x name : language_line (lstrip x) name <-> language_line x name.
Proof.
  split.
  - intros [a [b [c [d [e [E [A R]]]]]]]. assert (W : exists w, x = w ++ lstrip x /\ forallb is_space w = true).
    { clear. unfold lstrip. induction x as [|h x [w [W1 W2]]]; [now exists []|]. cbn. destruct (is_space h) eqn:Q; [|now exists []]. exists (h :: w). cbn. rewrite Q. split; [now f_equal | exact W2]. }
    destruct W as [w [W1 W2]].
    exists (w ++ a), b, c, d, e. split; [rewrite W1 at 1; rewrite E; now rewrite <- !app_assoc|]. split; [unfold all_space in *; now rewrite forallb_app, W2, A | exact R].
  - intros [a [b [c [d [e [E [A R]]]]]]]. exists [], b, c, d, e. split; [|split; [reflexivity | exact R]]. rewrite E. unfold lstrip.
    clear -A. unfold all_space in A. induction a as [|h a IH]; [reflexivity|]. cbn in A. apply andb_true_iff in A as [A1 A2]. cbn. rewrite A1. now apply IH.
Qed.
Theorem language_re x : match re_match LANGUAGE_RE (lstrip x) with
  | Some st => exists name, group 1 st = Some name /\ language_line x name
  | None => forall name, ~ language_line x name
  end.
Proof.
  unfold re_match. pose proof (language_success (lstrip x)) as S. pose proof (language_exists (lstrip x)) as X.
  destruct (exec LANGUAGE_RE (rinit (lstrip x))) as [|st l]; cbn [hd_error].
  - intros name H. apply language_lstrip in H. now apply (X name).
  - destruct (S st (or_introl eq_refl)) as [name [G L]]. exists name. split; [exact G|]. now apply language_lstrip.
Qed.
