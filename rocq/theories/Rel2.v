(** * Two runs of the parser on related lines

    Lines, tokens and builder states need not be equal, only related; the matcher, the errors and the
    outcome are the same. *)
From Verif Require Import PyStr PyStrFacts Types Regex Line DialectData Matcher Ast ParserTable Parser.

Lemma Forall2_length {A} (R : A -> A -> Prop) a b : Forall2 R a b -> length a = length b.
Proof. induction 1; cbn; congruence. Qed.
Section Rel2.
Context {B : Type} (bd : builder B) (RB : B -> B -> Prop) (J : mstate -> Prop)
  (Lr : str -> str -> Prop) (Tr Bt : token -> token -> Prop) (Soft : token -> bool).
Implicit Types c : ctx B.
Definition resp2 (f g : B -> result unit * B) : Prop :=
  forall b1 b2, RB b1 b2 -> fst (f b1) = fst (g b2) /\ RB (snd (f b1)) (snd (g b2)).
Context (Hstart : forall r, resp2 (bd_start bd r) (bd_start bd r)) (Hend : forall r, resp2 (bd_end bd r) (bd_end bd r))
  (Hbuild : forall t t', Bt t t' -> resp2 (bd_build bd t) (bd_build bd t'))
  (Hrefl : Bt (new_token [] 0) (new_token [] 0))
  (Hread : forall x x' n, Lr x x' -> Tr (new_token x n) (new_token x' n)) (Hnil : Lr [] [])
  (Heof : forall t t', Tr t t' -> t_eof t = t_eof t')
  (Hmatch : forall k ms t t', J ms -> Tr t t' ->
     fst (fst (do_match k ms t)) = fst (fst (do_match k ms t')) /\ snd (fst (do_match k ms t)) = snd (fst (do_match k ms t')) /\
     J (snd (fst (do_match k ms t))) /\ Tr (snd (do_match k ms t)) (snd (do_match k ms t')) /\
     (fst (fst (do_match k ms t)) = Ok true -> Bt (snd (do_match k ms t)) (snd (do_match k ms t'))))
  (Hsoft : forall k ms t, Soft (snd (do_match k ms t)) = Soft t)
  (Hsoft_eof : forall t, Soft t = true -> t_eof t = false)
  (Hempty : forall ms t, J ms -> Soft t = true -> fst (fst (do_match TkEmpty ms t)) = Ok true)
  (Hhard : forall t t' e, Tr t t' -> Soft t = false -> unexpected t e = unexpected t' e).
Definition takes_soft (tr : trans) : bool := (tok_eqb (tr_tok tr) TkEmpty || tok_eqb (tr_tok tr) TkOther) && match tr_la tr with None => true | _ => false end.
Context (Htable : forall q st, ptable q = Some st -> existsb takes_soft (st_trans st) = true).

Definition RC2 (c1 c2 : ctx B) : Prop :=
  Forall2 Lr (c_lines c1) (c_lines c2) /\ c_lineno c1 = c_lineno c2 /\ Forall2 Tr (c_queue c1) (c_queue c2) /\
  c_errors c1 = c_errors c2 /\ c_ms c1 = c_ms c2 /\ c_stop c1 = c_stop c2 /\ RB (c_b c1) (c_b c2) /\ J (c_ms c1).
Definition RRg {A} (R : A -> A -> Prop) (x y : result A * ctx B) : Prop :=
  match fst x, fst y with Ok a, Ok b => R a b | Err e, Err e' => e = e' | _, _ => False end /\ RC2 (snd x) (snd y).
Definition RR2 {A} : result A * ctx B -> result A * ctx B -> Prop := RRg eq.
Definition Rt (x y : bool * token) : Prop := fst x = fst y /\ Tr (snd x) (snd y) /\ (fst x = true -> Bt (snd x) (snd y)).

Ltac dc := match goal with H : RC2 ?a ?b |- _ => let H1 := fresh in let H2 := fresh in let H3 := fresh in let H4 := fresh in let H5 := fresh in let H6 := fresh in let H7 := fresh in let H8 := fresh in
  destruct a, b; destruct H as [H1 [H2 [H3 [H4 [H5 [H6 [H7 H8]]]]]]]; cbn in *; subst end.
Ltac rc := unfold RR2, RRg; repeat split; cbn; auto.

Lemma add_error_rel2 e c1 c2 : RC2 c1 c2 -> RR2 (add_error e c1) (add_error e c2).
Proof. intros H. dc. unfold add_error. cbn [c_errors]. match goal with |- context [existsb ?f ?l] => destruct (existsb f l) end; [rc|]. match goal with |- context [Nat.ltb ?a ?b] => destruct (Nat.ltb a b) end; rc. Qed.
Lemma rr_unit (x y : result unit * ctx B) : RR2 x y -> fst x = fst y /\ RC2 (snd x) (snd y).
Proof. intros [H1 H2]. split; [|exact H2]. destruct (fst x), (fst y); subst; auto; contradiction. Qed.
Lemma add_errors_rel2 es : forall c1 c2, RC2 c1 c2 -> RR2 (add_errors es c1) (add_errors es c2).
Proof.
  induction es as [|e es IH]; intros c1 c2 H; [split; [reflexivity | exact H]|]. cbn [add_errors].
  pose proof (rr_unit _ _ (add_error_rel2 e _ _ H)) as [E1 E2]. destruct (add_error e c1) as [r1 d1], (add_error e c2) as [r2 d2]. cbn in E1, E2. subst r2.
  destruct r1; [now apply IH | split; cbn; auto].
Qed.
Lemma handle_rel2 {A} (R : A -> A -> Prop) (x x' : A) (p q : result A * ctx B) : R x x' -> RRg R p q -> RRg R (handle_external x p) (handle_external x' q).
Proof.
  intros Hx. destruct p as [r1 c1], q as [r2 c2]. intros [E H]. cbn in E, H. unfold handle_external.
  assert (S : c_stop c1 = c_stop c2) by apply H. rewrite S. destruct (c_stop c2); [split; auto|].
  destruct r1 as [a|e1], r2 as [b|e2]; try contradiction; [split; auto|]. subst e2.
  destruct e1 as [e|es| | | | | | | | |]; try (split; cbn; auto; fail).
  - pose proof (rr_unit _ _ (add_error_rel2 e _ _ H)) as [E1 E2]. destruct (add_error e c1) as [r1 d1], (add_error e c2) as [r2 d2]. cbn in E1, E2. subst r2. destruct r1; split; cbn; auto.
  - pose proof (rr_unit _ _ (add_errors_rel2 es _ _ H)) as [E1 E2]. destruct (add_errors es c1) as [r1 d1], (add_errors es c2) as [r2 d2]. cbn in E1, E2. subst r2. destruct r1; split; cbn; auto.
Qed.
Lemma do_act_rel2 t t' a c1 c2 : Bt t t' -> RC2 c1 c2 -> RR2 (do_act bd t a c1) (do_act bd t' a c2).
Proof.
  intros Ht H. unfold do_act. apply handle_rel2; [reflexivity|]. assert (Hb : RB (c_b c1) (c_b c2)) by apply H.
  set (f := match a with AStart r => bd_start bd r | AEnd r => bd_end bd r | ABuild => bd_build bd t end).
  set (g := match a with AStart r => bd_start bd r | AEnd r => bd_end bd r | ABuild => bd_build bd t' end).
  assert (F : resp2 f g) by (unfold f, g; destruct a; auto).
  assert (X : forall b, match a with AStart r => bd_start bd r b | AEnd r => bd_end bd r b | ABuild => bd_build bd t b end = f b) by (destruct a; reflexivity).
  assert (Y : forall b, match a with AStart r => bd_start bd r b | AEnd r => bd_end bd r b | ABuild => bd_build bd t' b end = g b) by (destruct a; reflexivity).
  rewrite X, Y. destruct (F _ _ Hb) as [E1 E2]. destruct (f (c_b c1)) as [r1 b1], (g (c_b c2)) as [r2 b2]. cbn in E1, E2. subst r2.
  split; [destruct r1; reflexivity|]. cbn. clear X Y F. dc. rc.
Qed.
Lemma do_acts_rel2 t t' l : Bt t t' -> forall c1 c2, RC2 c1 c2 -> RR2 (do_acts bd t l c1) (do_acts bd t' l c2).
Proof.
  intros Ht. induction l as [|a l IH]; intros c1 c2 H; [split; cbn; auto|]. cbn [do_acts].
  pose proof (rr_unit _ _ (do_act_rel2 t t' a _ _ Ht H)) as [E1 E2]. destruct (do_act bd t a c1) as [r1 d1], (do_act bd t' a c2) as [r2 d2]. cbn in E1, E2. subst r2.
  destruct r1; [now apply IH | split; cbn; auto].
Qed.
Lemma read_token_rel2 c1 c2 : RC2 c1 c2 -> Tr (fst (read_token c1)) (fst (read_token c2)) /\ RC2 (snd (read_token c1)) (snd (read_token c2)).
Proof.
  intros H. dc. unfold read_token. cbn. match goal with H : Forall2 Tr ?a ?b |- _ => destruct H as [|t t' q q' Ht Hq] end; cbn; [|split; [exact Ht | rc]].
  match goal with H : Forall2 Lr ?a ?b |- _ => destruct H as [|x x' l l' Hx Hl] end; cbn; (split; [apply Hread; auto | rc]).
Qed.
Lemma match_tok_rel2 k t t' c1 c2 : Tr t t' -> RC2 c1 c2 -> RRg Rt (match_tok k t c1) (match_tok k t' c2).
Proof.
  intros Ht H. unfold match_tok. rewrite (Heof t t' Ht). destruct (_ && _); [split; [repeat split; auto; discriminate | exact H]|]. assert (E : c_ms c1 = c_ms c2) by apply H.
  assert (HJ : J (c_ms c1)) by apply H. destruct (Hmatch k _ _ _ HJ Ht) as [M1 [M2 [M3 [M4 M5]]]]. rewrite <- E.
  destruct (do_match k (c_ms c1) t) as [[r ms] t1], (do_match k (c_ms c1) t') as [[r' ms'] t1']. cbn in M1, M2, M3, M4, M5. subst r' ms'. apply handle_rel2; [repeat split; auto; discriminate|].
  split; [destruct r as [b|e]; cbn; [|reflexivity]; repeat split; auto; cbn; intros ->; auto|]. cbn. clear E HJ. dc. rc.
Qed.
Lemma match_any_rel2 ks : forall t t' c1 c2, Tr t t' -> RC2 c1 c2 -> RRg Rt (match_any ks t c1) (match_any ks t' c2).
Proof.
  induction ks as [|k ks IH]; intros t t' c1 c2 Ht H; [split; [repeat split; auto; discriminate | exact H]|]. cbn [match_any].
  pose proof (match_tok_rel2 k t t' _ _ Ht H) as [E1 E2]. destruct (match_tok k t c1) as [r1 d1], (match_tok k t' c2) as [r2 d2]. cbn in E1, E2.
  destruct r1 as [[b t1]|e], r2 as [[b' t1']|e']; try contradiction; [|subst; split; cbn; auto]. pose proof E1 as [E3 [E4 E5]]. cbn in E3. subst b'. destruct b; [split; auto | now apply IH].
Qed.
Lemma app2 {A} (R : A -> A -> Prop) a b x y : Forall2 R a b -> R x y -> Forall2 R (a ++ [x]) (b ++ [y]).
Proof. intros H1 H2. apply Forall2_app; auto. Qed.
Lemma lookahead_rel2 k fuel : forall acc acc' c1 c2, Forall2 Tr acc acc' -> RC2 c1 c2 -> RR2 (lookahead_go k fuel acc c1) (lookahead_go k fuel acc' c2).
Proof.
  induction fuel as [|f IH]; intros acc acc' c1 c2 Ha H; [split; cbn; auto|]. cbn [lookahead_go].
  pose proof (read_token_rel2 _ _ H) as [E1 E2]. destruct (read_token c1) as [t c1'], (read_token c2) as [t2 c2']. cbn in E1, E2. clear H.
  pose proof (match_tok_rel2 k t t2 _ _ E1 E2) as [F1 F2]. destruct (match_tok k t c1') as [r1 d1], (match_tok k t2 c2') as [r2 d2]. cbn in F1, F2.
  destruct r1 as [[b t1]|e], r2 as [[b' t1']|e']; try contradiction; [|subst; split; cbn; auto]. destruct F1 as [F3 [F4 F5]]. cbn in F3, F4, F5. subst b'. destruct b.
  { split; [reflexivity|]; cbn. clear E2. dc; rc. apply Forall2_app; [assumption | now apply app2]. }
  pose proof (match_any_rel2 [TkEmpty; TkComment; TkTagLine] t1 t1' _ _ F4 F2) as [G1 G2].
  destruct (match_any _ t1 d1) as [r1 e1], (match_any _ t1' d2) as [r2 e2]. cbn in G1, G2.
  destruct r1 as [[b t3]|e], r2 as [[b' t3']|e']; try contradiction; [|subst; split; cbn; auto]. destruct G1 as [G3 [G4 G5]]. cbn in G3, G4, G5. subst b'. destruct b.
  { apply IH; [now apply app2 | exact G2]. }
  split; [reflexivity|]; cbn. clear E2 F2. dc; rc. apply Forall2_app; [assumption | now apply app2].
Qed.
Lemma do_lookahead_rel2 l c1 c2 : RC2 c1 c2 -> RR2 (do_lookahead l c1) (do_lookahead l c2).
Proof.
  intros H. destruct l as [l|]; [|split; cbn; auto]. cbn [do_lookahead].
  assert (E1 : length (c_queue c1) = length (c_queue c2)) by (eapply Forall2_length, H). assert (E2 : length (c_lines c1) = length (c_lines c2)) by (eapply Forall2_length, H). rewrite E1, E2. now apply lookahead_rel2.
Qed.
Definition Ro (x y : option nat * token) : Prop := fst x = fst y /\ Tr (snd x) (snd y).
Lemma try_trans_rel2 trs : forall t t' c1 c2, Tr t t' -> RC2 c1 c2 -> RRg Ro (try_trans bd trs t c1) (try_trans bd trs t' c2).
Proof.
  induction trs as [|tr trs IH]; intros t t' c1 c2 Ht H; [split; [split; auto | exact H]|]. cbn [try_trans].
  pose proof (match_tok_rel2 (tr_tok tr) t t' _ _ Ht H) as [E1 E2]. destruct (match_tok _ t c1) as [r1 d1], (match_tok _ t' c2) as [r2 d2]. cbn in E1, E2. clear H.
  destruct r1 as [[b t1]|e], r2 as [[b' t1']|e']; try contradiction; [|subst; split; cbn; auto]. destruct E1 as [F3 [F4 F5]]. cbn in F3, F4, F5. subst b'. destruct b; [|now apply IH].
  pose proof (do_lookahead_rel2 (tr_la tr) _ _ E2) as [G1 G2]. destruct (do_lookahead _ d1) as [r1 e1], (do_lookahead _ d2) as [r2 e2]. cbn in G1, G2.
  destruct r1 as [b|e], r2 as [b'|e']; try contradiction; [|subst; split; cbn; auto]. subst b'. destruct b; [|now apply IH].
  pose proof (rr_unit _ _ (do_acts_rel2 t1 t1' (tr_acts tr) (F5 eq_refl) _ _ G2)) as [K1 K2]. destruct (do_acts bd t1 _ e1) as [r1 f1], (do_acts bd t1' _ e2) as [r2 f2]. cbn in K1, K2. subst r2.
  destruct r1; split; cbn; auto. split; auto.
Qed.

(** lines of white space are never unexpected *)
Lemma handle_ok {A} (x : A) a c : handle_external x (Ok a, c) = (Ok a, c).
Proof. unfold handle_external. destruct (c_stop c); reflexivity. Qed.
Lemma handle_val {A} (x : A) r c a : fst (handle_external x (r, c)) = Ok a -> r = Ok a \/ a = x.
Proof.
  unfold handle_external. destruct (c_stop c); [auto|]. destruct r as [b|[e|es| | | | | | | | |]]; auto.
  - destruct (add_error e c) as [[]]; cbn; [|discriminate]. intros H. injection H as <-. auto.
  - destruct (add_errors es c) as [[]]; cbn; [|discriminate]. intros H. injection H as <-. auto.
Qed.
Lemma soft_match k t c b t1 c1 : match_tok k t c = (Ok (b, t1), c1) -> Soft t = true -> J (c_ms c) -> Soft t1 = true /\ (k = TkEmpty -> b = true).
Proof.
  unfold match_tok. intros H S Hj. rewrite (Hsoft_eof t S), andb_false_r in H. pose proof (Hsoft k (c_ms c) t) as HS. pose proof (Hempty (c_ms c) t Hj S) as HE.
  destruct (do_match k (c_ms c) t) as [[r ms] t'] eqn:D. cbn in HS. pose proof (f_equal fst H) as H1. apply handle_val in H1. destruct H1 as [H1|H1].
  - destruct r as [b'|e]; [|discriminate H1]. cbn in H1. injection H1 as -> ->. split; [now rewrite HS|]. intros ->. rewrite D in HE. cbn in HE. now injection HE.
  - injection H1 as -> ->. split; [now rewrite HS|]. intros ->. rewrite D in HE. cbn in HE. subst r. cbn [rbind] in H. rewrite handle_ok in H. injection H as H _. discriminate H.
Qed.
Lemma other_match t c b t1 c1 : match_tok TkOther t c = (Ok (b, t1), c1) -> Soft t = true -> b = true.
Proof.
  unfold match_tok. intros H S. rewrite (Hsoft_eof t S), andb_false_r in H. unfold do_match in H. destruct (ms_md (c_ms c)); cbn in H; destruct (c_stop c); injection H as <- _ _; reflexivity.
Qed.
Lemma try_soft trs : forall t t' c1 c2, Tr t t' -> RC2 c1 c2 -> Soft t = true -> existsb takes_soft trs = true -> forall t1, fst (try_trans bd trs t c1) <> Ok (None, t1).
Proof.
  induction trs as [|tr trs IH]; intros t t' c1 c2 Ht H S X u; [discriminate X|]. cbn [try_trans].
  pose proof (match_tok_rel2 (tr_tok tr) t t' _ _ Ht H) as [E1 E2]. assert (HJ : J (c_ms c1)) by apply H.
  destruct (match_tok (tr_tok tr) t c1) as [r1 d1] eqn:M1, (match_tok _ t' c2) as [r2 d2]. cbn in E1, E2.
  destruct r1 as [[b t1]|e], r2 as [[b' t1']|e']; try contradiction; [|discriminate]. destruct E1 as [F3 [F4 F5]]. cbn in F3, F4, F5. subst b'.
  pose proof (soft_match _ _ _ _ _ _ M1 S HJ) as [S1 S2]. cbn [existsb] in X. destruct (takes_soft tr) eqn:Q.
  - unfold takes_soft in Q. apply andb_true_iff in Q as [Q1 Q2]. destruct (tr_la tr); [discriminate Q2|].
    assert (b = true) as ->.
    { apply orb_true_iff in Q1 as [Q1|Q1]; [apply S2; destruct (tr_tok tr); try discriminate Q1; reflexivity|].
      destruct (tr_tok tr); try discriminate Q1. exact (other_match _ _ _ _ _ M1 S). }
    cbn [do_lookahead]. destruct (do_acts bd t1 _ d1) as [[] ?]; discriminate.
  - cbn [orb] in X. destruct b; [|exact (IH t1 t1' d1 d2 F4 E2 S1 X u)].
    pose proof (do_lookahead_rel2 (tr_la tr) _ _ E2) as [G1 G2]. destruct (do_lookahead _ d1) as [r1 e1], (do_lookahead _ d2) as [r2 e2]. cbn in G1, G2.
    destruct r1 as [b|e], r2 as [b'|e']; try contradiction; [|discriminate]. subst b'. destruct b; [|exact (IH t1 t1' e1 e2 F4 G2 S1 X u)].
    destruct (do_acts bd t1 _ e1) as [[] ?]; discriminate.
Qed.
Lemma match_tok_soft k t c b t1 c1 : match_tok k t c = (Ok (b, t1), c1) -> Soft t1 = Soft t.
Proof.
  unfold match_tok. destruct (_ && _); [intros H; now injection H as _ <- _|]. pose proof (Hsoft k (c_ms c) t) as HS. destruct (do_match k (c_ms c) t) as [[r ms] t'].
  intros H. apply (f_equal fst) in H. apply handle_val in H. destruct H as [H|H]; [destruct r; [|discriminate H]; cbn in H; injection H as _ <-; exact HS | injection H as _ <-; exact HS].
Qed.
Lemma try_trans_soft trs : forall t c t1 o, fst (try_trans bd trs t c) = Ok (o, t1) -> Soft t1 = Soft t.
Proof.
  induction trs as [|tr trs IH]; intros t c t1 o; cbn [try_trans]; [intros H; now injection H as _ <-|].
  destruct (match_tok (tr_tok tr) t c) as [[[[] t2]|e] c1] eqn:M; [| |discriminate].
  - pose proof (match_tok_soft _ _ _ _ _ _ M) as S. destruct (do_lookahead _ c1) as [[[]|e] c2]; [| |discriminate].
    + destruct (do_acts bd t2 _ c2) as [[] ?]; [|discriminate]. intros H. injection H as _ <-. exact S.
    + intros H. apply IH in H. congruence.
  - pose proof (match_tok_soft _ _ _ _ _ _ M) as S. intros H. apply IH in H. congruence.
Qed.

Lemma match_token_rel2 q t t' c1 c2 : Tr t t' -> RC2 c1 c2 -> RR2 (match_token bd q t c1) (match_token bd q t' c2).
Proof.
  intros Ht H. unfold match_token. destruct (ptable q) as [st|] eqn:P; [|split; cbn; auto].
  pose proof (try_trans_rel2 (st_trans st) t t' _ _ Ht H) as [E1 E2]. pose proof (try_soft (st_trans st) t t' _ _ Ht H) as TS. pose proof (try_trans_soft (st_trans st) t c1) as TK.
  destruct (try_trans bd _ t c1) as [r1 d1], (try_trans bd _ t' c2) as [r2 d2]. cbn in E1, E2, TS, TK.
  destruct r1 as [[o t1]|e], r2 as [[o' t1']|e']; try contradiction; [|subst; split; cbn; auto]. destruct E1 as [E3 E4]. cbn in E3, E4. subst o'. destruct o as [n|]; [split; cbn; auto|].
  assert (S : Soft t1 = false). { destruct (Soft t1) eqn:S; [|reflexivity]. rewrite (TK _ _ eq_refl) in S. exfalso. exact (TS S (Htable _ _ P) _ eq_refl). }
  rewrite (Hhard t1 t1' (st_expected st) E4 S). assert (St : c_stop d1 = c_stop d2) by apply E2. rewrite St. destruct (c_stop d2); [split; cbn; auto|].
  pose proof (rr_unit _ _ (add_error_rel2 (unexpected t1' (st_expected st)) _ _ E2)) as [F1 F2].
  destruct (add_error _ d1) as [r1 e1], (add_error _ d2) as [r2 e2]. cbn in F1, F2. subst r2. destruct r1; split; cbn; auto.
Qed.
Lemma parse_loop_rel2 fuel : forall q c1 c2, RC2 c1 c2 -> RR2 (parse_loop bd fuel q c1) (parse_loop bd fuel q c2).
Proof.
  induction fuel as [|f IH]; intros q c1 c2 H; [split; cbn; auto|]. cbn [parse_loop].
  pose proof (read_token_rel2 _ _ H) as [E1 E2]. destruct (read_token c1) as [t c1'], (read_token c2) as [t2 c2']. cbn in E1, E2.
  pose proof (match_token_rel2 q t t2 _ _ E1 E2) as [F1 F2]. destruct (match_token bd q t c1') as [r1 d1], (match_token bd q t2 c2') as [r2 d2]. cbn in F1, F2.
  destruct r1, r2; try contradiction; [|subst; split; cbn; auto]. subst. rewrite (Heof t t2 E1). destruct (t_eof t2); [split; cbn; auto | now apply IH].
Qed.
Theorem parse_b_rel2 stop b1 b2 ms lines lines' : RB b1 b2 -> Forall2 Lr lines lines' -> (forall ms0, ms_reset ms = Ok ms0 -> J ms0) ->
  fst (parse_b bd stop b1 ms lines) = fst (parse_b bd stop b2 ms lines') /\ (forall ms0, ms_reset ms = Ok ms0 -> RC2 (snd (parse_b bd stop b1 ms lines)) (snd (parse_b bd stop b2 ms lines'))).
Proof.
  intros Hb Hl Hj. unfold parse_b. destruct (ms_reset ms) as [ms0|e]; [|split; [reflexivity | discriminate]]. specialize (Hj ms0 eq_refl).
  assert (G : forall x y : result unit * ctx B, RR2 x y -> fst x = fst y /\ (forall ms1, @Ok mstate ms0 = Ok ms1 -> RC2 (snd x) (snd y))).
  { intros x y R. apply rr_unit in R as [R1 R2]. auto. }
  apply G. clear G.
  assert (H : RC2 (init_ctx stop b1 ms0 lines) (init_ctx stop b2 ms0 lines')) by rc.
  pose proof (rr_unit _ _ (do_act_rel2 (new_token [] 0) _ (AStart RGherkinDocument) _ _ Hrefl H)) as [E1 E2].
  destruct (do_act bd _ _ (init_ctx stop b1 ms0 lines)) as [r1 d1], (do_act bd _ _ (init_ctx stop b2 ms0 lines')) as [r2 d2]. cbn in E1, E2. subst r2.
  destruct r1; [|split; cbn; auto].
  pose proof (rr_unit _ _ (parse_loop_rel2 (S (length lines)) 0 _ _ E2)) as [F1 F2]. rewrite <- (Forall2_length _ _ _ Hl).
  destruct (parse_loop bd _ 0 d1) as [r1 e1], (parse_loop bd _ 0 d2) as [r2 e2]. cbn in F1, F2. subst r2. destruct r1; [|split; cbn; auto].
  pose proof (rr_unit _ _ (do_act_rel2 (new_token [] 0) _ (AEnd RGherkinDocument) _ _ Hrefl F2)) as [G1 G2].
  destruct (do_act bd _ _ e1) as [r1 f1], (do_act bd _ _ e2) as [r2 f2]. cbn in G1, G2. subst r2. destruct r1; [|split; cbn; auto].
  assert (S : c_errors f1 = c_errors f2) by apply G2. rewrite S. destruct (c_errors f2); split; cbn; auto.
Qed.
End Rel2.
