(** * Where errors come from: an invariant of the parser that needs nothing of the builder or the lines *)
From Verif Require Import PyStr PyStrFacts Types Regex Line DialectData Matcher Ast ParserTable Parser Report.

Section Made.
Context {B : Type} (bd : builder B) (stop : bool) (P Q : perr -> Prop).
Context (H_settled : stop = false -> forall e, P e -> Q (settled e)) (H_full : stop = false -> forall e, P e -> Q e).
Context (H_build : forall t a b, match fst (bact bd t a b) with Err (EParser e) => P e | Err (EComposite _) => False | _ => True end).
Context (H_match : forall k ms t, match fst (fst (do_match k ms t)) with Err (EParser e) => P e | Err (EComposite _) => False | _ => True end).
Context (H_unexpected : forall t ks, P (unexpected t ks)).
Implicit Types c : ctx B.

Definition okc c : Prop := c_stop c = stop /\ (stop = true -> c_errors c = []) /\ Forall Q (c_errors c).
Definition okr {A} (r : result A) : Prop :=
  match r with Err (EParser e) => stop = true /\ P e | Err (EComposite es) => stop = false /\ es <> [] /\ Forall Q es | _ => True end.
Definition ok {A} (rc : result A * ctx B) : Prop := okc (snd rc) /\ okr (fst rc).

Lemma add_error_ok e c : stop = false -> okc c -> P e -> ok (add_error e c).
Proof.
  intros S [C1 [C2 C3]] H. unfold add_error. destruct (existsb _ _); [repeat split; auto|].
  assert (F : forall e', Q e' -> Forall Q (c_errors c ++ [e'])) by (intros e' He; apply Forall_app; split; [exact C3 | repeat constructor; exact He]).
  destruct (Nat.ltb _ _); (split; [split; [exact C1 | split; [congruence | cbn; auto]] | cbn; auto]).
  split; [exact S|]. split; [now destruct (c_errors c) | auto].
Qed.
Lemma handle_ok {A} (d : A) r c : okc c -> match r with Err (EParser e) => P e | Err (EComposite _) => False | _ => True end -> ok (handle_external d (r, c)).
Proof.
  intros C H. unfold handle_external. rewrite (proj1 C). destruct (Bool.bool_dec stop true) as [S|S].
  - rewrite S. split; [exact C|]. destruct r as [|[]]; try exact I; [now split | contradiction].
  - apply Bool.not_true_is_false in S. rewrite S. destruct r as [|[]]; try (split; [exact C | exact I]); [|contradiction].
    pose proof (add_error_ok e c S C H) as [K1 K2]. destruct (add_error e c) as [[u|x] c']; (split; [exact K1|]); cbn in *; auto.
Qed.
Lemma okc_b c b : okc c -> okc (set_b c b). Proof. auto. Qed.
Lemma okc_ms c m : okc c -> okc (set_ms c m). Proof. auto. Qed.
Lemma do_act_ok t a c : okc c -> ok (do_act bd t a c).
Proof.
  intros C. unfold do_act. pose proof (H_build t a (c_b c)) as H.
  change (match a with AStart r => bd_start bd r (c_b c) | AEnd r => bd_end bd r (c_b c) | ABuild => bd_build bd t (c_b c) end) with (bact bd t a (c_b c)).
  destruct (bact bd t a (c_b c)) as [r b]. apply handle_ok; [now apply okc_b | exact H].
Qed.
Lemma do_acts_ok t l : forall c, okc c -> ok (do_acts bd t l c).
Proof.
  induction l as [|a l IH]; intros c C; [now split|]. cbn [do_acts]. pose proof (do_act_ok t a c C) as [K1 K2]. destruct (do_act bd t a c) as [[u|x] c1]; [now apply IH | now split].
Qed.
Lemma read_ok c : okc c -> okc (snd (read_token c)).
Proof. intros C. unfold read_token. destruct (c_queue c); exact C. Qed.
Lemma match_tok_ok k t c : okc c -> ok (match_tok k t c).
Proof.
  intros C. unfold match_tok. destruct (negb _ && _); [now split|]. pose proof (H_match k (c_ms c) t) as H. destruct (do_match k (c_ms c) t) as [[r ms] t']. cbn [fst] in H.
  apply handle_ok; [now apply okc_ms|]. destruct r as [|[]]; cbn; auto.
Qed.
Lemma match_any_ok ks : forall t c, okc c -> ok (match_any ks t c).
Proof.
  induction ks as [|k ks IH]; intros t c C; [now split|]. cbn [match_any]. pose proof (match_tok_ok k t c C) as M.
  destruct (match_tok k t c) as [[[[] t1]|x] c1]; try exact M. apply IH, M.
Qed.
Lemma lookahead_ok k fuel : forall acc c, okc c -> ok (lookahead_go k fuel acc c).
Proof.
  induction fuel as [|f IH]; intros acc c C; [now split|]. cbn [lookahead_go]. pose proof (read_ok c C) as C1. destruct (read_token c) as [t c1]. cbn [snd] in C1.
  pose proof (match_tok_ok k t c1 C1) as M. destruct (match_tok k t c1) as [[[[] t1]|x] c2]; [split; [apply M | exact I]| |exact M].
  pose proof (match_any_ok [TkEmpty; TkComment; TkTagLine] t1 c2 (proj1 M)) as M2. destruct (match_any _ t1 c2) as [[[[] t2]|x] c3]; [apply IH, M2 | split; [apply M2 | exact I] | exact M2].
Qed.
Lemma do_lookahead_ok l c : okc c -> ok (do_lookahead l c).
Proof. intros C. destruct l; [apply lookahead_ok; exact C | now split]. Qed.
Lemma try_trans_ok trs : forall t c, okc c -> ok (try_trans bd trs t c).
Proof.
  induction trs as [|tr rest IH]; intros t c C; [now split|]. cbn [try_trans].
  pose proof (match_tok_ok (tr_tok tr) t c C) as M. destruct (match_tok (tr_tok tr) t c) as [[[[] t1]|x] c1]; [|apply IH, M|exact M].
  pose proof (do_lookahead_ok (tr_la tr) c1 (proj1 M)) as L. destruct (do_lookahead (tr_la tr) c1) as [[[]|x] c2]; [|apply IH, L|exact L].
  pose proof (do_acts_ok t1 (tr_acts tr) c2 (proj1 L)) as D. destruct (do_acts bd t1 (tr_acts tr) c2) as [[u|x] c3]; [split; [apply D | exact I] | exact D].
Qed.
Lemma match_token_ok q t c : okc c -> ok (match_token bd q t c).
Proof.
  intros C. unfold match_token. destruct (ptable q) as [st|]; [|now split]. pose proof (try_trans_ok (st_trans st) t c C) as M.
  destruct (try_trans bd (st_trans st) t c) as [[[[n|] t1]|x] c1]; [split; [apply M | exact I]| |exact M].
  destruct M as [M _]. cbn [snd] in M. rewrite (proj1 M). destruct (Bool.bool_dec stop true) as [S|S].
  - rewrite S. split; [exact M|]. split; [exact S | apply H_unexpected].
  - apply Bool.not_true_is_false in S. rewrite S.
    pose proof (add_error_ok _ c1 S M (H_unexpected t1 (st_expected st))) as A. destruct (add_error _ c1) as [[u|x] c2]; [split; [apply A | exact I] | exact A].
Qed.
Lemma loop_ok fuel : forall q c, okc c -> ok (parse_loop bd fuel q c).
Proof.
  induction fuel as [|f IH]; intros q c C; [now split|]. cbn [parse_loop]. pose proof (read_ok c C) as C1. destruct (read_token c) as [t c1]. cbn [snd] in C1.
  pose proof (match_token_ok q t c1 C1) as M. destruct (match_token bd q t c1) as [[q'|x] c2]; [|exact M]. destruct (t_eof t); [split; [apply M | exact I] | apply IH, M].
Qed.
(** every error of a run has been raised by the builder, the matcher or as an unexpected line *)
Theorem parse_b_made b ms lines : (forall e, ms_reset ms <> Err e) ->
  match fst (parse_b bd stop b ms lines) with
  | Err (EParser e) => stop = true /\ P e
  | Err (EComposite es) => stop = false /\ es <> [] /\ Forall Q es
  | _ => True
  end.
Proof.
  intros Hr. unfold parse_b. destruct (ms_reset ms) as [ms0|e] eqn:E; [|destruct (Hr e eq_refl)].
  assert (C0 : okc (init_ctx stop b ms0 lines)) by (repeat split; constructor).
  pose proof (do_act_ok (new_token [] 0) (AStart RGherkinDocument) _ C0) as M. destruct (do_act bd _ _ (init_ctx stop b ms0 lines)) as [[u|x] c1]; [|apply M].
  pose proof (loop_ok (S (length lines)) 0 c1 (proj1 M)) as L. destruct (parse_loop bd _ 0 c1) as [[u2|x] c2]; [|apply L].
  pose proof (do_act_ok (new_token [] 0) (AEnd RGherkinDocument) c2 (proj1 L)) as D. destruct (do_act bd _ _ c2) as [[u3|x] c3]; [|apply D].
  destruct D as [[D1 [D2 D3]] _]. cbn [snd] in *. destruct (c_errors c3) as [|e es]; [exact I|]. cbn [fst]. split; [|split; [discriminate | exact D3]].
  destruct stop; [discriminate (D2 eq_refl) | reflexivity].
Qed.
End Made.
