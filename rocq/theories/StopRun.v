(** * Stopping at the first error, and going on: two runs side by side (C53, no modelled code) *)
From Verif Require Import PyStr PyStrFacts Types Regex Line DialectData Matcher Ast ParserTable Parser.

Section Stop.
Context {B : Type} (bd : builder B).
Implicit Types c : ctx B.

(** ** Once an error is reported it stays the first one *)
Definition K (e : perr) c : Prop := c_stop c = false /\ hd_error (c_errors c) = Some e.
Definition KR {A} (e : perr) (x : result A * ctx B) : Prop :=
  K e (snd x) /\ forall es, fst x = Err (EComposite es) -> es = c_errors (snd x).
Lemma KR_intro {A} e (r : result A) c : K e c -> (forall es, r = Err (EComposite es) -> es = c_errors c) -> KR e (r, c).
Proof. split; auto. Qed.
Lemma KR_ok {A} e (a : A) c : K e c -> KR e (Ok a, c).
Proof. intros H. apply KR_intro; [exact H | discriminate]. Qed.
Lemma K_ms e c m : K e c -> K e (set_ms c m). Proof. exact (fun H => H). Qed.
Lemma K_b e c b : K e c -> K e (set_b c b). Proof. exact (fun H => H). Qed.
Lemma K_queue e c q : K e c -> K e (set_queue c q). Proof. exact (fun H => H). Qed.

Lemma add_error_K e p c : K e c -> KR e (add_error p c).
Proof.
  intros H. unfold add_error. destruct (existsb _ _); [now apply KR_ok|].
  assert (H' : forall p', K e (set_errors c (c_errors c ++ [p']))). { intros p'. destruct H as [H1 H2]. split; [exact H1|]. cbn. now destruct (c_errors c). }
  destruct (Nat.ltb _ _); [|apply KR_ok, H']. apply KR_intro; [apply H'|]. intros es E. injection E as <-. reflexivity.
Qed.
Lemma add_errors_K e ps : forall c, K e c -> KR e (add_errors ps c).
Proof.
  induction ps as [|p ps IH]; intros c H; [now apply KR_ok|]. cbn [add_errors]. pose proof (add_error_K e p c H) as [H1 H2].
  destruct (add_error p c) as [[u|x] c1]; cbn [fst snd] in *; [now apply IH|]. apply KR_intro; [exact H1|].
  intros es E. apply H2. congruence.
Qed.
Lemma handle_K {A} e (d : A) r c : K e c -> KR e (handle_external d (r, c)).
Proof.
  intros H. unfold handle_external. rewrite (proj1 H). destruct r as [a|x]; [now apply KR_ok|].
  destruct x as [p|ps| | | | | | | | |]; try (apply KR_intro; [exact H | discriminate]).
  - pose proof (add_error_K e p c H) as [H1 H2]. destruct (add_error p c) as [[u|x] c1]; cbn [fst snd rbind] in *; [now apply KR_ok|].
    apply KR_intro; [exact H1|]. intros es E. apply H2. congruence.
  - pose proof (add_errors_K e ps c H) as [H1 H2]. destruct (add_errors ps c) as [[u|x] c1]; cbn [fst snd rbind] in *; [now apply KR_ok|].
    apply KR_intro; [exact H1|]. intros es E. apply H2. congruence.
Qed.
Lemma KR_err {A A'} e x c : KR (A:=A) e (Err x, c) -> KR (A:=A') e (Err x, c).
Proof. intros [H1 H2]. cbn in *. apply KR_intro; [exact H1|]. intros es E. apply H2. congruence. Qed.
Lemma do_act_K e t a c : K e c -> KR e (do_act bd t a c).
Proof. intros H. unfold do_act. destruct (match a with AStart r => _ | AEnd r => _ | ABuild => _ end) as [r b]. apply handle_K. now apply K_b. Qed.
Lemma do_acts_K e t l : forall c, K e c -> KR e (do_acts bd t l c).
Proof.
  induction l as [|a l IH]; intros c H; [now apply KR_ok|]. cbn [do_acts]. pose proof (do_act_K e t a c H) as X.
  destruct (do_act bd t a c) as [[u|x] c1]; [apply IH, X | exact X].
Qed.
Lemma read_K e c : K e c -> K e (snd (read_token c)).
Proof. intros H. unfold read_token. destruct (c_queue c); exact H. Qed.
Lemma match_tok_K e k t c : K e c -> KR e (match_tok k t c).
Proof.
  intros H. unfold match_tok. destruct (_ && _); [now apply KR_ok|]. destruct (do_match k (c_ms c) t) as [[r ms] t'].
  apply handle_K. now apply K_ms.
Qed.
Lemma match_any_K e ks : forall t c, K e c -> KR e (match_any ks t c).
Proof.
  induction ks as [|k ks IH]; intros t c H; [now apply KR_ok|]. cbn [match_any]. pose proof (match_tok_K e k t c H) as X.
  destruct (match_tok k t c) as [[[[|] t1]|x] c1]; [exact X | apply IH, X | exact X].
Qed.
Lemma lookahead_K e k fuel : forall acc c, K e c -> KR e (lookahead_go k fuel acc c).
Proof.
  induction fuel as [|f IH]; intros acc c H; [apply KR_intro; [exact H | discriminate]|]. cbn [lookahead_go].
  pose proof (read_K e c H) as H1. destruct (read_token c) as [t c1]. cbn in H1.
  pose proof (match_tok_K e k t c1 H1) as X. destruct (match_tok k t c1) as [[[[|] t1]|x] c2]; [apply KR_ok, K_queue, X | | exact (KR_err _ _ _ X)].
  pose proof (match_any_K e [TkEmpty; TkComment; TkTagLine] t1 c2 (proj1 X)) as Y.
  destruct (match_any _ t1 c2) as [[[[|] t2]|x] c3]; [apply IH, Y | apply KR_ok, K_queue, Y | exact (KR_err _ _ _ Y)].
Qed.
Lemma do_lookahead_K e l c : K e c -> KR e (do_lookahead l c).
Proof. intros H. destruct l as [l|]; [now apply lookahead_K | now apply KR_ok]. Qed.
Lemma try_trans_K e trs : forall t c, K e c -> KR e (try_trans bd trs t c).
Proof.
  induction trs as [|tr trs IH]; intros t c H; [now apply KR_ok|]. cbn [try_trans].
  pose proof (match_tok_K e (tr_tok tr) t c H) as X. destruct (match_tok (tr_tok tr) t c) as [[[[|] t1]|x] c1]; [|apply IH, X | exact (KR_err _ _ _ X)].
  pose proof (do_lookahead_K e (tr_la tr) c1 (proj1 X)) as Y. destruct (do_lookahead (tr_la tr) c1) as [[[|]|x] c2]; [|apply IH, Y | exact (KR_err _ _ _ Y)].
  pose proof (do_acts_K e t1 (tr_acts tr) c2 (proj1 Y)) as Z. destruct (do_acts bd t1 (tr_acts tr) c2) as [[u|x] c3]; [apply KR_ok, Z | exact (KR_err _ _ _ Z)].
Qed.
Lemma match_token_K e q t c : K e c -> KR e (match_token bd q t c).
Proof.
  intros H. unfold match_token. destruct (ptable q) as [st|]; [|apply KR_intro; [exact H | discriminate]].
  pose proof (try_trans_K e (st_trans st) t c H) as X. destruct (try_trans bd (st_trans st) t c) as [[[[n|] t1]|x] c1]; [apply KR_ok, X | | exact (KR_err _ _ _ X)].
  destruct X as [X _]. cbn in X. rewrite (proj1 X).
  pose proof (add_error_K e (unexpected t1 (st_expected st)) c1 X) as Y. destruct (add_error _ c1) as [[u|x] c2]; [apply KR_ok, Y | exact (KR_err _ _ _ Y)].
Qed.
Lemma parse_loop_K e fuel : forall q c, K e c -> KR e (parse_loop bd fuel q c).
Proof.
  induction fuel as [|f IH]; intros q c H; [apply KR_intro; [exact H | discriminate]|]. cbn [parse_loop].
  pose proof (read_K e c H) as H1. destruct (read_token c) as [t c1]. cbn in H1.
  pose proof (match_token_K e q t c1 H1) as X. destruct (match_token bd q t c1) as [[q'|x] c2]; [|exact (KR_err _ _ _ X)].
  destruct (t_eof t); [apply KR_ok, X | apply IH, X].
Qed.

(** ** The same run, with and without stopping *)
Definition go_on c : ctx B := mkCtx (c_lines c) (c_lineno c) (c_queue c) (c_errors c) (c_ms c) (c_b c) false.
Definition reporting (x : exn) : Prop := match x with EParser _ | EComposite _ => True | _ => False end.
(** [x]: stopping; [y]: going on *)
Inductive SR {A} : result A * ctx B -> result A * ctx B -> Prop :=
| SR_same r c : c_stop c = true -> c_errors c = [] -> (forall x, r = Err x -> ~ reporting x) -> SR (r, c) (r, go_on c)
| SR_error e c y : KR (settled e) y -> SR (Err (EParser e), c) y
| SR_many es c y : SR (Err (EComposite es), c) y.
Definition fresh c : Prop := c_stop c = true /\ c_errors c = [].

Lemma SR_ok {A} (a : A) c : fresh c -> SR (Ok a, c) (Ok a, go_on c).
Proof. intros [H1 H2]. constructor; auto. discriminate. Qed.
Lemma first_K e c : K e (set_errors (go_on c) [e]).
Proof. split; reflexivity. Qed.
Lemma handle_SR {A} (d : A) r c : fresh c -> SR (handle_external d (r, c)) (handle_external d (r, go_on c)).
Proof.
  intros [H1 H2]. unfold handle_external. rewrite H1. cbn [go_on c_stop].
  destruct r as [a|x]; [apply SR_ok; split; auto|].
  destruct x as [p|ps| | | | | | | | |]; try (apply SR_same; auto; intros x E X; injection E as <-; exact X).
  - apply SR_error. unfold add_error. cbn [go_on c_errors]. rewrite H2. cbn [existsb app length Nat.ltb Nat.leb rbind]. apply KR_ok, first_K.
  - apply SR_many.
Qed.
(** composition: a continuation *)
Lemma SR_bind {A A'} (x y : result A * ctx B) (f g : A -> ctx B -> result A' * ctx B) :
  SR x y ->
  (forall a c, fresh c -> SR (f a c) (g a (go_on c))) ->
  (forall a c e, K e c -> KR e (g a c)) ->
  SR (match x with (Ok a, c) => f a c | (Err e, c) => (Err e, c) end)
     (match y with (Ok a, c) => g a c | (Err e, c) => (Err e, c) end).
Proof.
  intros H Hf Hg. inversion H as [r c H1 H2 H3|e c z Hz|es c z]; subst.
  - destruct r as [a|x]; [apply Hf; split; auto|]. apply SR_same; auto. intros x' E. injection E as <-. now apply H3.
  - apply SR_error. destruct y as [[a|x] c1]; [apply Hg, Hz | exact (KR_err _ _ _ Hz)].
  - apply SR_many.
Qed.
Lemma do_act_SR t a c : fresh c -> SR (do_act bd t a c) (do_act bd t a (go_on c)).
Proof. intros H. unfold do_act. cbn [go_on c_b]. destruct (match a with AStart r => _ | AEnd r => _ | ABuild => _ end) as [r b]. now apply (handle_SR tt r (set_b c b)). Qed.
Lemma do_acts_SR t l : forall c, fresh c -> SR (do_acts bd t l c) (do_acts bd t l (go_on c)).
Proof.
  induction l as [|a l IH]; intros c H; [now apply SR_ok|]. cbn [do_acts].
  apply (SR_bind (do_act bd t a c) (do_act bd t a (go_on c)) (fun _ c => do_acts bd t l c) (fun _ c => do_acts bd t l c));
    [now apply do_act_SR | intros _; apply IH | intros _ c1 e; apply do_acts_K].
Qed.
Lemma read_SR c : fresh c -> exists t c1, read_token c = (t, c1) /\ read_token (go_on c) = (t, go_on c1) /\ fresh c1.
Proof. intros H. unfold read_token. cbn [go_on c_queue]. destruct (c_queue c); eexists _, _; repeat split; apply H. Qed.
Lemma match_tok_SR k t c : fresh c -> SR (match_tok k t c) (match_tok k t (go_on c)).
Proof.
  intros H. unfold match_tok. cbn [go_on c_ms]. destruct (_ && _); [now apply SR_ok|]. destruct (do_match k (c_ms c) t) as [[r ms] t'].
  now apply (handle_SR (false, t') (rbind r (fun b => Ok (b, t'))) (set_ms c ms)).
Qed.
Lemma match_any_SR ks : forall t c, fresh c -> SR (match_any ks t c) (match_any ks t (go_on c)).
Proof.
  induction ks as [|k ks IH]; intros t c H; [now apply SR_ok|].
  assert (E : forall c, match_any (k :: ks) t c = match match_tok k t c with (Ok p, c1) => (let (b, t1) := p in if b then (Ok (true, t1), c1) else match_any ks t1 c1) | (Err e, c1) => (Err e, c1) end).
  { intros c'. cbn [match_any]. now destruct (match_tok k t c') as [[[[|] ?]|?] ?]. }
  rewrite !E. apply SR_bind with (f := fun p c1 => let (b, t1) := p : bool * token in if b then (Ok (true, t1), c1) else match_any ks t1 c1)
    (g := fun p c1 => let (b, t1) := p : bool * token in if b then (Ok (true, t1), c1) else match_any ks t1 c1); [now apply match_tok_SR | |].
  - intros [[|] t1] c1 H1; [now apply SR_ok | now apply IH].
  - intros [[|] t1] c1 e H1; [now apply KR_ok | now apply match_any_K].
Qed.
Lemma lookahead_SR k fuel : forall acc c, fresh c -> SR (lookahead_go k fuel acc c) (lookahead_go k fuel acc (go_on c)).
Proof.
  induction fuel as [|f IH]; intros acc c H; [apply SR_same; [apply H | apply H | intros x E X; injection E as <-; exact X]|].
  cbn [lookahead_go]. destruct (read_SR c H) as [t [c1 [-> [-> H1]]]].
  set (F := fun (p : bool * token) (c2 : ctx B) => let (b, t1) := p in
     if b then (Ok true, set_queue c2 (c_queue c2 ++ acc ++ [t1])) else
     match match_any [TkEmpty; TkComment; TkTagLine] t1 c2 with
     | (Ok (true, t2), c3) => lookahead_go k f (acc ++ [t2]) c3
     | (Ok (false, t2), c3) => (Ok false, set_queue c3 (c_queue c3 ++ acc ++ [t2]))
     | (Err e, c3) => (Err e, c3)
     end).
  assert (E : forall c1, match match_tok k t c1 with
      | (Ok (true, t1), c2) => (Ok true, set_queue c2 (c_queue c2 ++ acc ++ [t1]))
      | (Ok (false, t1), c2) =>
          match match_any [TkEmpty; TkComment; TkTagLine] t1 c2 with
          | (Ok (true, t2), c3) => lookahead_go k f (acc ++ [t2]) c3
          | (Ok (false, t2), c3) => (Ok false, set_queue c3 (c_queue c3 ++ acc ++ [t2]))
          | (Err e, c3) => (Err e, c3)
          end
      | (Err e, c2) => (Err e, c2)
      end = match match_tok k t c1 with (Ok p, c2) => F p c2 | (Err e, c2) => (Err e, c2) end).
  { intros c'. now destruct (match_tok k t c') as [[[[|] ?]|?] ?]. }
  rewrite !E. apply SR_bind; [now apply match_tok_SR | |].
  - intros [[|] t1] c2 H2; [now apply (SR_ok true (set_queue c2 (c_queue c2 ++ acc ++ [t1])))|]. unfold F.
    set (G := fun (p : bool * token) (c3 : ctx B) => let (b, t2) := p in
      if b then lookahead_go k f (acc ++ [t2]) c3 else (Ok false, set_queue c3 (c_queue c3 ++ acc ++ [t2]))).
    assert (E2 : forall c2, match match_any [TkEmpty; TkComment; TkTagLine] t1 c2 with
          | (Ok (true, t2), c3) => lookahead_go k f (acc ++ [t2]) c3
          | (Ok (false, t2), c3) => (Ok false, set_queue c3 (c_queue c3 ++ acc ++ [t2]))
          | (Err e, c3) => (Err e, c3)
          end = match match_any [TkEmpty; TkComment; TkTagLine] t1 c2 with (Ok p, c3) => G p c3 | (Err e, c3) => (Err e, c3) end).
    { intros c'. now destruct (match_any _ t1 c') as [[[[|] ?]|?] ?]. }
    rewrite !E2. apply SR_bind; [now apply match_any_SR | |].
    + intros [[|] t2] c3 H3; [now apply IH | now apply (SR_ok false (set_queue c3 (c_queue c3 ++ acc ++ [t2])))].
    + intros [[|] t2] c3 e H3; [now apply lookahead_K | now apply KR_ok, K_queue].
  - intros [[|] t1] c2 e H2; [now apply KR_ok, K_queue|]. unfold F. pose proof (match_any_K e [TkEmpty; TkComment; TkTagLine] t1 c2 H2) as Y.
    destruct (match_any _ t1 c2) as [[[[|] t2]|x] c3]; [apply lookahead_K, Y | apply KR_ok, K_queue, Y | exact (KR_err _ _ _ Y)].
Qed.
Lemma do_lookahead_SR l c : fresh c -> SR (do_lookahead l c) (do_lookahead l (go_on c)).
Proof. intros H. destruct l as [l|]; [|now apply SR_ok]. cbn [do_lookahead go_on c_queue c_lines]. now apply lookahead_SR. Qed.
Lemma try_trans_SR trs : forall t c, fresh c -> SR (try_trans bd trs t c) (try_trans bd trs t (go_on c)).
Proof.
  induction trs as [|tr trs IH]; intros t c H; [now apply SR_ok|].
  set (G2 := fun t1 (_ : unit) (c3 : ctx B) => (Ok (Some (tr_next tr), t1), c3) : result (option nat * token) * ctx B).
  set (G1 := fun t1 (b : bool) (c2 : ctx B) => if b then match do_acts bd t1 (tr_acts tr) c2 with (Ok u, c3) => G2 t1 u c3 | (Err e, c3) => (Err e, c3) end else try_trans bd trs t1 c2).
  set (G := fun (p : bool * token) (c1 : ctx B) => let (b, t1) := p in if b then match do_lookahead (tr_la tr) c1 with (Ok b2, c2) => G1 t1 b2 c2 | (Err e, c2) => (Err e, c2) end else try_trans bd trs t1 c1).
  assert (E : forall c, try_trans bd (tr :: trs) t c = match match_tok (tr_tok tr) t c with (Ok p, c1) => G p c1 | (Err e, c1) => (Err e, c1) end).
  { intros c'. cbn [try_trans]. destruct (match_tok (tr_tok tr) t c') as [[[[|] t1]|?] c1]; [|reflexivity|reflexivity]. unfold G.
    destruct (do_lookahead (tr_la tr) c1) as [[[|]|?] c2]; reflexivity. }
  assert (KG : forall p c1 e, K e c1 -> KR e (G p c1)).
  { intros [[|] t1] c1 e H1; [|now apply try_trans_K]. unfold G. pose proof (do_lookahead_K e (tr_la tr) c1 H1) as Y.
    destruct (do_lookahead (tr_la tr) c1) as [[[|]|x] c2]; [|apply try_trans_K, Y | exact (KR_err _ _ _ Y)]. unfold G1.
    pose proof (do_acts_K e t1 (tr_acts tr) c2 (proj1 Y)) as Z. destruct (do_acts bd t1 (tr_acts tr) c2) as [[u|x] c3]; [apply KR_ok, Z | exact (KR_err _ _ _ Z)]. }
  rewrite !E. apply SR_bind; [now apply match_tok_SR | | exact KG].
  intros [[|] t1] c1 H1; [|now apply IH]. unfold G. apply SR_bind; [now apply do_lookahead_SR | |].
  - intros [|] c2 H2; [|now apply IH]. unfold G1. apply SR_bind; [now apply do_acts_SR | |].
    + intros u c3 H3. now apply (SR_ok (Some (tr_next tr), t1) c3).
    + intros u c3 e H3. now apply KR_ok.
  - intros [|] c2 e H2; [|now apply try_trans_K]. unfold G1.
    pose proof (do_acts_K e t1 (tr_acts tr) c2 H2) as Z. destruct (do_acts bd t1 (tr_acts tr) c2) as [[u|x] c3]; [apply KR_ok, Z | exact (KR_err _ _ _ Z)].
Qed.
Lemma match_token_SR q t c : fresh c -> SR (match_token bd q t c) (match_token bd q t (go_on c)).
Proof.
  intros H. unfold match_token. destruct (ptable q) as [st|]; [|apply SR_same; [apply H | apply H | intros x E X; injection E as <-; exact X]].
  set (G := fun (p : option nat * token) (c1 : ctx B) => let (o, t1) := p in match o with Some n => (Ok n, c1) | None =>
       let e := unexpected t1 (st_expected st) in
       if c_stop c1 then (Err (EParser e), c1) else match add_error e c1 with (Ok _, c2) => (Ok (st_self st), c2) | (Err x, c2) => (Err x, c2) end end : result nat * ctx B).
  assert (E : forall c, match try_trans bd (st_trans st) t c with
      | (Ok (Some n, _), c1) => (Ok n, c1)
      | (Ok (None, t1), c1) => let e := unexpected t1 (st_expected st) in
       if c_stop c1 then (Err (EParser e), c1) else match add_error e c1 with (Ok _, c2) => (Ok (st_self st), c2) | (Err x, c2) => (Err x, c2) end
      | (Err e, c1) => (Err e, c1) end = match try_trans bd (st_trans st) t c with (Ok p, c1) => G p c1 | (Err e, c1) => (Err e, c1) end).
  { intros c'. now destruct (try_trans bd (st_trans st) t c') as [[[[?|] ?]|?] ?]. }
  cbv zeta in E |- *. rewrite !E. apply SR_bind; [now apply try_trans_SR | |].
  - intros [[n|] t1] c1 H1; [now apply SR_ok|]. unfold G. cbn [go_on c_stop]. rewrite (proj1 H1). apply SR_error.
    unfold add_error. cbn [go_on c_errors]. rewrite (proj2 H1). cbn [existsb app length Nat.ltb Nat.leb]. apply KR_ok, first_K.
  - intros [[n|] t1] c1 e H1; [now apply KR_ok|]. unfold G. rewrite (proj1 H1). cbv zeta.
    pose proof (add_error_K e (unexpected t1 (st_expected st)) c1 H1) as Y. destruct (add_error _ c1) as [[u|x] c2]; [apply KR_ok, Y | exact (KR_err _ _ _ Y)].
Qed.
Lemma parse_loop_SR fuel : forall q c, fresh c -> SR (parse_loop bd fuel q c) (parse_loop bd fuel q (go_on c)).
Proof.
  induction fuel as [|f IH]; intros q c H; [apply SR_same; [apply H | apply H | intros x E X; injection E as <-; exact X]|].
  cbn [parse_loop]. destruct (read_SR c H) as [t [c1 [-> [-> H1]]]].
  apply (SR_bind (match_token bd q t c1) (match_token bd q t (go_on c1)) (fun q' c2 => if t_eof t then (Ok tt, c2) else parse_loop bd f q' c2) (fun q' c2 => if t_eof t then (Ok tt, c2) else parse_loop bd f q' c2)); [now apply match_token_SR | |].
  - intros q' c2 H2. cbv beta. destruct (t_eof t); [now apply SR_ok | now apply IH].
  - intros q' c2 e H2. cbv beta. destruct (t_eof t); [now apply KR_ok | now apply parse_loop_K].
Qed.

(** ** Whole parses *)
Lemma parse_b_stop b ms lines ms0 : ms_reset ms = Ok ms0 ->
  match parse_b bd true b ms lines with
  | (Ok u, c1) => exists c2, parse_b bd false b ms lines = (Ok u, c2) /\ c_b c2 = c_b c1
  | (Err (EParser e), _) => match parse_b bd false b ms lines with
      | (Err (EComposite es), _) => hd_error es = Some (settled e)
      | (Err (EParser _), _) => True
      | (Err _, _) => True
      | (Ok _, _) => False
      end
  | (Err (EComposite es), _) => True
  | (Err x, _) => fst (parse_b bd false b ms lines) = Err x
  end.
Proof.
  intros Hms. unfold parse_b. rewrite Hms.
  assert (F : fresh (init_ctx true b ms0 lines)) by (split; reflexivity).
  set (t := new_token [] 0).
  set (G3 := fun (_ : unit) (c3 : ctx B) => match c_errors c3 with [] => (Ok tt, c3) | es => (Err (EComposite es), c3) end : result unit * ctx B).
  set (G2 := fun (_ : unit) (c2 : ctx B) => match do_act bd t (AEnd RGherkinDocument) c2 with (Ok u, c3) => G3 u c3 | (Err e, c3) => (Err e, c3) end).
  set (G1 := fun (_ : unit) (c1 : ctx B) => match parse_loop bd (S (length lines)) 0 c1 with (Ok u, c2) => G2 u c2 | (Err e, c2) => (Err e, c2) end).
  assert (E : forall stop, match do_act bd t (AStart RGherkinDocument) (init_ctx stop b ms0 lines) with
      | (Err e, c1) => (Err e, c1)
      | (Ok _, c1) =>
          match parse_loop bd (S (length lines)) 0 c1 with
          | (Err e, c2) => (Err e, c2)
          | (Ok _, c2) =>
              match do_act bd t (AEnd RGherkinDocument) c2 with
              | (Err e, c3) => (Err e, c3)
              | (Ok _, c3) => match c_errors c3 with [] => (Ok tt, c3) | es => (Err (EComposite es), c3) end
              end
          end
      end = match do_act bd t (AStart RGherkinDocument) (init_ctx stop b ms0 lines) with (Ok u, c1) => G1 u c1 | (Err e, c1) => (Err e, c1) end).
  { intros stop. destruct (do_act bd t (AStart RGherkinDocument) (init_ctx stop b ms0 lines)) as [[u|?] c1]; [|reflexivity]. unfold G1.
    destruct (parse_loop bd (S (length lines)) 0 c1) as [[?|?] c2]; [|reflexivity]. unfold G2.
    destruct (do_act bd t (AEnd RGherkinDocument) c2) as [[?|?] c3]; reflexivity. }
  assert (K3 : forall a c e, K e c -> KR e (G3 a c)).
  { intros u c e H. unfold G3. destruct (c_errors c) as [|p ps] eqn:Q; [destruct H as [_ H]; rewrite Q in H; discriminate|].
    apply KR_intro; [exact H|]. intros es X. injection X as <-. now rewrite Q. }
  assert (K2 : forall a c e, K e c -> KR e (G2 a c)).
  { intros u c e H. unfold G2. pose proof (do_act_K e t (AEnd RGherkinDocument) c H) as X. destruct (do_act bd t (AEnd RGherkinDocument) c) as [[?|?] c3]; [apply K3, X | exact (KR_err _ _ _ X)]. }
  assert (K1 : forall a c e, K e c -> KR e (G1 a c)).
  { intros u c e H. unfold G1. pose proof (parse_loop_K e (S (length lines)) 0 c H) as X. destruct (parse_loop bd (S (length lines)) 0 c) as [[?|?] c3]; [apply K2, X | exact (KR_err _ _ _ X)]. }
  rewrite (E true), (E false).
  assert (X : SR (match do_act bd t (AStart RGherkinDocument) (init_ctx true b ms0 lines) with (Ok u, c1) => G1 u c1 | (Err e, c1) => (Err e, c1) end)
                 (match do_act bd t (AStart RGherkinDocument) (init_ctx false b ms0 lines) with (Ok u, c1) => G1 u c1 | (Err e, c1) => (Err e, c1) end)).
  { apply SR_bind; [exact (do_act_SR t (AStart RGherkinDocument) _ F) | | exact K1]. intros u1 c1 H1. unfold G1.
    apply SR_bind; [now apply parse_loop_SR | | exact K2]. intros u2 c2 H2. unfold G2.
    apply SR_bind; [now apply do_act_SR | | exact K3]. intros u3 c3 H3. unfold G3. cbn [go_on c_errors]. rewrite (proj2 H3). destruct u3. now apply SR_ok. }
  clear E.
  assert (N : forall stop u c, match do_act bd t (AStart RGherkinDocument) (init_ctx stop b ms0 lines) with (Ok u, c1) => G1 u c1 | (Err e, c1) => (Err e, c1) end = (Ok u, c) -> c_errors c = []).
  { intros stop u c Z. destruct (do_act bd t (AStart RGherkinDocument) (init_ctx stop b ms0 lines)) as [[u1|x1] c1]; [|discriminate Z]. unfold G1 in Z.
    destruct (parse_loop bd (S (length lines)) 0 c1) as [[u2|x2] c2]; [|discriminate Z]. unfold G2 in Z.
    destruct (do_act bd t (AEnd RGherkinDocument) c2) as [[u3|x3] c3]; [|discriminate Z]. unfold G3 in Z. destruct (c_errors c3) eqn:Q; [|discriminate Z]. injection Z as _ <-. exact Q. }
  specialize (N false). revert X N.
  generalize (match do_act bd t (AStart RGherkinDocument) (init_ctx true b ms0 lines) with (Ok u, c1) => G1 u c1 | (Err e, c1) => (Err e, c1) end).
  generalize (match do_act bd t (AStart RGherkinDocument) (init_ctx false b ms0 lines) with (Ok u, c1) => G1 u c1 | (Err e, c1) => (Err e, c1) end).
  clear. intros y x X N. destruct X as [r c H1 H2 H3|e c y Hk|es c y].
  - destruct r as [u|x]; [exists (go_on c); split; reflexivity|]. specialize (H3 x eq_refl). destruct x; try reflexivity; exfalso; apply H3; exact I.
  - destruct y as [[u|x] c'].
    + destruct Hk as [[_ Hk] _]. cbn [snd] in Hk. rewrite (N _ _ eq_refl) in Hk. discriminate.
    + destruct x as [p|ps| | | | | | | | |]; try exact I. destruct Hk as [[_ Hk] Hc]. cbn [fst snd] in *. rewrite (Hc _ eq_refl). exact Hk.
  - exact I.
Qed.
End Stop.
