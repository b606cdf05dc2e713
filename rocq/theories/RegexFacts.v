(** * Facts about the model of [re] *)
From Verif Require Import PyStr PyStrFacts Types Regex.
Local Open Scope N_scope.

(** the states a greedy star over single characters tries, longest first *)
Fixpoint star1 (f : char -> bool) (p : option char) (x : str) (caps : list (nat * str)) : list rst :=
  match x with
  | [] => [mkR p [] caps]
  | c :: x' => if f c then star1 f (Some c) x' caps ++ [mkR p x caps] else [mkR p x caps]
  end.

Lemma star_go_step1 f x : forall n p caps, (length x <= n)%nat ->
  star_go (step1 f) n (mkR p x caps) = star1 f p x caps.
Proof.
  induction x as [|c x IH]; intros n p caps Hn.
  - destruct n; reflexivity.
  - destruct n as [|n]; [cbn in Hn; lia|]. cbn [star_go step1 r_rest r_caps star1].
    destruct (f c); cbn [flat_map app]; [|reflexivity]. cbn [r_rest].
    assert (L : (length x <? length (c :: x))%nat = true) by (apply Nat.ltb_lt; cbn; lia).
    rewrite L, app_nil_r, IH; [reflexivity | cbn in Hn; lia].
Qed.
Lemma exec_star_set neg l p x caps :
  exec (RStar (RSet neg l)) (mkR p x caps) = star1 (cset_has neg l) p x caps.
Proof. cbn [exec r_rest]. apply star_go_step1. lia. Qed.
Lemma exec_star_dot p x caps :
  exec (RStar RDot) (mkR p x caps) = star1 (fun c => negb (c =? ch_nl)) p x caps.
Proof. cbn [exec r_rest]. apply star_go_step1. lia. Qed.

(** the last character of the run, or what was before it *)
Definition run (f : char -> bool) (x : str) : str := firstn (length x - length (drop_while f x)) x.
Lemma run_split f x : x = run f x ++ drop_while f x.
Proof.
  destruct (drop_while_suffix f x) as [p [E _]]. unfold run.
  assert (L : (length x - length (drop_while f x))%nat = length p).
  { rewrite E at 1. rewrite app_length. lia. }
  rewrite L. rewrite E at 2. rewrite firstn_app, Nat.sub_diag, firstn_all. cbn. now rewrite app_nil_r.
Qed.
Lemma run_cons f c x : f c = true -> run f (c :: x) = c :: run f x.
Proof.
  intros H. apply (app_inv_tail (drop_while f x)).
  transitivity (run f (c :: x) ++ drop_while f (c :: x)); [cbn [drop_while]; now rewrite H|].
  rewrite <- run_split. cbn [app]. now rewrite <- run_split.
Qed.
Lemma run_stop f c x : f c = false -> run f (c :: x) = [].
Proof. intros H. unfold run. cbn [drop_while]. rewrite H. now rewrite Nat.sub_diag. Qed.
Lemma run_forall f x : forallb f (run f x) = true.
Proof.
  induction x as [|c x IH]; [reflexivity|]. destruct (f c) eqn:E.
  - rewrite run_cons by easy. cbn. now rewrite E, IH.
  - now rewrite run_stop.
Qed.
Definition lastc (p : option char) (x : str) : option char :=
  match rev x with [] => p | c :: _ => Some c end.
Lemma lastc_cons p c x : lastc p (c :: x) = lastc (Some c) x.
Proof.
  unfold lastc. cbn [rev]. destruct (rev x) eqn:E; reflexivity.
Qed.

(** A continuation that fails at every character in the run only sees the end of the run. *)
Lemma star1_greedy {A} f (k : rst -> list A) x : forall p caps,
  (forall p c y caps, f c = true -> k (mkR p (c :: y) caps) = []) ->
  flat_map k (star1 f p x caps) = k (mkR (lastc p (run f x)) (drop_while f x) caps).
Proof.
  induction x as [|c x IH]; intros p caps H.
  - cbn. now rewrite app_nil_r.
  - cbn [star1 drop_while]. destruct (f c) eqn:E.
    + rewrite flat_map_app, IH by exact H. cbn [flat_map]. rewrite H by exact E.
      rewrite run_cons by exact E. rewrite lastc_cons. cbn. now rewrite app_nil_r.
    + rewrite run_stop by exact E. cbn. now rewrite app_nil_r.
Qed.

(** literal patterns *)
Lemma exec_lit y : forall p x caps,
  exec (RLit y) (mkR p x caps) =
  if startswith y x then [mkR (lastc p y) (skipn (length y) x) caps] else [].
Proof.
  induction y as [|a y IH]; intros p x caps; [reflexivity|].
  cbn [RLit exec]. unfold RChar at 1. cbn [exec]. unfold step1. cbn [r_rest r_caps].
  destruct x as [|c x]; [reflexivity|]. cbn [startswith].
  unfold cset_has. cbn [existsb citem_has xorb]. rewrite orb_false_r.
  rewrite (N.eqb_sym c a). destruct (a =? c) eqn:E; cbn [andb flat_map]; [|reflexivity].
  rewrite app_nil_r. apply N.eqb_eq in E. subst. rewrite IH, lastc_cons. reflexivity.
Qed.

Lemma exec_char c p x caps :
  exec (RChar c) (mkR p x caps) =
  match x with d :: x' => if d =? c then [mkR (Some d) x' caps] else [] | [] => [] end.
Proof.
  unfold RChar. cbn [exec]. unfold step1. cbn [r_rest r_caps]. destruct x as [|d x]; [reflexivity|].
  unfold cset_has. cbn [existsb citem_has xorb]. rewrite orb_false_r. now destruct (d =? c).
Qed.
Lemma exec_seq a b st : exec (RSeq a b) st = flat_map (exec b) (exec a st). Proof. reflexivity. Qed.
Lemma exec_alt a b st : exec (RAlt a b) st = exec a st ++ exec b st. Proof. reflexivity. Qed.
