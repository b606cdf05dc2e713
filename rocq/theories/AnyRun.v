(** * Runs of the parser with any matcher and any builder

    What holds of every run of the parser loop, given what holds of one call of the matcher and of
    one list of builder actions.  (The classic matcher is treated line by line in Scan.v; here no
    order of the lines is assumed, because the lookahead may change it with the Markdown matcher.) *)
From Verif Require Import PyStr PyStrFacts Types Regex Line DialectData Matcher Ast ParserTable Parser Classify Table Scan Report.

Section AnyRun.
Context {B : Type} (bd : builder B) (lines : list str).
Context (I : mstate -> Prop).                  (* the matcher *)
Context (Q : token -> Prop).                   (* tokens *)
Context (P : tok -> token -> Prop).            (* a token that was matched *)
Context (N : tok -> gline -> Prop).            (* a line that was not matched *)
Context (Lp : perr -> Prop).                   (* a reported error *)
Context (X : exn -> Prop).                     (* any other exception *)
Context (S_ : nat -> B -> list perr -> Prop).  (* the builder in a state of the parser, with its errors so far *)
Implicit Types c : ctx B.

Context (H_lines : lines_ok lines).
Context (H_X : forall e, X e -> match e with EParser _ | EComposite _ => False | _ => True end).
Context (H_new : forall n, n <= length lines -> Q (new_token (nth n lines []) (S n))).
Context (H_match : forall k ms t, I ms -> Q t -> k = TkEOF \/ t_eof t = false ->
  match do_match k ms t with
  | (r, ms', t') => I ms' /\ (r = Ok true /\ k = TkEOF \/ Q t') /\ t_line t' = t_line t /\
      match r with
      | Ok true => P k t'
      | Ok false => N k (t_line t)
      | Err (EParser p) => Lp p /\ N k (t_line t)
      | Err e => X e
      end
  end).
Context (H_eof : forall t, P TkEOF t -> t_eof t = true).
Context (H_unexpected : forall q st t, ptable q = Some st -> Q t -> (t_eof t = true -> forall tr, In tr (st_trans st) -> tr_tok tr <> TkEOF) ->
  (forall tr, In tr (st_trans st) -> tr_la tr = None -> t_eof t = false -> N (tr_tok tr) (t_line t)) -> Lp (unexpected t (st_expected st))).
Context (H_settled : forall e, Lp e -> Lp (settled e)).
Context (NC : no_composite bd).
Context (H_acts : forall q st before tr after t b es, ptable q = Some st -> st_trans st = before ++ tr :: after ->
  (forall tr0, In tr0 before -> tr_la tr0 = None -> t_eof t = false -> N (tr_tok tr0) (t_line t)) ->
  S_ q b es -> P (tr_tok tr) t -> tr_tok tr = TkEOF \/ Q t ->
  match raw_acts bd t (tr_acts tr) b with
  | (es1, r, b') => Forall Lp es1 /\ match r with Ok _ => S_ (tr_next tr) b' (es ++ es1) | Err e => X e end
  end).

(** how a run may end otherwise *)
Inductive ends (stop : bool) : exn -> Prop :=
| ends_first p : stop = true -> Lp p -> ends stop (EParser p)
| ends_all es : stop = false -> 1 <= length es <= 11 -> distinct_msgs es -> Forall Lp es -> ends stop (EComposite es)
| ends_exn e : X e -> ends stop e.

Definition errs_ok c : Prop :=
  Forall Lp (c_errors c) /\ distinct_msgs (c_errors c) /\ length (c_errors c) <= 10 /\ (c_stop c = true -> c_errors c = []).
Definition eofs (q : list token) : nat := length (filter t_eof q).
Definition real (q : list token) : nat := length (filter (fun t => negb (t_eof t)) q).
Local Arguments eofs : simpl never.
Local Arguments real : simpl never.
(** [ok]: the end of the file has not been taken out of the queue *)
Record src (ok : bool) c : Prop := mkSrc {
  s_queue : Forall Q (c_queue c);
  s_lines : c_lines c = skipn (c_lineno c) lines;
  s_no : ok = true -> c_lineno c <= length lines + eofs (c_queue c);
  s_ms : I (c_ms c);
  s_errs : errs_ok c }.
Definition pend c : nat := (length lines - c_lineno c) + real (c_queue c).

Lemma add_error_any p c : c_stop c = false -> errs_ok c -> Lp p ->
  match add_error p c with
  | (Ok _, c') => exists es, c' = set_errors c es /\ errs_ok c' /\ c_errors c' <> []
  | (Err e, _) => ends (c_stop c) e
  end.
Proof.
  intros Hs [E1 [E2 [E3 E4]]] Hp. pose proof (add_error_feed p c Hs) as A. cbn [feed] in A.
  unfold add_error in *. destruct (existsb _ (c_errors c)) eqn:Ex.
  - exists (c_errors c). split; [destruct c; reflexivity|]. split; [repeat split; auto|]. intros Z. rewrite Z in Ex. discriminate Ex.
  - assert (F : Forall Lp (c_errors c ++ [p])) by (apply Forall_app; auto).
    assert (D : distinct_msgs (c_errors c ++ [p])).
    { unfold distinct_msgs in *. rewrite map_app. cbn. apply NoDup_Add with (a := pe_msg p) (l := map pe_msg (c_errors c) ++ []); [apply Add_app|].
      rewrite app_nil_r. split; [exact E2|]. intros Hin. apply existsb_msg in Hin. congruence. }
    destruct (Nat.ltb 10 _) eqn:L.
    + apply Nat.ltb_lt in L. rewrite app_length in L. cbn in L. rewrite Hs. apply ends_all; auto. rewrite app_length. cbn. lia.
    + apply Nat.ltb_ge in L. exists (c_errors c ++ [settled p]). split; [reflexivity|]. split; [|destruct (c_errors c); discriminate].
      split; [apply Forall_app; split; [exact E1 | constructor; [now apply H_settled | constructor]]|].
      split; [unfold distinct_msgs in *; cbn [c_errors set_errors]; rewrite map_app in *; cbn [map] in *; now rewrite settled_msg|].
      split; [cbn [c_errors set_errors]; rewrite app_length in *; exact L|]. cbn. congruence.
Qed.

(** [c'] differs from [c] in the matcher and the errors only *)
Record same c c' : Prop := mkSame {
  sm_lines : c_lines c' = c_lines c;
  sm_no : c_lineno c' = c_lineno c;
  sm_queue : c_queue c' = c_queue c;
  sm_b : c_b c' = c_b c;
  sm_stop : c_stop c' = c_stop c;
  sm_ms : I (c_ms c');
  sm_errs : errs_ok c';
  sm_clean : c_errors c' = [] -> c_errors c = [] }.
Lemma same_trans c1 c2 c3 : same c1 c2 -> same c2 c3 -> same c1 c3.
Proof. intros [A1 A2 A3 A4 A5 A6 A7 A8] [B1 B2 B3 B4 B5 B6 B7 B8]. constructor; try congruence; auto. Qed.
Lemma same_src ok c c' : same c c' -> src ok c -> src ok c'.
Proof. intros [A1 A2 A3 A4 A5 A6 A7 A8] [B1 B2 B3 B4 B5]. constructor; rewrite ?A1, ?A2, ?A3; auto. Qed.
Lemma same_pend c c' : same c c' -> pend c' = pend c.
Proof. intros [A1 A2 A3 A4 A5 A6 A7 A8]. unfold pend. now rewrite A2, A3. Qed.

Lemma match_tok_any k t c : I (c_ms c) -> errs_ok c -> Q t ->
  match match_tok k t c with
  | (Ok (b, t'), c') => same c c' /\ (b = true /\ k = TkEOF \/ Q t') /\ t_line t' = t_line t /\
      (if b then P k t' /\ (k = TkEOF \/ t_eof t = false) else t_eof t = false -> N k (t_line t))
  | (Err e, _) => ends (c_stop c) e
  end.
Proof.
  intros Hi He Hq. unfold match_tok. destruct (negb (tok_eqb k TkEOF) && t_eof t) eqn:Z.
  { apply andb_true_iff in Z as [_ Z]. split; [constructor; auto|]. repeat split; auto. congruence. }
  assert (K : k = TkEOF \/ t_eof t = false).
  { apply andb_false_iff in Z as [Z|Z]; [left|now right]. apply negb_false_iff in Z. now apply tok_eqb_spec. }
  pose proof (H_match k (c_ms c) t Hi Hq K) as M. destruct (do_match k (c_ms c) t) as [[r ms'] t']. destruct M as [M1 [M2 [M3 M4]]].
  assert (Hs : same c (set_ms c ms')) by (constructor; auto).
  unfold handle_external. change (c_stop (set_ms c ms')) with (c_stop c).
  destruct r as [b|e]; cbn [rbind].
  - assert (G : same c (set_ms c ms') /\ (b = true /\ k = TkEOF \/ Q t') /\ t_line t' = t_line t /\ (if b then P k t' /\ (k = TkEOF \/ t_eof t = false) else t_eof t = false -> N k (t_line t))).
    { split; [exact Hs|]. split; [destruct M2 as [[M2 M5]|M2]; [left; split; [congruence | exact M5] | now right]|]. split; [exact M3|]. destruct b; auto. }
    destruct (c_stop c); exact G.
  - destruct M2 as [[M2 _]|M2]; [discriminate M2|]. destruct e; try (destruct (c_stop c); apply ends_exn; exact M4).
    + destruct M4 as [M4 M5]. destruct (c_stop c) eqn:Es; [now apply ends_first|].
      pose proof (add_error_any e (set_ms c ms') Es He M4) as A. destruct (add_error e (set_ms c ms')) as [[u|x] c']; cbn [rbind].
      * destruct A as [es [-> [A1 A2]]]. split; [|auto]. constructor; auto. intros F. now apply A2 in F.
      * cbn [set_ms c_stop] in A. now rewrite Es in A.
    + exfalso. now apply H_X in M4.
Qed.
Lemma match_any_any ks : forall t c, I (c_ms c) -> errs_ok c -> Q t ->
  match match_any ks t c with
  | (Ok (b, t'), c') => same c c' /\ (b = true /\ In TkEOF ks \/ Q t') /\ t_line t' = t_line t /\ (b = true -> ~ In TkEOF ks -> t_eof t = false)
  | (Err e, _) => ends (c_stop c) e
  end.
Proof.
  induction ks as [|k ks IH]; intros t c Hi He Hq; cbn [match_any].
  { split; [constructor; auto|]. repeat split; auto. discriminate. }
  pose proof (match_tok_any k t c Hi He Hq) as M. destruct (match_tok k t c) as [[[[] t1]|e] c1].
  - destruct M as [M1 [M2 [M3 [_ M4]]]]. split; [assumption|]. split; [destruct M2 as [[_ M2]|M2]; [left; split; [reflexivity | left; congruence] | now right]|]. split; [assumption|]. intros _ H. destruct M4 as [->|M4]; [|exact M4]. exfalso. apply H. now left.
  - destruct M as [M1 [M2 [M3 _]]]. destruct M2 as [[M2 _]|M2]; [discriminate M2|]. specialize (IH t1 c1 (sm_ms _ _ M1) (sm_errs _ _ M1) M2). destruct (match_any ks t1 c1) as [[[b t2]|e] c2].
    + destruct IH as [I1 [I2 [I3 I4]]]. split; [eapply same_trans; eauto|]. split; [destruct I2 as [[I2 I5]|I2]; [left; split; [exact I2 | now right] | now right]|]. split; [congruence|].
      intros Hb Hn. unfold t_eof in *. rewrite M3 in I4. apply I4; [exact Hb|]. intros C. apply Hn. now right.
    + rewrite (sm_stop _ _ M1) in IH. exact IH.
  - exact M.
Qed.

(** reading a token *)
Lemma skipn_nth (l : list str) n : n < length l -> skipn n l = nth n l [] :: skipn (S n) l.
Proof. revert n. induction l as [|x l IH]; intros [|n] H; cbn in *; try lia; [reflexivity|]. apply IH. lia. Qed.
Lemma filter_none_ (l : list token) : Forall (fun t => t_eof t = false) l -> filter t_eof l = [].
Proof. induction 1 as [|t l H _ IH]; [reflexivity|]. cbn. now rewrite H. Qed.
Lemma eofs_app a b : eofs (a ++ b) = eofs a + eofs b.
Proof. unfold eofs. now rewrite filter_app, app_length. Qed.
Lemma real_app a b : real (a ++ b) = real a + real b.
Proof. unfold real. now rewrite filter_app, app_length. Qed.
Lemma eofs_one t : eofs [t] = if t_eof t then 1 else 0.
Proof. unfold eofs. cbn. now destruct (t_eof t). Qed.
Lemma real_one t : real [t] = if t_eof t then 0 else 1.
Proof. unfold real. cbn. now destruct (t_eof t). Qed.
(** [c] and a list [acc] of tokens taken from it *)
Definition src_with (acc : list token) c : Prop := src true (set_queue c (c_queue c ++ acc)).
Lemma read_any acc c t c1 : src_with acc c -> Forall (fun t => t_eof t = false) acc -> read_token c = (t, c1) ->
  Q t /\ src_with (acc ++ [t]) c1 /\ c_b c1 = c_b c /\ c_stop c1 = c_stop c /\ c_errors c1 = c_errors c /\ I (c_ms c1) /\ errs_ok c1 /\
  pend (set_queue c1 (c_queue c1 ++ acc ++ [t])) = pend (set_queue c (c_queue c ++ acc)) /\
  (t_eof t = false -> length (c_queue c1) + length (c_lines c1) < length (c_queue c) + length (c_lines c)).
Proof.
  intros [A1 A2 A3 A4 A5] Ha. specialize (A3 eq_refl). cbn in A1, A2, A3, A4. unfold read_token. destruct (c_queue c) as [|t0 q] eqn:Eq.
  - intros H. injection H as <- <-. cbn in A1, A3.
    assert (Ea : eofs acc = 0). { unfold eofs. rewrite (filter_none_ acc Ha). reflexivity. }
    rewrite Ea in A3. assert (Hn : c_lineno c <= length lines) by lia.
    assert (Hd : hd [] (c_lines c) = nth (c_lineno c) lines []).
    { rewrite A2. destruct (Nat.lt_ge_cases (c_lineno c) (length lines)) as [L|L]; [now rewrite skipn_nth by exact L|].
      rewrite skipn_all2 by exact L. now rewrite nth_overflow by exact L. }
    rewrite Hd. pose proof (H_new _ Hn) as Hq. split; [exact Hq|].
    assert (Et : t_eof (new_token (nth (c_lineno c) lines []) (S (c_lineno c))) = negb (Nat.ltb (c_lineno c) (length lines))).
    { unfold t_eof, g_bool, new_token. cbn [t_line g_text]. destruct (Nat.ltb_spec (c_lineno c) (length lines)) as [L|L].
      - pose proof (nth_In lines [] L) as Hin. unfold lines_ok in H_lines. rewrite Forall_forall in H_lines. specialize (H_lines _ Hin). now destruct (nth _ lines []).
      - now rewrite nth_overflow by exact L. }
    assert (Htl : tl (c_lines c) = skipn (S (c_lineno c)) lines).
    { rewrite A2. destruct (Nat.lt_ge_cases (c_lineno c) (length lines)) as [L|L]; [now rewrite skipn_nth by exact L|].
      rewrite !skipn_all2 by lia. reflexivity. }
    assert (Ac : Forall Q (acc ++ [new_token (nth (c_lineno c) lines []) (S (c_lineno c))])) by (apply Forall_app; auto).
    split; [|repeat split; auto; try apply A5].
    + constructor; cbn; auto. rewrite eofs_app, eofs_one, Et, Ea. destruct (Nat.ltb_spec (c_lineno c) (length lines)); cbn; lia.
    + unfold pend. cbn. rewrite real_app, real_one, Et. destruct (Nat.ltb_spec (c_lineno c) (length lines)); cbn; lia.
    + rewrite Et. intros Z. apply negb_false_iff, Nat.ltb_lt in Z. cbn. rewrite A2. rewrite (skipn_nth _ _ Z). cbn. lia.
  - intros H. injection H as <- <-. cbn in A1, A3. inversion A1 as [|? ? B1 B2]; subst. split; [exact B1|].
    split; [|repeat split; auto; try apply A5].
    + constructor; cbn; auto.
      * apply Forall_app in B2 as [B2 B3]. apply Forall_app. split; [exact B2|]. apply Forall_app. auto.
      * unfold eofs in *. cbn in A3. rewrite !filter_app in *. cbn in A3 |- *. rewrite !app_length in *. destruct (t_eof t0); cbn in *; rewrite ?app_length in *; cbn in *; lia.
    + unfold pend, real. cbn. rewrite !filter_app, !app_length. cbn. destruct (t_eof t0); cbn; rewrite ?filter_app, ?app_length; cbn; lia.
Qed.

(** ** Lookahead *)
(** [c'] differs from [c] in the matcher, the errors and what is still to be read *)
Record after_la (ok : bool) c c' : Prop := mkAfter {
  al_src : src ok c';
  al_b : c_b c' = c_b c;
  al_stop : c_stop c' = c_stop c;
  al_pend : pend c' = pend c;
  al_clean : c_errors c' = [] -> c_errors c = [] }.
Lemma same_with acc c c' : same c c' -> src_with acc c -> src_with acc c'.
Proof.
  intros [A1 A2 A3 A4 A5 A6 A7 A8] [B1 B2 B3 B4 B5]. constructor; cbn in *; rewrite ?A1, ?A2, ?A3; auto.
Qed.
Lemma lookahead_any k : k <> TkEOF -> forall fuel acc c, src_with acc c -> Forall (fun t => t_eof t = false) acc ->
  length (c_queue c) + length (c_lines c) < fuel ->
  match lookahead_go k fuel acc c with
  | (Ok _, c') => after_la true (set_queue c (c_queue c ++ acc)) c'
  | (Err e, _) => ends (c_stop c) e
  end.
Proof.
  intros Hk. induction fuel as [|fuel IH]; intros acc c Hs Ha Hf; [lia|]. cbn [lookahead_go].
  destruct (read_token c) as [t c1] eqn:Er.
  destruct (read_any acc c t c1 Hs Ha Er) as [R1 [R2 [R3 [R4 [R5 [R6 [R7 [R8 R9]]]]]]]].
  pose proof (match_tok_any k t c1 R6 R7 R1) as M. rewrite R4 in M.
  assert (Done : forall t1 c2, same c1 c2 -> Q t1 -> t_line t1 = t_line t -> after_la true (set_queue c (c_queue c ++ acc)) (set_queue c2 (c_queue c2 ++ acc ++ [t1]))).
  { intros t1 c2 [A1 A2 A3 A4 A5 A6 A7 A8] Hq1 Hl. assert (Et : t_eof t1 = t_eof t) by (unfold t_eof; now rewrite Hl). destruct R2 as [B1 B2 B3 B4 B5]. constructor.
    - constructor; cbn in *; rewrite ?A1, ?A2, ?A3; auto.
      + rewrite !Forall_app in *. repeat split; try apply B1. now constructor.
      + rewrite !eofs_app, !eofs_one in *. now rewrite Et.
    - cbn. congruence.
    - cbn. congruence.
    - rewrite <- R8. unfold pend. cbn. rewrite A2, A3, !real_app, !real_one. now rewrite Et.
    - cbn. intros F. rewrite <- R5. auto. }
  destruct (match_tok k t c1) as [[[[] t1]|e] c2].
  - destruct M as [M1 [[[_ M2]|M2] [M3 _]]]; [contradiction|]. now apply Done.
  - destruct M as [M1 [[[M2 _]|M2] [M3 _]]]; [discriminate M2|].
    pose proof (match_any_any [TkEmpty; TkComment; TkTagLine] t1 c2 (sm_ms _ _ M1) (sm_errs _ _ M1) M2) as A.
    destruct (match_any [TkEmpty; TkComment; TkTagLine] t1 c2) as [[[[] t2]|e] c3].
    + destruct A as [A1 [[[_ A2]|A2] [A3 A4]]]; [exfalso; destruct A2 as [C|[C|[C|[]]]]; discriminate C|]. pose proof (same_trans _ _ _ M1 A1) as S13.
      assert (Hl : t_line t2 = t_line t) by congruence.
      assert (Ht : t_eof t = false). { unfold t_eof in *. rewrite <- M3. apply A4; [reflexivity|]. intros [C|[C|[C|[]]]]; discriminate C. }
      assert (Et : t_eof t2 = t_eof t) by (unfold t_eof; now rewrite Hl).
      pose proof (Done t2 c3 S13 A2 Hl) as D. destruct D as [D1 D2 D3 D4 D5].
      specialize (IH (acc ++ [t2]) c3 D1).
      destruct (lookahead_go k fuel (acc ++ [t2]) c3) as [[b|e] c4].
      * destruct IH as [I1 I2 I3 I4 I5].
        -- apply Forall_app. split; [exact Ha|]. constructor; [congruence | constructor].
        -- specialize (R9 Ht). rewrite (sm_queue _ _ S13), (sm_lines _ _ S13). lia.
        -- constructor; try congruence. intros F. apply D5, I5, F.
      * replace (c_stop c) with (c_stop c3) by (rewrite (sm_stop _ _ S13); exact R4). apply IH.
        -- apply Forall_app. split; [exact Ha|]. constructor; [congruence | constructor].
        -- specialize (R9 Ht). rewrite (sm_queue _ _ S13), (sm_lines _ _ S13). lia.
    + destruct A as [A1 [[[A2 _]|A2] [A3 _]]]; [discriminate A2|]. apply Done; [eapply same_trans; eauto | exact A2 | congruence].
    + rewrite (sm_stop _ _ M1), R4 in A. exact A.
  - exact M.
Qed.
Lemma src_nil c : src true c <-> src_with [] c.
Proof. unfold src_with. rewrite app_nil_r. destruct c. reflexivity. Qed.
Lemma do_lookahead_any ok l c : ok = true \/ l = None -> src ok c ->
  match do_lookahead l c with
  | (Ok _, c') => after_la ok c c'
  | (Err e, _) => ends (c_stop c) e
  end.
Proof.
  intros Hl Hs. destruct l as [l|]; cbn [do_lookahead]; [|constructor; auto]. destruct Hl as [->|Hl]; [|discriminate Hl].
  pose proof (lookahead_any (la_tok l) ltac:(destruct l; discriminate) (S (length (c_queue c) + length (c_lines c))) [] c (proj1 (src_nil c) Hs) ltac:(constructor) ltac:(lia)) as L.
  rewrite app_nil_r in L. destruct (lookahead_go _ _ _ c) as [[b|e] c']; [|exact L].
  destruct L as [L1 L2 L3 L4 L5]. destruct c; constructor; auto.
Qed.

(** ** One line *)
Lemma do_acts_any ok t acts c es1 r b' : src ok c -> raw_acts bd t acts (c_b c) = (es1, r, b') -> Forall Lp es1 ->
  (forall e, r = Err e -> X e) ->
  match do_acts bd t acts c with
  | (Ok _, c') => r = Ok tt /\ c_b c' = b' /\ c_stop c' = c_stop c /\ src ok c' /\ pend c' = pend c /\
      (c_errors c' = [] -> c_errors c = [] /\ es1 = [])
  | (Err e, _) => ends (c_stop c) e
  end.
Proof.
  intros Hs Hr Hes Hx. pose proof (do_acts_raw bd NC t acts c (c_stop c) eq_refl) as D. rewrite Hr in D.
  pose proof (do_acts_eqv bd t acts c c (eqv_refl c)) as [_ Sc].
  destruct (do_acts bd t acts c) as [r1 c1]. unfold reported in D. cbn [fst snd] in *. destruct D as [D0 D].
  unfold scn in Sc. injection Sc as S1 S2 S3 S4 S5. destruct Hs as [A1 A2 A3 A4 A5]. destruct A5 as [E1 [E2 [E3 E4]]].
  assert (Good : errs_ok c1 -> src ok c1).
  { intros He. constructor; rewrite ?S1, ?S2, ?S3, ?S4; auto. }
  assert (Pe : pend c1 = pend c) by (unfold pend; now rewrite S2, S3).
  destruct (c_stop c) eqn:Es.
  - destruct es1 as [|e es1].
    + destruct D as [-> [D1 D2]]. destruct r as [[]|e]; [|now apply ends_exn, Hx].
      assert (He : errs_ok c1) by (unfold errs_ok; rewrite D2, S5; auto). split; [reflexivity|]. split; [exact D1|]. split; [exact S5|]. split; [auto|]. split; [exact Pe|]. rewrite D2. auto.
    + subst r1. apply ends_first; [reflexivity|]. now inversion Hes.
  - destruct (feed es1 (c_errors c)) as [full errs] eqn:Fe.
    destruct (feed_inv Lp H_settled _ _ _ _ Fe E2 E3 E1 Hes) as [F1 [F2 [F3 [F4 [F5 [l F6]]]]]].
    destruct full.
    + subst r1. apply ends_all; auto. rewrite F4 by reflexivity. lia.
    + destruct D as [-> [D1 D2]]. destruct r as [[]|e]; [|now apply ends_exn, Hx].
      assert (He : errs_ok c1) by (unfold errs_ok; rewrite D2, S5; repeat split; auto; congruence).
      split; [reflexivity|]. split; [exact D1|]. split; [exact S5|]. split; [auto|]. split; [exact Pe|]. intros F. rewrite D2 in F. split; [|auto]. rewrite F6 in F. now apply app_eq_nil in F.
Qed.
Definition st_ok (q : nat) c : Prop := exists es, S_ q (c_b c) es /\ (c_errors c = [] -> es = []).
Lemma try_trans_any ok q st : ptable q = Some st -> forall trs before t c, st_trans st = before ++ trs ->
  (forall tr0, In tr0 before -> tr_la tr0 = None -> t_eof t = false -> N (tr_tok tr0) (t_line t)) ->
  src ok c -> (ok = true \/ t_eof t = true) -> Q t -> st_ok q c ->
  match try_trans bd trs t c with
  | (Ok (o, t'), c') => src ok c' /\ (o <> None \/ Q t') /\ t_line t' = t_line t /\ c_stop c' = c_stop c /\ pend c' = pend c /\ (c_errors c' = [] -> c_errors c = []) /\
      match o with
      | None => st_ok q c' /\ (forall tr0, In tr0 (st_trans st) -> tr_la tr0 = None -> t_eof t = false -> N (tr_tok tr0) (t_line t))
      | Some q' => st_ok q' c' /\ exists tr, In tr (st_trans st) /\ tr_next tr = q' /\ P (tr_tok tr) t' /\ (tr_tok tr = TkEOF \/ t_eof t = false)
      end
  | (Err e, _) => ends (c_stop c) e
  end.
Proof.
  intros Hq. induction trs as [|tr trs IH]; intros before t c Eb Hb Hs Hok Ht Ho; cbn [try_trans].
  { do 6 (split; [assumption || (right; assumption) || reflexivity || (intros F; exact F)|]). split; [exact Ho|]. rewrite app_nil_r in Eb. rewrite Eb. exact Hb. }
  pose proof (match_tok_any (tr_tok tr) t c (s_ms _ _ Hs) (s_errs _ _ Hs) Ht) as M.
  destruct (match_tok (tr_tok tr) t c) as [[[[] t1]|e] c1]; [| |exact M].
  - destruct M as [M1 [M2 [M3 [M4 M5]]]]. pose proof (same_src _ _ _ M1 Hs) as Hs1.
    assert (Ho1 : st_ok q c1). { destruct Ho as [es [O1 O2]]. exists es. rewrite (sm_b _ _ M1). split; [exact O1|]. intros F. apply O2. now apply (sm_clean _ _ M1). }
    assert (Hla : ok = true \/ tr_la tr = None).
    { destruct M5 as [M5|M5]; [right | left; destruct Hok; congruence]. pose proof (ptable_basic _ _ Hq) as Hc. unfold check_basic in Hc. do 5 (apply andb_true_iff in Hc as [Hc _]).
      rewrite forallb_forall in Hc. specialize (Hc tr ltac:(rewrite Eb; apply in_elt)). rewrite M5 in Hc. destruct (tr_la tr); [discriminate Hc | reflexivity]. }
    assert (Hok1 : ok = true \/ t_eof t1 = true) by (unfold t_eof in *; now rewrite M3).
    pose proof (do_lookahead_any ok (tr_la tr) c1 Hla Hs1) as L. destruct (do_lookahead (tr_la tr) c1) as [[b|e] c2] eqn:El; [|now rewrite (sm_stop _ _ M1) in L].
    destruct L as [L1 L2 L3 L4 L5].
    assert (Ho2 : st_ok q c2). { destruct Ho1 as [es [O1 O2]]. exists es. rewrite L2. split; [exact O1|]. intros F. apply O2. now apply L5. }
    destruct b.
    + destruct Ho2 as [es [O1 O2]]. assert (Hb1 : forall tr0, In tr0 before -> tr_la tr0 = None -> t_eof t1 = false -> N (tr_tok tr0) (t_line t1)).
      { intros tr0 H1 H2 H3. rewrite M3. apply Hb; auto. unfold t_eof in *. now rewrite <- M3. }
      pose proof (H_acts q st before tr trs t1 (c_b c2) es Hq Eb Hb1 O1 M4 ltac:(destruct M2 as [[_ M2]|M2]; auto)) as A.
      destruct (raw_acts bd t1 (tr_acts tr) (c_b c2)) as [[es1 r] b'] eqn:Er. destruct A as [A1 A2].
      pose proof (do_acts_any ok t1 (tr_acts tr) c2 es1 r b' L1 Er A1) as D.
      assert (Hx : forall e, r = Err e -> X e) by (intros e ->; exact A2). specialize (D Hx).
      destruct (do_acts bd t1 (tr_acts tr) c2) as [[u|e] c3]; [|now rewrite L3, (sm_stop _ _ M1) in D].
      destruct D as [-> [D1 [D2 [D3 [D4 D5]]]]]. split; [exact D3|]. split; [left; discriminate|]. split; [exact M3|].
      split; [rewrite D2, L3; apply (sm_stop _ _ M1)|]. split; [rewrite D4, L4; now apply same_pend|].
      split; [intros F; apply (sm_clean _ _ M1), L5; now apply D5|].
      split; [|exists tr; split; [rewrite Eb; apply in_elt | auto]].
      exists (es ++ es1). rewrite D1. split; [exact A2|]. intros F. destruct (D5 F) as [F1 ->]. now rewrite O2.
    + assert (M2' : Q t1).
      { destruct M2 as [[_ M2]|M2]; [|exact M2]. exfalso. assert (L : tr_la tr = None).
        { pose proof (ptable_basic _ _ Hq) as Hc. unfold check_basic in Hc. do 5 (apply andb_true_iff in Hc as [Hc _]).
          rewrite forallb_forall in Hc. specialize (Hc tr ltac:(rewrite Eb; apply in_elt)). rewrite M2 in Hc. destruct (tr_la tr); [discriminate Hc | reflexivity]. }
        rewrite L in El. discriminate El. }
      assert (Eb' : st_trans st = (before ++ [tr]) ++ trs) by (rewrite <- app_assoc; exact Eb).
      specialize (IH (before ++ [tr]) t1 c2 Eb'). destruct (try_trans bd trs t1 c2) as [[[o t3]|e] c3].
      * destruct IH as [I1 [I2 [I3 [I4 [I5 [I6 I7]]]]]]; auto.
        -- intros tr0 H1 H2 H3. apply in_app_or in H1 as [H1|[H1|[]]].
           ++ rewrite M3. apply Hb; auto. unfold t_eof in *. now rewrite <- M3.
           ++ subst tr0. rewrite H2 in El. cbn in El. discriminate El.
        -- split; [exact I1|]. split; [exact I2|]. split; [congruence|]. split; [rewrite I4, L3; apply (sm_stop _ _ M1)|].
           split; [rewrite I5, L4; now apply same_pend|]. split; [intros F; apply (sm_clean _ _ M1), L5, I6, F|].
           unfold t_eof in *. rewrite M3 in I7. exact I7.
      * replace (c_stop c) with (c_stop c2) by (rewrite L3; apply (sm_stop _ _ M1)). apply IH; auto.
        intros tr0 H1 H2 H3. apply in_app_or in H1 as [H1|[H1|[]]].
        -- rewrite M3. apply Hb; auto. unfold t_eof in *. now rewrite <- M3.
        -- subst tr0. rewrite H2 in El. cbn in El. discriminate El.
  - destruct M as [M1 [[[M2 _]|M2] [M3 M4]]]; [discriminate M2|]. pose proof (same_src _ _ _ M1 Hs) as Hs1.
    assert (Ho1 : st_ok q c1). { destruct Ho as [es [O1 O2]]. exists es. rewrite (sm_b _ _ M1). split; [exact O1|]. intros F. apply O2. now apply (sm_clean _ _ M1). }
    assert (Eb' : st_trans st = (before ++ [tr]) ++ trs) by (rewrite <- app_assoc; exact Eb).
    assert (Hb1 : forall tr0, In tr0 (before ++ [tr]) -> tr_la tr0 = None -> t_eof t1 = false -> N (tr_tok tr0) (t_line t1)).
    { intros tr0 H1 H2 H3. unfold t_eof in *. rewrite M3 in *. apply in_app_or in H1 as [H1|[H1|[]]]; [now apply Hb|]. subst tr0. now apply M4. }
    assert (Hok1 : ok = true \/ t_eof t1 = true) by (unfold t_eof in *; now rewrite M3).
    specialize (IH (before ++ [tr]) t1 c1 Eb' Hb1 Hs1 Hok1 M2 Ho1). destruct (try_trans bd trs t1 c1) as [[[o t3]|e] c3].
    + destruct IH as [I1 [I2 [I3 [I4 [I5 [I6 I7]]]]]].
      split; [exact I1|]. split; [exact I2|]. split; [congruence|]. split; [rewrite I4; apply (sm_stop _ _ M1)|].
      split; [rewrite I5; now apply same_pend|]. split; [intros F; apply (sm_clean _ _ M1), I6, F|].
      unfold t_eof in *. rewrite M3 in I7. exact I7.
    + rewrite (sm_stop _ _ M1) in IH. exact IH.
Qed.
(** the end of the file is refused only where it is not expected *)
Lemma try_trans_eof trs : forall t c t' c', t_eof t = true -> (forall tr, In tr trs -> tr_tok tr = TkEOF -> tr_la tr = None) ->
  try_trans bd trs t c = (Ok (None, t'), c') -> forall tr, In tr trs -> tr_tok tr <> TkEOF.
Proof.
  induction trs as [|tr0 trs IH]; intros t c t' c' He Hla E tr HI; [destruct HI|]. cbn [try_trans] in E.
  destruct (tok_eqb (tr_tok tr0) TkEOF) eqn:K.
  - exfalso. apply tok_eqb_spec in K. rewrite (Hla tr0 (or_introl eq_refl) K), K in E. unfold match_tok in E. cbn [tok_eqb negb andb] in E.
    assert (M : forall ms, do_match TkEOF ms t = (Ok true, ms, set_matched ms t (Some TkEOF) None None None None [])).
    { intros ms. unfold do_match. destruct (ms_md ms); cbn [md_match classic_match]; unfold match_EOF; rewrite He; reflexivity. }
    rewrite M in E. unfold handle_external in E. cbn [rbind do_lookahead] in E. destruct (c_stop _); destruct (do_acts _ _ _ _) as [[?|?] ?]; discriminate E.
  - assert (M : match_tok (tr_tok tr0) t c = (Ok (false, t), c)) by (unfold match_tok; rewrite K, He; reflexivity). rewrite M in E.
    destruct HI as [<-|HI]; [intros H; rewrite H in K; discriminate K|]. eapply IH; eauto. intros; apply Hla; auto. now right.
Qed.
(** where a matched token leads *)
Definition led (q : nat) (t : token) c (q' : nat) : Prop :=
  c_errors c = [] -> exists st tr t', ptable q = Some st /\ In tr (st_trans st) /\ tr_next tr = q' /\ P (tr_tok tr) t' /\ t_line t' = t_line t /\ (tr_tok tr = TkEOF \/ t_eof t = false).
Lemma match_token_any ok q t c : ptable q <> None -> src ok c -> ok = true \/ t_eof t = true -> Q t -> st_ok q c ->
  match match_token bd q t c with
  | (Ok q', c') => src ok c' /\ c_stop c' = c_stop c /\ pend c' = pend c /\ (c_errors c' = [] -> c_errors c = []) /\ st_ok q' c' /\ led q t c' q' /\ (t_eof t = false -> ptable q' <> None)
  | (Err e, _) => ends (c_stop c) e
  end.
Proof.
  intros Hn Hs Hok Ht Ho. unfold match_token. destruct (ptable q) as [st|] eqn:Eq; [|contradiction].
  pose proof (try_trans_any ok q st Eq (st_trans st) [] t c eq_refl ltac:(intros ? []) Hs Hok Ht Ho) as T.
  pose proof (ptable_basic _ _ Eq) as Hb. unfold check_basic in Hb. repeat (apply andb_true_iff in Hb as [Hb ?Hx]).
  destruct (try_trans bd (st_trans st) t c) as [[[[q'|] t1]|e] c1] eqn:Et; [| |exact T].
  - destruct T as [T1 [T2 [T3 [T4 [T5 [T6 [T7 [tr [T8 [T9 [T10 T11]]]]]]]]]]].
    repeat (split; [assumption|]). split; [intros _; exists st, tr, t1; repeat (split; [auto|]); auto|].
    intros Hf. rewrite forallb_forall in Hx. specialize (Hx _ T8). rewrite T9 in Hx. destruct (ptable q'); [discriminate|].
    destruct (tok_eqb (tr_tok tr) TkEOF) eqn:Ek; [|discriminate Hx]. apply tok_eqb_spec in Ek. rewrite Ek in T10. apply H_eof in T10.
    unfold t_eof in *. rewrite T3 in T10. congruence.
  - destruct T as [T1 [[T2|T2] [T3 [T4 [T5 [T6 [T7 T8]]]]]]]; [now destruct T2|].
    assert (Ref : forall tr, In tr (st_trans st) -> tr_la tr = None -> t_eof t1 = false -> N (tr_tok tr) (t_line t1)) by (unfold t_eof in *; rewrite T3; exact T8).
    assert (Noeof : t_eof t1 = true -> forall tr, In tr (st_trans st) -> tr_tok tr <> TkEOF).
    { intros Te. assert (Te0 : t_eof t = true) by (unfold t_eof in *; now rewrite <- T3). eapply try_trans_eof; [exact Te0 | | exact Et].
      intros tr Htr Hk. rewrite forallb_forall in Hb. specialize (Hb tr Htr). rewrite Hk in Hb. destruct (tr_la tr); [discriminate Hb | reflexivity]. }
    destruct (c_stop c1) eqn:Es.
    + rewrite <- T4. apply ends_first; [reflexivity|]. eapply H_unexpected; eauto.
    + pose proof (add_error_any (unexpected t1 (st_expected st)) c1 Es (s_errs _ _ T1) (H_unexpected _ _ _ Eq T2 Noeof Ref)) as A.
      destruct (add_error _ c1) as [[u|x] c2]; [|rewrite <- T4, <- Es; exact A].
      destruct A as [es [-> [A1 A2]]]. apply Nat.eqb_eq in Hx0. rewrite Hx0.
      split; [constructor; try apply T1; exact A1|]. split; [cbn; congruence|]. split; [exact T5|].
      split; [intros F; now apply A2 in F|]. split; [|split; [intros F; now apply A2 in F | congruence]].
      destruct T7 as [es0 [O1 O2]]. exists es0. split; [exact O1|]. intros F. now apply A2 in F.
Qed.

(** ** The loop *)
Lemma parse_loop_any : forall fuel q c, ptable q <> None -> src true c -> st_ok q c -> pend c < fuel ->
  match parse_loop bd fuel q c with
  | (Ok _, c') => errs_ok c' /\ c_stop c' = c_stop c /\ (c_errors c' = [] -> c_errors c = []) /\
      exists q', st_ok q' c' /\ (c_errors c' = [] -> exists p st tr, ptable p = Some st /\ In tr (st_trans st) /\ tr_next tr = q' /\ tr_tok tr = TkEOF)
  | (Err e, _) => ends (c_stop c) e
  end.
Proof.
  induction fuel as [|fuel IH]; intros q c Hq Hs Ho Hf; [lia|]. cbn [parse_loop]. destruct (read_token c) as [t c1] eqn:Er.
  destruct (read_any [] c t c1 (proj1 (src_nil c) Hs) ltac:(constructor) Er) as [R1 [R2 [R3 [R4 [R5 [R6 [R7 [R8 R9]]]]]]]]. cbn [app] in *.
  assert (Ho1 : st_ok q c1). { destruct Ho as [es [O1 O2]]. exists es. now rewrite R3, R5. }
  rewrite app_nil_r in R8. replace (pend (set_queue c (c_queue c))) with (pend c) in R8 by (destruct c; reflexivity).
  destruct (t_eof t) eqn:Et.
  - (* the end of the file: the queue keeps its tokens, the counter may be one too far *)
    assert (Hs1 : src false c1).
    { destruct R2 as [A1 A2 A3 A4 A5]. constructor; cbn in *; auto; [now apply Forall_app in A1 | discriminate]. }
    pose proof (match_token_any false q t c1 Hq Hs1 (or_intror Et) R1 Ho1) as M. rewrite R4 in M.
    destruct (match_token bd q t c1) as [[q'|e] c2]; [|exact M]. destruct M as [M1 [M2 [M3 [M4 [M5 [M6 _]]]]]].
    split; [apply M1|]. split; [exact M2|]. split; [intros F; rewrite <- R5; auto|]. exists q'. split; [exact M5|].
    intros F. destruct (M6 F) as [st [tr [t' [L1 [L2 [L3 [_ [_ [L4|L4]]]]]]]]]; [|congruence]. exists q, st, tr. auto.
  - assert (Hs1 : src true c1).
    { destruct R2 as [A1 A2 A3 A4 A5]. constructor; cbn in *; auto; [now apply Forall_app in A1|]. intros _. specialize (A3 eq_refl). rewrite eofs_app, eofs_one, Et in A3. lia. }
    pose proof (match_token_any true q t c1 Hq Hs1 (or_introl eq_refl) R1 Ho1) as M. rewrite R4 in M.
    destruct (match_token bd q t c1) as [[q'|e] c2]; [|exact M]. destruct M as [M1 [M2 [M3 [M4 [M5 [M6 M7]]]]]].
    assert (Hp : pend c2 < fuel). { rewrite M3. unfold pend in *. cbn in R8. rewrite real_app, real_one, Et in R8. lia. }
    specialize (IH q' c2 (M7 Et) M1 M5 Hp). destruct (parse_loop bd fuel q' c2) as [[u|e] c3]; [|rewrite M2 in IH; exact IH].
    destruct IH as [I1 [I2 [I3 I4]]]. split; [exact I1|]. split; [congruence|]. split; [intros F; rewrite <- R5; auto|]. exact I4.
Qed.

(** ** Parser.parse *)
Definition eof_reached (q : nat) : Prop := exists p st tr, ptable p = Some st /\ In tr (st_trans st) /\ tr_next tr = q /\ tr_tok tr = TkEOF.
Theorem parse_b_any stop b0 b1 ms ms0 :
  ms_reset ms = Ok ms0 -> I ms0 -> bd_start bd RGherkinDocument b0 = (Ok tt, b1) -> S_ 0 b1 [] ->
  (forall q b es, S_ q b es -> match bd_end bd RGherkinDocument b with (Ok _, _) => True | (Err (EParser p), _) => Lp p | (Err e, _) => X e end) ->
  match parse_b bd stop b0 ms lines with
  | (Ok _, c') => exists q b, S_ q b [] /\ eof_reached q /\ bd_end bd RGherkinDocument b = (Ok tt, c_b c')
  | (Err e, _) => ends stop e
  end.
Proof.
  intros Hr Hi Hb H0 He. unfold parse_b. rewrite Hr.
  set (t0 := new_token [] 0).
  assert (D : do_act bd t0 (AStart RGherkinDocument) (init_ctx stop b0 ms0 lines) = (Ok tt, mkCtx lines 0 [] [] ms0 b1 stop)).
  { unfold do_act, init_ctx. cbn [c_b]. rewrite Hb. unfold handle_external. cbn. destruct stop; reflexivity. }
  rewrite D.
  assert (Hs : src true (mkCtx lines 0 [] [] ms0 b1 stop)).
  { constructor; cbn; auto; [intros; lia|]. split; [constructor|]. split; [constructor|]. split; [cbn; lia | reflexivity]. }
  assert (Ho : st_ok 0 (mkCtx lines 0 [] [] ms0 b1 stop)) by (exists []; split; [exact H0 | reflexivity]).
  pose proof (parse_loop_any (S (length lines)) 0 (mkCtx lines 0 [] [] ms0 b1 stop) ltac:(discriminate) Hs Ho ltac:(unfold pend, real; cbn; lia)) as L.
  destruct (parse_loop bd (S (length lines)) 0 _) as [[u|e] c2]; [|exact L]. cbn [c_stop] in L.
  destruct L as [L1 [L2 [_ [q [[es [L3 L4]] L5]]]]]. specialize (He q (c_b c2) es L3).
  unfold do_act. destruct (bd_end bd RGherkinDocument (c_b c2)) as [[u'|e] b2] eqn:Eb; unfold handle_external; change (c_stop (set_b c2 b2)) with (c_stop c2); rewrite L2.
  - assert (G : match (match c_errors (set_b c2 b2) with [] => (Ok tt, set_b c2 b2) | es0 => (Err (EComposite es0), set_b c2 b2) end) with
       | (Ok _, c') => exists q0 b, S_ q0 b [] /\ eof_reached q0 /\ bd_end bd RGherkinDocument b = (Ok tt, c_b c') | (Err e, _) => ends stop e end).
    { cbn [set_b c_errors]. destruct (c_errors c2) as [|x xs] eqn:Ee.
      - exists q, (c_b c2). rewrite (L4 eq_refl) in L3. split; [exact L3|]. split; [exact (L5 eq_refl)|]. cbn. rewrite Eb. now destruct u'.
      - destruct L1 as [E1 [E2 [E3 E4]]]. rewrite Ee in *. destruct stop; [now specialize (E4 L2)|]. apply ends_all; auto. cbn in *. lia. }
    destruct stop; exact G.
  - destruct e; try (destruct stop; now apply ends_exn).
    + destruct stop; [now apply ends_first|].
      assert (L1' : errs_ok (set_b c2 b2)) by exact L1.
      pose proof (add_error_any e (set_b c2 b2) L2 L1' He) as A. destruct (add_error e (set_b c2 b2)) as [[u'|x] c3]; cbn [rbind].
      * destruct A as [es3 [-> [A1 A2]]]. destruct (c_errors (set_errors (set_b c2 b2) es3)) as [|x xs] eqn:Ee; [now exfalso; apply A2|].
        destruct A1 as [E1 [E2 [E3 E4]]]. rewrite Ee in *. apply ends_all; auto. cbn in *. lia.
      * change (c_stop (set_b c2 b2)) with (c_stop c2) in A. now rewrite L2 in A.
    + exfalso. now apply H_X in He.
Qed.
End AnyRun.
