(** * Running a builder on the events of a scan, and reporting errors *)
From Verif Require Import PyStr PyStrFacts Types Regex Line DialectData Matcher Ast ParserTable Parser Classify Table Scan.

(** ** The error list of the parser: distinct messages, at most ten of them go unpunished *)
Fixpoint feed (es errs : list perr) : bool * list perr :=
  match es with
  | [] => (false, errs)
  | e :: es' =>
      if existsb (fun e' => str_eqb (pe_msg e) (pe_msg e')) errs then feed es' errs
      else if Nat.ltb 10 (length (errs ++ [e])) then (true, errs ++ [e]) else feed es' (errs ++ [settled e])
  end.

Section Raw.
Context {B : Type} (bd : builder B).
Implicit Types c : ctx B.

Definition bact (t : token) (a : act) (b : B) : result unit * B :=
  match a with AStart r => bd_start bd r b | AEnd r => bd_end bd r b | ABuild => bd_build bd t b end.
(** the errors of the builder are collected; any other exception ends the run *)
Fixpoint raw_acts (t : token) (acts : list act) (b : B) : list perr * result unit * B :=
  match acts with
  | [] => ([], Ok tt, b)
  | a :: acts' =>
      match bact t a b with
      | (Ok _, b1) => raw_acts t acts' b1
      | (Err (EParser e), b1) => let '(es, r, b2) := raw_acts t acts' b1 in (e :: es, r, b2)
      | (Err x, b1) => ([], Err x, b1)
      end
  end.
Fixpoint raw_evs (evs : list ev) (b : B) : list perr * result unit * B :=
  match evs with
  | [] => ([], Ok tt, b)
  | EvErr e :: evs' => let '(es, r, b2) := raw_evs evs' b in (e :: es, r, b2)
  | EvAct l acts :: evs' =>
      match raw_acts (lf_t l) acts b with
      | (es, Ok _, b1) => let '(es', r, b2) := raw_evs evs' b1 in (es ++ es', r, b2)
      | (es, Err x, b1) => (es, Err x, b1)
      end
  end.

Definition no_composite : Prop := forall t a b es, fst (bact t a b) <> Err (EComposite es).

(** what becomes of the outcome [x] of a raw run *)
Definition reported (stop : bool) (errs : list perr) (x : list perr * result unit * B) (y : result unit * ctx B) : Prop :=
  let '(es, r, b) := x in
  c_stop (snd y) = stop /\
  if stop then
    match es with
    | [] => fst y = r /\ c_b (snd y) = b /\ c_errors (snd y) = errs
    | e :: _ => fst y = Err (EParser e)
    end
  else
    match feed es errs with
    | (true, errs') => fst y = Err (EComposite errs')
    | (false, errs') => fst y = r /\ c_b (snd y) = b /\ c_errors (snd y) = errs'
    end.

Lemma feed_app es1 es2 errs : feed (es1 ++ es2) errs =
  match feed es1 errs with (true, e) => (true, e) | (false, e) => feed es2 e end.
Proof.
  revert errs. induction es1 as [|e es1 IH]; intros errs; cbn [feed app]; [easy|].
  destruct (existsb _ errs); [apply IH|]. destruct (Nat.ltb 10 _); [easy | apply IH].
Qed.

Lemma add_error_feed e c : c_stop c = false ->
  match feed [e] (c_errors c) with
  | (true, errs) => fst (add_error e c) = Err (EComposite errs) /\ c_stop (snd (add_error e c)) = false
  | (false, errs) => add_error e c = (Ok tt, set_errors c errs)
  end.
Proof.
  intros Hs. cbn [feed]. unfold add_error. destruct (existsb _ (c_errors c)).
  - destruct c; reflexivity.
  - destruct (Nat.ltb 10 _); [now split | reflexivity].
Qed.

Lemma do_act_bact t a c : do_act bd t a c = handle_external tt (let (r, b) := bact t a (c_b c) in (r, set_b c b)).
Proof. destruct a; reflexivity. Qed.

Lemma do_acts_raw (NC : no_composite) t acts : forall c stop, c_stop c = stop ->
  reported stop (c_errors c) (raw_acts t acts (c_b c)) (do_acts bd t acts c).
Proof.
  induction acts as [|a acts IH]; intros c stop Hs; cbn [raw_acts do_acts].
  { unfold reported. destruct stop; cbn; auto. }
  rewrite do_act_bact. pose proof (NC t a (c_b c)) as Hn. unfold handle_external.
  destruct (bact t a (c_b c)) as [[u|x] b1]; cbn [fst] in Hn; cbv beta iota.
  - replace (if c_stop (set_b c b1) then (Ok u, set_b c b1) else (Ok u, set_b c b1)) with (Ok u, set_b c b1) by (destruct (c_stop _); reflexivity).
    specialize (IH (set_b c b1) stop Hs). exact IH.
  - assert (E : c_stop (set_b c b1) = stop) by exact Hs. rewrite E. destruct stop.
    + destruct x; try (unfold reported; cbn; auto; fail).
      destruct (raw_acts t acts b1) as [[es r] b2]. unfold reported. cbn. auto.
    + destruct x as [e|es| | | | | | | | |]; try (unfold reported; cbn; auto; fail); [|exfalso; eapply Hn; reflexivity].
      pose proof (add_error_feed e (set_b c b1) E) as A. specialize (IH (set_errors (set_b c b1) (snd (feed [e] (c_errors c)))) false E).
      cbn [c_errors set_errors c_b set_b] in IH.
      destruct (raw_acts t acts b1) as [[es r] b2] eqn:Er. unfold reported in *.
      change (e :: es) with ([e] ++ es). rewrite feed_app. cbn [c_errors set_b] in A.
      destruct (feed [e] (c_errors c)) as [[] errs]; cbn [snd] in IH.
      * destruct (add_error e (set_b c b1)) as [r' c']. cbn in A |- *. destruct A as [-> A]. cbn. auto.
      * rewrite A. cbn [rbind]. exact IH.
Qed.

Lemma run_evs_raw (NC : no_composite) evs : forall c stop, c_stop c = stop ->
  reported stop (c_errors c) (raw_evs evs (c_b c)) (run_evs bd evs c).
Proof.
  induction evs as [|[e|l acts] evs IH]; intros c stop Hs; cbn [raw_evs run_evs].
  - unfold reported. destruct stop; cbn; auto.
  - rewrite Hs. destruct stop.
    + destruct (raw_evs evs (c_b c)) as [[es r] b2]. unfold reported. cbn. auto.
    + pose proof (add_error_feed e c Hs) as A.
      specialize (IH (set_errors c (snd (feed [e] (c_errors c)))) false Hs). cbn [c_errors set_errors c_b] in IH.
      destruct (raw_evs evs (c_b c)) as [[es r] b2]. unfold reported in *.
      change (e :: es) with ([e] ++ es). rewrite feed_app. destruct (feed [e] (c_errors c)) as [[] errs]; cbn [snd] in IH.
      * destruct (add_error e c) as [r' c']. cbn in A |- *. destruct A as [-> A]. auto.
      * rewrite A. exact IH.
  - pose proof (do_acts_raw NC (lf_t l) acts c stop Hs) as D.
    destruct (raw_acts (lf_t l) acts (c_b c)) as [[es [u|x]] b1], (do_acts bd (lf_t l) acts c) as [r1 c1]; unfold reported in D; cbn [fst snd] in D; destruct D as [D0 D].
    + destruct stop.
      * destruct es as [|e es].
        -- destruct D as [-> [D1 D2]]. specialize (IH c1 true D0). rewrite D1, D2 in IH.
           destruct (raw_evs evs b1) as [[es' r] b2]. exact IH.
        -- rewrite D. destruct (raw_evs evs b1) as [[es' r] b2]. unfold reported. cbn. auto.
      * destruct (feed es (c_errors c)) as [[] errs] eqn:F.
        -- rewrite D. destruct (raw_evs evs b1) as [[es' r] b2]. unfold reported. cbn. rewrite feed_app, F. auto.
        -- destruct D as [-> [D1 D2]]. specialize (IH c1 false D0). rewrite D1, D2 in IH.
           destruct (raw_evs evs b1) as [[es' r] b2]. unfold reported in *. rewrite feed_app, F. exact IH.
    + destruct stop.
      * destruct es as [|e es].
        -- destruct D as [-> [D1 D2]]. unfold reported. cbn. auto.
        -- rewrite D. unfold reported. cbn. auto.
      * unfold reported. destruct (feed es (c_errors c)) as [[] errs] eqn:F.
        -- rewrite D. cbn. auto.
        -- destruct D as [-> [D1 D2]]. cbn. auto.
Qed.

(** a whole run of [parse]: the builder events around those of the scan *)
Definition no_leaf : leaf := mkLeaf (mkMs false [] [] (mkDialect [] [] [] [] [] [] [] [] [] [] []) 0 None false) 0 [] (new_token [] 0).
Definition doc_evs (sr : list ev * result unit) : list ev :=
  EvAct no_leaf [AStart RGherkinDocument] :: fst sr ++
  match snd sr with Ok _ => [EvAct no_leaf [AEnd RGherkinDocument]] | Err _ => [] end.
Definition outcome (stop : bool) (es : list perr) (r : result unit) : result unit :=
  if stop then match es with [] => r | e :: _ => Err (EParser e) end
  else match feed es [] with
       | (true, errs) => Err (EComposite errs)
       | (false, []) => r
       | (false, errs) => match r with Ok _ => Err (EComposite errs) | Err x => Err x end
       end.

Lemma raw_evs_app e1 e2 b : raw_evs (e1 ++ e2) b =
  match raw_evs e1 b with
  | (es, Ok _, b1) => let '(es', r, b2) := raw_evs e2 b1 in (es ++ es', r, b2)
  | (es, Err x, b1) => (es, Err x, b1)
  end.
Proof.
  revert b. induction e1 as [|[e|l acts] e1 IH]; intros b; cbn [raw_evs app].
  - destruct (raw_evs e2 b) as [[? ?] ?]. reflexivity.
  - rewrite IH. destruct (raw_evs e1 b) as [[es [u|x]] b1]; [|reflexivity]. destruct (raw_evs e2 b1) as [[? ?] ?]. reflexivity.
  - destruct (raw_acts (lf_t l) acts b) as [[es [u|x]] b1]; [|reflexivity]. rewrite IH.
    destruct (raw_evs e1 b1) as [[es1 [u1|x]] b2]; [|reflexivity]. destruct (raw_evs e2 b2) as [[? ?] ?]. now rewrite app_assoc.
Qed.

Lemma qrep_init ms lines : qrep ms [] 0 lines lines 0.
Proof. constructor. Qed.

Theorem parse_b_outcome (NC : no_composite) stop b ms ms0 lines es r b' :
  ms_reset ms = Ok ms0 -> good ms0 -> lines_ok lines ->
  raw_evs (doc_evs (scan 0 ms0 0 lines)) b = (es, r, b') ->
  let res := match r with Ok _ => snd (scan 0 ms0 0 lines) | Err x => Err x end in
  fst (parse_b bd stop b ms lines) = outcome stop es res /\
  (es = [] -> c_b (snd (parse_b bd stop b ms lines)) = b').
Proof.
  intros Hr Hg Hl HR res. subst res. unfold parse_b. rewrite Hr.
  set (c0 := init_ctx stop b ms0 lines).
  assert (D : forall a c, do_acts bd (new_token [] 0) [a] c = do_act bd (new_token [] 0) a c).
  { intros a c. cbn [do_acts]. destruct (do_act bd (new_token [] 0) a c) as [[[]|?] ?]; reflexivity. }
  pose proof (run_evs_raw NC (doc_evs (scan 0 ms0 0 lines)) c0 stop eq_refl) as H.
  change (c_b c0) with b in H. change (c_errors c0) with (@nil perr) in H. rewrite HR in H.
  unfold doc_evs in H. cbn [run_evs lf_t no_leaf] in H.
  pose proof (do_acts_eqv bd (new_token [] 0) [AStart RGherkinDocument] c0 c0 (eqv_refl c0)) as [_ Sc].
  rewrite D in H, Sc. destruct (do_act bd (new_token [] 0) (AStart RGherkinDocument) c0) as [[u|x] c1].
  2:{ cbn [fst snd] in *. unfold reported in H. cbn [fst snd] in H. destruct H as [_ H]. unfold outcome.
      destruct stop.
      - destruct es; [|split; [exact H | discriminate]]. destruct H as [<- [H2 _]]. auto.
      - destruct (feed es []) as [[] errs] eqn:F; [split; [exact H | intros ->; discriminate F]|].
        destruct H as [<- [H2 H3]]. split; [|auto]. destruct errs; reflexivity. }
  cbn [fst snd] in *.
  assert (Rp : rep ms0 0 lines c1).
  { assert (R0 : rep ms0 0 lines c0) by (split; [reflexivity | apply qrep_init]).
    eapply rep_scn; [exact Sc | exact R0]. }
  pose proof (parse_loop_scan bd lines (S (length lines)) 0 ms0 0 c1 c1 Hg Hl Rp (eqv_refl c1) (Nat.lt_succ_diag_r _)) as [P1 P2].
  rewrite run_evs_app in H. unfold run_scan in P1, P2.
  destruct (scan 0 ms0 0 lines) as [evs sr] eqn:Es. cbn [fst snd] in *.
  destruct (parse_loop bd (S (length lines)) 0 c1) as [pl c2]. cbn [fst snd] in *.
  destruct (run_evs bd evs c1) as [[u1|x] d1] eqn:Er; cbn [fst snd] in *.
  2:{ subst pl. unfold reported in H. cbn [fst snd] in H. destruct H as [_ H]. unfold outcome.
      destruct P2 as [P2 _]. cbn [fst snd]. rewrite P2.
      destruct stop.
      - destruct es; [|split; [exact H | discriminate]]. destruct H as [<- [H2 _]]. auto.
      - destruct (feed es []) as [[] errs] eqn:F; [split; [exact H | intros ->; discriminate F]|].
        destruct H as [<- [H2 H3]]. split; [|auto]. destruct errs; reflexivity. }
  subst pl. destruct sr as [u2|x]; cbn [run_evs] in H.
  - pose proof (do_act_eqv bd (new_token [] 0) (AEnd RGherkinDocument) c2 d1 P2) as [[A1 A2] A3].
    change (lf_t no_leaf) with (new_token [] 0) in H. rewrite D in H.
    destruct (do_act bd (new_token [] 0) (AEnd RGherkinDocument) c2) as [r2 c3], (do_act bd (new_token [] 0) (AEnd RGherkinDocument) d1) as [r3 d3].
    cbn [fst snd] in *. subst r3. destruct A2 as [A21 [A22 A23]].
    assert (HH : reported stop [] (es, r, b') (r2, d3)).
    { destruct r2; [destruct a; exact H | exact H]. }
    clear H. unfold reported in HH. cbn [fst snd] in HH. destruct HH as [_ H]. unfold outcome.
    destruct stop.
    + destruct es as [|e es].
      * destruct H as [-> [H2 H3]]. rewrite A22, H3. destruct r as [[]|]; cbn; destruct u2; rewrite ?A21; auto.
      * rewrite H. cbn. split; [reflexivity | discriminate].
    + destruct (feed es []) as [[] errs] eqn:F.
      * rewrite H. cbn. split; [reflexivity | intros ->; discriminate F].
      * destruct H as [-> [H2 H3]]. rewrite A22, H3. destruct r as [[]|]; cbn; destruct u2; destruct errs; cbn; rewrite ?A21; auto.
  - unfold reported in H. cbn [fst snd] in H. destruct H as [_ H]. unfold outcome. destruct P2 as [P21 [P22 P23]].
    cbn [fst snd]. rewrite P21. destruct stop.
    + destruct es as [|e es].
      * destruct H as [<- [H2 H3]]. auto.
      * discriminate H.
    + destruct (feed es []) as [[] errs] eqn:F.
      * discriminate H.
      * destruct H as [<- [H2 H3]]. split; [destruct errs; reflexivity | auto].
Qed.
End Raw.

(** ** What is reported *)
Definition distinct_msgs (l : list perr) : Prop := NoDup (map pe_msg l).
Lemma existsb_msg e errs : existsb (fun e' => str_eqb (pe_msg e) (pe_msg e')) errs = true <-> In (pe_msg e) (map pe_msg errs).
Proof.
  rewrite existsb_exists, in_map_iff. split.
  - intros [x [H1 H2]]. apply str_eqb_spec in H2. eauto.
  - intros [x [H1 H2]]. exists x. split; [exact H2|]. apply str_eqb_spec. auto.
Qed.
Lemma settled_msg e : pe_msg (settled e) = pe_msg e.
Proof. unfold settled. now destruct (pe_kind e). Qed.
Lemma settled_line e : l_line (pe_loc (settled e)) = l_line (pe_loc e).
Proof. unfold settled. now destruct (pe_kind e). Qed.
Lemma settled_kind e : pe_kind (settled e) = pe_kind e.
Proof. unfold settled. destruct (pe_kind e) eqn:E; cbn; congruence. Qed.
Lemma feed_inv (P : perr -> Prop) (HP : forall e, P e -> P (settled e)) es : forall errs full errs', feed es errs = (full, errs') ->
  distinct_msgs errs -> length errs <= 10 -> Forall P errs -> Forall P es ->
  distinct_msgs errs' /\ length errs' <= (if full then 11 else 10) /\ Forall P errs' /\
  (full = true -> length errs' = 11) /\ (errs' = [] -> es = []) /\ exists l, errs' = errs ++ l.
Proof.
  induction es as [|e es IH]; intros errs full errs' H D L F G; cbn [feed] in H.
  - injection H as <- <-. repeat split; auto; [discriminate | exists []; now rewrite app_nil_r].
  - inversion G as [|? ? Ge G']; subst.
    destruct (existsb _ errs) eqn:E.
    + destruct (IH _ _ _ H D L F G') as [A [A1 [A2 [A3 [A4 A5]]]]]. repeat split; auto.
      intros ->. destruct A5 as [l A5]. destruct errs; [discriminate E | discriminate A5].
    + assert (D' : distinct_msgs (errs ++ [e])).
      { unfold distinct_msgs. rewrite map_app. cbn. apply NoDup_Add with (a := pe_msg e) (l := map pe_msg errs ++ []).
        - apply Add_app.
        - rewrite app_nil_r. split; [exact D|]. intros C. apply existsb_msg in C. congruence. }
      assert (F' : Forall P (errs ++ [e])) by (apply Forall_app; auto).
      destruct (Nat.ltb 10 (length (errs ++ [e]))) eqn:Lt.
      * injection H as <- <-. apply Nat.ltb_lt in Lt. rewrite app_length in *. cbn in *.
        repeat split; auto; try lia; [intros C; destruct errs; discriminate C | eauto].
      * apply Nat.ltb_ge in Lt.
        assert (D2 : distinct_msgs (errs ++ [settled e])) by (unfold distinct_msgs in *; rewrite map_app in *; cbn [map] in *; now rewrite settled_msg).
        assert (L2 : length (errs ++ [settled e]) <= 10) by (rewrite app_length in *; exact Lt).
        assert (F2 : Forall P (errs ++ [settled e])) by (apply Forall_app; split; [exact F | constructor; [now apply HP | constructor]]).
        destruct (IH _ _ _ H D2 L2 F2 G') as [A [A1 [A2 [A3 [A4 A5]]]]].
        repeat split; auto; destruct A5 as [l A5].
        -- intros ->. destruct errs; discriminate A5.
        -- exists (settled e :: l). now rewrite A5, <- app_assoc.
Qed.
