(** * What is expected: facts for C59 *)
From Verif Require Import PyStr PyStrFacts Types Regex Line DialectData Matcher Ast ParserTable Parser Classify Table Scan Grammar Deriv Cert LineSpec Cst Report Eval LangSpec LangFacts Complete DocSpec LineIff DocRun ErrorSpec ErrorFacts.

(** ** Two continuations of the same lines *)

(** a look ahead over [pre] either does not depend on what follows, or skips it *)
Definition skippable (ms : mstate) (x : str) : Prop := cls ms x = TkEmpty \/ cls ms x = TkComment \/ (cls ms x = TkTagLine /\ exists l, g_tags (mkLine x 0) = Ok l).
Definition title2 (k : tok) : Prop := k = TkScenarioLine \/ k = TkExamplesLine.
Lemma la_tok_title2 l : title2 (la_tok l).
Proof. destruct l; [left | right]; reflexivity. Qed.
Lemma skippable_dec ms x : skippable ms x \/ ~ skippable ms x.
Proof.
  unfold skippable. destruct (cls ms x); try (left; auto; fail); try (right; intros [H|[H|[H _]]]; discriminate).
  destruct (g_tags (mkLine x 0)) as [l|e]; [left; right; right; eauto | right; intros [H|[H|[_ [l H]]]]; discriminate].
Qed.
Lemma la_fixed k ms pre : title2 k -> ~ Forall (skippable ms) pre -> forall p p', la k ms (pre ++ p) = la k ms (pre ++ p').
Proof.
  intros K. induction pre as [|x pre IH]; intros H p p'; [destruct H; constructor|]. cbn [app la].
  destruct (tok_eqb (cls ms x) k) eqn:E; [reflexivity|].
  assert (N : skippable ms x -> la k ms (pre ++ p) = la k ms (pre ++ p')) by (intros Hs; apply IH; intros F; apply H; now constructor).
  unfold skippable in N. destruct (cls ms x); try reflexivity; try (apply N; auto).
  destruct (g_tags (mkLine x 0)) as [l|e]; [|reflexivity]. apply N. right. right. eauto.
Qed.
Lemma la_skip k ms pre : title2 k -> Forall (skippable ms) pre -> forall p, la k ms (pre ++ p) = la k ms p.
Proof.
  intros K. induction 1 as [|x pre H F IH]; intros p; [reflexivity|]. cbn [app la].
  destruct H as [H|[H|[H [l G]]]]; rewrite H; try rewrite G; destruct K as [-> | ->]; apply IH.
Qed.

(** the states after tag lines *)
Definition tr_is (k : tok) (q : nat) (tr : trans) : bool := tok_eqb (tr_tok tr) k && is_None (tr_la tr) && Nat.eqb (tr_next tr) q.
Definition want (q : nat) : option tok :=
  match ptable q with
  | Some st => match st_trans st with
      | [t1; t2; t3; t4] => if tr_is TkTagLine q t1 && is_None (tr_la t2) && tr_is TkComment q t3 && tr_is TkEmpty q t4 && tok_in (tr_tok t2) [TkFeatureLine; TkRuleLine; TkScenarioLine; TkExamplesLine] &&
                               forallb (fun k => tok_in k [TkTagLine; tr_tok t2; TkComment; TkEmpty]) (st_expected st)
                            then Some (tr_tok t2) else None
      | _ => None end
  | None => None end.
Fixpoint tags_last (seen : bool) (trs : list trans) : bool :=
  match trs with
  | [] => negb seen
  | tr :: r =>
      if tok_eqb (tr_tok tr) TkTagLine then match tr_la tr with Some _ => tags_last true r | None => true end
      else (negb seen || plain (tr_tok tr)) && tags_last seen r
  end.
Definition check_tags (q : nat) (st : pstate) : bool :=
  tags_last false (st_trans st) &&
  forallb (fun tr => negb (tok_eqb (tr_tok tr) TkTagLine) ||
    match want (tr_next tr) with
    | Some k => match tr_la tr with Some l => tok_eqb k (la_tok l) | None => true end
    | None => false end) (st_trans st).
Lemma tags_ok : all_states check_tags = true.
Proof. vm_compute. reflexivity. Qed.

(** ** One line, two continuations *)
Definition crashes (c : list perr * choice) : Prop := exists e, snd c = CExn e.
Lemma choose_tag trs ms n x t rest : good ms -> x <> [] -> cls ms x = TkTagLine -> lexm TkTagLine ms n x = (Ok true, ms, t) ->
  tags_last true trs = true -> crashes (choose trs ms n x rest) \/ exists tr, In tr trs /\ tr_tok tr = TkTagLine /\ choose trs ms n x rest = ([], CTrans tr t ms).
Proof.
  intros G Hx C L. induction trs as [|tr trs IH]; cbn [tags_last choose]; [discriminate|].
  destruct (tok_eqb (tr_tok tr) TkTagLine) eqn:Q.
  - apply tok_eqb_spec in Q. rewrite Q, L. destruct (tr_la tr) as [l|] eqn:E; [|intros _; right; exists tr; split; [now left | auto]].
    intros H. destruct (la (la_tok l) ms rest) as [[]|e]; [right; exists tr; split; [now left | auto] | | left; eexists; reflexivity].
    destruct (IH H) as [I1|[tr' [I1 I2]]]; [now left | right; exists tr'; split; [now right | exact I2]].
  - intros H. apply andb_true_iff in H as [H1 H2]. cbn in H1. rewrite lexm_false; [|exact G|exact Hx|exact H1|intros F; rewrite <- F, C in Q; discriminate].
    destruct (IH H2) as [I1|[tr' [I1 I2]]]; [now left | right; exists tr'; split; [now right | exact I2]].
Qed.
Lemma choose_two trs ms n x A B : good ms -> x <> [] -> (forall tr, In tr trs -> tr_la tr <> None -> tr_tok tr = TkTagLine) ->
  tags_last false trs = true ->
  choose trs ms n x A = choose trs ms n x B \/ crashes (choose trs ms n x A) \/ crashes (choose trs ms n x B) \/
  (cls ms x = TkTagLine /\ exists trA trB t, choose trs ms n x A = ([], CTrans trA t ms) /\ choose trs ms n x B = ([], CTrans trB t ms) /\
     In trA trs /\ In trB trs /\ tr_tok trA = TkTagLine /\ tr_tok trB = TkTagLine /\
     ((exists l, tr_la trA = Some l /\ la (la_tok l) ms A = Ok true) \/ (exists l, tr_la trB = Some l /\ la (la_tok l) ms B = Ok true))).
Proof.
  intros G Hx. induction trs as [|tr trs IH]; intros Hla; cbn [tags_last choose]; [auto|].
  assert (Hla' : forall tr', In tr' trs -> tr_la tr' <> None -> tr_tok tr' = TkTagLine) by (intros; apply Hla; [now right | assumption]). specialize (IH Hla').
  assert (K : tags_last false trs = true -> choose trs ms n x A = choose trs ms n x B \/ crashes (choose trs ms n x A) \/ crashes (choose trs ms n x B) \/
   (cls ms x = TkTagLine /\ exists trA trB t, choose trs ms n x A = ([], CTrans trA t ms) /\ choose trs ms n x B = ([], CTrans trB t ms) /\
     In trA (tr :: trs) /\ In trB (tr :: trs) /\ tr_tok trA = TkTagLine /\ tr_tok trB = TkTagLine /\
     ((exists l, tr_la trA = Some l /\ la (la_tok l) ms A = Ok true) \/ (exists l, tr_la trB = Some l /\ la (la_tok l) ms B = Ok true)))).
  { intros H. destruct (IH H) as [I|[I|[I|[C [trA [trB [t [I1 [I2 [I3 [I4 I5]]]]]]]]]]]; [now left | right; now left | right; right; now left|].
    right. right. right. split; [exact C|]. exists trA, trB, t. split; [exact I1|]. split; [exact I2|]. split; [now right|]. split; [now right | exact I5]. }
  destruct (tok_eqb (tr_tok tr) TkTagLine) eqn:Q.
  - apply tok_eqb_spec in Q. rewrite Q. destruct (tr_la tr) as [l|] eqn:E.
    + intros H. destruct (lexm TkTagLine ms n x) as [[[[]|e] m] t] eqn:L.
      * assert (m = ms) as -> by (eapply lexm_other; [exact L | discriminate | discriminate]).
        pose proof (lexm_cls TkTagLine ms n x ms t G eq_refl L) as C.
        pose proof (choose_tag trs ms n x t A G Hx C L H) as TA. pose proof (choose_tag trs ms n x t B G Hx C L H) as TB.
        destruct (la (la_tok l) ms A) as [[]|e] eqn:LA; [| |right; left; eexists; reflexivity].
        -- destruct (la (la_tok l) ms B) as [[]|e] eqn:LB; [now left | |right; right; left; eexists; reflexivity].
           destruct TB as [TB|[tr' [T1 [T2 T3]]]]; [right; right; now left|]. right. right. right. split; [exact C|].
           exists tr, tr', t. split; [reflexivity|]. split; [exact T3|]. split; [now left|]. split; [now right|]. split; [exact Q|]. split; [exact T2|]. left. eauto.
        -- destruct (la (la_tok l) ms B) as [[]|e] eqn:LB; [| |right; right; left; eexists; reflexivity].
           ++ destruct TA as [TA|[tr' [T1 [T2 T3]]]]; [right; now left|]. right. right. right. split; [exact C|].
              exists tr', tr, t. split; [exact T3|]. split; [reflexivity|]. split; [now right|]. split; [now left|]. split; [exact T2|]. split; [exact Q|]. right. eauto.
           ++ destruct TA as [TA|[trA [A1 [A2 A3]]]]; [right; now left|]. destruct TB as [TB|[trB [B1 [B2 B3]]]]; [right; right; now left|].
              rewrite A3, B3. destruct (choose_split _ _ _ _ _ _ _ _ _ A3) as [ba [ca [EA [RA _]]]].
              assert (D : (exists l, tr_la trA = Some l /\ la (la_tok l) ms A = Ok true) \/ (exists l, tr_la trB = Some l /\ la (la_tok l) ms B = Ok true) \/ trA = trB).
              { clear -A3 B3 L. revert A3 B3. induction trs as [|tr0 trs IH]; cbn [choose]; [discriminate|].
                destruct (lexm (tr_tok tr0) ms n x) as [[[[]|e] m] t0] eqn:L0.
                - destruct (tr_la tr0) as [l0|] eqn:E0; [|intros HA HB; right; right; congruence].
                  destruct (la (la_tok l0) ms A) as [[]|] eqn:LA0; [| |discriminate].
                  + intros HA _. left. injection HA as <- _ _. eauto.
                  + destruct (la (la_tok l0) ms B) as [[]|] eqn:LB0; [| exact IH |discriminate].
                    intros _ HB. right. left. injection HB as <- _ _. eauto.
                - exact IH.
                - destruct e; try discriminate. destruct (choose trs ms n x A); intros HA; discriminate HA. }
              destruct D as [D|[D|<-]]; [| |now left]; right; right; right; (split; [exact C|]); exists trA, trB, t;
                (split; [reflexivity|]; split; [reflexivity|]; split; [now right|]; split; [now right|]; split; [exact A2|]; split; [exact B2|]); auto.
      * assert (Eq : forall R, choose trs ms n x R = choose trs ms n x R) by reflexivity.
        assert (D : choose trs ms n x A = choose trs ms n x B).
        { clear -G Hx L H Hla'. induction trs as [|tr0 trs IH]; [reflexivity|]. cbn [choose]. cbn [tags_last] in H.
          destruct (tr_la tr0) as [l0|] eqn:E0.
          - rewrite (Hla' tr0 (or_introl eq_refl)) in * by (rewrite E0; discriminate). rewrite L. apply IH; [intros; apply Hla'; [now right | assumption] | exact H].
          - destruct (lexm (tr_tok tr0) ms n x) as [[[[]|e] m0] t0] eqn:L0; [reflexivity| |].
            + destruct (tok_eqb (tr_tok tr0) TkTagLine).
              * clear H IH. assert (Z : forall R, choose trs ms n x R = choose trs ms n x A).
                { clear -L Hla'. intros R. assert (Hl : forall tr, In tr trs -> tr_la tr <> None -> tr_tok tr = TkTagLine) by (intros; apply Hla'; [now right | assumption]). clear Hla'.
                  induction trs as [|t1 trs IH]; [reflexivity|]. cbn [choose]. destruct (tr_la t1) as [l1|] eqn:E1.
                  - rewrite (Hl t1 (or_introl eq_refl)) by (rewrite E1; discriminate). rewrite L. apply IH. intros; apply Hl; [now right | assumption].
                  - destruct (lexm (tr_tok t1) ms n x) as [[[[]|e] ?] ?]; [reflexivity | | destruct e; try reflexivity]; rewrite IH by (intros; apply Hl; [now right | assumption]); reflexivity. }
                symmetry. apply Z.
              * apply andb_true_iff in H as [_ H]. apply IH; [intros; apply Hla'; [now right | assumption] | exact H].
            + destruct e; try reflexivity. destruct (tok_eqb (tr_tok tr0) TkTagLine) eqn:Q0.
              * apply tok_eqb_spec in Q0. rewrite Q0 in L0. rewrite L0 in L. discriminate.
              * apply andb_true_iff in H as [_ H]. rewrite IH; [reflexivity | intros; apply Hla'; [now right | assumption] | exact H]. }
        left. exact D.
      * left. destruct e; try reflexivity. exfalso. rewrite lexm_ne in L by exact Hx. pose proof (classic_shape TkTagLine ms (new_token x n)) as Sh. rewrite L in Sh. now destruct Sh.
    + intros _. destruct (lexm TkTagLine ms n x) as [[[[]|e] m] t] eqn:L; [now left| |].
      * left. clear -L Hla'. induction trs as [|t1 trs IH]; [reflexivity|]. cbn [choose]. destruct (tr_la t1) as [l1|] eqn:E1.
        -- rewrite (Hla' t1 (or_introl eq_refl)) by (rewrite E1; discriminate). rewrite L. apply IH. intros; apply Hla'; [now right | assumption].
        -- destruct (lexm (tr_tok t1) ms n x) as [[[[]|e] ?] ?]; [reflexivity | | destruct e; try reflexivity]; rewrite IH by (intros; apply Hla'; [now right | assumption]); reflexivity.
      * left. destruct e; try reflexivity. exfalso. rewrite lexm_ne in L by exact Hx. pose proof (classic_shape TkTagLine ms (new_token x n)) as Sh. rewrite L in Sh. now destruct Sh.
  - intros H. cbn [negb orb andb] in H.
    assert (E : tr_la tr = None) by (destruct (tr_la tr) eqn:E; [|reflexivity]; rewrite (Hla tr (or_introl eq_refl)) in Q by (rewrite E; discriminate); discriminate).
    rewrite E. destruct (lexm (tr_tok tr) ms n x) as [[[[]|e] m] t] eqn:L; [now left | exact (K H)|].
    destruct e; try (now left). destruct (K H) as [I|[I|[I|[C [trA [trB [t' [I1 [I2 I3]]]]]]]]].
    + rewrite I. now left.
    + right. left. destruct I as [e' I]. exists e'. destruct (choose trs ms n x A). exact I.
    + right. right. left. destruct I as [e' I]. exists e'. destruct (choose trs ms n x B). exact I.
    + exfalso. apply lexm_error in L as [_ [name [L _]]]; [|exact Hx]. pose proof (cls_language ms x name G L). congruence.
Qed.

(** ** The lines before a place *)
Fixpoint go (q : nat) (ms : mstate) (n : nat) (pre post : list str) : list ev * result (nat * mstate) :=
  match pre with
  | [] => ([], Ok (q, ms))
  | x :: pre' =>
      match scan_step q ms (S n) x (pre' ++ post) with
      | (evs, Ok (q', ms')) => let (e2, r) := go q' ms' (S n) pre' post in (evs ++ e2, r)
      | (evs, Err e) => (evs, Err e)
      end
  end.
Lemma scan_go pre : forall q ms n post, scan q ms n (pre ++ post) =
  match go q ms n pre post with
  | (evs, Ok (q', ms')) => let (e2, r) := scan q' ms' (n + length pre) post in (evs ++ e2, r)
  | (evs, Err e) => (evs, Err e)
  end.
Proof.
  induction pre as [|x pre IH]; intros q ms n post; cbn [go app length].
  - rewrite Nat.add_0_r. destruct (scan q ms n post). reflexivity.
  - cbn [scan]. destruct (scan_step q ms (S n) x (pre ++ post)) as [evs [[q' ms']|e]]; [|reflexivity].
    rewrite IH. replace (S n + length pre) with (n + S (length pre)) by lia. destruct (go q' ms' (S n) pre post) as [e2 [[q2 ms2]|e]]; [|reflexivity].
    destruct (scan q2 ms2 (n + S (length pre)) post) as [e3 r]. now rewrite app_assoc.
Qed.

(** in a state after tags, more tags, comments and blank lines change nothing *)
Lemma want_inv q k : want q = Some k -> exists st t1 t2 t3 t4, ptable q = Some st /\ st_trans st = [t1; t2; t3; t4] /\
  tr_tok t1 = TkTagLine /\ tr_next t1 = q /\ tr_la t1 = None /\ tr_tok t2 = k /\ tr_la t2 = None /\ tr_tok t3 = TkComment /\ tr_next t3 = q /\ tr_la t3 = None /\
  tr_tok t4 = TkEmpty /\ tr_next t4 = q /\ tr_la t4 = None /\ In k [TkFeatureLine; TkRuleLine; TkScenarioLine; TkExamplesLine] /\
  (forall k', In k' (st_expected st) -> In k' [TkTagLine; k; TkComment; TkEmpty]).
Proof.
  unfold want. destruct (ptable q) as [st|]; [|discriminate]. destruct (st_trans st) as [|t1 [|t2 [|t3 [|t4 [|]]]]] eqn:E; try discriminate.
  destruct (_ && _) eqn:C; [|discriminate]. intros H. injection H as H.
  repeat (apply andb_true_iff in C as [C ?C]). unfold tr_is in *. repeat match goal with H : _ && _ = true |- _ => apply andb_true_iff in H as [H ?] end.
  repeat match goal with H : tok_eqb _ _ = true |- _ => apply tok_eqb_spec in H | H : Nat.eqb _ _ = true |- _ => apply Nat.eqb_eq in H
    | H : is_None ?o = true |- _ => destruct o eqn:?; [discriminate H|]; clear H end.
  exists st, t1, t2, t3, t4. repeat (split; [first [reflexivity | assumption]|]). split.
  - rewrite <- H. now apply tok_in_spec.
  - intros k' Hk. rewrite forallb_forall in *. rewrite <- H. apply tok_in_spec. eauto.
Qed.
Lemma skip_step q k ms n x rest : want q = Some k -> good ms -> x <> [] -> skippable ms x -> exists evs, scan_step q ms n x rest = (evs, Ok (q, ms)).
Proof.
  intros W G Hx Sk. destruct (want_inv q k W) as [st [t1 [t2 [t3 [t4 [Hq [E [A1 [A2 [A3 [B1 [B2 [C1 [C2 [C3 [D1 [D2 [D3 [Hk _]]]]]]]]]]]]]]]]]]].
  unfold scan_step. rewrite Hq, E. cbn [choose]. rewrite A1, A3, B1, B2, C1, C3, D1, D3.
  assert (NF : forall k', plain k' = true -> cls ms x <> k' -> lexm k' ms n x = (Ok false, ms, new_token x n)) by (intros; now apply lexm_false).
  assert (Pk : plain k = true /\ k <> TkTagLine /\ k <> TkComment /\ k <> TkEmpty) by (cbn in Hk; destruct Hk as [<-|[<-|[<-|[<-|[]]]]]; repeat split; discriminate).
  destruct Pk as [P1 [P2 [P3 P4]]].
  destruct Sk as [C|[C|[C [l L]]]].
  - rewrite (NF TkTagLine), (NF k), (NF TkComment) by (reflexivity || assumption || (rewrite C; congruence)).
    destruct (lexm_true TkEmpty ms n x G Hx eq_refl C) as [t T]; [discriminate..|]. rewrite T, D2. eexists. reflexivity.
  - rewrite (NF TkTagLine), (NF k) by (reflexivity || assumption || (rewrite C; congruence)).
    destruct (lexm_true TkComment ms n x G Hx eq_refl C) as [t T]; [discriminate..|]. rewrite T, C2. eexists. reflexivity.
  - pose proof (lexm_tag ms n x G Hx C) as T. rewrite L in T. destruct T as [t T]. rewrite T, A2. eexists. reflexivity.
Qed.
Lemma skip_go k ms pre : good ms -> Forall (skippable ms) pre -> lines_ok pre -> forall q n post, want q = Some k -> snd (go q ms n pre post) = Ok (q, ms).
Proof.
  intros G F. induction F as [|x pre Hs F IH]; intros Hl q n post W; [reflexivity|]. inversion Hl; subst. cbn [go].
  destruct (skip_step q k ms (S n) x (pre ++ post) W G) as [evs E]; try assumption. rewrite E.
  specialize (IH ltac:(assumption) q (S n) post W). destruct (go q ms (S n) pre post). exact IH.
Qed.

Lemma step_two q st ms n x A B : ptable q = Some st -> good ms -> x <> [] ->
  scan_step q ms n x A = scan_step q ms n x B \/ (exists e, snd (scan_step q ms n x A) = Err e) \/ (exists e, snd (scan_step q ms n x B) = Err e) \/
  (cls ms x = TkTagLine /\ exists qA qB kA kB, snd (scan_step q ms n x A) = Ok (qA, ms) /\ snd (scan_step q ms n x B) = Ok (qB, ms) /\
     want qA = Some kA /\ want qB = Some kB /\ (title2 kA /\ la kA ms A = Ok true \/ title2 kB /\ la kB ms B = Ok true)).
Proof.
  intros Hq G Hx. pose proof (all_states_spec _ tags_ok q st Hq) as T. unfold check_tags in T. apply andb_true_iff in T as [T1 T2].
  pose proof (ptable_basic _ _ Hq) as Hb. unfold check_basic in Hb. repeat (apply andb_true_iff in Hb as [Hb ?Hb]).
  assert (Hla : forall tr, In tr (st_trans st) -> tr_la tr <> None -> tr_tok tr = TkTagLine).
  { intros tr Hin Hn. rewrite forallb_forall in Hb. specialize (Hb tr Hin). apply orb_true_iff in Hb as [Hb|Hb]; [destruct (tr_la tr); [discriminate | contradiction] | now apply tok_eqb_spec]. }
  unfold scan_step. rewrite Hq. destruct (choose_two (st_trans st) ms n x A B G Hx Hla T1) as [E|[[e E]|[[e E]|[C [trA [trB [t [E1 [E2 [I1 [I2 [K1 [K2 L]]]]]]]]]]]]].
  - rewrite E. now left.
  - right. left. exists e. destruct (choose (st_trans st) ms n x A) as [es c]. cbn in E. subst c. reflexivity.
  - right. right. left. exists e. destruct (choose (st_trans st) ms n x B) as [es c]. cbn in E. subst c. reflexivity.
  - right. right. right. split; [exact C|]. rewrite E1, E2. cbn [snd]. rewrite forallb_forall in T2.
    pose proof (T2 trA I1) as TA. pose proof (T2 trB I2) as TB. rewrite K1 in TA. rewrite K2 in TB. cbn [tok_eqb negb orb] in TA, TB.
    destruct (want (tr_next trA)) as [kA|] eqn:WA; [|discriminate]. destruct (want (tr_next trB)) as [kB|] eqn:WB; [|discriminate].
    exists (tr_next trA), (tr_next trB), kA, kB. split; [reflexivity|]. split; [reflexivity|]. split; [exact WA|]. split; [exact WB|].
    destruct L as [[l [L1 L2]]|[l [L1 L2]]]; [left; rewrite L1 in TA; apply tok_eqb_spec in TA as -> | right; rewrite L1 in TB; apply tok_eqb_spec in TB as ->]; split; auto using la_tok_title2.
Qed.

Lemma scan_step_next q st ms n x rest cs evs q' ms' : ptable q = Some st -> st_inv q ms cs -> x <> [] -> scan_step q ms n x rest = (evs, Ok (q', ms')) ->
  ptable q' <> None /\ exists cs', st_inv q' ms' cs'.
Proof. intros Hq Hi Hx E. destruct (scan_step_sound _ _ _ _ _ _ _ _ _ Hq Hi E) as [_ [cs' [_ [D1 [D2 _]]]]]. split; [exact (D2 Hx) | eauto]. Qed.
(** the same step with both continuations, when none of them is looked at *)
Lemma step_fixed q st ms n x pre A B : ptable q = Some st -> good ms -> x <> [] -> ~ Forall (skippable ms) pre -> scan_step q ms n x (pre ++ A) = scan_step q ms n x (pre ++ B).
Proof.
  intros Hq G Hx F. unfold scan_step. rewrite Hq.
  assert (E : forall trs, choose trs ms n x (pre ++ A) = choose trs ms n x (pre ++ B)).
  { induction trs as [|tr trs IH]; [reflexivity|]. cbn [choose].
    destruct (lexm (tr_tok tr) ms n x) as [[[[]|e] m] t]; [|exact IH|destruct e; try reflexivity; now rewrite IH].
    destruct (tr_la tr) as [l|]; [|reflexivity]. rewrite (la_fixed (la_tok l) ms pre (la_tok_title2 l) F A B), IH. reflexivity. }
  now rewrite E.
Qed.

Lemma skippable_tail ms x b : good ms -> begins [ch_at] x -> Forall (skippable ms) b -> ends_with_tags (x :: b).
Proof.
  intros G. revert x. induction b as [|y b IH] using rev_ind; intros x Hx F; [exists [], x, []; auto|].
  apply Forall_app in F as [F1 F2]. inversion F2 as [|? ? Fy _]; subst.
  assert (Q : begins [ch_at] y \/ all_space y \/ begins [ch_hash] y).
  { destruct Fy as [C|[C|[C _]]]; [right; left; now apply (cls_blank ms y G) | right; right | left].
    - now apply (cls_begins ms y TkComment ch_hash G ltac:(discriminate) ltac:(discriminate) eq_refl).
    - now apply (cls_begins ms y TkTagLine ch_at G ltac:(discriminate) ltac:(discriminate) eq_refl). }
  destruct Q as [Q|Q]; [exists (x :: b), y, []; auto|].
  destruct (IH x Hx F1) as [a [z [c [E [H1 H2]]]]]. exists a, z, (c ++ [y]). split; [|split; [exact H1|]].
  - change (x :: b ++ [y]) with ((x :: b) ++ [y]). rewrite E, <- app_assoc. reflexivity.
  - apply Forall_app. split; [exact H2 | now constructor].
Qed.
Lemma ends_with_tags_cons x pre : ends_with_tags pre -> ends_with_tags (x :: pre).
Proof. intros [a [y [b [-> H]]]]. exists (x :: a), y, b. auto. Qed.

Theorem go_two pre : forall q ms n A B cs, lines_ok pre -> ptable q <> None -> st_inv q ms cs ->
  go q ms n pre A = go q ms n pre B \/ (exists e, snd (go q ms n pre A) = Err e) \/ (exists e, snd (go q ms n pre B) = Err e) \/
  (ends_with_tags pre /\ exists qA qB kA kB ms', good ms' /\ snd (go q ms n pre A) = Ok (qA, ms') /\ snd (go q ms n pre B) = Ok (qB, ms') /\
     want qA = Some kA /\ want qB = Some kB /\ (title2 kA /\ la kA ms' A = Ok true \/ title2 kB /\ la kB ms' B = Ok true)).
Proof.
  induction pre as [|x pre IH]; intros q ms n A B cs Hl Hq Hi; [now left|]. inversion Hl as [|? ? Hx Hl']; subst.
  destruct (ptable q) as [st|] eqn:Eq; [|contradiction].
  assert (G : good ms) by (destruct Hi as [fr [_ [_ [M _]]]]; now apply matcher_good).
  assert (Same : scan_step q ms (S n) x (pre ++ A) = scan_step q ms (S n) x (pre ++ B) ->
    go q ms n (x :: pre) A = go q ms n (x :: pre) B \/ (exists e, snd (go q ms n (x :: pre) A) = Err e) \/ (exists e, snd (go q ms n (x :: pre) B) = Err e) \/
    (ends_with_tags (x :: pre) /\ exists qA qB kA kB ms', good ms' /\ snd (go q ms n (x :: pre) A) = Ok (qA, ms') /\ snd (go q ms n (x :: pre) B) = Ok (qB, ms') /\
     want qA = Some kA /\ want qB = Some kB /\ (title2 kA /\ la kA ms' A = Ok true \/ title2 kB /\ la kB ms' B = Ok true))).
  { intros E. cbn [go]. rewrite E. destruct (scan_step q ms (S n) x (pre ++ B)) as [evs [[q' ms']|e]] eqn:Sc; [|now left].
    destruct (scan_step_next _ _ _ _ _ _ _ _ _ _ Eq Hi Hx Sc) as [Hq' [cs' Hi']].
    destruct (IH q' ms' (S n) A B cs' Hl' Hq' Hi') as [I|[[e I]|[[e I]|[T [qA [qB [kA [kB [m [I0 [I1 [I2 I3]]]]]]]]]]]].
    - left. now rewrite I.
    - right. left. exists e. destruct (go q' ms' (S n) pre A). exact I.
    - right. right. left. exists e. destruct (go q' ms' (S n) pre B). exact I.
    - right. right. right. split; [now apply ends_with_tags_cons|]. exists qA, qB, kA, kB, m. split; [exact I0|].
      destruct (go q' ms' (S n) pre A), (go q' ms' (S n) pre B). cbn [snd] in *. auto. }
  assert (Dec : Forall (skippable ms) pre \/ ~ Forall (skippable ms) pre).
  { clear. induction pre as [|y pre [IH|IH]]; [left; constructor | | right; intros H; inversion H; contradiction].
    destruct (skippable_dec ms y); [left; now constructor | right; intros H'; inversion H'; contradiction]. }
  destruct Dec as [F|F]; [|apply Same; now apply (step_fixed q st)].
  destruct (step_two q st ms (S n) x (pre ++ A) (pre ++ B) Eq G Hx) as [E|[[e E]|[[e E]|[C [qA [qB [kA [kB [E1 [E2 [WA [WB L]]]]]]]]]]]].
  - now apply Same.
  - right. left. exists e. cbn [go]. destruct (scan_step q ms (S n) x (pre ++ A)) as [ev r]. cbn in E. subst r. reflexivity.
  - right. right. left. exists e. cbn [go]. destruct (scan_step q ms (S n) x (pre ++ B)) as [ev r]. cbn in E. subst r. reflexivity.
  - right. right. right. split; [apply (skippable_tail ms); auto; now apply (cls_begins ms x TkTagLine ch_at G ltac:(discriminate) ltac:(discriminate) eq_refl)|].
    exists qA, qB, kA, kB, ms. split; [exact G|]. cbn [go].
    destruct (scan_step q ms (S n) x (pre ++ A)) as [evA rA]. destruct (scan_step q ms (S n) x (pre ++ B)) as [evB rB]. cbn [snd] in E1, E2. subst rA rB.
    pose proof (skip_go kA ms pre G F Hl' qA (S n) A WA) as SA. pose proof (skip_go kB ms pre G F Hl' qB (S n) B WB) as SB.
    destruct (go qA ms (S n) pre A), (go qB ms (S n) pre B). cbn [snd] in *. split; [exact SA|]. split; [exact SB|]. split; [exact WA|]. split; [exact WB|].
    destruct L as [[L1 L2]|[L1 L2]]; [left | right]; (split; [exact L1|]); now rewrite la_skip in L2.
Qed.
