(** * Emptying the lines with errors: facts for C76 *)
From Verif Require Import PyStr PyStrFacts Types Regex Line DialectData Matcher Ast ParserTable Parser Classify Table Scan Grammar Deriv Cert LineSpec Cst Report Eval LangSpec LangFacts Complete DocSpec LineIff DocRun ErrorSpec ErrorFacts ExpectFacts.

Definition is_ut (e : perr) : bool := match pe_kind e with KUnexpectedToken => true | _ => false end.

(** ** Two texts that are read alike *)

(** what the lines [A] and [B] after a tag line have in common, if title [kq] is what the tags belong to in [A] *)
Definition follow (kq : tok) (ms : mstate) (A B : list str) : Prop := forall k, title2 k ->
  (la k ms B = Ok false \/ (k = kq /\ la k ms B = Ok true)) /\ (k = kq -> la k ms A = Ok true -> la k ms B = Ok true).

Fixpoint after_la (trs : list trans) : bool :=
  match trs with
  | [] => true
  | tr :: r =>
      match tr_la tr with
      | Some l => forallb (fun tr' => negb (tok_eqb (tr_tok tr') TkTagLine) ||
                    match want (tr_next tr') with Some k => negb (tok_eqb k (la_tok l)) | None => false end) r
      | None => true end && after_la r
  end.
Lemma after_la_ok : all_states (fun _ st => after_la (st_trans st)) = true.
Proof. vm_compute. reflexivity. Qed.

Lemma choose_no_look trs ms n x A B : (forall tr, In tr trs -> tr_la tr <> None -> tr_tok tr = TkTagLine) -> fst (fst (lexm TkTagLine ms n x)) <> Ok true ->
  choose trs ms n x A = choose trs ms n x B.
Proof.
  intros Hla C. induction trs as [|tr trs IH]; [reflexivity|]. cbn [choose].
  assert (IH' : choose trs ms n x A = choose trs ms n x B) by (apply IH; intros; apply Hla; [now right | assumption]).
  destruct (lexm (tr_tok tr) ms n x) as [[[[]|e] m] t] eqn:L; [|exact IH'|destruct e; try reflexivity; now rewrite IH'].
  destruct (tr_la tr) as [l|] eqn:E; [|reflexivity]. exfalso. rewrite (Hla tr (or_introl eq_refl)) in L by (rewrite E; discriminate). rewrite L in C. now apply C.
Qed.

Lemma choose_same trs ms n x A B es c :
  good ms -> x <> [] -> (forall tr, In tr trs -> tr_la tr <> None -> tr_tok tr = TkTagLine) ->
  (forall tr, In tr trs -> tr_tok tr = TkTagLine -> exists k, want (tr_next tr) = Some k /\ forall l, tr_la tr = Some l -> k = la_tok l) ->
  after_la trs = true -> forall seen, tags_last seen trs = true ->
  choose trs ms n x A = (es, c) -> (forall e, c <> CExn e) ->
  (forall tr t kq, c = CTrans tr t ms -> tr_tok tr = TkTagLine -> want (tr_next tr) = Some kq -> follow kq ms A B) ->
  choose trs ms n x B = (es, c).
Proof.
  intros G Hx Hla Hw. destruct (lexm TkTagLine ms n x) as [[r m0] t0] eqn:L0.
  assert (Dec : r = Ok true \/ r <> Ok true) by (destruct r as [[]|]; [now left | right; discriminate ..]).
  destruct Dec as [-> |Nr].
  2:{ intros _ seen _ H _ _. rewrite <- H. symmetry. apply choose_no_look; [exact Hla | rewrite L0; exact Nr]. }
  assert (m0 = ms) as -> by (eapply lexm_other; [exact L0 | discriminate | discriminate]).
  pose proof (lexm_cls TkTagLine ms n x ms t0 G eq_refl L0) as C.
  revert es. induction trs as [|tr trs IH]; intros es Ha seen Ht H Hc Hf; [exact H|].
  cbn [choose] in *. cbn [after_la] in Ha. apply andb_true_iff in Ha as [Ha1 Ha2].
  assert (Hla' : forall tr', In tr' trs -> tr_la tr' <> None -> tr_tok tr' = TkTagLine) by (intros; apply Hla; [now right | assumption]).
  assert (Hw' : forall tr', In tr' trs -> tr_tok tr' = TkTagLine -> exists k, want (tr_next tr') = Some k /\ forall l, tr_la tr' = Some l -> k = la_tok l) by (intros; apply Hw; [now right | assumption]).
  specialize (IH Hla' Hw').
  destruct (tok_eqb (tr_tok tr) TkTagLine) eqn:Q; cbn [tags_last] in Ht; rewrite Q in Ht.
  - apply tok_eqb_spec in Q. rewrite Q, L0 in *. destruct (tr_la tr) as [l|] eqn:El; [|exact H].
    destruct (Hw tr (or_introl eq_refl) Q) as [kq [W1 W2]]. specialize (W2 l El). subst kq.
    destruct (la (la_tok l) ms A) as [[]|e] eqn:LA.
    + injection H as <- <-. destruct (Hf tr t0 (la_tok l) eq_refl Q W1 (la_tok l) (la_tok_title2 l)) as [_ F]. rewrite (F eq_refl LA). reflexivity.
    + destruct (choose_tag trs ms n x t0 A G Hx C L0 Ht) as [[e Cr]|[tr' [T1 [T2 T3]]]]; [rewrite H in Cr; now destruct (Hc e)|].
      assert (c = CTrans tr' t0 ms) as -> by congruence.
      destruct (Hw' tr' T1 T2) as [k' [W3 _]]. destruct (Hf tr' t0 k' eq_refl T2 W3 (la_tok l) (la_tok_title2 l)) as [[F|[F _]] _].
      * rewrite F. eapply IH; eauto.
      * exfalso. rewrite forallb_forall in Ha1. specialize (Ha1 tr' T1). rewrite T2, W3, F in Ha1. cbn [tok_eqb negb orb] in Ha1. rewrite tok_eqb_refl in Ha1. discriminate.
    + injection H as _ <-. now destruct (Hc e).
  - apply andb_true_iff in Ht as [_ Ht].
    assert (El : tr_la tr = None) by (destruct (tr_la tr) eqn:E; [|reflexivity]; rewrite (Hla tr (or_introl eq_refl)) in Q by (rewrite E; discriminate); discriminate).
    rewrite El in *. destruct (lexm (tr_tok tr) ms n x) as [[[[]|e] m] t]; [exact H | eapply IH; eauto|].
    destruct e; try exact H. destruct (choose trs ms n x A) as [es' c'] eqn:E. injection H as <- <-. now rewrite (IH es' Ha2 seen Ht eq_refl Hc Hf).
Qed.

(** ** The states after tag lines *)
Lemma want_step q kq ms n x rest evs r : want q = Some kq -> good ms -> x <> [] -> scan_step q ms n x rest = (evs, r) ->
  (skippable ms x /\ r = Ok (q, ms) /\ forall e, ~ In (EvErr e) evs) \/
  (cls ms x = kq /\ forall e, ~ In (EvErr e) evs) \/
  (exists e, r = Err e) \/
  (~ skippable ms x /\ cls ms x <> TkTagLine /\ cls ms x <> kq /\ r = Ok (q, ms) /\ exists exp, evs = [EvErr (unexpected (new_token x n) exp)]).
Proof.
  intros W G Hx. destruct (want_inv q kq W) as [st [t1 [t2 [t3 [t4 [Hq [E [A1 [A2 [A3 [B1 [B2 [C1 [C2 [C3 [D1 [D2 [D3 [Hk _]]]]]]]]]]]]]]]]]]].
  pose proof (ptable_basic _ _ Hq) as Hb. unfold check_basic in Hb. apply andb_true_iff in Hb as [Hb _]. apply andb_true_iff in Hb as [_ Hb]. apply Nat.eqb_eq in Hb.
  unfold scan_step. rewrite Hq, E. cbn [choose]. rewrite A1, A3, B1, B2, C1, C3, D1, D3.
  assert (NF : forall k', plain k' = true -> cls ms x <> k' -> lexm k' ms n x = (Ok false, ms, new_token x n)) by (intros; now apply lexm_false).
  assert (Pk : plain kq = true /\ kq <> TkTagLine /\ kq <> TkTableRow /\ kq <> TkComment /\ kq <> TkEmpty) by (cbn in Hk; destruct Hk as [<-|[<-|[<-|[<-|[]]]]]; repeat split; discriminate).
  destruct Pk as [P1 [P2 [P5 [P3 P4]]]].
  assert (NE : forall a acts e, ~ In (EvErr e) (map EvErr [] ++ [EvAct a acts])) by (intros a acts e [F|[]]; discriminate F).
  destruct (tok_eqb (cls ms x) TkTagLine) eqn:Q1.
  { apply tok_eqb_spec in Q1. pose proof (lexm_tag ms n x G Hx Q1) as T. destruct (g_tags (mkLine x 0)) as [l|e] eqn:Tg.
    - destruct T as [t T]. rewrite T, A2. intros H. injection H as <- <-. left. split; [right; right; eauto|]. split; [reflexivity | apply NE].
    - destruct T as [T Np]. rewrite T. destruct e; try (intros H; injection H as <- <-; right; right; left; eexists; reflexivity). exfalso. eapply Np. reflexivity. }
  assert (N1 : cls ms x <> TkTagLine) by (intros F; rewrite F in Q1; discriminate). rewrite (NF TkTagLine eq_refl N1).
  destruct (tok_eqb (cls ms x) kq) eqn:Q2.
  { apply tok_eqb_spec in Q2. destruct (lexm_true kq ms n x G Hx P1 Q2 P2 P5) as [t T]. rewrite T. intros H. injection H as <- <-. right. left. split; [exact Q2 | apply NE]. }
  assert (N2 : cls ms x <> kq) by (intros F; rewrite F, tok_eqb_refl in Q2; discriminate). rewrite (NF kq P1 N2).
  destruct (tok_eqb (cls ms x) TkComment) eqn:Q3.
  { apply tok_eqb_spec in Q3. destruct (lexm_true TkComment ms n x G Hx eq_refl Q3 ltac:(discriminate) ltac:(discriminate)) as [t T]. rewrite T, C2. intros H. injection H as <- <-.
    left. split; [right; now left|]. split; [reflexivity | apply NE]. }
  assert (N3 : cls ms x <> TkComment) by (intros F; rewrite F in Q3; discriminate). rewrite (NF TkComment eq_refl N3).
  destruct (tok_eqb (cls ms x) TkEmpty) eqn:Q4.
  { apply tok_eqb_spec in Q4. destruct (lexm_true TkEmpty ms n x G Hx eq_refl Q4 ltac:(discriminate) ltac:(discriminate)) as [t T]. rewrite T, D2. intros H. injection H as <- <-.
    left. split; [now left|]. split; [reflexivity | apply NE]. }
  assert (N4 : cls ms x <> TkEmpty) by (intros F; rewrite F in Q4; discriminate). rewrite (NF TkEmpty eq_refl N4).
  intros H. injection H as <- <-. right. right. right. split; [intros [F|[F|[F _]]]; contradiction|]. split; [exact N1|]. split; [exact N2|]. rewrite Hb. split; [reflexivity | eexists; reflexivity].
Qed.

(** ** The lines that are emptied *)
Section Bad.
Context (bad : nat -> bool).
Inductive emptied_from : nat -> list str -> list str -> Prop :=
| ef_nil n : emptied_from n [] []
| ef_cons n x x' l l' : x' <> [] -> (if bad (S n) then all_space x' else x' = x) -> emptied_from (S n) l l' -> emptied_from n (x :: l) (x' :: l').
(** the lines [bad] are those with errors *)
Definition bad_lines (n : nat) (lines : list str) (evs : list ev) : Prop :=
  (forall e, In (EvErr e) evs -> is_ut e = true -> bad (l_line (pe_loc e)) = true) /\
  (forall m, n < m <= n + length lines -> bad m = true -> exists e, In (EvErr e) evs /\ is_ut e = true /\ l_line (pe_loc e) = m).
Lemma bad_cons q st ms cs n x rest ev1 q' ms' ev2 r : ptable q = Some st -> st_inv q ms cs -> x <> [] -> lines_ok rest ->
  scan_step q ms (S n) x rest = (ev1, Ok (q', ms')) -> scan q' ms' (S n) rest = (ev2, r) -> bad_lines n (x :: rest) (ev1 ++ ev2) ->
  bad_lines (S n) rest ev2 /\ ((exists e, In (EvErr e) ev1 /\ is_ut e = true) <-> bad (S n) = true) /\ ptable q' <> None /\ exists cs', st_inv q' ms' cs'.
Proof.
  intros Hq Hi Hx Hl E1 E2 [H1 H2]. destruct (scan_step_sound _ _ _ _ _ _ _ _ _ Hq Hi E1) as [F [cs' [_ [D1 [D2 _]]]]].
  destruct (scan_sound rest q' ms' (S n) cs' ev2 r Hl (D2 Hx) D1 E2) as [F2 _].
  rewrite Forall_forall in F, F2. split; [split|split; [split|split; [exact (D2 Hx) | eauto]]].
  - intros e He. apply H1. apply in_or_app. now right.
  - intros m Hm Hb. destruct (H2 m ltac:(cbn [length]; lia) Hb) as [e [He [U L]]]. apply in_app_or in He as [He|He]; [|eauto].
    exfalso. specialize (F _ He). cbn [ev_at] in F. lia.
  - intros [e [He U]]. specialize (F _ He). cbn [ev_at] in F. rewrite <- F. apply H1; [apply in_or_app; now left | exact U].
  - intros Hb. destruct (H2 (S n) ltac:(cbn [length]; lia) Hb) as [e [He [U L]]]. apply in_app_or in He as [He|He]; [eauto|].
    exfalso. destruct (F2 _ He) as [m [M1 M2]]. cbn [ev_at] in M2. lia.
Qed.

Lemma tag_follow lines : forall lines' q kq ms n cs evs, lines_ok lines -> want q = Some kq -> st_inv q ms cs ->
  scan q ms n lines = (evs, Ok tt) -> bad_lines n lines evs -> emptied_from n lines lines' -> follow kq ms lines lines'.
Proof.
  induction lines as [|x rest IH]; intros lines' q kq ms n cs evs Hl W Hi Sc Hb He; inversion He as [|? ? x' ? rest' Hx' Hbad He']; subst.
  { intros k Hk. cbn [la]. split; [now left | discriminate]. }
  inversion Hl as [|? ? Hx Hl']; subst. cbn [scan] in Sc. destruct (scan_step q ms (S n) x rest) as [ev1 [[q' ms']|e]] eqn:E1; [|discriminate Sc].
  destruct (scan q' ms' (S n) rest) as [ev2 r2] eqn:E2. injection Sc as <- ->.
  assert (exists st, ptable q = Some st) as [st Hq] by (destruct (want_inv q kq W) as [st [t1 [t2 [t3 [t4 [Hq _]]]]]]; eauto).
  assert (G : good ms) by (destruct Hi as [fr [_ [_ [M _]]]]; now apply matcher_good).
  destruct (bad_cons q st ms cs n x rest ev1 q' ms' ev2 (Ok tt) Hq Hi Hx Hl' E1 E2 Hb) as [B1 [B2 [B3 [cs' B4]]]].
  intros k Hk. destruct (want_step q kq ms (S n) x rest ev1 _ W G Hx E1) as [[S1 [S2 S3]]|[[S1 S2]|[[e S1]|[S1 [S0 [S4 [S2 [exp S3]]]]]]]].
  - injection S2 as -> ->. destruct (bad (S n)) eqn:Bd; [destruct (proj2 B2 eq_refl) as [e [In1 _]]; now destruct (S3 e)|]. subst x'.
    pose proof (IH rest' q kq ms (S n) cs' ev2 Hl' W B4 E2 B1 He' k Hk) as F.
    change (x :: rest) with ([x] ++ rest). change (x :: rest') with ([x] ++ rest'). rewrite !(la_skip k ms [x] Hk) by (constructor; [exact S1 | constructor]). exact F.
  - destruct (bad (S n)) eqn:Bd; [destruct (proj2 B2 eq_refl) as [e [In1 _]]; now destruct (S2 e)|]. subst x'. cbn [la]. rewrite S1.
    destruct (want_inv q kq W) as [_ [_ [_ [_ [_ [_ [_ [_ [_ [_ [_ [_ [_ [_ [_ [_ [_ [_ [K _]]]]]]]]]]]]]]]]]]].
    cbn [In] in K. destruct K as [<-|[<-|[<-|[<-|[]]]]], Hk as [-> | ->]; cbn [tok_eqb]; (split; [auto | auto; discriminate]).
  - discriminate S1.
  - injection S2 as -> ->. assert (Bd : bad (S n) = true).
    { apply (proj1 B2). rewrite S3. eexists. split; [left; reflexivity|]. rewrite unexpected_line_shown by exact Hx. reflexivity. }
    rewrite Bd in Hbad. apply (cls_blank ms x' G) in Hbad.
    pose proof (IH rest' q kq ms (S n) cs' ev2 Hl' W B4 E2 B1 He' k Hk) as [F1 F2].
    change (x' :: rest') with ([x'] ++ rest'). rewrite !(la_skip k ms [x'] Hk) by (constructor; [now left | constructor]). split; [exact F1|].
    intros -> L. exfalso. cbn [la] in L. destruct (tok_eqb (cls ms x) kq) eqn:Qk; [apply tok_eqb_spec in Qk; contradiction|].
    destruct (cls ms x) eqn:Cx; try discriminate L; [apply S1; now left | apply S1; right; now left | congruence].
Qed.

(** ** A blank line in place of an unexpected one *)
Definition check_blank (q : nat) (st : pstate) : bool :=
  accepts TkOther st ||
  existsb (fun tr => tok_eqb (tr_tok tr) TkEmpty) (st_trans st) &&
  forallb (fun tr => negb (tok_eqb (tr_tok tr) TkEmpty) || tr_is TkEmpty q tr && acts_eqb (tr_acts tr) [ABuild]) (st_trans st).
Lemma blank_ok : all_states check_blank = true.
Proof. vm_compute. reflexivity. Qed.
Lemma lexm_blank k ms n x : matcher_ok ms -> x <> [] -> cls ms x = TkEmpty -> k <> TkEmpty -> k <> TkOther -> lexm k ms n x = (Ok false, ms, new_token x n).
Proof.
  intros M Hx C K1 K2. pose proof (matcher_good _ M) as G. destruct (plain k) eqn:P.
  { apply lexm_false; try assumption. congruence. }
  assert (L : lstrip x = []) by (now apply (cls_empty ms x)).
  destruct k; try discriminate P; try contradiction.
  - rewrite lexm_ne by exact Hx. cbn [classic_match]. unfold match_EOF, t_eof, g_bool. cbn [t_line new_token g_text]. destruct x; [contradiction | reflexivity].
  - rewrite lexm_ne by exact Hx. cbn [classic_match]. unfold c_match_DocStringSeparator.
    assert (Q : forall sep op, sep = sep_quotes \/ sep = sep_ticks -> match_separator None sep op ms (new_token x n) = (Ok false, ms, new_token x n)).
    { intros sep op Hs. unfold match_separator, g_startswith. change (g_trimmed (t_line (new_token x n))) with (lstrip x). rewrite L. destruct Hs as [-> | ->]; reflexivity. }
    destruct M as [_ _ [S|[S|S]]]; rewrite S; [unfold m_or; rewrite Q by (now left)|..]; apply Q; auto.
  - pose proof (language_re x) as R. destruct (re_match LANGUAGE_RE (lstrip x)) as [st|] eqn:E.
    + destruct R as [name [_ R]]. pose proof (cls_language ms x name G R). congruence.
    + now apply lexm_lang_false.
Qed.
Lemma blank_step q st ms cs n x x' rest es : ptable q = Some st -> st_inv q ms cs -> x <> [] -> x' <> [] -> all_space x' ->
  choose (st_trans st) ms n x rest = (es, CNone) -> forall rest', exists t,
  t_mtype t = Some TkEmpty /\ scan_step q ms n x' rest' = ([EvAct (mkLeaf ms n x' t) [ABuild]], Ok (q, ms)).
Proof.
  intros Hq Hi Hx Hx' Hb Hc rest'. destruct Hi as [fr [_ [_ [M _]]]]. pose proof (matcher_good _ M) as G. apply (cls_blank ms x' G) in Hb.
  pose proof (all_states_spec _ blank_ok q st Hq) as C. unfold check_blank in C.
  pose proof (choose_refuses _ _ _ _ _ _ Hc) as R.
  pose proof (all_states_spec _ expected_ok q st Hq) as X. unfold check_expected in X. clear X.
  assert (NO : forall tr, In tr (st_trans st) -> tr_tok tr <> TkOther).
  { intros tr Hin K. rewrite Forall_forall in R. destruct (R tr Hin) as [F|[[p F]|[l [F _]]]].
    - rewrite K, lexm_ne in F by exact Hx. discriminate F.
    - rewrite K, lexm_ne in F by exact Hx. discriminate F.
    - rewrite (la_tagline q st tr l Hq Hin F) in K. discriminate K. }
  assert (A : accepts TkOther st = false).
  { destruct (accepts TkOther st) eqn:A; [|reflexivity]. unfold accepts in A. apply existsb_exists in A as [tr [A1 A2]].
    exfalso. apply (NO tr A1). clear -A2. destruct (tr_tok tr); cbn in A2; first [reflexivity | discriminate]. }
  rewrite A in C. cbn [orb] in C. apply andb_true_iff in C as [C1 C2].
  destruct (lexm_true TkEmpty ms n x' G Hx' eq_refl Hb ltac:(discriminate) ltac:(discriminate)) as [t T].
  exists t. split; [exact (lexm_kind _ _ _ _ _ _ T)|]. unfold scan_step. rewrite Hq.
  assert (H : exists tr, In tr (st_trans st) /\ tr_tok tr = TkEmpty /\ choose (st_trans st) ms n x' rest' = ([], CTrans tr t ms)).
  { assert (HL : forall tr, In tr (st_trans st) -> tr_tok tr = TkEmpty -> tr_la tr = None).
    { intros tr Hin K. destruct (tr_la tr) as [l|] eqn:El; [|reflexivity]. rewrite (la_tagline q st tr l Hq Hin El) in K. discriminate K. }
    clear -M Hx' Hb NO C1 T HL. induction (st_trans st) as [|tr trs IH]; [discriminate C1|]. cbn [choose].
    destruct (tok_eqb (tr_tok tr) TkEmpty) eqn:Q.
    - apply tok_eqb_spec in Q. rewrite Q, T, (HL tr (or_introl eq_refl) Q). exists tr. split; [now left | auto].
    - cbn [existsb] in C1. rewrite Q in C1. rewrite lexm_blank; [|exact M|exact Hx'|exact Hb|intros F; rewrite F in Q; discriminate|apply NO; now left].
      destruct IH as [tr' [I1 I2]]; [exact C1 | intros; apply NO; now right | intros; apply HL; [now right | assumption]|]. exists tr'. split; [now right | exact I2]. }
  destruct H as [tr [H1 [H2 H3]]]. rewrite H3. rewrite forallb_forall in C2. specialize (C2 tr H1). rewrite H2 in C2. cbn [tok_eqb negb orb] in C2.
  apply andb_true_iff in C2 as [C2 C3]. apply acts_eqb_spec in C3. unfold tr_is in C2. apply andb_true_iff in C2 as [_ C2]. apply Nat.eqb_eq in C2.
  rewrite C2, C3. reflexivity.
Qed.

(** ** The events of the two scans *)
Inductive mended : ev -> ev -> Prop :=
| me_same e : (forall p, e = EvErr p -> is_ut p = false) -> mended e e
| me_blank p a : is_ut p = true -> t_mtype (lf_t a) = Some TkEmpty -> mended (EvErr p) (EvAct a [ABuild]).

Lemma language_not_ut p : pe_kind p = KNoSuchLanguage -> is_ut p = false.
Proof. unfold is_ut. now intros ->. Qed.

Theorem scan_repair lines : forall lines' q ms n cs evs, lines_ok lines -> ptable q <> None -> st_inv q ms cs ->
  scan q ms n lines = (evs, Ok tt) -> bad_lines n lines evs -> emptied_from n lines lines' ->
  exists evs', scan q ms n lines' = (evs', Ok tt) /\ Forall2 mended evs evs'.
Proof.
  induction lines as [|x rest IH]; intros lines' q ms n cs evs Hl Hq Hi Sc Hb He; inversion He as [|? ? x' ? rest' Hx' Hbad He']; subst.
  { exists evs. split; [exact Sc|]. cbn [scan] in Sc. unfold scan_step in Sc. destruct (ptable q) as [st|]; [|contradiction].
    destruct (choose (st_trans st) ms (S n) [] []) as [es ch] eqn:E.
    assert (es = []) as ->.
    { clear -E. revert es ch E. induction (st_trans st) as [|tr trs IH]; intros es ch; cbn [choose]; [intros H; now injection H|].
      destruct (tok_eqb (tr_tok tr) TkEOF) eqn:Q.
      - apply tok_eqb_spec in Q. rewrite Q. change (lexm TkEOF ms (S n) []) with (Ok true, ms, set_matched ms (new_token [] (S n)) (Some TkEOF) None None None None []).
        cbv iota. destruct (tr_la tr) as [l|]; [cbn [la]; apply IH | intros H; now injection H].
      - rewrite lexm_nil by (intros F; rewrite F in Q; discriminate). apply IH. }
    destruct ch as [tr t ms'| |e]; [| |discriminate Sc]; injection Sc as <-; cbn [map app]; repeat constructor; intros p Hp; [discriminate Hp|].
    injection Hp as <-. reflexivity. }
  inversion Hl as [|? ? Hx Hl']; subst. cbn [scan] in Sc. destruct (scan_step q ms (S n) x rest) as [ev1 [[q' ms']|e]] eqn:E1; [|discriminate Sc].
  destruct (scan q' ms' (S n) rest) as [ev2 r2] eqn:E2. injection Sc as <- ->.
  destruct (ptable q) as [st|] eqn:Eq; [|contradiction].
  assert (G : good ms) by (destruct Hi as [fr [_ [_ [M _]]]]; now apply matcher_good).
  destruct (bad_cons q st ms cs n x rest ev1 q' ms' ev2 (Ok tt) Eq Hi Hx Hl' E1 E2 Hb) as [B1 [B2 [B3 [cs' B4]]]].
  destruct (IH rest' q' ms' (S n) cs' ev2 Hl' B3 B4 E2 B1 He') as [ev2' [S2 F2]].
  pose proof E1 as E1'. unfold scan_step in E1'. rewrite Eq in E1'. destruct (choose (st_trans st) ms (S n) x rest) as [es ch] eqn:Ech.
  pose proof (choose_error _ _ _ _ _ Hx _ _ Ech) as Hes.
  assert (Nes : Forall (fun p => is_ut p = false) es) by (eapply Forall_impl; [|exact Hes]; intros p [name [_ [_ ->]]]; reflexivity).
  cbn [scan]. destruct (bad (S n)) eqn:Bd.
  - destruct (proj2 B2 eq_refl) as [e [In1 U]].
    destruct ch as [tr t ms2| |e2]; [| |discriminate E1'].
    { exfalso. injection E1' as <- _ _. apply in_app_or in In1 as [In1|[In1|[]]]; [|discriminate In1]. apply in_map_iff in In1 as [p [Ep Ip]]. injection Ep as ->. rewrite Forall_forall in Nes. rewrite (Nes _ Ip) in U. discriminate U. }
    assert (es = []) as ->.
    { destruct es as [|p es]; [reflexivity|exfalso]. inversion Hes as [|? ? [name [N1 [N2 N3]]] _]; subst.
      assert (Lang : In TkLanguage (st_expected st)).
      { destruct (expected_facts q st Eq) as [_ [_ [_ [Ex _]]]].
        assert (HL : forall trs es0 c, choose trs ms (S n) x rest = (es0, c) -> es0 <> [] -> exists tr, In tr trs /\ tr_tok tr = TkLanguage).
        { clear -Hx. induction trs as [|tr trs IH]; intros es0 c; cbn [choose]; [intros H; injection H as <- <-; contradiction|].
          destruct (lexm (tr_tok tr) ms (S n) x) as [[[[]|e] m] t] eqn:L.
          - destruct (tr_la tr) as [l|]; [destruct (la (la_tok l) ms rest) as [[]|]|]; try (intros H; injection H as <- <-; contradiction).
            intros H Hn. destruct (IH _ _ H Hn) as [tr' [I1 I2]]. exists tr'. split; [now right | exact I2].
          - intros H Hn. destruct (IH _ _ H Hn) as [tr' [I1 I2]]. exists tr'. split; [now right | exact I2].
          - destruct e; try (intros H; injection H as <- <-; contradiction). intros _ _. exists tr. split; [now left|]. now apply lexm_error in L as [L _]. }
        destruct (HL _ _ _ Ech ltac:(discriminate)) as [tr [I1 I2]]. rewrite <- I2. now apply Ex. }
      apply (refused_kinds q st ms cs (S n) x rest _ Eq Hi Hx Ech TkLanguage Lang). eapply kl_language. exact N1. }
    pose proof (ptable_basic _ _ Eq) as Hs. unfold check_basic in Hs. apply andb_true_iff in Hs as [Hs _]. apply andb_true_iff in Hs as [_ Hs]. apply Nat.eqb_eq in Hs.
    injection E1' as <- <- <-. rewrite Hs in *. destruct (blank_step q st ms cs (S n) x x' rest [] Eq Hi Hx Hx' Hbad Ech rest') as [t [T1 T2]].
    rewrite T2, S2. eexists. split; [reflexivity|]. cbn [map app]. constructor; [|exact F2]. constructor; [|exact T1]. rewrite unexpected_line_shown by exact Hx. reflexivity.
  - subst x'. assert (Same : scan_step q ms (S n) x rest' = (ev1, Ok (q', ms'))).
    { rewrite <- E1. unfold scan_step. rewrite Eq. rewrite Ech.
      pose proof (all_states_spec _ tags_ok q st Eq) as T. unfold check_tags in T. apply andb_true_iff in T as [T1 T2]. rewrite forallb_forall in T2.
      rewrite (choose_same (st_trans st) ms (S n) x rest rest' es ch G Hx) with (seen := false); auto.
      - intros tr Hin Hn. destruct (tr_la tr) as [l|] eqn:El; [|contradiction]. eapply la_tagline; eauto.
      - intros tr Hin K. specialize (T2 tr Hin). rewrite K in T2. cbn [tok_eqb negb orb] in T2. destruct (want (tr_next tr)) as [k|] eqn:W; [|discriminate]. exists k. split; [reflexivity|].
        intros l El. rewrite El in T2. now apply tok_eqb_spec.
      - exact (all_states_spec _ after_la_ok q st Eq).
      - intros e ->. discriminate E1'.
      - intros tr t kq -> K W. injection E1' as _ <- <-. eapply tag_follow; eauto. }
    rewrite Same, S2. eexists. split; [reflexivity|]. apply Forall2_app; [|exact F2].
    assert (NU : forall p, In (EvErr p) ev1 -> is_ut p = false).
    { intros p Hp. destruct (is_ut p) eqn:U; [|reflexivity]. assert (false = true) by (apply (proj1 B2); eauto). discriminate. }
    clear -NU. induction ev1 as [|e ev1 IH]; constructor; [constructor; intros p ->; apply NU; now left | apply IH; intros; apply NU; now right].
Qed.
End Bad.
