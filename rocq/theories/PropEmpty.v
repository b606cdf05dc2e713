(** * Emptying the reported lines: C76 *)
From Verif Require Import PyStr PyStrFacts Types Regex Line DialectData Matcher Ast ParserTable Parser Classify Table Scan Grammar Deriv Cert LineSpec Cst Report Eval LangSpec LangFacts Complete DocSpec LineIff DocRun RaggedFacts ErrorSpec ErrorFacts ExpectFacts PropLine PropParse PropErrors EmptyScan EmptyBuild EmptySpec.

(** ** Messages tell lines and kinds apart *)
Lemma upto_nondigit (c : char) (a b x y : str) : ~ (48 <= c < 58)%N -> Forall (fun c => 48 <= c < 58)%N a -> Forall (fun c => 48 <= c < 58)%N b ->
  @app char a (c :: x) = @app char b (c :: y) -> a = b /\ x = y.
Proof.
  intros Hc. revert b. induction a as [|d a IH]; intros [|d' b] Ha Hb E; cbn in E.
  - injection E as ->. auto.
  - injection E as E _. apply Forall_inv in Hb. lia.
  - injection E as E _. apply Forall_inv in Ha. lia.
  - injection E as -> E. inversion Ha; subst. inversion Hb; subst. destruct (IH b) as [-> ->]; auto.
Qed.
Lemma message_inj l1 l2 t1 t2 : message l1 t1 = message l2 t2 -> l_line l1 = l_line l2 /\ t1 = t2.
Proof.
  unfold message. intros E. apply app_inv_head in E.
  apply (upto_nondigit 58%N) in E; [|lia|apply str_of_nat_digits..]. destruct E as [E1 E]. apply str_of_nat_inj in E1.
  apply (upto_nondigit 41%N) in E; [|lia|apply str_of_nat_digits..]. destruct E as [_ E]. cbn [app] in E. injection E as E. auto.
Qed.
Lemma explained_message lang lines e : explained lang lines e -> exists loc text, pe_msg e = message loc text /\ l_line loc = l_line (pe_loc e) /\
  (is_ut e = true <-> hd_error text = Some 101%N).
Proof.
  intros H. destruct H as [before l after d names H1 H2 H3 H4 H5 | names H1 H2 | l H1 H2 | l name loc H1 H2 H3 H4].
  - exists (here l). eexists. split; [reflexivity|]. split; [reflexivity|]. split; reflexivity.
  - eexists (mkLoc _ None), _. split; [reflexivity|]. split; [reflexivity|]. split; discriminate.
  - exists (here l). eexists. split; [reflexivity|]. split; [reflexivity|]. split; discriminate.
  - exists (here l). eexists. split; [reflexivity|]. split; [destruct H4; subst; reflexivity|]. split; discriminate.
Qed.
Lemma explained_same lang lines e e' : explained lang lines e -> explained lang lines e' -> pe_msg e = pe_msg e' -> l_line (pe_loc e) = l_line (pe_loc e') /\ is_ut e = is_ut e'.
Proof.
  intros H H' E. destruct (explained_message _ _ _ H) as [l [t [M [L U]]]], (explained_message _ _ _ H') as [l' [t' [M' [L' U']]]].
  rewrite M, M' in E. apply message_inj in E as [E ->]. split; [congruence|]. apply eq_true_iff_eq. now rewrite U, U'.
Qed.

(** ** The list of errors *)
Notation nut := (fun e => negb (is_ut e)).
Lemma settled_ut e : is_ut (settled e) = is_ut e.
Proof. unfold is_ut. now rewrite settled_kind. Qed.
Section Feed.
Context (P : perr -> Prop) (HP : forall e, P e -> P (settled e)) (Hsame : forall e e', P e -> P e' -> pe_msg e = pe_msg e' -> is_ut e = is_ut e').
Lemma feed_filter raw : forall errs errs', Forall P raw -> Forall P errs -> length errs' <= 10 -> feed raw errs = (false, errs') ->
  feed (filter nut raw) (filter nut errs) = (false, filter nut errs').
Proof.
  induction raw as [|e raw IH]; intros errs errs' Fr Fe Le H; cbn [feed filter] in *; [now injection H as ->|].
  inversion Fr as [|? ? Pe Fr']; subst. destruct (existsb (fun e' => str_eqb (pe_msg e) (pe_msg e')) errs) eqn:X.
  - specialize (IH errs errs' Fr' Fe Le H). destruct (is_ut e) eqn:U; cbn [negb]; [exact IH|]. cbn [feed].
    assert (X' : existsb (fun e' => str_eqb (pe_msg e) (pe_msg e')) (filter nut errs) = true).
    { apply existsb_exists in X as [e' [X1 X2]]. apply existsb_exists. exists e'. split; [|exact X2]. apply filter_In. split; [exact X1|].
      apply str_eqb_spec in X2. rewrite Forall_forall in Fe. rewrite <- (Hsame e e' Pe (Fe e' X1) X2), U. reflexivity. }
    now rewrite X'.
  - destruct (Nat.ltb 10 (length (errs ++ [e]))) eqn:L; [discriminate H|].
    assert (Fe' : Forall P (errs ++ [settled e])) by (apply Forall_app; split; [exact Fe | constructor; [now apply HP | constructor]]).
    specialize (IH _ _ Fr' Fe' Le H). rewrite filter_app in IH. cbn [filter] in IH. rewrite settled_ut in IH. destruct (is_ut e) eqn:U; cbn [negb] in *; [now rewrite app_nil_r in IH|]. cbn [feed].
    assert (X' : existsb (fun e' => str_eqb (pe_msg e) (pe_msg e')) (filter nut errs) = false).
    { destruct (existsb (fun e' => str_eqb (pe_msg e) (pe_msg e')) (filter nut errs)) eqn:X'; [|reflexivity]. apply existsb_exists in X' as [e' [X1 X2]]. apply filter_In in X1 as [X1 _].
      assert (existsb (fun e' => str_eqb (pe_msg e) (pe_msg e')) errs = true) by (apply existsb_exists; eauto). congruence. }
    rewrite X'. assert (L' : Nat.ltb 10 (length (filter nut errs ++ [e])) = false).
    { apply Nat.ltb_ge in L. apply Nat.ltb_ge. rewrite app_length in *. cbn [length] in *. assert (FL : length (filter nut errs) <= length errs) by (clear; induction errs as [|a l IH]; cbn [filter]; [lia|]; destruct (negb (is_ut a)); cbn [length]; lia). lia. }
    rewrite L'. exact IH.
Qed.
End Feed.
Lemma feed_covers raw : forall errs errs', feed raw errs = (false, errs') -> incl errs errs' /\ forall e, In e raw -> exists e', In e' errs' /\ pe_msg e' = pe_msg e.
Proof.
  induction raw as [|e raw IH]; intros errs errs' H; cbn [feed] in H; [injection H as ->; split; [apply incl_refl | intros e []]|].
  destruct (existsb _ errs) eqn:X.
  - destruct (IH _ _ H) as [I1 I2]. split; [exact I1|]. intros e' [<-|He']; [|auto]. apply existsb_exists in X as [e' [X1 X2]]. apply str_eqb_spec in X2. exists e'. split; [now apply I1 | congruence].
  - destruct (Nat.ltb 10 _); [discriminate H|]. destruct (IH _ _ H) as [I1 I2]. split; [intros x Hx; apply I1, in_or_app; now left|].
    intros e' [<-|He']; [|auto]. exists (settled e). split; [apply I1, in_or_app; right; now left | apply settled_msg].
Qed.
Lemma feed_from raw : forall errs errs', feed raw errs = (false, errs') -> forall e, In e errs' -> In e errs \/ exists e0, In e0 raw /\ e = settled e0.
Proof.
  induction raw as [|e raw IH]; intros errs errs' H x Hx; cbn [feed] in H; [injection H as ->; now left|].
  destruct (existsb _ errs).
  - destruct (IH _ _ H x Hx) as [I|[e0 [I1 I2]]]; [now left | right; exists e0; split; [now right | exact I2]].
  - destruct (Nat.ltb 10 _); [discriminate H|]. destruct (IH _ _ H x Hx) as [I|[e0 [I1 I2]]]; [|right; exists e0; split; [now right | exact I2]].
    apply in_app_or in I as [I|[<-|[]]]; [now left | right; exists e; split; [now left | reflexivity]].
Qed.
(** unexpected lines are errors of the scanner *)
Lemma raw_ut evs : forall b es r c, raw_evs ast_builder evs b = (es, r, c) -> forall e, In e es -> is_ut e = true -> In (EvErr e) evs.
Proof.
  induction evs as [|[p|l acts] evs IH]; intros b es r c H e He U; cbn [raw_evs] in H.
  - injection H as <- _ _. destruct He.
  - destruct (raw_evs ast_builder evs b) as [[es1 r1] c1] eqn:R. injection H as <- _ _. destruct He as [<-|He]; [now left | right; eauto].
  - pose proof (acts_kind (lf_t l) acts b) as K. destruct (raw_acts ast_builder (lf_t l) acts b) as [[es0 r0] b1]. cbn [fst] in K. rewrite Forall_forall in K. destruct r0 as [u|x].
    + destruct (raw_evs ast_builder evs b1) as [[es1 r1] c1] eqn:R. injection H as <- _ _. apply in_app_or in He as [He|He]; [rewrite (K e He) in U; discriminate U | right; eauto].
    + injection H as <- _ _. rewrite (K e He) in U. discriminate U.
Qed.
Lemma raw_ut_back evs : forall b es c, raw_evs ast_builder evs b = (es, Ok tt, c) -> forall e, In (EvErr e) evs -> In e es.
Proof.
  induction evs as [|[p|l acts] evs IH]; intros b es c H e He; cbn [raw_evs] in H.
  - destruct He.
  - destruct (raw_evs ast_builder evs b) as [[es1 r1] c1] eqn:R. injection H as <- -> ->. destruct He as [He|He]; [injection He as ->; now left | right; eauto].
  - destruct He as [He|He]; [discriminate He|]. destruct (raw_acts ast_builder (lf_t l) acts b) as [[es0 r0] b1]. destruct r0 as [u|x]; [|discriminate H].
    destruct (raw_evs ast_builder evs b1) as [[es1 r1] c1] eqn:R. injection H as <- -> ->. apply in_or_app. right. eauto.
Qed.

Lemma emptied_lines nums : forall l l' n, lines_ok l' -> emptied nums (lines_from n l) (lines_from n l') -> emptied_from (fun k => existsb (Nat.eqb k) nums) n l l'.
Proof.
  induction l as [|x l IH]; intros l' n Hl H.
  - inversion H as [E|]; subst. destruct l'; [constructor | discriminate].
  - change (lines_from n (x :: l)) with ((S n, x) :: lines_from (S n) l) in H. destruct l' as [|x' l']; [inversion H|].
    change (lines_from n (x' :: l')) with ((S n, x') :: lines_from (S n) l') in H. inversion H as [|? ? ? ? [_ H1] H2]; subst. inversion Hl; subst. cbn [fst snd] in H1.
    constructor; [assumption| |apply IH; assumption].
    destruct (existsb (Nat.eqb (S n)) nums) eqn:E.
    + apply existsb_exists in E as [m [E1 E2]]. apply Nat.eqb_eq in E2 as <-. destruct H1 as [[_ H1]|[H1 _]]; [exact H1 | contradiction].
    + destruct H1 as [[H1 _]|[_ H1]]; [|exact H1]. assert (existsb (Nat.eqb (S n)) nums = true) by (apply existsb_exists; exists (S n); split; [exact H1 | apply Nat.eqb_refl]). congruence.
Qed.

(** C76.  A text is refused with at most ten errors (so that all of it was read).  Empty the lines that are
    reported as unexpected: then exactly the other errors are left, with the same messages and places; and
    if there are none, the text is accepted. *)
Theorem C76_repair : forall lang text text' es, supported lang ->
  parse_with false false lang text = Err (EComposite es) -> length es <= 10 ->
  emptied (reported_lines es) (numbered_lines (split_lines text)) (numbered_lines (split_lines text')) ->
  match other_errors es with
  | [] => exists d, parse_with false false lang text' = Ok d
  | es' => parse_with false false lang text' = Err (EComposite es')
  end.
Proof.
  intros lang text text' es S H Le He. destruct (fresh_matcher lang S) as [ms [E1 [E2 [E3 [E4 _]]]]].
  pose proof (split_lines_nonempty text) as Hl. pose proof (split_lines_nonempty text') as Hl'.
  unfold parse_with in *. rewrite E1 in *. cbn [rbind] in *.
  assert (Inv : st_inv 0 ms [(RGherkinDocument, [])]).
  { exists [(RGherkinDocument, prod RGherkinDocument)]. split; [reflexivity|]. split.
    - cbn [sinv]. split; [reflexivity|]. split; [reflexivity|]. split; [apply leaves_ok_nil|]. split; [constructor | exact I].
    - split; [exact E3|]. rewrite E4. split; reflexivity. }
  assert (D : for_name lang = Some (ms_dialect ms)).
  { destruct S as [d S]. unfold new_matcher in E1. rewrite S in E1. unfold ms_reset in E1. cbn in E1. assert (R : str_eqb lang lang = true) by now apply str_eqb_spec. rewrite R in E1. cbn in E1. injection E1 as <-. exact S. }
  set (lines := split_lines text) in *. set (lines' := split_lines text') in *.
  change (numbered_lines lines) with (lines_from 0 lines) in He. change (numbered_lines lines') with (lines_from 0 lines') in He.
  apply (emptied_lines _ _ _ 0 Hl') in He.
  set (P := explained lang (lines_from 0 lines)).
  assert (Fe : Forall (ev_P P) (fst (scan 0 ms 0 lines))) by exact (scan_explained lang lines 0 ms 0 [] [(RGherkinDocument, [])] Hl ltac:(discriminate) Inv (or_introl D) eq_refl).
  destruct (run_doc_P P ms lines 0 E3 E4 Hl Fe) as [raw [b [R [F G]]]].
  pose proof (parse_b_outcome ast_builder ast_no_composite false (ab_reset 0) ms ms lines raw (Ok tt) b E2 (matcher_good _ E3) Hl R) as [O1 O2].
  cbv zeta in O1. unfold parse_lines in *. destruct (parse_b ast_builder false (ab_reset 0) ms lines) as [r c]. cbn [fst snd] in *. subst r.
  assert (X : forall e, snd (scan 0 ms 0 lines) = Err e -> match e with EParser _ | EComposite _ => False | _ => True end).
  { intros e E. rewrite E in G. destruct G as [y [_ G]]. apply raise_at_spec in G as [[-> _]|[-> _]]; exact I. }
  (* what the error list says about the first scan *)
  assert (Key : feed raw [] = (false, es) /\ snd (scan 0 ms 0 lines) = Ok tt).
  { unfold outcome in H. destruct (feed raw []) as [full errs] eqn:Ff.
    destruct (feed_inv P (settled_explained lang _) _ _ _ _ Ff) as [A1 [A2 [A3 [A4 [A5 _]]]]]; auto; [constructor | cbn; lia|].
    destruct full.
    - cbn [rbind fst] in H. injection H as ->. specialize (A4 eq_refl). lia.
    - destruct errs as [|e errs].
      + rewrite (A5 eq_refl) in *. destruct (snd (scan 0 ms 0 lines)) as [u|e] eqn:E; cbn [rbind fst] in H; [|specialize (X e eq_refl); injection H as ->; destruct X].
        destruct (G eq_refl) as [l [d [_ [_ G3]]]]. rewrite (O2 eq_refl), G3 in H. discriminate H.
      + destruct (snd (scan 0 ms 0 lines)) as [u|x] eqn:E; cbn [rbind fst] in H; [|specialize (X x eq_refl); injection H as ->; destruct X].
        injection H as <-. destruct u. auto. }
  destruct Key as [Ff Sc].
  assert (Same : forall e e', P e -> P e' -> pe_msg e = pe_msg e' -> l_line (pe_loc e) = l_line (pe_loc e') /\ is_ut e = is_ut e') by (intros e e'; apply explained_same).
  destruct (feed_inv P (settled_explained lang _) _ _ _ _ Ff) as [_ [_ [Fes _]]]; auto; [constructor | cbn; lia|].
  destruct (scan 0 ms 0 lines) as [evs sr] eqn:Es. cbn [snd fst] in *. subst sr.
  unfold doc_evs in R. cbn [fst snd] in R.
  set (bad := fun k => existsb (Nat.eqb k) (reported_lines es)) in *.
  assert (Bd : forall m, bad m = true <-> exists e, In e es /\ is_ut e = true /\ l_line (pe_loc e) = m).
  { intros m. unfold bad, reported_lines. rewrite existsb_exists. split.
    - intros [k [K1 K2]]. apply Nat.eqb_eq in K2 as <-. apply in_map_iff in K1 as [e [K1 K2]]. apply filter_In in K2 as [K2 K3]. exists e. auto.
    - intros [e [K1 [K2 <-]]]. eexists. split; [|apply Nat.eqb_refl]. apply (in_map (fun e => l_line (pe_loc e))). apply filter_In. auto. }
  destruct (feed_covers _ _ _ Ff) as [_ Cov].
  assert (Hb : bad_lines bad 0 lines evs).
  { split.
    - intros e Hev U. apply Bd. assert (Hr : In e raw) by (eapply raw_ut_back; [exact R|]; right; apply in_or_app; now left).
      destruct (Cov e Hr) as [e' [C1 C2]]. rewrite Forall_forall in F, Fes. destruct (Same e' e (Fes _ C1) (F _ Hr) C2) as [S1 S2]. exists e'. split; [exact C1|]. split; congruence.
    - intros m _ Hm. apply Bd in Hm as [e [M1 [M2 M3]]]. destruct (feed_from _ _ _ Ff e M1) as [[]|[e0 [N1 ->]]].
      rewrite settled_ut in M2. rewrite settled_line in M3. exists e0. split; [|auto]. pose proof (raw_ut _ _ _ _ _ R e0 N1 M2) as Q.
      destruct Q as [Q|Q]; [discriminate Q|]. apply in_app_or in Q as [Q|[Q|[]]]; [exact Q | discriminate Q]. }
  destruct (scan_repair bad lines lines' 0 ms 0 [(RGherkinDocument, [])] evs Hl ltac:(discriminate) Inv Es Hb He) as [evs' [Es' Me]].
  assert (Fe' : Forall (ev_P (explained lang (lines_from 0 lines'))) (fst (scan 0 ms 0 lines'))) by exact (scan_explained lang lines' 0 ms 0 [] [(RGherkinDocument, [])] Hl' ltac:(discriminate) Inv (or_introl D) eq_refl).
  destruct (run_doc_P _ ms lines' 0 E3 E4 Hl' Fe') as [raw' [b' [R' [F' G']]]].
  pose proof (parse_b_outcome ast_builder ast_no_composite false (ab_reset 0) ms ms lines' raw' (Ok tt) b' E2 (matcher_good _ E3) Hl' R') as [O1' O2'].
  rewrite Es' in *. unfold doc_evs in R'. cbn [fst snd] in *.
  assert (raw' = filter nut raw) as ->.
  { eapply raw_mended; [|reflexivity|exact R|exact R']. constructor; [constructor; discriminate|]. apply Forall2_app; [exact Me|]. repeat constructor. discriminate. }
  pose proof (feed_filter P (settled_explained lang _) (fun e e' p p' q => proj2 (Same e e' p p' q)) raw [] es F ltac:(constructor) Le Ff) as Ff'. cbn [filter] in Ff'.
  cbv zeta in O1'. destruct (parse_b ast_builder false (ab_reset 0) ms lines') as [r' c']. cbn [fst snd] in *. subst r'. unfold outcome. rewrite Ff'.
  change (filter nut es) with (other_errors es) in *. destruct (other_errors es) as [|e0 es0] eqn:Eo; [|reflexivity].
  cbn [rbind fst]. assert (Q : filter nut raw = []).
  { destruct (feed_covers _ _ _ Ff') as [_ C']. destruct (filter nut raw) as [|x l]; [reflexivity|]. destruct (C' x (or_introl eq_refl)) as [e' [[] _]]. }
  destruct (G' Q) as [l [d [_ [_ G3]]]]. exists d. rewrite (O2' Q). exact G3.
Qed.
Print Assumptions C76_repair.

(** Two lines too many and a ragged table: after the repair only the table is left.  The second line comes
    between a tag and its scenario, where one wrong line makes the parser refuse all that follows. *)
Definition C76_text (x : str) (rest : list str) : str :=
  text_of_lines ([s "Feature: f"; s " Scenario: s"; s "  Given a"; s "   |a|b|"; s "   |c|"; x; s "  Then b"; s " @tag"] ++ rest).
Definition C76_bad : str := C76_text (s "what is this") [s "and this"; s " Scenario: t"; s "  Given b"].
Definition C76_good : str := C76_text (s "") [s "  "; s ""; s ""].
Example C76_case :
  exists es, parse_with false false (s "en") C76_bad = Err (EComposite es) /\ length es <= 10 /\
  emptied (reported_lines es) (numbered_lines (split_lines C76_bad)) (numbered_lines (split_lines C76_good)) /\
  reported_lines es = [6; 9; 10; 11] /\ map pe_kind (other_errors es) = [KAstBuilder; KUnexpectedEOF].
Proof.
  eexists. split; [vm_compute; reflexivity|]. split; [vm_compute; lia|]. split; [|split; vm_compute; reflexivity].
  vm_compute. repeat (constructor; [split; [reflexivity|]; first [left; split; [lia | reflexivity] | right; split; [lia | reflexivity]]|]). constructor.
Qed.
