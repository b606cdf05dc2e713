(** * C56: arguments that need no escaping *)
From Verif Require Import PyStr PyStrFacts Types Compiler Robot RobotSpec EscapeFacts ReprFacts RobotFacts VarSpec VarFacts PropVariable.
Local Open Scope N_scope.

Section Simple.
Context (printable : char -> bool).
Definition ok_char (c : char) : Prop := (32 <= c < 127 \/ 127 < c /\ printable c = true) /\ c <> ch_quote /\ c <> ch_bslash /\ c <> ch_eq.
Definition good (x : str) : Prop := Forall ok_char x /\ double_blank x = false.
Lemma repr_ok_char c q : ok_char c -> c <> q -> repr_char printable q c = [c].
Proof.
  intros [R (Q & B & E)] N. unfold repr_char. apply N.eqb_neq in N, B. rewrite N, B. cbn [orb].
  unfold ch_tab, ch_nl, ch_cr, ch_quote in *.
  destruct (N.eqb_spec c 9); [lia|]. destruct (N.eqb_spec c 10); [lia|]. destruct (N.eqb_spec c 13); [lia|].
  destruct (N.ltb_spec c 32); [lia|]. destruct (N.eqb_spec c 127); [lia|]. cbn [orb].
  destruct (N.ltb_spec c 127); [reflexivity|]. destruct R as [R|[_ R]]; [lia|]. now rewrite R.
Qed.
Lemma escape_spaces_id x b : double_blank x = false -> (b = true -> starts_blank x = false) -> escape_spaces b x = x.
Proof.
  revert b. induction x as [|c x IH]; intros b D H; [reflexivity|]. cbn [escape_spaces starts_blank] in *.
  assert (D' : double_blank x = false /\ (is_space c = true -> starts_blank x = false)).
  { destruct x as [|d x]; [split; reflexivity|]. cbn [double_blank] in D. apply orb_false_iff in D as [D1 D2]. split; [exact D2|].
    intros E. rewrite E in D1. exact D1. }
  destruct D' as [D1 D2]. destruct (is_space c) eqn:E.
  - destruct b; [discriminate (H eq_refl)|]. cbn [app]. f_equal. now apply IH.
  - f_equal. apply IH; [exact D1|discriminate].
Qed.
Lemma good_escape x : good x -> In ch_apos x -> ~ In x control_words -> escape printable x = x.
Proof.
  intros [F D] A C. unfold escape.
  assert (M : str_mem x control_words = false).
  { destruct (str_mem x control_words) eqn:M; [|reflexivity]. destruct C. unfold str_mem in M. apply existsb_exists in M as (y & I & E). apply str_eqb_spec in E. now subst. }
  rewrite M. cbv zeta. rewrite escape_eqs.
  assert (Q : repr_quote x = ch_quote).
  { unfold repr_quote. replace (existsb (N.eqb ch_apos) x) with true.
    2:{ symmetry. apply existsb_exists. exists ch_apos. split; [exact A | apply N.eqb_refl]. }
    destruct (existsb (N.eqb ch_quote) x) eqn:E; [|reflexivity]. apply existsb_exists in E as (c & I & E). apply N.eqb_eq in E. subst c.
    rewrite Forall_forall in F. destruct (F _ I) as (_ & Q & _). congruence. }
  unfold repr_body. rewrite Q.
  assert (R : flat_map (repr_char printable ch_quote) x = x).
  { clear - F. induction F as [|c x H F IH]; [reflexivity|]. cbn [flat_map]. rewrite IH, repr_ok_char; [reflexivity|exact H|apply H]. }
  rewrite R, eq_char_id.
  - apply escape_spaces_id; [exact D|discriminate].
  - eapply Forall_impl; [|exact F]. intros c H. apply H.
Qed.
Lemma good_app t r : good t -> good r -> starts_blank r = false -> good (t ++ r).
Proof.
  intros [F1 D1] [F2 D2] S. split; [now apply Forall_app|]. apply double_blank_app; auto. intros _. unfold starts_blank in S. destruct r; auto.
Qed.
Lemma good_cons c x : ok_char c -> is_space c = false -> good x -> good (c :: x).
Proof.
  intros H N [F D]. split; [now constructor|]. cbn [double_blank]. destruct x as [|d x]; [reflexivity|]. now rewrite N.
Qed.
Lemma apos_ok : ok_char ch_apos. Proof. unfold ok_char, ch_apos, ch_quote, ch_bslash, ch_eq. repeat split; lia. Qed.
Lemma simple_good x : simple_text printable x -> good x /\ repr_str printable x = [ch_apos] ++ x ++ [ch_apos].
Proof.
  intros [F D]. assert (K : Forall (fun c => ok_char c /\ c <> ch_apos) x).
  { eapply Forall_impl; [|exact F]. intros c (_ & R & N). change (s "'""\=") with [ch_apos; ch_quote; ch_bslash; ch_eq] in N. cbn [In] in N. unfold ok_char. intuition congruence. }
  split; [split|].
  - eapply Forall_impl; [|exact K]. now intros c [H _].
  - clear F K. induction x as [|c [|d x] IH]; [reflexivity..|]. change (is_space c && is_space d || double_blank (d :: x) = false).
    rewrite IH. 2:{ intros p a b r E. apply (D (c :: p) a b r). now rewrite E. }
    rewrite orb_false_r. destruct (is_space c) eqn:E1; [|reflexivity]. destruct (is_space d) eqn:E2; [|reflexivity]. destruct (D [] c d x eq_refl E1 E2).
  - unfold repr_str, repr_body. assert (Q : repr_quote x = ch_apos).
    { unfold repr_quote. destruct (existsb (N.eqb ch_apos) x) eqn:E; [|reflexivity]. apply existsb_exists in E as (c & I & E). apply N.eqb_eq in E. subst c.
      rewrite Forall_forall in K. destruct (K _ I). congruence. }
    rewrite Q. do 2 f_equal. clear F D Q. induction K as [|c x [H1 H2] K IH]; [reflexivity|]. cbn [flat_map]. now rewrite IH, repr_ok_char.
Qed.
Lemma good_repr x r : simple_text printable x -> good r -> starts_blank r = false -> good (repr_str printable x ++ r).
Proof.
  intros S G B. destruct (simple_good x S) as [Gx ->]. rewrite <- !app_assoc. cbn [app]. apply good_cons; [apply apos_ok|reflexivity|].
  apply good_app; [exact Gx| |reflexivity]. apply good_cons; [apply apos_ok|reflexivity|exact G].
Qed.
Ltac good_lit := split; [repeat constructor; unfold ch_quote, ch_bslash, ch_eq; try lia; discriminate | reflexivity].
Lemma good_lit_app t r : good t -> good r -> starts_blank r = false -> good (t ++ r).
Proof. apply good_app. Qed.
Lemma repr_not_blank x r : starts_blank (repr_str printable x ++ r) = false.
Proof. unfold repr_str. cbn [app starts_blank]. destruct (repr_quote_is_quote x) as [-> | ->]; reflexivity. Qed.
Lemma good_join {A} (f : A -> str) l : (forall a, In a l -> forall r, good r -> starts_blank r = false -> good (f a ++ r) /\ starts_blank (f a ++ r) = false) ->
  forall r, good r -> starts_blank r = false -> good (join (s ", ") (map f l) ++ r) /\ starts_blank (join (s ", ") (map f l) ++ r) = false.
Proof.
  intros H. induction l as [|a l IH]; intros r G B; [split; assumption|]. cbn [map]. destruct l as [|b l].
  - cbn [map join]. apply H; [now left|exact G|exact B].
  - change (join (s ", ") (f a :: map f (b :: l))) with (f a ++ s ", " ++ join (s ", ") (map f (b :: l))). rewrite <- !app_assoc.
    assert (I : forall a0 : A, In a0 (b :: l) -> forall r : str, good r -> starts_blank r = false -> good (f a0 ++ r) /\ starts_blank (f a0 ++ r) = false) by (intros; apply H; auto; now right).
    destruct (IH I r G B) as [I1 I2].
    apply H; [now left| |reflexivity]. apply good_lit_app; [good_lit|exact I1|exact I2].
Qed.
Lemma good_cell v r : simple_text printable v -> good r -> starts_blank r = false -> good ((s "{'value': " ++ repr_str printable v ++ s "}") ++ r).
Proof.
  intros S G B. rewrite <- !app_assoc. apply good_lit_app; [good_lit| |apply repr_not_blank]. apply good_repr; [exact S| |reflexivity].
  apply good_lit_app; [good_lit|exact G|exact B].
Qed.
Lemma good_row cells r : Forall (simple_text printable) cells -> good r -> starts_blank r = false -> good (repr_row printable cells ++ r).
Proof.
  intros S G B. unfold repr_row. rewrite <- !app_assoc.
  assert (J : good (s "]}" ++ r)) by (apply good_lit_app; [good_lit|exact G|exact B]).
  destruct (good_join (fun v => s "{'value': " ++ repr_str printable v ++ s "}") cells) with (r := s "]}" ++ r) as [J1 J2]; [|exact J|reflexivity|].
  - intros v I r' G' B'. split; [|reflexivity]. apply good_cell; [|exact G'|exact B']. rewrite Forall_forall in S. now apply S.
  - apply good_lit_app; [good_lit|exact J1|exact J2].
Qed.
Lemma good_arg a : Forall (simple_text printable) (arg_texts a) -> good (arg_repr printable a).
Proof.
  intros S. destruct a as [rows|content media]; cbn [arg_texts arg_repr] in *.
  - unfold repr_datatable. assert (J : good (s "]}")) by good_lit.
    destruct (good_join (repr_row printable) rows) with (r := s "]}") as [J1 J2]; [|exact J|reflexivity|].
    + intros v I r' G' B'. split; [|reflexivity]. apply good_row; [|exact G'|exact B']. rewrite Forall_forall in S |- *. intros x Ix. apply S, in_concat. eauto.
    + apply good_lit_app; [good_lit|exact J1|exact J2].
  - unfold repr_docstring. inversion S as [|? ? S1 S2]; subst. apply good_lit_app; [good_lit| |apply repr_not_blank].
    destruct media as [m|]; (apply good_repr; [exact S1| |reflexivity]); [|good_lit]. rewrite <- app_assoc.
    inversion S2; subst. apply good_lit_app; [good_lit| |apply repr_not_blank]. apply good_repr; [assumption|good_lit|reflexivity].
Qed.
End Simple.

Theorem C56_simple : forall printable a, Forall (simple_text printable) (arg_texts a) ->
  exists body, call_args printable (Some a) = [s "&{{" ++ body ++ s "}}"] /\
    py_literal body = Some (arg_value a) /\ py_literal (rf_unescape body) = Some (arg_value a).
Proof.
  intros printable a S. rewrite call_args_repr.
  assert (V : valid_arg a).
  { assert (X : Forall valid_str (arg_texts a)).
    { eapply Forall_impl; [|exact S]. intros x [F _]. eapply Forall_impl; [|exact F]. intros c H. apply H. }
    destruct a as [rows|content media]; cbn [arg_texts valid_arg] in *.
    - rewrite !Forall_forall in *. intros row I. rewrite Forall_forall. intros x Ix. apply X, in_concat. eauto.
    - inversion X as [|? ? X1 X2]; subst. split; [exact X1|]. destruct media; [|exact I]. now inversion X2. }
  assert (E : arg_repr printable a = pv_repr printable (arg_value a)).
  { destruct a; [apply repr_datatable_value | apply repr_docstring_value]. }
  exists (arg_repr printable a). split; [|split].
  - rewrite (good_escape printable); [reflexivity|now apply good_arg| |].
    + destruct a; cbn; auto.
    + destruct a; cbn; intuition discriminate.
  - rewrite E. now apply literal_repr, arg_value_valid.
  - pose proof (arg_repr_valid printable a V) as W. destruct (escape_facts printable _ W) as [U _].
    rewrite (good_escape printable) in U; [|now apply good_arg| |].
    + rewrite U, E. now apply literal_repr, arg_value_valid.
    + destruct a; cbn; auto.
    + destruct a; cbn; intuition discriminate.
Qed.
Print Assumptions C56_simple.
Lemma no_double_blank x : double_blank x = false -> forall p c d r, x = p ++ c :: d :: r -> is_space c = true -> is_space d = true -> False.
Proof.
  intros D p c d r -> Hc Hd. induction p as [|e p IH].
  - cbn [app double_blank] in D. now rewrite Hc, Hd in D.
  - apply IH. change (double_blank (e :: (p ++ c :: d :: r)) = false) in D. destruct (p ++ c :: d :: r) as [|f y] eqn:E; [reflexivity|].
    cbn [double_blank] in D. now apply orb_false_iff in D as [_ D].
Qed.
Example C56_case : Forall (simple_text (fun _ => true)) (arg_texts (PTable [[s "name"; s "[1]"]; [s "a b"; s "x"]])).
Proof.
  assert (K : forall x, double_blank x = false -> forallb (fun c => (32 <=? c) && (c <? 127) && negb (existsb (N.eqb c) (s "'""\="))) x = true -> simple_text (fun _ => true) x).
  { intros x D F. split; [|now apply no_double_blank]. rewrite forallb_forall in F. apply Forall_forall. intros c I. specialize (F c I).
    apply andb_true_iff in F as [F1 F2]. apply andb_true_iff in F1 as [F0 F1]. apply N.leb_le in F0. apply N.ltb_lt in F1.
    split; [lia|]. split; [lia|]. intros J. apply negb_true_iff in F2. enough (existsb (N.eqb c) (s "'""\=") = true) by congruence.
    apply existsb_exists. exists c. split; [exact J | apply N.eqb_refl]. }
  cbn [arg_texts concat app]. repeat (apply Forall_cons; [apply K; reflexivity|]). apply Forall_nil.
Qed.

(** With a line break in the text the two readings differ: without the unescaping of Robot Framework the
    keyword receives a backslash and an n. *)
Theorem C56_refuted : exists a body, valid_arg a /\ (forall printable, call_args printable (Some a) = [s "&{{" ++ body ++ s "}}"]) /\
  py_literal (rf_unescape body) = Some (arg_value a) /\ py_literal body = Some (arg_value (PDoc (s "a\nb") None)) /\ a <> PDoc (s "a\nb") None.
Proof.
  exists (PDoc (s "a" ++ [ch_nl] ++ s "b") None), (s "{'content': 'a\\nb'}"). split; [split; [repeat constructor|exact I]|]. split; [intros printable; reflexivity|].
  split; [reflexivity|]. split; [reflexivity|discriminate].
Qed.
Print Assumptions C56_refuted.
