(** * Lines that differ in their line end only (C48) *)
From Verif Require Import PyStr PyStrFacts Types Regex RegexFacts ReSem Line DialectData Matcher LineSpec StepFacts LangSpec LangFacts MdSpec MdFacts MdRun.

Definition crnl : str := [ch_cr; ch_nl].
(** a line ends with LF, with CR LF, or (the last one) with nothing *)
Definition ends (e : str) : Prop := e = [] \/ e = [ch_nl] \/ e = crnl.
Definition eol (x x' : str) : Prop :=
  exists y e e', ~ In ch_nl y /\ ends e /\ ends e' /\ x = y ++ e /\ x' = y ++ e' /\ (x = [] <-> x' = []).
Lemma eol_sym x x' : eol x x' -> eol x' x.
Proof. intros [y [e [e' [N [A [B [C [D F]]]]]]]]. exists y, e', e. tauto. Qed.
Lemma ends_space e : ends e -> all_space e.
Proof. now intros [->|[->| ->]]. Qed.
Lemma ends_one y e : ~ In ch_nl y -> ends e -> one_line (y ++ e).
Proof.
  intros N [->|[->| ->]].
  - exists y, []. repeat split; auto. now left.
  - exists y, [ch_nl]. repeat split; auto. now right.
  - exists (y ++ [ch_cr]), [ch_nl]. rewrite <- app_assoc. split; [reflexivity|]. split; [|now right]. rewrite in_app_iff. intros [H|[H|[]]]; [auto | discriminate H].
Qed.
Lemma ends_nin e c : ends e -> c <> ch_nl -> c <> ch_cr -> ~ In c e.
Proof. intros [->|[->| ->]] A B H; cbn in H; intuition congruence. Qed.
(** a line of white space *)
Definition soft (x : str) : Prop := all_space x /\ x <> [].
Inductive eol_cases (x x' : str) : Prop :=
| eol_same : x = [] -> x' = [] -> eol_cases x x'
| eol_soft : soft x -> soft x' -> one_line x -> one_line x' -> eol_cases x x'
| eol_hard i c z e e' : all_space i -> is_space c = false -> ~ In ch_nl i -> ~ In ch_nl (c :: z) -> ends e -> ends e' ->
    x = i ++ (c :: z) ++ e -> x' = i ++ (c :: z) ++ e' -> eol_cases x x'.
Lemma eol_split x x' : eol x x' -> eol_cases x x'.
Proof.
  intros [y [e [e' [N [Q [Q' [E1 [E2 Z]]]]]]]].
  destruct x as [|x0 x]; [apply eol_same; [reflexivity | now apply Z]|]. destruct x' as [|x0' x']; [destruct Z as [_ Z]; discriminate (Z eq_refl)|]. clear Z.
  destruct (drop_while_suffix is_space y) as [i [E I]]. destruct (drop_while is_space y) as [|c z] eqn:D.
    + rewrite app_nil_r in E. subst i. apply eol_soft.
      * split; [|discriminate]. rewrite E1. unfold all_space. rewrite forallb_app, I. exact (ends_space e Q).
      * split; [|discriminate]. rewrite E2. unfold all_space. rewrite forallb_app, I. exact (ends_space e' Q').
      * rewrite E1. now apply ends_one.
      * rewrite E2. now apply ends_one.
    + apply drop_while_head in D. rewrite E in N. apply (eol_hard _ _ i c z e e'); auto.
      * intros H. apply N. apply in_app_iff. now left.
      * intros H. apply N. apply in_app_iff. now right.
      * rewrite E1, E. now rewrite <- app_assoc.
      * rewrite E2, E. now rewrite <- app_assoc.
Qed.
Lemma lstrip_hard i c z : all_space i -> is_space c = false -> lstrip (i ++ c :: z) = c :: z.
Proof. intros I C. unfold lstrip, lstrip_by. rewrite drop_while_app by exact I. now apply drop_while_id. Qed.
Lemma lstrip_soft x : soft x -> lstrip x = [].
Proof. intros [H _]. now apply lstrip_nil. Qed.
Definition plain (p : str) : Prop := ~ In ch_nl p /\ ~ In ch_cr p.
Lemma starts_tail p w e : plain p -> ends e -> startswith p (w ++ e) = startswith p w.
Proof.
  intros P Q. revert w P. induction p as [|a p IH]; intros w [N1 N2]; [reflexivity|]. assert (P : plain p) by (split; intros H; [apply N1 | apply N2]; now right).
  destruct w as [|b w]; cbn [app].
  - cbn [startswith]. destruct e as [|b e]; [reflexivity|]. assert (X : a <> b).
    { intros ->. destruct Q as [Q|[Q|Q]]; [discriminate Q | |]; injection Q as Q _; subst b; [apply N1 | apply N2]; now left. }
    apply N.eqb_neq in X. cbn [startswith]. now rewrite X.
  - cbn [startswith]. destruct (N.eqb a b); cbn [andb]; [now apply IH | reflexivity].
Qed.
Lemma strip_tail w t : all_space t -> strip (w ++ t) = strip w.
Proof.
  intros T. unfold strip. destruct (drop_while_suffix is_space w) as [i [E I]]. unfold lstrip, lstrip_by.
  destruct (drop_while is_space w) as [|c z] eqn:D.
  - rewrite app_nil_r in E. subst i. rewrite drop_while_app by exact I. unfold all_space in T. apply drop_while_nil in T. now rewrite T.
  - pose proof (drop_while_head _ _ _ _ D) as C. rewrite E at 1. rewrite <- app_assoc. rewrite drop_while_app by exact I. cbn [app]. rewrite drop_while_id by exact C.
    unfold rstrip. change (c :: z ++ t) with ((c :: z) ++ t). rewrite rstrip_by_app by exact T. reflexivity.
Qed.
Lemma space_nl : all_space [ch_nl]. Proof. reflexivity. Qed.
Lemma space_crnl : all_space crnl. Proof. reflexivity. Qed.
Lemma strip_lstrip x : strip (lstrip x) = strip x.
Proof. unfold strip. now rewrite lstrip_idem. Qed.

(** ** What the methods of a line say *)
Section Lines.
Context (l l' : gline) (H : eol (g_text l) (g_text l')).
Lemma eol_bool : g_bool l = g_bool l'.
Proof.
  unfold g_bool. destruct (eol_split _ _ H) as [E1 E2|[_ S] [_ S'] O O'|i c z e e' I C N N' Q Q' E1 E2].
  - now rewrite E1, E2.
  - destruct (g_text l); [now elim S|]. destruct (g_text l'); [now elim S' | reflexivity].
  - rewrite E1, E2. destruct i; reflexivity.
Qed.
Lemma hard_not_soft i c z e : is_space c = false -> ~ soft (i ++ (c :: z) ++ e).
Proof. intros C [A _]. unfold all_space in A. rewrite !forallb_app in A. cbn [forallb] in A. rewrite C in A. cbn in A. now rewrite andb_false_r in A. Qed.
Lemma eol_soft_iff : soft (g_text l) <-> soft (g_text l').
Proof.
  destruct (eol_split _ _ H) as [E1 E2|S S' O O'|i c z e e' I C N N' Q Q' E1 E2].
  - now rewrite E1, E2.
  - tauto.
  - rewrite E1, E2. split; intros X; exfalso; revert X; now apply hard_not_soft.
Qed.
Lemma eol_indent : soft (g_text l) \/ g_indent l = g_indent l'.
Proof.
  destruct (eol_split _ _ H) as [E1 E2|S S' O O'|i c z e e' I C N N' Q Q' E1 E2]; [right | now left | right].
  - unfold g_indent, g_trimmed. now rewrite E1, E2.
  - unfold g_indent, g_trimmed. rewrite E1, E2. cbn [app]. rewrite !lstrip_hard by assumption. rewrite !app_length. cbn [length]. rewrite !app_length. lia.
Qed.
Lemma eol_empty : g_is_empty l = g_is_empty l'.
Proof.
  unfold g_is_empty, g_trimmed. destruct (eol_split _ _ H) as [E1 E2|S S' O O'|i c z e e' I C N N' Q Q' E1 E2]; [now rewrite E1, E2 | now rewrite !lstrip_soft by assumption|].
  rewrite E1, E2. cbn [app]. now rewrite !lstrip_hard by assumption.
Qed.
Lemma soft_empty : soft (g_text l) -> g_is_empty l = true.
Proof. intros S. unfold g_is_empty, g_trimmed. now rewrite lstrip_soft. Qed.
Lemma eol_starts p : plain p -> g_startswith l p = g_startswith l' p.
Proof.
  intros P. unfold g_startswith, g_trimmed. destruct (eol_split _ _ H) as [E1 E2|S S' O O'|i c z e e' I C N N' Q Q' E1 E2]; [now rewrite E1, E2 | now rewrite !lstrip_soft by assumption|].
  rewrite E1, E2. cbn [app]. rewrite !lstrip_hard by assumption. change (c :: z ++ e) with ((c :: z) ++ e). change (c :: z ++ e') with ((c :: z) ++ e'). rewrite (starts_tail p (c :: z) e P Q). now rewrite (starts_tail p (c :: z) e' P Q').
Qed.
Lemma starts_hard p : p <> [] -> g_startswith l p = true -> ~ soft (g_text l).
Proof. intros P A S. unfold g_startswith, g_trimmed in A. rewrite lstrip_soft in A by exact S. destruct p; [easy | discriminate A]. Qed.
Lemma eol_rest p : plain p -> g_startswith l p = true -> get_rest_trimmed l (length p) = get_rest_trimmed l' (length p).
Proof.
  intros P. unfold g_startswith, get_rest_trimmed, g_trimmed. destruct (eol_split _ _ H) as [E1 E2|S S' O O'|i c z e e' I C N N' Q Q' E1 E2]; [now rewrite E1, E2 | now rewrite !lstrip_soft by assumption|].
  rewrite E1, E2. cbn [app]. rewrite !lstrip_hard by assumption. change (c :: z ++ e) with ((c :: z) ++ e). change (c :: z ++ e') with ((c :: z) ++ e').
  rewrite (starts_tail p (c :: z) e P Q). intros A. apply startswith_length in A. rewrite !skipn_app.
  replace (length p - length (c :: z))%nat with 0%nat by lia. cbn [skipn]. rewrite (strip_tail _ e) by now apply ends_space. now rewrite (strip_tail _ e') by now apply ends_space.
Qed.
Lemma eol_strip : strip (g_trimmed l) = strip (g_trimmed l').
Proof.
  unfold g_trimmed. rewrite !strip_lstrip. destruct H as [y [e [e' [N [Q [Q' [E1 [E2 Z]]]]]]]]. rewrite E1, E2. rewrite (strip_tail _ e) by now apply ends_space. now rewrite (strip_tail _ e') by now apply ends_space.
Qed.
Lemma eol_cells : ~ soft (g_text l) -> table_cells l = table_cells l'.
Proof. intros S. unfold table_cells. rewrite eol_strip. destruct eol_indent as [A|A]; [contradiction|]. now rewrite A. Qed.
Lemma eol_tags : ~ soft (g_text l) -> g_tags l = g_tags l'.
Proof. intros S. unfold g_tags. rewrite eol_strip. destruct eol_indent as [A|A]; [contradiction|]. now rewrite A. Qed.
Lemma crlf_tail w e : ends e -> rstrip_crlf (w ++ e) = rstrip_crlf w.
Proof. intros Q. unfold rstrip_crlf. apply rstrip_by_app. now destruct Q as [->|[->| ->]]. Qed.
Lemma eol_text : rstrip_crlf (g_text l) = rstrip_crlf (g_text l').
Proof. destruct H as [y [e [e' [N [Q [Q' [E1 [E2 Z]]]]]]]]. rewrite E1, E2. now rewrite !crlf_tail. Qed.
Lemma eol_trimmed : rstrip_crlf (g_trimmed l) = rstrip_crlf (g_trimmed l').
Proof.
  unfold g_trimmed. destruct (eol_split _ _ H) as [E1 E2|S S' O O'|i c z e e' I C N N' Q Q' E1 E2]; [now rewrite E1, E2 | now rewrite !lstrip_soft by assumption|].
  rewrite E1, E2. cbn [app]. rewrite !lstrip_hard by assumption. change (c :: z ++ e) with ((c :: z) ++ e). change (c :: z ++ e') with ((c :: z) ++ e'). now rewrite !crlf_tail.
Qed.
Lemma replace_tail p q w t : p <> [] -> (forall c, In c p -> ~ In c t) -> forall k, (k <= length w)%nat -> replace_go p q k (w ++ t) = replace_go p q k w ++ t.
Proof.
  intros P D. assert (ST : forall w, startswith p (w ++ t) = startswith p w).
  { clear P. revert D. induction p as [|a p IH]; intros D w0; [reflexivity|]. destruct w0 as [|b w0]; cbn [app startswith].
    - destruct t as [|b t]; [reflexivity|]. destruct (N.eqb a b) eqn:E; [|reflexivity]. apply N.eqb_eq in E. subst. exfalso. apply (D b); now left.
    - rewrite IH; [reflexivity|]. intros c Hc. apply D. now right. }
  assert (T0 : forall t', (forall c, In c p -> ~ In c t') -> replace_go p q 0 t' = t').
  { induction t' as [|b t' IH]; intros Dt; [reflexivity|]. cbn [replace_go]. assert (startswith p (b :: t') = false) as ->.
    { destruct p as [|a p']; [easy|]. cbn [startswith]. destruct (N.eqb a b) eqn:E; [|reflexivity]. apply N.eqb_eq in E. subst. exfalso. apply (Dt b); now left. }
    rewrite IH; [reflexivity|]. intros c Hc Hi. apply (Dt c Hc). now right. }
  induction w as [|c w IH]; intros k K.
  - cbn in K. replace k with 0%nat by lia. cbn [app]. rewrite T0 by exact D. reflexivity.
  - cbn [app replace_go]. destruct k as [|k]; [|apply IH; cbn in K; lia].
    change (c :: w ++ t) with ((c :: w) ++ t). rewrite ST. destruct (startswith p (c :: w)) eqn:E.
    + rewrite <- app_assoc. f_equal. apply IH. apply startswith_length in E. cbn in E. destruct p; [easy|]. cbn in *. lia.
    + cbn [app]. f_equal. apply IH. lia.
Qed.
Lemma unescape_tail ms w e : ends e -> rstrip_crlf (unescaped_docstring ms (w ++ e)) = rstrip_crlf (unescaped_docstring ms w).
Proof.
  intros Q. unfold unescaped_docstring. destruct (ms_sep ms) as [sep|]; [|now apply crlf_tail].
  destruct (str_eqb sep sep_quotes); [|destruct (str_eqb sep sep_ticks); [|now apply crlf_tail]];
  unfold replace; (rewrite replace_tail; [now apply crlf_tail | discriminate | | lia]);
  intros c Hc; apply ends_nin; try exact Q; intros ->; cbn in Hc; repeat (destruct Hc as [Hc|Hc]; [discriminate Hc|]); contradiction.
Qed.
Lemma eol_other ms : rstrip_crlf (unescaped_docstring ms (get_line_text l (Z.of_nat (ms_indent ms)))) = rstrip_crlf (unescaped_docstring ms (get_line_text l' (Z.of_nat (ms_indent ms)))).
Proof.
  set (k := ms_indent ms). clearbody k. assert (N0 : rstrip_crlf (unescaped_docstring ms []) = []).
  { unfold unescaped_docstring. destruct (ms_sep ms) as [sep|]; [|reflexivity]. destruct (str_eqb sep sep_quotes); [reflexivity|]. destruct (str_eqb sep sep_ticks); reflexivity. }
  assert (G : forall g, get_line_text g (Z.of_nat k) = if Nat.ltb (g_indent g) k then g_trimmed g else skipn k (g_text g)).
  { intros g. unfold get_line_text. assert ((Z.of_nat k <? 0)%Z = false) as -> by (apply Z.ltb_ge; lia). cbn [orb]. rewrite Nat2Z.id.
    destruct (Nat.ltb (g_indent g) k) eqn:E; [apply Nat.ltb_lt in E; assert ((Z.of_nat (g_indent g) <? Z.of_nat k)%Z = true) as -> by (apply Z.ltb_lt; lia); reflexivity|].
    apply Nat.ltb_ge in E. assert ((Z.of_nat (g_indent g) <? Z.of_nat k)%Z = false) as -> by (apply Z.ltb_ge; lia). reflexivity. }
  rewrite !G. destruct H as [y [e [e' [N [Q [Q' [E1 [E2 _]]]]]]]].
  assert (S : forall e, ends e -> (length y < k)%nat -> rstrip_crlf (unescaped_docstring ms (skipn k (y ++ e))) = []).
  { intros e0 Q0 K. rewrite skipn_app. rewrite skipn_all2 by lia. cbn [app].
    assert (X : ends (skipn (k - length y) e0)).
    { destruct (k - length y)%nat as [|[|m]] eqn:Z; [lia | |]; destruct Q0 as [->|[->| ->]]; cbn; unfold ends; auto. destruct m; auto. }
    change (skipn (k - length y) e0) with ([] ++ skipn (k - length y) e0). rewrite (unescape_tail ms [] _ X). exact N0. }
  assert (L : forall e, ends e -> (k <= length y)%nat -> rstrip_crlf (unescaped_docstring ms (skipn k (y ++ e))) = rstrip_crlf (unescaped_docstring ms (skipn k y))).
  { intros e0 Q0 K. rewrite skipn_app. replace (k - length y)%nat with 0%nat by lia. now apply (unescape_tail ms (skipn k y)). }
  destruct (drop_while_suffix is_space y) as [i [E I]]. destruct (drop_while is_space y) as [|c z] eqn:D.
    + rewrite app_nil_r in E. subst i.
      assert (L1 : g_trimmed l = []) by (unfold g_trimmed; rewrite E1; apply lstrip_nil; rewrite forallb_app, I; exact (ends_space e Q)).
      assert (L2 : g_trimmed l' = []) by (unfold g_trimmed; rewrite E2; apply lstrip_nil; rewrite forallb_app, I; exact (ends_space e' Q')).
      unfold g_indent. rewrite L1, L2, E1, E2. rewrite !app_length. cbn [length].
      destruct (Nat.ltb (length y) k) eqn:K.
      * apply Nat.ltb_lt in K. destruct (Nat.ltb (length y + length e - 0) k), (Nat.ltb (length y + length e' - 0) k); rewrite ?N0, ?S; auto.
      * apply Nat.ltb_ge in K. assert (Nat.ltb (length y + length e - 0) k = false) as -> by (apply Nat.ltb_ge; lia). assert (Nat.ltb (length y + length e' - 0) k = false) as -> by (apply Nat.ltb_ge; lia).
        now rewrite !L.
    + apply drop_while_head in D. assert (T1 : g_trimmed l = (c :: z) ++ e) by (unfold g_trimmed; rewrite E1, E, <- app_assoc; now apply lstrip_hard).
      assert (T2 : g_trimmed l' = (c :: z) ++ e') by (unfold g_trimmed; rewrite E2, E, <- app_assoc; now apply lstrip_hard).
      unfold g_indent. rewrite T1, T2, E1, E2. rewrite !app_length. assert (LY : length y = (length i + length (c :: z))%nat) by (rewrite E; apply app_length).
      replace (length y + length e - (length (c :: z) + length e))%nat with (length i) by lia. replace (length y + length e' - (length (c :: z) + length e'))%nat with (length i) by lia.
      destruct (Nat.ltb (length i) k) eqn:K; [now rewrite !unescape_tail|]. apply Nat.ltb_ge in K. rewrite !L; auto; lia.
Qed.
End Lines.
