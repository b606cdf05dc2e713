(** * Documents with the argument of one step exchanged (for C99) *)
From Verif Require Import PyStr Types Line DialectData Matcher LineSpec LangSpec Ast DocSpec PartsSpec Compiler PickleSpec MiddleSpec ExampleSpec ExampleChange PartSpec PartChange WordSpec ArgOnlySpec DocEditSpec DocChange ArgEditSpec.
From Coq Require Import Sorting.Sorted.

(** ** Lines with increasing numbers *)
Definition rising (ls : list nline) : Prop := StronglySorted lt (nums ls).
Lemma rising_l a b : rising (a ++ b) -> rising a.
Proof. unfold rising. rewrite nums_app. induction (nums a) as [|x l IH]; [constructor|]. cbn [app]. intros H. inversion H as [|? ? H1 H2]; subst. constructor; [auto|]. rewrite Forall_app in H2. exact (proj1 H2). Qed.
Lemma rising_r a b : rising (a ++ b) -> rising b.
Proof. unfold rising. rewrite nums_app. induction (nums a) as [|x l IH]; [auto|]. cbn [app]. intros H. inversion H; subst. auto. Qed.
Lemma rising_u n a b : rising (a ++ b) -> In n (nums a) -> ~ In n (nums b).
Proof.
  unfold rising. rewrite nums_app. induction (nums a) as [|x l IH]; [intros _ []|]. cbn [app]. intros H I. inversion H as [|? ? H1 H2]; subst. destruct I as [->|I]; [|now apply IH].
  intros J. rewrite Forall_forall in H2. specialize (H2 n). assert (n < n) by (apply H2, in_or_app; now right). lia.
Qed.
Lemma rising_once n ls : rising ls -> once n ls.
Proof. intros R a b -> . now apply rising_u. Qed.

(** ** The rows of a table *)
Lemma rows_off_number n xs rows : Forall2 row_at_line (lines_from n xs) rows -> map (fun r => l_line (row_loc r)) rows = seq n (length xs).
Proof.
  unfold lines_from. revert n rows. induction xs as [|x xs IH]; intros n rows H; inversion H as [|? r ? rs H1 H2]; subst; [reflexivity|]. cbn [map length seq]. f_equal; [exact (row_line_no _ _ H1) | now apply IH].
Qed.
Lemma rows_split ls rows cs : row_lines ls rows cs -> rising ls -> forall n k, map (fun r => l_line (row_loc r)) rows = seq n k -> (forall l, In l (nums ls) -> n <= l) ->
  exists old rest, ls = old ++ rest /\ length old = k /\ noise_lines rest cs.
Proof.
  assert (Bl : forall l ls rows cs n k, row_lines ls rows cs -> rising (l :: ls) -> map (fun r => l_line (row_loc r)) rows = seq n k -> (forall j, In j (nums (l :: ls)) -> n <= j) -> k = 0).
  { intros l ls' rows' cs' n k H R E B. destruct k as [|k]; [reflexivity|]. exfalso. destruct rows' as [|r rs]; [discriminate E|]. cbn [map seq] in E. injection E as E _. pose proof (rows_in ls' (r :: rs) cs' H r (or_introl eq_refl)) as I. rewrite E in I.
    unfold rising in R. inversion R as [|? ? R1 R2]; subst. rewrite Forall_forall in R2. specialize (R2 _ I). specialize (B (fst l) (or_introl eq_refl)). lia. }
  assert (Zero : forall (old rest : list nline), length old = 0 -> old ++ rest = rest) by (intros [|] rest; [reflexivity | discriminate]).
  induction 1 as [|l ls r rs cs H H0 IH|l ls rs cs H H0 IH|l ls rs cs H H0 IH]; intros R n k E B.
  - destruct k; [|discriminate E]. exists [], []. repeat split. constructor.
  - destruct k as [|k]; [discriminate E|]. cbn [map seq] in E. injection E as E1 E2. pose proof (row_line_no _ _ H) as E0. destruct (IH (rising_r [l] ls R) (Datatypes.S n) k E2) as [old [rest [-> [L N]]]].
    + intros j I. unfold rising in R. inversion R as [|? ? R1 R2]; subst. rewrite Forall_forall in R2. specialize (R2 _ I). lia.
    + exists (l :: old), rest. split; [reflexivity|]. split; [cbn; congruence | exact N].
  - pose proof (Bl l ls rs cs n k H0 R E B) as ->. destruct (IH (rising_r [l] ls R) n 0 E) as [old [rest [-> [L N]]]]; [intros j I; apply B; now right|]. rewrite (Zero _ _ L). exists [], (l :: rest). repeat split. now constructor.
  - pose proof (Bl l ls rs cs n k H0 R E B) as ->. destruct (IH (rising_r [l] ls R) n 0 E) as [old [rest [-> [L N]]]]; [intros j I; apply B; now right|]. rewrite (Zero _ _ L). exists [], (l :: rest). repeat split. now constructor.
Qed.
Lemma noise_rows ls cs : noise_lines ls cs -> row_lines ls [] cs.
Proof. induction 1; [apply rw_nil | apply rw_blank | apply rw_comment]; auto. Qed.
Lemma rows_app ls rows rest cs : Forall2 row_at_line ls rows -> noise_lines rest cs -> row_lines (ls ++ rest) rows cs.
Proof. intros H N. induction H; cbn [app]; [now apply noise_rows | now constructor]. Qed.

(** ** The lines of the argument of one step *)
(** the lines of the argument [a] that begins on line [n] and has [k] lines *)
Definition arg_piece (n k : nat) (a : steparg) (old : list nline) : Prop :=
  match a with ANone => False | ADoc _ => doc_piece n old | ATable _ => length old = k /\ match old with l :: _ => fst l = n | [] => False end end.
Lemma arg_block n xs a rest cs : argument_lines n xs a -> noise_lines rest cs -> argument_block (lines_from n xs ++ rest) a cs.
Proof.
  intros [[ds [D ->]]|[r [rows [[T Re] ->]]]] N; right; [right | left].
  - exists ds. split; [|reflexivity]. assert (D2 := D). destruct D2 as [sep [op [ct [cl [-> _]]]]]. apply (doc_lines_block n _ ds _ rest cs D); [|reflexivity | exact N].
    unfold lines_from. generalize (op :: ct ++ [cl]). clear. intros l. revert n. induction l as [|y l IH]; intros n; [reflexivity|]. cbn [length seq combine map snd]. now rewrite IH.
  - inversion T as [|l ? ls ? T1 T2 E1 E2]. subst. exists l, (ls ++ rest), (r :: rows). split; [reflexivity|]. split; [split; [|exact Re]|].
    + exists l, (ls ++ rest), r, rows. split; [reflexivity|]. split; [exact T1|]. split; [now apply rows_app | reflexivity].
    + f_equal. f_equal. destruct T1 as [items [_ ->]]. reflexivity.
Qed.
(** what an argument of the document was made of *)
Lemma arg_split n xs a arg cs : argument_lines n xs a -> argument_block arg a cs -> rising arg -> exists old rest, arg = old ++ rest /\ arg_piece n (length xs) a old /\ In n (nums old) /\ noise_lines rest cs.
Proof.
  intros [[ds [D ->]]|[r [rows [[T Re] ->]]]] B R.
  - destruct B as [[_ [A _]]|[[? [? [? [_ [_ A]]]]]|[ds1 [H3 A]]]]; [discriminate A | discriminate A |]. injection A as <-. destruct H3 as [sep [op [ct [cl [rest [media [-> [K1 [K2 [K3 [K4 [K5 [K6 E]]]]]]]]]]]]].
    assert (Q : fst op = n) by (destruct D as [? [? [? [? [_ [_ [_ [_ [_ E2]]]]]]]]]; assert (L : ds_loc ds = here op) by (rewrite E; reflexivity); rewrite E2 in L; cbn [ds_loc] in L; unfold here in L; congruence).
    exists (op :: ct ++ [cl]), rest. split; [cbn [app]; rewrite <- app_assoc; reflexivity|]. split; [exists sep, op, ct, cl; repeat (split; [auto|]); auto|]. split; [left; exact Q | exact K6].
  - destruct B as [[_ [A _]]|[[l [ls' [rows1 [-> [H3 A]]]]]|[ds1 [H3 A]]]]; [discriminate A | | discriminate A]. injection A as A1 <-. destruct H3 as [[l0 [ls0 [r0 [rs0 [E [R1 [R2 E2]]]]]]] _]. injection E as <- <-. injection E2 as <- <-.
    pose proof (rows_off_number _ _ _ T) as N. destruct xs as [|x xs]; [discriminate N|]. cbn [map length seq] in N. injection N as N1 N2. pose proof (row_line_no _ _ R1) as L1.
    destruct (rows_split ls' rows cs R2 (rising_r [l] ls' R) (Datatypes.S n) (length xs) N2) as [old [rest [-> [L N]]]].
    + intros j I. unfold rising in R. inversion R as [|? ? R3 R4]; subst. rewrite Forall_forall in R4. specialize (R4 _ I). cbn [fst] in *. lia.
    + exists (l :: old), rest. split; [reflexivity|]. split; [split; [cbn [length]; congruence | cbn; congruence]|]. split; [left; cbn; congruence | exact N].
Qed.
Lemma arg_line_of n xs a : argument_lines n xs a -> arg_line a = Some n.
Proof.
  intros [[ds [D ->]]|[r [rows [[T Re] ->]]]]; cbn [arg_line].
  - destruct D as [? [? [? [? [_ [_ [_ [_ [_ ->]]]]]]]]]. reflexivity.
  - cbn [dt_loc]. apply rows_off_number in T. destruct xs; [discriminate T|]. cbn [map length seq] in T. congruence.
Qed.
Lemma arg_in_lines n arg b cs : argument_block arg b cs -> arg_line b = Some n -> In n (nums arg).
Proof.
  intros [[_ [-> _]]|[[l0 [ls0 [rows [-> [_ ->]]]]]|[ds [H ->]]]] L; [discriminate L | |]; cbn [arg_line dt_loc here l_line] in L.
  - left. congruence.
  - destruct H as [? [op [? [? [? [? [-> [_ [_ [_ [_ [_ [_ ->]]]]]]]]]]]]]. cbn [ds_loc here l_line] in L. left. congruence.
Qed.
(** an argument exchanged for another one *)
Lemma arg_swap n d xs a xs' a' : argument_lines n xs a -> argument_lines n xs' a' ->
  swaps n rising (fun old ls => arg_piece n (length xs) a old /\ ls = lines_from n xs') (step_block d) (fun x => st_arg x = a) (for_arg n a').
Proof.
  intros D D' ls st cs [l [noise [arg [kw [text [b [c1 [c2 [-> [H1 [H2 [H3 [-> ->]]]]]]]]]]]]]. unfold for_arg. cbn [st_arg]. split; [|split].
  - intros ->. pose proof (arg_line_of n xs a D) as L. right. change (In n (nums (noise ++ arg))). rewrite nums_app. apply in_or_app. right.
    exact (arg_in_lines n arg _ c2 H3 L).
  - intros K. destruct (arg_line b) as [m|] eqn:L; [|reflexivity]. destruct (m =? n) eqn:Q; [|reflexivity]. apply Nat.eqb_eq in Q. subst m. exfalso. apply K. right. change (In n (nums (noise ++ arg))). rewrite nums_app. apply in_or_app. right.
    exact (arg_in_lines n arg _ c2 H3 L).
  - intros R ->. rewrite (arg_line_of n xs a D), Nat.eqb_refl. pose proof (rising_r (l :: noise) arg R) as R2. destruct (arg_split n xs a arg c2 D H3 R2) as [old [rest [-> [P [_ N]]]]].
    exists ((l :: noise) ++ lines_from n xs' ++ rest). split; [exists (l :: noise), old, (lines_from n xs'), rest; auto|].
    exists l, noise, (lines_from n xs' ++ rest), kw, text, a', c1, c2. split; [reflexivity|]. split; [exact H1|]. split; [exact H2|]. split; [|split; reflexivity]. now apply (arg_block n xs').
Qed.
(** an argument removed *)
Lemma arg_removed n d xs a : argument_lines n xs a -> swaps n rising (fun old ls => arg_piece n (length xs) a old /\ ls = []) (step_block d) (fun x => st_arg x = a) (for_arg n ANone).
Proof.
  intros D ls st cs B. destruct (arg_swap n d xs a xs a D D ls st cs B) as [A1 [A2 _]]. split; [exact A1|]. split.
  - intros K. specialize (A2 K). unfold for_arg in *. destruct (arg_line (st_arg st)) as [m|] eqn:L; [|reflexivity]. destruct (m =? n) eqn:Q; [|reflexivity]. exfalso. apply K. apply Nat.eqb_eq in Q. subst m.
    destruct B as [l [noise [arg [kw [text [b [c1 [c2 [-> [H1 [H2 [H3 [-> ->]]]]]]]]]]]]]. cbn [st_arg] in L. right. change (In n (nums (noise ++ arg))). rewrite nums_app. apply in_or_app. right.
    exact (arg_in_lines n arg _ c2 H3 L).
  - destruct B as [l [noise [arg [kw [text [b [c1 [c2 [-> [H1 [H2 [H3 [-> ->]]]]]]]]]]]]]. intros R K. cbn [st_arg] in K. subst b. unfold for_arg. cbn [st_arg]. rewrite (arg_line_of n xs a D), Nat.eqb_refl. pose proof (rising_r (l :: noise) arg R) as R2.
    destruct (arg_split n xs a arg c2 D H3 R2) as [old [rest [-> [P [_ N]]]]]. exists ((l :: noise) ++ [] ++ rest). split; [exists (l :: noise), old, [], rest; auto|].
    exists l, (noise ++ rest), [], kw, text, ANone, (c1 ++ c2), []. split; [cbn [app]; now rewrite app_nil_r|]. split; [exact H1|]. split; [now apply noise_app|]. split; [now left|]. split; [symmetry; apply app_nil_r | reflexivity].
Qed.
(** an argument added *)
Lemma arg_added n d xs a : argument_lines (Datatypes.S n) xs a ->
  swaps n rising (fun old ls => exists l, fst l = n /\ old = [l] /\ ls = l :: lines_from (Datatypes.S n) xs) (step_block d) (bare_on n) (for_step n a).
Proof.
  intros D ls st cs [l [noise [arg [kw [text [b [c1 [c2 [-> [H1 [H2 [H3 [-> ->]]]]]]]]]]]]]. unfold bare_on, step_on, for_step. cbn [st_arg st_loc here l_line]. split; [|split].
  - intros [K _]. left. exact K.
  - intros K. destruct (fst l =? n) eqn:Q; [|reflexivity]. apply Nat.eqb_eq in Q. exfalso. apply K. left. exact Q.
  - intros _ [K ->]. rewrite (proj2 (Nat.eqb_eq _ _) K). destruct H3 as [[-> [_ ->]]|[[? [? [? [_ [_ A]]]]]|[ds1 [_ A]]]]; [|discriminate A|discriminate A]. rewrite !app_nil_r.
    exists (l :: lines_from (Datatypes.S n) xs ++ noise). split; [exists [], [l], (l :: lines_from (Datatypes.S n) xs), noise; repeat (split; [reflexivity|]); exists l; auto|].
    exists l, [], (lines_from (Datatypes.S n) xs ++ noise), kw, text, a, [], c1. split; [reflexivity|]. split; [exact H1|]. split; [constructor|]. split; [|split; reflexivity]. now apply arg_block.
Qed.
