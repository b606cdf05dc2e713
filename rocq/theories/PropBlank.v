(** * C14 (white space): exactly which characters make a line blank *)
From Verif Require Import PyStr PyStrFacts Types Line.
Local Open Scope N_scope.

(** The white space characters of Python's [str.isspace] (Unicode 14: the tab to the carriage return, the
    separators 28-31, the space, next line, the no-break space, the ogham space, the spaces from en quad to
    hair space, the line and paragraph separators, the narrow no-break space, the mathematical space, the
    ideographic space). *)
Definition white : list N :=
  [9; 10; 11; 12; 13; 28; 29; 30; 31; 32; 133; 160; 5760;
   8192; 8193; 8194; 8195; 8196; 8197; 8198; 8199; 8200; 8201; 8202;
   8232; 8233; 8239; 8287; 12288].
Lemma is_space_white c : is_space c = true <-> In c white.
Proof.
  split.
  - unfold is_space. rewrite !orb_true_iff, !andb_true_iff, !N.leb_le, !N.eqb_eq. intros H.
    assert (R : forall k n, k <= c -> c <= k + N.of_nat n -> In c (map (fun i => k + N.of_nat i) (seq 0 (S n)))).
    { intros k n H1 H2. apply in_map_iff. exists (N.to_nat (c - k)). split; [lia|]. apply in_seq. lia. }
    assert (S : forall l, incl l white -> In c l -> In c white) by (intros l I J; now apply I).
    assert (B : forall l, forallb (fun x => existsb (N.eqb x) white) l = true -> incl l white).
    { intros l H0 x Hx. rewrite forallb_forall in H0. apply H0, existsb_exists in Hx. destruct Hx as [y [Hy E]]. apply N.eqb_eq in E. now subst. }
    repeat match type of H with _ \/ _ => destruct H as [H|H] end.
    + eapply S; [|apply (R 9 4%nat); lia]. apply B. reflexivity.
    + eapply S; [|apply (R 28 4%nat); lia]. apply B. reflexivity.
    + subst. apply (B [133]); [reflexivity | now left].
    + subst. apply (B [160]); [reflexivity | now left].
    + subst. apply (B [5760]); [reflexivity | now left].
    + eapply S; [|apply (R 8192 10%nat); lia]. apply B. reflexivity.
    + subst. apply (B [8232]); [reflexivity | now left].
    + subst. apply (B [8233]); [reflexivity | now left].
    + subst. apply (B [8239]); [reflexivity | now left].
    + subst. apply (B [8287]); [reflexivity | now left].
    + subst. apply (B [12288]); [reflexivity | now left].
  - intros H. assert (F : forallb is_space white = true) by reflexivity. rewrite forallb_forall in F. now apply F.
Qed.
Theorem C14_blank_lines x n : g_is_empty (mkLine x n) = true <-> forall c, In c x -> In c white.
Proof.
  unfold g_is_empty, g_trimmed. cbn [g_text]. split.
  - intros H. assert (E : lstrip x = []) by (destruct (lstrip x); [easy | discriminate H]). apply lstrip_nil in E.
    rewrite forallb_forall in E. intros c Hc. now apply is_space_white, E.
  - intros H. replace (lstrip x) with (@nil char); [reflexivity|]. symmetry. apply lstrip_nil. apply forallb_forall. intros c Hc. now apply is_space_white, H.
Qed.
Print Assumptions C14_blank_lines.
Example C14_blank_case : g_is_empty (mkLine [32; 9; 160; 8195; 10] 1) = true /\ g_is_empty (mkLine [32; 8203; 10] 1) = false.
Proof. now vm_compute. Qed.
