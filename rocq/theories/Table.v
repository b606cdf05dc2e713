(** * Facts about the parser table, checked by computation *)
From Verif Require Import PyStr Types ParserTable.

Lemma ptable_range q st : ptable q = Some st -> In q (seq 0 51).
Proof.
  intros H. apply in_seq. destruct (le_lt_dec 51 q) as [L|L]; [|lia]. exfalso.
  do 51 (destruct q as [|q]; [lia|]). discriminate H.
Qed.

Definition all_states (P : nat -> pstate -> bool) : bool :=
  forallb (fun q => match ptable q with Some st => P q st | None => true end) (seq 0 51).

Lemma all_states_spec P : all_states P = true -> forall q st, ptable q = Some st -> P q st = true.
Proof.
  intros H q st Hq. unfold all_states in H. rewrite forallb_forall in H.
  specialize (H q (ptable_range _ _ Hq)). now rewrite Hq in H.
Qed.

Definition tok_in (k : tok) (l : list tok) : bool := existsb (tok_eqb k) l.
Definition is_None {A} (o : option A) : bool := match o with None => true | Some _ => false end.
(** [k] is accepted without lookahead *)
Definition accepts (k : tok) (st : pstate) : bool :=
  existsb (fun tr => tok_eqb (tr_tok tr) k && is_None (tr_la tr)) (st_trans st).

Definition check_basic (q : nat) (st : pstate) : bool :=
  (* lookahead only after a tag line *)
  forallb (fun tr => is_None (tr_la tr) || tok_eqb (tr_tok tr) TkTagLine) (st_trans st) &&
  (* blank and comment lines are never unexpected *)
  ((accepts TkEmpty st && accepts TkComment st) || accepts TkOther st) &&
  (* the initial state is only reached from itself, looks never ahead, and is the only one
     that accepts a language line; at the end of the file the parser stops *)
  (Nat.eqb q 0 || forallb (fun tr => negb (Nat.eqb (tr_next tr) 0) && negb (tok_eqb (tr_tok tr) TkLanguage)) (st_trans st)) &&
  (negb (Nat.eqb q 0) || forallb (fun tr => is_None (tr_la tr)) (st_trans st)) &&
  Nat.eqb (st_self st) q &&
  forallb (fun tr => if tok_eqb (tr_tok tr) TkEOF then true else negb (is_None (ptable (tr_next tr)))) (st_trans st).
Lemma basic_ok : all_states check_basic = true.
Proof. vm_compute. reflexivity. Qed.
Lemma ptable_basic q st : ptable q = Some st -> check_basic q st = true.
Proof. apply all_states_spec, basic_ok. Qed.
