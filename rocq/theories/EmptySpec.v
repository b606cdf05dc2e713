(** * Emptying the reported lines: specification for C76 (no modelled code) *)
From Verif Require Import PyStr Types LineSpec DocSpec.

(** an error that says: this line is unexpected here *)
Definition about_a_line (e : perr) : bool := match pe_kind e with KUnexpectedToken => true | _ => false end.
(** the lines reported as unexpected *)
Definition reported_lines (es : list perr) : list nat := map (fun e => l_line (pe_loc e)) (filter about_a_line es).
(** the second text has as many lines as the first; the lines with these numbers are blank in it, the others unchanged *)
Definition emptied (numbers : list nat) (lines lines' : list nline) : Prop :=
  Forall2 (fun l l' => fst l' = fst l /\ (In (fst l) numbers /\ all_space (snd l') \/ ~ In (fst l) numbers /\ snd l' = snd l)) lines lines'.
(** the other errors *)
Definition other_errors (es : list perr) : list perr := filter (fun e => negb (about_a_line e)) es.
