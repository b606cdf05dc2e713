(** * Specification: edits in an editor (C73)

    A document is a sequence of lines with their line ends, at most the last one without. *)
From Verif Require Import PyStr.
Definition ends_line (e : str) : Prop := e = [ch_nl] \/ e = [ch_cr] \/ e = [ch_cr; ch_nl].
Definition no_end (x : str) : Prop := ~ In ch_nl x /\ ~ In ch_cr x.
(** the lines of a text in VS Code: ended by LF, CR or CRLF (a CR before an LF belongs to it) *)
Inductive text_lines : str -> list (str * str) -> Prop :=
| tl_last x : no_end x -> text_lines x [(x, [])]
| tl_line x e rest l : no_end x -> ends_line e -> (e = [ch_cr] -> hd_error rest <> Some ch_nl) -> text_lines rest l ->
    text_lines (x ++ e ++ rest) ((x, e) :: l).
Definition width (l : list (str * str)) : nat := length (flat_map (fun p => fst p ++ snd p) l).
(** the offset of a position: a character behind the end of its line counts as the end of the line, a line behind the last one as the end of the text *)
Definition offset (l : list (str * str)) (p : nat * nat) : nat :=
  match nth_error l (fst p) with
  | Some (x, _) => width (firstn (fst p) l) + Nat.min (snd p) (length x)
  | None => width l
  end.
(** the text with the range between two positions replaced *)
Definition replaced (text : str) (l : list (str * str)) (p q : nat * nat) (by_ : str) : str :=
  firstn (offset l p) text ++ by_ ++ skipn (offset l q) text.
(** an editor keeps one kind of line end in a document: no CR without LF *)
Definition no_lone_cr (l : list (str * str)) : Prop := Forall (fun p => snd p <> [ch_cr]) l.
