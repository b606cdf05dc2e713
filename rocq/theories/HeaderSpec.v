(** * The language header: specification for C100 (no modelled code) *)
From Verif Require Import PyStr Types Line DialectData Matcher LineSpec LangSpec Ast DocSpec.

(** the text before a line: nothing, or lines *)
Definition lines_before (a : str) : Prop := a = [] \/ exists t, a = t ++ [ch_nl].
(** [m] is one line, and a language header that names [lang] *)
Definition header_text (m lang : str) : Prop := exists x, m = x ++ [ch_nl] /\ ~ In ch_nl x /\ language_line m lang.
(** every line of the text is blank or begins with a number sign *)
Definition only_notes (a : str) : Prop := Forall (fun x => all_space x \/ begins [ch_hash] x) (split_lines a).
(** no line of the text above the feature (and not on line [n]) is a language header *)
Definition no_header_but (n : nat) (text : str) (f : feature) : Prop :=
  forall i x, In (i, x) (numbered_lines (split_lines text)) -> i < l_line (fe_loc f) -> i <> n -> forall name, ~ language_line x name.
Definition no_header (text : str) (f : feature) : Prop := no_header_but 0 text f.
