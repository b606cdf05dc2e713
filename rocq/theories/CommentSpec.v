(** * Which lines are comments: specification for C19 (no modelled code) *)
From Coq Require Import Sorting.Sorted.
From Verif Require Import PyStr Types Ast LineSpec LangSpec DocSpec.

(** line [n] is inside the doc string [ds]: it comes after the line where the doc string begins, and
    neither it nor a line in between begins with the separator *)
Definition inside (lines : list nline) (ds : docstring) (n : nat) : Prop :=
  exists sep, ds_delimiter ds = Some sep /\ l_line (ds_loc ds) < n /\
    forall m x, In (m, x) lines -> l_line (ds_loc ds) < m -> m <= n -> ~ begins sep x.
(** the language header: the first line that is not blank and not an ordinary comment *)
Definition header (lines : list nline) (h : nline) : Prop :=
  exists pre rest cs name, lines = pre ++ h :: rest /\ preamble pre cs /\ language_line (snd h) name.
(** [some] are the lines for which [P], in order *)
Definition in_order (ls : list nline) : Prop := StronglySorted (fun a b => fst a < fst b) ls.
Definition lines_with (P : nline -> Prop) (lines some : list nline) : Prop :=
  in_order some /\ forall l, In l some <-> In l lines /\ P l.
