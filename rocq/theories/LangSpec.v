(** * The language header line: specification for C15, C16, C04 (no modelled code) *)
From Verif Require Import PyStr Types LineSpec.
Local Open Scope N_scope.

(** a character of a language name: A-Z, a-z, - and _ *)
Definition name_char (c : char) : bool :=
  ((65 <=? c) && (c <=? 90)) || ((97 <=? c) && (c <=? 122)) || (c =? 45) || (c =? 95).
(** the line [x] is: # language : name, with any white space around the parts *)
Definition language_line (x name : str) : Prop :=
  exists a b c d e, x = a ++ s "#" ++ b ++ s "language" ++ c ++ s ":" ++ d ++ name ++ e /\
    all_space a /\ all_space b /\ all_space c /\ all_space d /\ all_space e /\
    name <> [] /\ forallb name_char name = true.
