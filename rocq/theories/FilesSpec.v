(** * Files below a directory: specification for C36 and C38

    Glob.v is used for the type of directory trees and for [path_str], the components of a path joined with slashes. *)
From Verif Require Import PyStr Types Glob.

(** [file_at l p]: [p] leads from the directory with the entries [l], through readable directories, to a file *)
Inductive file_at : list (str * entry) -> list str -> Prop :=
| fa_file l n : In (n, EFile) l -> file_at l [n]
| fa_below l n c p : In (n, EDir (Some c)) l -> file_at c p -> file_at l (n :: p).
(** a directory: every name occurs once, and names are not empty and contain no slash *)
Inductive dir_ok : list (str * entry) -> Prop :=
| dok l : NoDup (map fst l) -> (forall n e, In (n, e) l -> n <> [] /\ ~ In ch_slash n) ->
    (forall n c, In (n, EDir (Some c)) l -> dir_ok c) -> dir_ok l.
(** the same files and directories, perhaps listed in another order *)
Definition same_files (l l' : list (str * entry)) : Prop := forall p, file_at l p <-> file_at l' p.

(** a path matches one of the patterns *)
Definition matches_one (patterns : list str) (p : list str) : Prop := exists pat, In pat patterns /\ glob_matches pat (path_str p) = Ok true.
(** [q] is [p] itself or a directory on the way to [p] *)
Definition on_the_way (q p : list str) : Prop := q <> [] /\ exists r, p = q ++ r.

(** code point order *)
Inductive str_before : str -> str -> Prop :=
| sb_nil c y : str_before [] (c :: y)
| sb_lt c d x y : (c < d)%N -> str_before (c :: x) (d :: y)
| sb_eq c x y : str_before x y -> str_before (c :: x) (c :: y).
Fixpoint ascending (l : list str) : Prop :=
  match l with x :: l' => match l' with y :: _ => str_before x y | [] => True end /\ ascending l' | [] => True end.
