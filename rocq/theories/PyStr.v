(** * Python strings

    A Python [str] is modelled as the list of its code points ([N]).
    Everything in this file models behaviour of the Python built-in type [str]
    (CPython 3.8+) that the code under /repo calls; no code of the repository
    itself is modelled here. *)
From Coq Require Export List NArith ZArith Lia Bool Arith.
From Coq Require Ascii String.
Export String.StringSyntax.
Export ListNotations.
Local Open Scope N_scope.

Definition char := N.
Definition str := list char.

(** ASCII literals: [s "abc"] is the Python literal "abc". *)
Definition s (x : String.string) : str :=
  List.map Ascii.N_of_ascii (String.list_ascii_of_string x).
Arguments s x%string_scope.

Definition ch_tab : char := 9.
Definition ch_nl : char := 10.
Definition ch_cr : char := 13.
Definition ch_space : char := 32.
Definition ch_quote : char := 34.   (* double quote *)
Definition ch_hash : char := 35.
Definition ch_apos : char := 39.
Definition ch_comma : char := 44.
Definition ch_slash : char := 47.
Definition ch_colon : char := 58.
Definition ch_eq : char := 61.
Definition ch_at : char := 64.
Definition ch_bslash : char := 92.
Definition ch_btick : char := 96.
Definition ch_n : char := 110.
Definition ch_pipe : char := 124.

(** [str.isspace] on one character; the same set is used by [str.strip()] and by
    the regular-expression class [\s] on str patterns.  The list was checked
    against CPython 3.11 by enumerating every code point. *)
Definition is_space (c : char) : bool :=
  ((9 <=? c) && (c <=? 13)) || ((28 <=? c) && (c <=? 32)) ||
  (c =? 133) || (c =? 160) || (c =? 5760) ||
  ((8192 <=? c) && (c <=? 8202)) ||
  (c =? 8232) || (c =? 8233) || (c =? 8239) || (c =? 8287) || (c =? 12288).

(** string equality [==] *)
Fixpoint str_eqb (a b : str) : bool :=
  match a, b with
  | [], [] => true
  | x :: a', y :: b' => (x =? y) && str_eqb a' b'
  | _, _ => false
  end.

(** [x in l] for a list of strings *)
Definition str_mem (x : str) (l : list str) : bool := existsb (str_eqb x) l.

(** drop the longest prefix of characters satisfying [f] *)
Fixpoint drop_while (f : char -> bool) (x : str) : str :=
  match x with
  | [] => []
  | c :: x' => if f c then drop_while f x' else x
  end.

Definition lstrip_by (f : char -> bool) (x : str) : str := drop_while f x.
Definition rstrip_by (f : char -> bool) (x : str) : str := rev (drop_while f (rev x)).

(** [str.lstrip()], [str.rstrip()], [str.strip()] *)
Definition lstrip := lstrip_by is_space.
Definition rstrip := rstrip_by is_space.
Definition strip (x : str) : str := rstrip (lstrip x).

(** [str.rstrip("\r\n")] *)
Definition is_crlf (c : char) : bool := (c =? ch_cr) || (c =? ch_nl).
Definition rstrip_crlf := rstrip_by is_crlf.

(** [str.startswith(p)] *)
Fixpoint startswith (p x : str) : bool :=
  match p, x with
  | [], _ => true
  | a :: p', b :: x' => (a =? b) && startswith p' x'
  | _ :: _, [] => false
  end.

(** [str.endswith(p)] *)
Definition endswith (p x : str) : bool := startswith (rev p) (rev x).

(** [str.split(c)] for a one-character separator: never returns []. *)
Fixpoint split_on (c : char) (x : str) : list str :=
  match x with
  | [] => [[]]
  | a :: x' =>
      if a =? c then [] :: split_on c x'
      else match split_on c x' with
           | [] => [[a]]                      (* unreachable *)
           | y :: ys => (a :: y) :: ys
           end
  end.

(** [sep.join(l)] *)
Fixpoint join (sep : str) (l : list str) : str :=
  match l with
  | [] => []
  | [x] => x
  | x :: l' => x ++ sep ++ join sep l'
  end.

(** [str.replace(pat, by)] for a non-empty [pat]: leftmost, non-overlapping
    occurrences.  [skip] counts the characters of the current occurrence that
    are still to be dropped. *)
Fixpoint replace_go (pat by_ : str) (skip : nat) (x : str) : str :=
  match x with
  | [] => []
  | c :: x' =>
      match skip with
      | S k => replace_go pat by_ k x'
      | O => if startswith pat x
             then by_ ++ replace_go pat by_ (length pat - 1) x'
             else c :: replace_go pat by_ 0 x'
      end
  end.
Definition replace (pat by_ x : str) : str := replace_go pat by_ 0 x.

(** [str(n)] for a natural number *)
Fixpoint digits_go (fuel : nat) (n : N) (acc : str) : str :=
  match fuel with
  | O => acc
  | S f => let acc' := (48 + N.modulo n 10) :: acc in
           if n <? 10 then acc' else digits_go f (N.div n 10) acc'
  end.
Definition str_of_N (n : N) : str := digits_go (S (N.to_nat (N.log2 n))) n [].
Definition str_of_nat (n : nat) : str := str_of_N (N.of_nat n).

(** [x in y] for strings (substring test) *)
Fixpoint contains (pat x : str) : bool :=
  startswith pat x || match x with [] => false | _ :: x' => contains pat x' end.

(** ** Lines of a text

    [io.StringIO(text)] followed by repeated [readline()]: the default
    [newline="\n"] means that only LF ends a line, that no translation takes
    place and that the line keeps its LF; at the end "" is returned for ever. *)
Fixpoint split_lines (x : str) : list str :=
  match x with
  | [] => []
  | c :: x' =>
      if c =? ch_nl then [c] :: split_lines x'
      else match split_lines x' with
           | [] => [[c]]
           | l :: ls => (c :: l) :: ls
           end
  end.
