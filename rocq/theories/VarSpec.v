(** * Specification for C55: how Robot Framework finds variables in an argument

    Robot Framework looks for [$], [@], [&], [%] or [*] followed by an opening brace; the variable
    ends at the closing brace that matches it.  Braces after a backslash do not count.  What is
    between the braces is searched for variables again.  (robot/variables/search.py; a
    specification of that program, written down here, not code of the repository.) *)
From Verif Require Import PyStr Types Compiler.
Local Open Scope N_scope.

Definition ch_open : char := 123.
Definition ch_close : char := 125.
(** the characters that may start a variable *)
Definition identifiers : str := s "$@&%*".
Definition is_identifier (c : char) : bool := existsb (N.eqb c) identifiers.

(** Reading on inside [depth] open braces; [escaped]: after an (unescaped) backslash.  The result is
    what follows the closing brace of the outermost one; None: not closed. *)
Fixpoint rf_end (depth : nat) (escaped : bool) (x : str) : option str :=
  match x with
  | [] => None
  | c :: x' =>
      if escaped then rf_end depth false x'
      else if c =? ch_bslash then rf_end depth true x'
      else if c =? ch_open then rf_end (S depth) false x'
      else if c =? ch_close then match depth with S (S d) => rf_end (S d) false x' | _ => Some x' end
      else rf_end depth false x'
  end.
(** the whole argument is one dictionary variable with that text between the braces *)
Definition one_variable (arg body : str) : Prop :=
  arg = s "&{" ++ body ++ s "}" /\ rf_end 1 false (body ++ s "}") = Some [].

(** does an (unescaped) variable start somewhere? *)
Fixpoint rf_variable_in (escaped : bool) (x : str) : bool :=
  match x with
  | [] => false
  | c :: x' =>
      if escaped then rf_variable_in false x'
      else if c =? ch_bslash then rf_variable_in true x'
      else (is_identifier c && match x' with d :: _ => d =? ch_open | [] => false end) || rf_variable_in false x'
  end.

(** ** The same for the user's own texts, where a backslash means nothing *)

(** the number of open braces after a text, starting with [depth]; None: one too many was closed *)
Fixpoint braces (depth : nat) (x : str) : option nat :=
  match x with
  | [] => Some depth
  | c :: x' =>
      if c =? ch_open then braces (S depth) x'
      else if c =? ch_close then match depth with S (S d) => braces (S d) x' | _ => None end
      else braces depth x'
  end.
(** every opening brace is closed, every closing brace was opened *)
Definition balanced (x : str) : Prop := braces 1 x = Some 1%nat.
Definition looks_like_variable (x : str) : Prop := exists p c r, x = p ++ c :: ch_open :: r /\ In c identifiers.

(** the texts of an argument *)
Definition arg_texts (a : parg) : list str :=
  match a with
  | PDoc content media => content :: match media with Some m => [m] | None => [] end
  | PTable rows => concat rows
  end.
(** the texts and the braces of the dictionaries they are in *)
Definition arg_braces (a : parg) : str :=
  match a with
  | PDoc content media => s "{" ++ content ++ match media with Some m => m | None => [] end ++ s "}"
  | PTable rows => s "{" ++ flat_map (fun row => s "{" ++ flat_map (fun v => s "{" ++ v ++ s "}") row ++ s "}") rows ++ s "}"
  end.

(** ** C56: texts without anything that has to be escaped *)
Definition simple_char (printable : char -> bool) (c : char) : Prop :=
  c < 1114112 /\ (32 <= c < 127 \/ 127 < c /\ printable c = true) /\ ~ In c (s "'""\=").
Definition simple_text (printable : char -> bool) (x : str) : Prop :=
  Forall (simple_char printable) x /\ forall p c d r, x = p ++ c :: d :: r -> is_space c = true -> is_space d = true -> False.
