(** * What Robot Framework and Python make of the strings the builder produces

    Specification only; nothing here is code of the repository. *)
From Verif Require Import PyStr Types Compiler.
Local Open Scope N_scope.

Definition hex_value (c : char) : option N :=
  if (48 <=? c) && (c <=? 57) then Some (c - 48)
  else if (97 <=? c) && (c <=? 102) then Some (c - 87)
  else if (65 <=? c) && (c <=? 70) then Some (c - 55)
  else None.
(** the number written with the first [k] characters, most significant digit first *)
Fixpoint hex_number (k : nat) (acc : N) (x : str) : option N :=
  match k with
  | O => Some acc
  | S k' => match x with
            | [] => None
            | c :: x' => match hex_value c with Some v => hex_number k' (16 * acc + v) x' | None => None end
            end
  end.

(** robot.utils.escaping.unescape: a pair of backslashes stands for one; \n, \r, \t, \xHH, \uHHHH and
    \UHHHHHHHH for a character; any other single backslash disappears.  [skip]: characters of the
    current escape sequence still to be passed over. *)
Fixpoint rf_unescape_go (skip : nat) (x : str) : str :=
  match x with
  | [] => []
  | c :: x' =>
      match skip with
      | S k => rf_unescape_go k x'
      | O =>
          if c =? ch_bslash then
            match x' with
            | [] => []
            | d :: x'' =>
                let hexa k := match hex_number k 0 x'' with
                              | Some v => v :: rf_unescape_go (S k) x'
                              | None => rf_unescape_go 0 x'
                              end in
                if d =? ch_bslash then ch_bslash :: rf_unescape_go 1 x'
                else if d =? ch_n then ch_nl :: rf_unescape_go 1 x'
                else if d =? 114 (* r *) then ch_cr :: rf_unescape_go 1 x'
                else if d =? 116 (* t *) then ch_tab :: rf_unescape_go 1 x'
                else if d =? 120 (* x *) then hexa 2%nat
                else if d =? 117 (* u *) then hexa 4%nat
                else if d =? 85 (* U *) then hexa 8%nat
                else rf_unescape_go 0 x'
            end
          else c :: rf_unescape_go 0 x'
      end
  end.
Definition rf_unescape (x : str) : str := rf_unescape_go 0 x.

(** an equals sign that is not the second character of an escape sequence *)
Fixpoint bare_eq (escaped : bool) (x : str) : bool :=
  match x with
  | [] => false
  | c :: x' => if escaped then bare_eq false x'
               else if c =? ch_bslash then bare_eq true x'
               else (c =? ch_eq) || bare_eq false x'
  end.
(** two adjacent white space characters *)
Fixpoint double_blank (x : str) : bool :=
  match x with
  | c :: x' => match x' with d :: _ => is_space c && is_space d || double_blank x' | [] => false end
  | [] => false
  end.
(** code points of Python strings *)
Definition valid_str (x : str) : Prop := Forall (fun c => c < 1114112) x.

(** ** Python literals: strings, lists, dictionaries with string keys *)
Inductive pyval := PvStr (x : str) | PvList (l : list pyval) | PvDict (l : list (str * pyval)).

(** the rest of a string literal after the opening quote [q]: value and what follows the closing quote *)
Fixpoint py_string (q : char) (skip : nat) (x : str) : option (str * str) :=
  match x with
  | [] => None
  | c :: x' =>
      match skip with
      | S k => py_string q k x'
      | O =>
          let cons v r := match r with Some (y, z) => Some (v :: y, z) | None => None end in
          if c =? q then Some ([], x')
          else if c =? ch_nl then None
          else if c =? ch_bslash then
            match x' with
            | [] => None
            | d :: x'' =>
                let hexa k := match hex_number k 0 x'' with Some v => cons v (py_string q (S k) x') | None => None end in
                if (d =? ch_bslash) || (d =? ch_apos) || (d =? ch_quote) then cons d (py_string q 1 x')
                else if d =? ch_n then cons ch_nl (py_string q 1 x')
                else if d =? 114 then cons ch_cr (py_string q 1 x')
                else if d =? 116 then cons ch_tab (py_string q 1 x')
                else if d =? 120 then hexa 2%nat
                else if d =? 117 then hexa 4%nat
                else if d =? 85 then hexa 8%nat
                else None
            end
          else cons c (py_string q 0 x')
      end
  end.
Definition blanks (x : str) : str := drop_while (N.eqb ch_space) x.
Definition close (c : char) (x : str) : option str := match blanks x with d :: x' => if d =? c then Some x' else None | [] => None end.
(** one value; [fuel] bounds the nesting and the number of elements *)
Fixpoint py_value (fuel : nat) (x : str) : option (pyval * str) :=
  match fuel with
  | O => None
  | S f =>
      match blanks x with
      | [] => None
      | c :: x' =>
          if (c =? ch_apos) || (c =? ch_quote)
          then match py_string c 0 x' with Some (y, r) => Some (PvStr y, r) | None => None end
          else if c =? 91 (* [ *) then
            match close 93 x' with
            | Some r => Some (PvList [], r)
            | None => match py_items f x' with Some (l, r) => Some (PvList l, r) | None => None end
            end
          else if c =? 123 (* { *) then
            match close 125 x' with
            | Some r => Some (PvDict [], r)
            | None => match py_pairs f x' with Some (l, r) => Some (PvDict l, r) | None => None end
            end
          else None
      end
  end
with py_items (fuel : nat) (x : str) : option (list pyval * str) :=
  match fuel with
  | O => None
  | S f =>
      match py_value f x with
      | None => None
      | Some (v, r) =>
          match close ch_comma r with
          | Some r' => match py_items f r' with Some (l, r'') => Some (v :: l, r'') | None => None end
          | None => match close 93 r with Some r' => Some ([v], r') | None => None end
          end
      end
  end
with py_pairs (fuel : nat) (x : str) : option (list (str * pyval) * str) :=
  match fuel with
  | O => None
  | S f =>
      match py_value f x with
      | Some (PvStr k, r0) =>
          match close ch_colon r0 with
          | None => None
          | Some r1 =>
              match py_value f r1 with
              | None => None
              | Some (v, r) =>
                  match close ch_comma r with
                  | Some r' => match py_pairs f r' with Some (l, r'') => Some ((k, v) :: l, r'') | None => None end
                  | None => match close 125 r with Some r' => Some ([(k, v)], r') | None => None end
                  end
              end
          end
      | _ => None
      end
  end.
(** ast.literal_eval for these literals *)
Definition py_literal (x : str) : option pyval :=
  match py_value (S (length x)) x with Some (v, []) => Some v | _ => None end.

(** the value a keyword should receive for a step argument *)
Definition arg_value (a : parg) : pyval :=
  match a with
  | PDoc content media =>
      PvDict ((s "content", PvStr content) :: match media with Some m => [(s "mediaType", PvStr m)] | None => [] end)
  | PTable rows =>
      PvDict [(s "rows", PvList (map (fun cells =>
        PvDict [(s "cells", PvList (map (fun v => PvDict [(s "value", PvStr v)]) cells))]) rows))]
  end.
Definition valid_arg (a : parg) : Prop :=
  match a with
  | PDoc content media => valid_str content /\ match media with Some m => valid_str m | None => True end
  | PTable rows => Forall (Forall valid_str) rows
  end.

(** three lists related element by element *)
Inductive Forall3 {A B C} (R : A -> B -> C -> Prop) : list A -> list B -> list C -> Prop :=
| F3_nil : Forall3 R [] [] []
| F3_cons a b c la lb lc : R a b c -> Forall3 R la lb lc -> Forall3 R (a :: la) (b :: lb) (c :: lc).
