(** * What glob patterns mean: specification for C37

    Nothing here is code of the repository. *)
From Verif Require Import PyStr Types.
Local Open Scope N_scope.

(** the pieces of a pattern: a character, [?], [*], [{..,..}] with alternatives made of the former,
    and [**] together with the slash after it *)
Inductive gatom := GChar (c : char) | GOne | GSegment.
Inductive gitem := GAtom (a : gatom) | GGroup (alts : list (list gatom)) | GDeep.

(** a pattern as it is written *)
Definition show_atom (a : gatom) : str := match a with GChar c => [c] | GOne => s "?" | GSegment => s "*" end.
Definition show_atoms (l : list gatom) : str := flat_map show_atom l.
Fixpoint show (g : list gitem) : str :=
  match g with
  | [] => []
  | GAtom a :: g' => show_atom a ++ show g'
  | GGroup alts :: g' => s "{" ++ join (s ",") (map show_atoms alts) ++ s "}" ++ show g'
  | [GDeep] => s "**"
  | GDeep :: g' => s "**/" ++ show g'
  end.

(** what the pieces match: [?] any one character, [*] any text without slash *)
Definition no_slash (w : str) : Prop := ~ In ch_slash w.
Inductive atom_matches : gatom -> str -> Prop :=
| am_char c : atom_matches (GChar c) [c]
| am_one c : atom_matches GOne [c]
| am_segment w : no_slash w -> atom_matches GSegment w.
Inductive atoms_match : list gatom -> str -> Prop :=
| as_nil : atoms_match [] []
| as_cons a l w x : atom_matches a w -> atoms_match l x -> atoms_match (a :: l) (w ++ x).
(** [**]: nothing, whole directories (ending in a slash), or everything up to the end of the path
    (or up to a line feed in the path) *)
Definition deep_part (w x : str) : Prop := w = [] \/ (exists v, w = v ++ s "/") \/ x = [] \/ exists y, x = ch_nl :: y.
Inductive glob_match : list gitem -> str -> Prop :=
| gm_nil : glob_match [] []
| gm_atom a g w x : atom_matches a w -> glob_match g x -> glob_match (GAtom a :: g) (w ++ x)
| gm_group alts alt g w x : In alt alts -> atoms_match alt w -> glob_match g x -> glob_match (GGroup alts :: g) (w ++ x)
| gm_deep g w x : deep_part w x -> glob_match g x -> glob_match (GDeep :: g) (w ++ x).

(** patterns of this kind: ordinary characters, stars not side by side, a group with at least one
    alternative, [**] at the start or after a slash *)
Definition ordinary (c : char) : Prop := ~ In c (s "?*{}[]").
Definition atom_ok (a : gatom) : Prop := match a with GChar c => ordinary c | _ => True end.
Definition alt_atom_ok (a : gatom) : Prop := atom_ok a /\ a <> GChar ch_comma.
Fixpoint stars_apart (l : list gatom) : Prop :=
  match l with
  | GSegment :: l' => match l' with GSegment :: _ => False | _ => True end /\ stars_apart l'
  | _ :: l' => stars_apart l'
  | [] => True
  end.
Definition item_ok (i : gitem) : Prop :=
  match i with
  | GAtom a => atom_ok a
  | GGroup alts => alts <> [] /\ Forall (fun l => Forall alt_atom_ok l /\ stars_apart l) alts
  | GDeep => True
  end.
(** may [b] follow [a] *)
Definition may_follow (a : option gitem) (b : gitem) : Prop :=
  match a, b with
  | Some (GAtom GSegment), GAtom GSegment => False
  | None, GDeep | Some GDeep, GDeep => True
  | Some (GAtom (GChar c)), GDeep => c = ch_slash
  | _, GDeep => False
  | _, _ => True
  end.
Fixpoint pattern_ok (prev : option gitem) (g : list gitem) : Prop :=
  match g with
  | [] => True
  | i :: g' => item_ok i /\ may_follow prev i /\ pattern_ok (Some i) g'
  end.
