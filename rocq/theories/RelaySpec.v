(** * Laying out a text anew: specification for C63 (no modelled code)

    The line numbers of the elements of a feature, and texts that differ only in the empty lines and
    comments before elements and in the indentation of elements. *)
From Verif Require Import PyStr Types Line Ast LineSpec LangSpec DocSpec CommentSpec.

(** ** The lines on which something begins *)
Definition tag_starts (l : list tag) : list nat := map (fun t => l_line (tag_loc t)) l.
Definition row_starts (l : list row) : list nat := map (fun r => l_line (row_loc r)) l.
Definition arg_starts (a : steparg) : list nat :=
  match a with ANone => [] | ATable t => row_starts (dt_rows t) | ADoc d => [l_line (ds_loc d)] end.
Definition step_starts (x : step) : list nat := l_line (st_loc x) :: arg_starts (st_arg x).
Definition background_starts (x : background) : list nat := l_line (bg_loc x) :: flat_map step_starts (bg_steps x).
Definition opt_starts {A} (f : A -> list nat) (o : option A) : list nat := match o with Some a => f a | None => [] end.
Definition examples_starts (x : examples) : list nat :=
  tag_starts (ex_tags x) ++ l_line (ex_loc x) :: row_starts (match ex_header x with Some h => [h] | None => [] end ++ ex_body x).
Definition scenario_starts (x : scenario) : list nat :=
  tag_starts (sc_tags x) ++ l_line (sc_loc x) :: flat_map step_starts (sc_steps x) ++ flat_map examples_starts (sc_examples x).
Definition rule_starts (x : rule_ast) : list nat :=
  tag_starts (ru_tags x) ++ l_line (ru_loc x) :: opt_starts background_starts (ru_background x) ++ flat_map scenario_starts (ru_scenarios x).
Definition feature_starts (x : feature) : list nat :=
  tag_starts (fe_tags x) ++ l_line (fe_loc x) :: opt_starts background_starts (fe_background x) ++
  flat_map scenario_starts (fe_scenarios x) ++ flat_map rule_starts (fe_rules x).

(** ** Layouts *)

(** an empty line, or a comment that is no language header *)
Definition spare (l : nline) : Prop := without_eol (snd l) = [] \/ (comment_line l /\ forall name, ~ language_line (snd l) name).
(** the same line, perhaps indented differently; the indentation of a doc string is part of the document *)
Definition alike (x x' : str) : Prop :=
  x' = x \/ (lstrip x' = lstrip x /\ forall sep, separator sep -> ~ begins sep x).
(** [relaid own lines lines']: the empty lines and comments before the lines [own], and at the end, may be others,
    and the lines [own] may be indented differently; everything else is the same *)
Inductive relaid (own : nline -> Prop) : list nline -> list nline -> Prop :=
| re_end gap gap' : Forall spare gap -> Forall spare gap' -> relaid own gap gap'
| re_same l l' ls ls' : snd l' = snd l -> relaid own ls ls' -> relaid own (l :: ls) (l' :: ls')
| re_own gap gap' l l' ls ls' : Forall spare gap -> Forall spare gap' -> own l -> alike (snd l) (snd l') -> relaid own ls ls' ->
    relaid own (gap ++ l :: ls) (gap' ++ l' :: ls').
(** the lines of a feature before which there may be other empty lines and comments: those on which an element begins and the
    language header *)
Definition own_line (f : feature) (lines : list nline) (l : nline) : Prop := In (fst l) (feature_starts f) \/ header lines l.
Definition same_layout (f : feature) (text text' : str) : Prop :=
  relaid (own_line f (numbered_lines (split_lines text))) (numbered_lines (split_lines text)) (numbered_lines (split_lines text')).
