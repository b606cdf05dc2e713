(** * The tokens of a keyword call and their positions: gherkin_builder.py:126-142

    Robot.v keeps of a [KeywordCall] only its name, its arguments and the position of its keyword token; here are all its tokens. *)
From Verif Require Import PyStr Types Line Ast Compiler Robot.

(** the types of tokens that occur in a [KeywordCall] (robot.parsing.lexer.tokens.Token) *)
Inductive rtype := RtSeparator | RtKeyword | RtArgument | RtEol.
(** robot.parsing.lexer.tokens.Token; a new token has lineno and col_offset -1, here [None] *)
Record rtoken := mkRtoken { rk_type : rtype; rk_value : str; rk_line : option nat; rk_col : option nat }.
Definition new_token (ty : rtype) (v : str) : rtoken := mkRtoken ty v None None.
Definition four_spaces : str := s "    ".
(** Robot Framework's [KeywordCall.from_params(name, args=args)] (library code; without assignments) *)
Definition from_params (name : str) (args : list str) : list rtoken :=
  [new_token RtSeparator four_spaces; new_token RtKeyword name] ++
  flat_map (fun a => [new_token RtSeparator four_spaces; new_token RtArgument a]) args ++
  [new_token RtEol [ch_nl]].
Definition rtype_eqb (a b : rtype) : bool :=
  match a, b with RtSeparator, RtSeparator | RtKeyword, RtKeyword | RtArgument, RtArgument | RtEol, RtEol => true | _, _ => false end.
(** Token.end_col_offset: col_offset + len(value) (of a token with a position) *)
Definition end_col (c : nat) (t : rtoken) : nat := c + length (rk_value t).
(** gherkin_builder.py:133-142: the loop over [keyword_call.tokens]; [column] is the local variable, [line] and [col] are
    location.line and location.column - 1 *)
Fixpoint place_tokens (line col column : nat) (ts : list rtoken) : list rtoken :=
  match ts with
  | [] => []
  | t :: ts' =>
      if rtype_eqb (rk_type t) RtKeyword then
        mkRtoken (rk_type t) (rk_value t) (Some line) (Some col) :: place_tokens line col (end_col col t) ts'
      else
        mkRtoken (rk_type t) (rk_value t) (Some line) (Some column) :: place_tokens line col column ts'
  end.
(** the tokens of the keyword call that Robot.v abbreviates as [c] (every step of an accepted document has a location) *)
Definition call_tokens (c : rcall) : list rtoken := place_tokens (rc_line c) (rc_col c) 0 (from_params (rc_name c) (rc_args c)).
