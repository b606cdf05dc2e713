(** * Lines and tokens

    Model of packages/gurke/src/gurke/gherkin_line.py, token.py, token_scanner.py. *)
From Verif Require Import PyStr Types Regex.

(** gherkin_line.py:10-15 [GherkinLine.__init__]: only the constructor arguments
    are stored; [_trimmed_line_text] and [indent] are functions of them. *)
Record gline := mkLine { g_text : str; g_number : nat }.
Definition g_trimmed (l : gline) : str := lstrip (g_text l).                       (* :14 *)
Definition g_indent (l : gline) : nat := length (g_text l) - length (g_trimmed l). (* :15 *)

(** gherkin_line.py:17-18 [__bool__] *)
Definition g_bool (l : gline) : bool := match g_text l with [] => false | _ => true end.

(** gherkin_line.py:20-21 [get_rest_trimmed] *)
Definition get_rest_trimmed (l : gline) (n : nat) : str := strip (skipn n (g_trimmed l)).

(** gherkin_line.py:23-27 [get_line_text] *)
Definition get_line_text (l : gline) (indent_to_remove : Z) : str :=
  if (indent_to_remove <? 0)%Z || (Z.of_nat (g_indent l) <? indent_to_remove)%Z
  then g_trimmed l
  else skipn (Z.to_nat indent_to_remove) (g_text l).

(** gherkin_line.py:29-30 [is_empty] *)
Definition g_is_empty (l : gline) : bool := match g_trimmed l with [] => true | _ => false end.

(** gherkin_line.py:32-33 [startswith] *)
Definition g_startswith (l : gline) (p : str) : bool := startswith p (g_trimmed l).

(** gherkin_line.py:35-36 [startswith_title_keyword] *)
Definition startswith_title_keyword (l : gline) (k : str) : bool :=
  startswith (k ++ [ch_colon]) (g_trimmed l).

(** items of table rows and tag lines: the dictionaries {"column": .., "text": ..}
    of gherkin_line.py:5-7, 44-48 and 103 *)
Record mitem := mkItem { i_column : nat; i_text : str }.

(** gherkin_line.py:52-87 [split_table_cells]: the list of everything the
    generator yields, or the exception it ends with.  [col] is the value of the
    variable at the head of the loop; [next(row)] at :75 without a default raises
    StopIteration, which inside a generator becomes RuntimeError (PEP 479).
    The caller (:41) consumes the whole generator, so an exception after some
    yields is an exception of the caller. *)
Fixpoint split_cells_go (row : str) (col start_col : nat) (cell : str) (first_cell : bool)
  : result (list (str * nat)) :=
  match row with
  | [] => Ok []                                                     (* :85-86 break *)
  | c :: row1 =>
      let col := S col in                                           (* :65 *)
      if (c =? ch_pipe)%N then                                      (* :66 *)
        let rest := split_cells_go row1 col (S col) [] false in     (* :67-73 *)
        if first_cell then rest
        else rbind rest (fun l => Ok ((cell, start_col) :: l))
      else if (c =? ch_bslash)%N then                               (* :74 *)
        match row1 with
        | [] => Err ERuntimeError                                   (* :75 *)
        | d :: row2 =>
            let col := S col in                                     (* :76 *)
            if (d =? ch_n)%N
            then split_cells_go row2 col start_col (cell ++ [ch_nl]) first_cell        (* :77-78 *)
            else if (d =? ch_pipe)%N || (d =? ch_bslash)%N
            then split_cells_go row2 col start_col (cell ++ [d]) first_cell            (* :82 *)
            else split_cells_go row2 col start_col (cell ++ [ch_bslash; d]) first_cell (* :80-82 *)
        end
      else split_cells_go row1 col start_col (cell ++ [c]) first_cell (* :83-84 *)
  end.
Definition split_table_cells (row : str) : result (list (str * nat)) :=
  split_cells_go row 0 1 [] true.

(** the regular expressions of gherkin_line.py:42 and :47 *)
Definition re_cell_lead : re := RSeq RBol (RStar (RSet true [CNonSpace; CChar ch_nl])).   (* ^[^\S\n]* *)
Definition re_cell_trail : re := RSeq (RStar (RSet true [CNonSpace; CChar ch_nl])) REol.  (* [^\S\n]*$ *)

(** gherkin_line.py:42-48, one cell *)
Definition cell_item (indent : nat) (cc : str * nat) : mitem :=
  let (cell, col) := cc in
  let lstripped := re_sub re_cell_lead [] cell in
  let cell_indent := length cell - length lstripped in
  mkItem (col + indent + cell_indent) (re_sub re_cell_trail [] lstripped).

(** gherkin_line.py:38-50 [table_cells] *)
Definition table_cells (l : gline) : result (list mitem) :=
  rbind (split_table_cells (strip (g_trimmed l)))
        (fun cs => Ok (map (cell_item (g_indent l)) cs)).

(** the regular expression of gherkin_line.py:92; [re.split(p, x, 2)[0]] is the
    text before the first match, or all of [x] *)
Definition re_tag_comment : re := RSeq (RSet false [CSpace]) (RChar ch_hash).             (* \s# *)
Definition uncomment (x : str) : str :=
  match re_search re_tag_comment x with Some (before, _) => before | None => x end.

(** the test of gherkin_line.py:97: [^\S+] matches any white space character
    (and nothing else: "+" is excluded from the class and is not a space) *)
Definition re_tag_space : re := RSet true [CNonSpace; CChar 43%N].

(** gherkin_line.py:95-104, the loop over the items.  The ParserException of :101
    is never constructed: its location is a dict, and errors.py:15 reads
    [location.line], so an AttributeError is raised instead. *)
Fixpoint tags_go (items : list str) (column : nat) : result (list mitem) :=
  match items with
  | [] => Ok []
  | item :: rest =>
      let tag_value := ch_at :: strip item in                                  (* :96 *)
      match re_search re_tag_space tag_value with
      | Some _ => Err EAttributeError                                          (* :97-101 *)
      | None => rbind (tags_go rest (column + length item + 1))                (* :104 *)
                      (fun l => Ok (mkItem column tag_value :: l))             (* :103 *)
      end
  end.

(** gherkin_line.py:89-105 [tags] *)
Definition g_tags (l : gline) : result (list mitem) :=
  let uncommented_line := uncomment (strip (g_trimmed l)) in                   (* :92 *)
  let items := split_on ch_at (strip uncommented_line) in                      (* :93 *)
  tags_go (tl items) (g_indent l + 1).                                         (* :91, :95 *)

(** Keyword types (token_matcher.py:189-196, 70) *)
Inductive ktype := KtContext | KtAction | KtOutcome | KtConjunction | KtUnknown.

(** token.py:7-28 [Token].  The object is mutable in Python; here every matcher
    returns the new token.  [t_mtype] is None for the initial "" and for the
    None the Markdown matcher stores.  [t_loc_col] is [token.location.column];
    [token.location.line] never changes.  [matched_indent] (initially -1) is only
    ever written, except for the column computed from it at the same time. *)
Record token := mkTok {
  t_line : gline;
  t_loc_line : nat;
  t_loc_col : option nat;
  t_mtype : option tok;
  t_text : option str;
  t_items : list mitem;
  t_keyword : option str;
  t_ktype : option ktype;
  t_indent : Z;
  t_dialect : option str }.

(** token.py:8-19 [__init__] with token_scanner.py:18-21 [TokenScanner.read] *)
Definition new_token (text : str) (n : nat) : token :=
  mkTok (mkLine text n) n None None (Some []) [] None None (-1)%Z None.

(** token.py:21-22 [eof] *)
Definition t_eof (t : token) : bool := negb (g_bool (t_line t)).

(** token.py:27-28 [token_value] *)
Definition token_value (t : token) : str :=
  if t_eof t then s "EOF" else get_line_text (t_line t) (-1).

(** [token.location] *)
Definition t_location (t : token) : location := mkLoc (t_loc_line t) (t_loc_col t).
