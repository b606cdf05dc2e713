(** * Specification for the line-level properties (C07 - C10, C12 - C14) *)
From Verif Require Import PyStr Types Line Matcher DialectData.
Local Open Scope N_scope.

(** a blank: white space other than a line feed *)
Definition blank (c : char) : bool := is_space c && negb (c =? ch_nl).
Definition all_space (x : str) : Prop := forallb is_space x = true.

(** ** Table cells *)

(** the text of a cell in a file: | is written \|, \ is written \\, a line feed is written \n *)
Definition escape_cell (v : str) : str :=
  flat_map (fun c => if c =? ch_pipe then s "\|" else if c =? ch_bslash then s "\\"
                     else if c =? ch_nl then s "\n" else [c]) v.

(** reading such a text; any other character after a backslash stands, with it, for itself.
    None: it contains a bare | or ends in an unpaired backslash. *)
Fixpoint unescape_cell (x : str) : option str :=
  match x with
  | [] => Some []
  | c :: x1 =>
      if c =? ch_pipe then None
      else if c =? ch_bslash then
        match x1 with
        | [] => None
        | d :: x2 =>
            option_map (fun v => if d =? ch_n then ch_nl :: v
                                 else if (d =? ch_pipe) || (d =? ch_bslash) then d :: v
                                 else ch_bslash :: d :: v) (unescape_cell x2)
        end
      else option_map (cons c) (unescape_cell x1)
  end.

(** blanks at the end, or before a final line feed, are dropped *)
Definition rtrim_cell (v : str) : str :=
  if endswith [ch_nl] v then rstrip_by blank (removelast v) ++ [ch_nl] else rstrip_by blank v.
(** blanks around the value do not belong to it *)
Definition trim_cell (v : str) : str := rtrim_cell (drop_while blank v).

(** what the cells with the raw texts [raws] are, when the first one begins at position [pos]
    (counted from 0) of the line: 1-based column of the first character that is not a blank, value *)
Fixpoint cells_at (pos : nat) (raws : list str) : list mitem :=
  match raws with
  | [] => []
  | raw :: raws' =>
      mkItem (pos + (length raw - length (drop_while blank raw)) + 1)
             (trim_cell (match unescape_cell raw with Some v => v | None => [] end))
      :: cells_at (pos + length raw + 1) raws'
  end.
(** a row with these raw cell texts *)
Definition row_text (raws : list str) : str := ch_pipe :: flat_map (fun r => r ++ [ch_pipe]) raws.

(** a value written with blanks around it *)
Record padded := mkPad { pd_left : str; pd_value : str; pd_right : str }.
Definition all_blank (x : str) : Prop := forallb blank x = true.
Definition padded_ok (p : padded) : Prop :=
  all_blank (pd_left p) /\ all_blank (pd_right p) /\ trim_cell (pd_value p) = pd_value p.
Definition padded_text (p : padded) : str := pd_left p ++ escape_cell (pd_value p) ++ pd_right p.

(** ** Tags *)
Definition tag_name_ok (x : str) : Prop := forallb (fun c => negb (is_space c) && negb (c =? ch_at)) x = true.
(** a tag: its name without the @ and the white space after it *)
Definition tags_text (l : list (str * str)) : str := flat_map (fun p => ch_at :: fst p ++ snd p) l.
Fixpoint tags_at (pos : nat) (l : list (str * str)) : list mitem :=
  match l with
  | [] => []
  | (name, sep) :: l' =>
      mkItem (pos + 1) (ch_at :: name) :: tags_at (pos + 1 + length name + length sep) l'
  end.
(** the line end: nothing, or a comment after white space *)
Definition tag_comment (l : list (str * str)) (comment : str) : Prop :=
  comment = [] \/
  (exists y, comment = ch_hash :: y) /\ (exists p name sep, l = p ++ [(name, sep)] /\ sep <> []).

(** ** Steps and line kinds *)

(** a TokenMatcher of a supported language *)
Definition classic_state (ms : mstate) : Prop :=
  ms_md ms = false /\ for_name (ms_name ms) = Some (ms_dialect ms).

(** the five keyword lists of a language in which a step keyword may be *)
Definition step_type (d : dialect) (k : str) : ktype :=
  match str_mem k (d_given d), str_mem k (d_when d), str_mem k (d_then d), str_mem k (d_and d), str_mem k (d_but d) with
  | true, false, false, false, false => KtContext
  | false, true, false, false, false => KtAction
  | false, false, true, false, false => KtOutcome
  | false, false, false, true, false => KtConjunction
  | false, false, false, false, true => KtConjunction
  | _, _, _, _, _ => KtUnknown
  end.
Definition all_step_keywords (d : dialect) : list str :=
  d_given d ++ d_when d ++ d_then d ++ d_and d ++ d_but d.

(** the line kinds that C14 speaks about *)
Definition line_kinds : list tok :=
  [TkEmpty; TkComment; TkTagLine; TkTableRow; TkDocStringSeparator; TkFeatureLine; TkRuleLine;
   TkBackgroundLine; TkScenarioLine; TkExamplesLine; TkStepLine].
(** the matcher takes the line for one of kind [k]: it says so, or it raises an error about it *)
Definition claims (ms : mstate) (x : str) (k : tok) : bool :=
  match fst (fst (do_match k ms (new_token x 1))) with Ok false => false | _ => true end.

(** step keywords that begin with another step keyword listed before them; non-ASCII characters
    are written as numbers *)
Definition shadowed : list (str * str) :=
  [(s "en-old", s "Tha the "); (s "en-old", [222; 97; 32; 254; 101; 32]); (s "en-old", [208; 97; 32; 240; 101; 32]);
   (s "ht", s "Sipoze ke "); (s "ht", s "Sipoze Ke "); (s "ht", [76; 232; 32; 115; 97; 32; 97; 32]); (s "ht", s "Le sa a ");
   (s "sk", s "A tie" ++ [382; 32]); (s "sk", s "A taktie" ++ [382; 32]); (s "sk", s "A z" ++ [225] ++ s "rove" ++ [328; 32])].

(** ** All tag lines and table rows *)

(** a tag as it may be written: blanks may follow the @ *)
Record rtag := mkRtag { rt_lead : str; rt_name : str; rt_sep : str }.
Definition rtag_ok (t : rtag) : Prop :=
  all_space (rt_lead t) /\ all_space (rt_sep t) /\ tag_name_ok (rt_name t) /\
  (rt_lead t = [] \/ forall y, rt_name t <> ch_hash :: y).
Definition rtag_text (t : rtag) : str := ch_at :: rt_lead t ++ rt_name t ++ rt_sep t.
Definition rtags_text (l : list rtag) : str := flat_map rtag_text l.
Fixpoint rtags_at (pos : nat) (l : list rtag) : list mitem :=
  match l with
  | [] => []
  | t :: l' => mkItem (pos + 1) (ch_at :: rt_name t) :: rtags_at (pos + length (rtag_text t)) l'
  end.
(** a comment may follow white space *)
Definition tag_line (ind : str) (l : list rtag) (comment : str) : Prop :=
  all_space ind /\ l <> [] /\ Forall rtag_ok l /\
  (comment = [] \/ (exists y, comment = ch_hash :: y) /\ exists r c, rtags_text l = r ++ [c] /\ is_space c = true).
(** the line [x] carries these tags *)
Definition tags_line (x : str) (items : list mitem) : Prop :=
  exists ind l comment, x = ind ++ rtags_text l ++ comment /\ tag_line ind l comment /\ items = rtags_at (length ind) l.

(** reading from the left, a backslash takes the next character with it: one is left over at the end *)
Fixpoint unpaired (x : str) : bool :=
  match x with
  | [] => false
  | c :: x1 =>
      if c =? ch_bslash then match x1 with [] => true | _ :: x2 => unpaired x2 end
      else unpaired x1
  end.
(** the line [x] is a table row with these cells *)
Definition row_line (x : str) (items : list mitem) : Prop :=
  exists ind raws tail, x = ind ++ row_text raws ++ tail /\ all_space ind /\
    Forall (fun r => unescape_cell r <> None) raws /\ unescape_cell (rstrip tail) <> None /\
    items = cells_at (length ind + 1) raws.
