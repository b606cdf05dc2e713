(** * Specification of Gherkin in Markdown (C43 - C46) *)
From Verif Require Import PyStr Types Line Matcher DialectData LineSpec.
Local Open Scope N_scope.

(** the text of a line: what precedes its line feed, if it has one *)
Definition line_end (e : str) : Prop := e = [] \/ e = [ch_nl].
Definition one_line (x : str) : Prop := exists y e, x = y ++ e /\ ~ In ch_nl y /\ line_end e.

Definition md_state (ms : mstate) : Prop := ms_md ms = true /\ for_name (ms_name ms) = Some (ms_dialect ms).

(** a header: white space, one to six #, one white space character, a keyword, a colon, the name;
    [col]: where the keyword begins, counted from 1 *)
Inductive header_line (keywords : list str) (x : str) : str -> str -> nat -> Prop :=
| header_intro ind h c k rest e :
    all_space ind -> (1 <= h <= 6)%nat -> is_space c = true -> In k keywords ->
    ~ In ch_nl rest -> line_end e ->
    x = ind ++ repeat ch_hash h ++ [c] ++ k ++ s ":" ++ rest ++ e ->
    header_line keywords x k (strip rest) (length ind + h + 2).

(** a bullet: white space, one of * + -, white space, and then [rest] *)
Definition bullet_line (x ind : str) (b : char) (gap rest : str) : Prop :=
  all_space ind /\ (b = 42 \/ b = 43 \/ b = 45) /\ all_space gap /\
  match rest with [] => True | c :: _ => is_space c = false end /\
  x = ind ++ [b] ++ gap ++ rest.

(** the type of a step keyword: the first of the groups it belongs to *)
Definition md_step_type (d : dialect) (k : str) : ktype :=
  if str_mem k (d_given d) then KtContext else if str_mem k (d_when d) then KtAction
  else if str_mem k (d_then d) then KtOutcome else KtConjunction.

(** the keywords of the title lines (other than that of the feature) *)
Definition title_keywords (d : dialect) (k : tok) : list str :=
  match k with
  | TkRuleLine => d_rule d
  | TkBackgroundLine => d_background d
  | TkScenarioLine => d_scenario d ++ d_scenarioOutline d
  | TkExamplesLine => d_examples d
  | _ => []
  end.
Definition md_title_kinds : list tok := [TkRuleLine; TkBackgroundLine; TkScenarioLine; TkExamplesLine].

(** a cell of a separator row: dashes, perhaps with a colon at either end.
    ([$] of the pattern also lets a line feed follow.) *)
Definition separator_cell (v : str) : Prop :=
  exists a n b e, (a = [] \/ a = s ":") /\ (1 <= n)%nat /\ (b = [] \/ b = s ":") /\ line_end e /\
    v = a ++ repeat 45 n ++ b ++ e.

(** a tag in Markdown: between backticks, an at-sign and at least one character other than a backtick *)
Definition has_md_tag (x : str) : Prop :=
  exists p v q, v <> [] /\ ~ In ch_btick v /\ x = p ++ [ch_btick; ch_at] ++ v ++ [ch_btick] ++ q.

(** the tags of a line, from the left, without overlaps, with the column of the at-sign counted from 1;
    [p]: the number of characters before [x] in the line *)
Definition tag_here (x v q : str) : Prop := v <> [] /\ ~ In ch_btick v /\ x = [ch_btick; ch_at] ++ v ++ [ch_btick] ++ q.
Inductive md_tags (p : nat) : str -> list (nat * str) -> Prop :=
| md_tags_none x : ~ has_md_tag x -> md_tags p x []
| md_tags_some pre x v q l :
    tag_here x v q -> (forall a b, pre = a ++ b -> b <> [] -> forall v' q', ~ tag_here (b ++ x) v' q') ->
    md_tags (p + length pre + length v + 3)%nat q l ->
    md_tags p (pre ++ x) ((p + length pre + 2, [ch_at] ++ v) :: l)%nat.
(** the tags of consecutive lines, the first of which has the number [n]: line, column, name *)
Inductive lines_tags : nat -> list str -> list (nat * (nat * str)) -> Prop :=
| lines_tags_nil n : lines_tags n [] []
| lines_tags_cons n x xs l r : md_tags 0 x l -> lines_tags (S n) xs r -> lines_tags n (x :: xs) (map (pair n) l ++ r).
