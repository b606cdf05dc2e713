(** * Specification of C74: where the parts of a document stand in a Markdown text *)
From Verif Require Import PyStr Types Line DialectData Ast Matcher LineSpec DocSpec PartsSpec MdSpec.

(** the header line that introduced an element: the keyword begins at the location *)
Definition md_introduced (lines : list nline) (kws : list str) (loc : location) (keyword name : option str) : Prop :=
  exists l kw nm col, In l lines /\ header_line kws (snd l) kw nm col /\ loc = at_col l col /\ keyword = Some kw /\ name = Some nm.
(** the line of the feature: a header, or (if it is none) any line, taken as a name *)
Definition md_feature_line (x : str) (d : dialect) (kw name : option str) (col : nat) : Prop :=
  (exists k n, header_line (d_feature d) x k n col /\ kw = Some k /\ name = Some n) \/
  ((forall k n c, ~ header_line (d_feature d) x k n c) /\ kw = None /\ name = Some (without_eol (lstrip x)) /\ col = (indent_of x + 1)%nat).
(** a step: a bullet, and the first of the listed keywords that fits; the keyword begins at the location *)
Definition md_step_line (d : dialect) (x : str) (kw text : str) (col : nat) : Prop :=
  exists ind b gap rest before after y e, bullet_line x ind b gap rest /\
    all_step_keywords d = before ++ kw :: after /\ rest = kw ++ y ++ e /\ ~ In ch_nl y /\ line_end e /\
    Forall (fun k => startswith k rest = false) before /\ text = strip y /\ col = (length ind + length gap + 2)%nat.
Definition md_row_line (x : str) (items : list mitem) : Prop :=
  row_line x items /\ (indent_of x <= 5)%nat /\ forall i, In i items -> ~ separator_cell (i_text i).
Definition md_delimiter (sep : str) : Prop := sep = s """""""" \/ sep = s "````" \/ sep = s "```".
(** a line of a description or a doc string: without line end, without some of the white space at its beginning; escaped delimiters may be unescaped *)
Definition shown (k : nat) (esc : option str) (x : str) : str :=
  let y := if (k <=? indent_of x)%nat then skipn k x else lstrip x in
  without_eol (match esc with Some sep => replace (escaped sep) sep y | None => y end).
Definition md_text (lines : list nline) (x : str) : Prop :=
  exists ls, x = join [ch_nl] ls /\ forall y, In y ls -> exists l k esc, In l lines /\ (esc = None \/ exists sep, esc = Some sep /\ separator sep) /\ y = shown k esc (snd l).
Definition feature_descs (f : feature) : list str :=
  fe_desc f :: map ru_desc (fe_rules f) ++ map bg_desc (feature_backgrounds f) ++ map sc_desc (feature_scenarios f) ++ map ex_desc (feature_examples f).

Record md_located (lines : list nline) (d : dialect) (f : feature) : Prop := {
  mloc_feature : exists l col, In l lines /\ md_feature_line (snd l) d (fe_keyword f) (fe_name f) col /\ fe_loc f = at_col l col;
  mloc_rules : forall x, In x (fe_rules f) -> md_introduced lines (d_rule d) (ru_loc x) (ru_keyword x) (ru_name x);
  mloc_scenarios : forall x, In x (feature_scenarios f) -> md_introduced lines (d_scenario d ++ d_scenarioOutline d) (sc_loc x) (sc_keyword x) (sc_name x);
  mloc_backgrounds : forall x, In x (feature_backgrounds f) -> md_introduced lines (d_background d) (bg_loc x) (bg_keyword x) (bg_name x);
  mloc_examples : forall x, In x (feature_examples f) -> md_introduced lines (d_examples d) (ex_loc x) (ex_keyword x) (ex_name x);
  mloc_steps : forall x, In x (feature_steps f) -> exists l kw text col, In l lines /\ md_step_line d (snd l) kw text col /\
    st_loc x = at_col l col /\ st_keyword x = Some kw /\ st_text x = Some text /\ st_ktype x = Some (md_step_type d kw);
  mloc_tags : forall t, In t (feature_tags f) -> exists l tags c, In l lines /\ md_tags 0 (snd l) tags /\ In (c, tag_name t) tags /\ tag_loc t = at_col l c;
  mloc_rows : forall r, In r (feature_rows f) -> exists l items, In l lines /\ md_row_line (snd l) items /\
    row_loc r = here l /\ row_cells r = map (fun i => mkCell (at_col l (i_column i)) (i_text i)) items;
  mloc_tables : forall t, In t (feature_tables f) -> exists r rows, dt_rows t = r :: rows /\ dt_loc t = row_loc r;
  mloc_docs : forall ds, In ds (feature_docs f) -> exists l sep, In l lines /\ md_delimiter sep /\ ds_delimiter ds = Some sep /\
    begins sep (snd l) /\ ds_loc ds = here l /\
    (ds_media ds = None \/ exists m, ds_media ds = Some m /\ m <> [] /\ m = strip (skipn (length sep) (lstrip (snd l)))) /\ md_text lines (ds_content ds);
  mloc_descs : forall x, In x (feature_descs f) -> md_text lines x }.
