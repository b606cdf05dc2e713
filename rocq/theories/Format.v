(** * The formatting edit of the VS Code extension

    Model of vscode-client/formattingEditProvider.ts.  Strings are lists of UTF-16 code units.
    [parseGherkinDocument] and [pretty] (of @cucumber/gherkin-utils) are one parameter: None when no document comes out of
    the parser. *)
From Verif Require Import PyStr.
Local Open Scope N_scope.

(** formattingEditProvider.ts:15: [split(/\r?\n/)].  [cur]: the current line so far, reversed *)
Fixpoint js_split (cur : str) (x : str) : list str :=
  match x with
  | [] => [rev cur]
  | c :: x' =>
      if c =? ch_nl then
        match cur with
        | d :: cur' => if d =? ch_cr then rev cur' :: js_split [] x' else rev cur :: js_split [] x'
        | [] => [] :: js_split [] x'
        end
      else js_split (c :: cur) x'
  end.

(** vscode.TextEdit: start and end of the range, line and character counted from 0; the new text *)
Record text_edit := mkEdit { te_start : nat * nat; te_end : nat * nat; te_text : str }.

(** formattingEditProvider.ts:6-20 [provideDocumentFormattingEdits] *)
Definition provide_edits (format : str -> option str) (source : str) : list text_edit :=
  match format source with
  | None => []                                                             (* :13 *)
  | Some new_text =>
      let lines := js_split [] source in
      let line := (length lines - 1)%nat in
      let character := length (nth line lines []) in
      [mkEdit (0, 0)%nat (line, character) new_text]
  end.
