(** * Specification: a reader of the messages (C69)

    A reader that knows the names of the fields in the message format of Cucumber
    (https://github.com/cucumber/messages: GherkinDocument, Pickle, Source) and nothing of how the
    dictionaries are made.  It looks a field up by its name; the order of the fields does not matter. *)
From Verif Require Import PyStr Types Line Ast Compiler Robot Events.
Local Open Scope N_scope.

Definition field (k : str) (v : jval) : option jval :=
  match v with
  | JDict kvs => option_map snd (find (fun kv => str_eqb (fst kv) k) kvs)
  | _ => None
  end.
Definition bind {A B} (o : option A) (f : A -> option B) : option B := match o with Some a => f a | None => None end.
Notation "x <- o ;; f" := (bind o (fun x => f)) (at level 61, o at next level, right associativity).

Definition text (v : jval) : option str := match v with JStr x => Some x | _ => None end.
Definition text_or_null (v : jval) : option (option str) :=
  match v with JStr x => Some (Some x) | JNone => Some None | _ => None end.
Definition place_of (v : jval) : option location := match v with JLoc l => Some l | _ => None end.
Fixpoint all {A} (f : jval -> option A) (l : list jval) : option (list A) :=
  match l with [] => Some [] | v :: l' => a <- f v ;; (r <- all f l' ;; Some (a :: r)) end.
Definition many {A} (f : jval -> option A) (v : jval) : option (list A) :=
  match v with JList l => all f l | _ => None end.
(** a field that must be there *)
Definition required {A} (f : jval -> option A) (k : str) (v : jval) : option A := w <- field k v ;; f w.
(** a field that may be missing *)
Definition optional {A} (f : jval -> option A) (k : str) (v : jval) : option (option A) :=
  match field k v with Some w => option_map Some (f w) | None => Some None end.

(** an id is a decimal number *)
Definition number (v : jval) : option nat :=
  match v with
  | JStr x => if forallb (fun c => (48 <=? c) && (c <=? 57)) x
              then Some (N.to_nat (fold_left (fun a c => 10 * a + (c - 48)) x 0)) else None
  | _ => None
  end.
Definition type_named (x : str) : option ktype :=
  if str_eqb x (s "Context") then Some KtContext
  else if str_eqb x (s "Action") then Some KtAction
  else if str_eqb x (s "Outcome") then Some KtOutcome
  else if str_eqb x (s "Conjunction") then Some KtConjunction
  else if str_eqb x (s "Unknown") then Some KtUnknown else None.
Definition step_kind (v : jval) : option ktype := x <- text v ;; type_named x.

(** ** GherkinDocument *)

Definition a_tag v := id <- required number (s "id") v ;; l <- required place_of (s "location") v ;;
  n <- required text (s "name") v ;; Some (mkTag id l n).
Definition a_cell v := l <- required place_of (s "location") v ;; x <- required text (s "value") v ;; Some (mkCell l x).
Definition a_row v := id <- required number (s "id") v ;; l <- required place_of (s "location") v ;;
  cs <- required (many a_cell) (s "cells") v ;; Some (mkRow id l cs).
Definition a_docstring v := l <- required place_of (s "location") v ;; x <- required text (s "content") v ;;
  q <- optional text (s "delimiter") v ;; m <- optional text (s "mediaType") v ;; Some (mkDoc l x q m).
Definition a_table v := l <- required place_of (s "location") v ;; rs <- required (many a_row) (s "rows") v ;; Some (mkTable l rs).
Definition an_argument v : option steparg :=
  t <- optional a_table (s "dataTable") v ;; q <- optional a_docstring (s "docString") v ;;
  match t, q with
  | None, None => Some ANone
  | Some t, None => Some (ATable t)
  | None, Some q => Some (ADoc q)
  | Some _, Some _ => None
  end.
Definition a_step v := id <- required number (s "id") v ;; l <- required place_of (s "location") v ;;
  k <- optional text (s "keyword") v ;; t <- optional step_kind (s "keywordType") v ;; x <- optional text (s "text") v ;;
  a <- an_argument v ;; Some (mkStep id l k t x a).
Definition a_background v := id <- required number (s "id") v ;; l <- required place_of (s "location") v ;;
  k <- optional text (s "keyword") v ;; n <- optional text (s "name") v ;; x <- required text (s "description") v ;;
  sts <- required (many a_step) (s "steps") v ;; Some (mkBackground id l k n x sts).
Definition an_examples v := id <- required number (s "id") v ;; ts <- required (many a_tag) (s "tags") v ;;
  l <- required place_of (s "location") v ;;
  k <- optional text (s "keyword") v ;; n <- optional text (s "name") v ;; x <- required text (s "description") v ;;
  h <- optional a_row (s "tableHeader") v ;; b <- required (many a_row) (s "tableBody") v ;; Some (mkExamples id ts l k n x h b).
Definition a_scenario v := id <- required number (s "id") v ;; ts <- required (many a_tag) (s "tags") v ;;
  l <- required place_of (s "location") v ;;
  k <- optional text (s "keyword") v ;; n <- optional text (s "name") v ;; x <- required text (s "description") v ;;
  sts <- required (many a_step) (s "steps") v ;; ex <- required (many an_examples) (s "examples") v ;;
  Some (mkScenario id ts l k n x sts ex).

(** the children of a feature or a rule: each is a dictionary with one of the fields "background",
    "scenario", "rule" *)
Inductive child (R : Type) := CBackground (b : background) | CScenario (x : scenario) | CRule (r : R).
Arguments CBackground {R} b. Arguments CScenario {R} x. Arguments CRule {R} r.
Definition a_child {R} (rule : jval -> option R) (v : jval) : option (child R) :=
  match field (s "background") v, field (s "scenario") v, field (s "rule") v with
  | Some w, None, None => option_map CBackground (a_background w)
  | None, Some w, None => option_map CScenario (a_scenario w)
  | None, None, Some w => option_map CRule (rule w)
  | _, _, _ => None
  end.
(** a rule has no rules *)
Definition a_rule v := id <- required number (s "id") v ;; ts <- required (many a_tag) (s "tags") v ;;
  l <- required place_of (s "location") v ;;
  k <- optional text (s "keyword") v ;; n <- optional text (s "name") v ;; x <- required text (s "description") v ;;
  cs <- required (many (a_child (R := Empty_set) (fun _ => None))) (s "children") v ;;
  let b := match cs with CBackground b :: _ => Some b | _ => None end in
  Some (mkRule id ts l k n x b (flat_map (fun c => match c with CScenario y => [y] | _ => [] end) cs)).
Definition a_feature v := ts <- required (many a_tag) (s "tags") v ;; l <- required place_of (s "location") v ;;
  g <- optional text (s "language") v ;;
  k <- optional text (s "keyword") v ;; n <- optional text (s "name") v ;; x <- required text (s "description") v ;;
  cs <- required (many (a_child a_rule)) (s "children") v ;;
  let b := match cs with CBackground b :: _ => Some b | _ => None end in
  Some (mkFeature ts l g k n x b (flat_map (fun c => match c with CScenario y => [y] | _ => [] end) cs)
         (flat_map (fun c => match c with CRule y => [y] | _ => [] end) cs)).
Definition a_comment v := l <- required place_of (s "location") v ;; x <- required text_or_null (s "text") v ;; Some (mkComment l x).
Definition a_document v := f <- optional a_feature (s "feature") v ;; cs <- required (many a_comment) (s "comments") v ;; Some (mkGdoc f cs).

(** ** Pickle *)

Definition a_pickle_row v := required (many (required text (s "value"))) (s "cells") v.
Definition a_pickle_argument v : option parg :=
  match field (s "dataTable") v, field (s "docString") v with
  | Some t, None => option_map PTable (required (many a_pickle_row) (s "rows") t)
  | None, Some q => x <- required text (s "content") q ;; m <- optional text (s "mediaType") q ;; Some (PDoc x m)
  | _, _ => None
  end.
Definition a_pickle_step v := ns <- required (many number) (s "astNodeIds") v ;; id <- required number (s "id") v ;;
  t <- required text_or_null (s "type") v ;;
  k <- match t with Some x => option_map Some (type_named x) | None => Some None end ;;
  x <- required text (s "text") v ;; a <- optional a_pickle_argument (s "argument") v ;; Some (mkPs ns id k x a).
Definition a_pickle_tag v := n <- required number (s "astNodeId") v ;; x <- required text (s "name") v ;; Some (mkPt n x).
Definition a_pickle v := ns <- required (many number) (s "astNodeIds") v ;; id <- required number (s "id") v ;;
  ts <- required (many a_pickle_tag) (s "tags") v ;; n <- required text (s "name") v ;; g <- required text (s "language") v ;;
  sts <- required (many a_pickle_step) (s "steps") v ;; Some (mkPickle ns id ts n g sts).

(** ** Events *)

Definition an_event v : option event :=
  match field (s "source") v, field (s "gherkinDocument") v, field (s "pickle") v, field (s "parseError") v with
  | Some w, None, None, None =>
      u <- required text (s "uri") w ;; x <- required text (s "data") w ;; m <- required text (s "mediaType") w ;;
      if str_eqb m (s "text/x.cucumber.gherkin+plain") then Some (EvSource (mkSource u x)) else None
  | None, Some w, None, None => u <- required text (s "uri") w ;; g <- a_document w ;; Some (EvDocument u g)
  | None, None, Some w, None => u <- required text (s "uri") w ;; p <- a_pickle w ;; Some (EvPickle u p)
  | None, None, None, Some w =>
      o <- field (s "source") w ;; u <- required text (s "uri") o ;; l <- required place_of (s "location") o ;;
      x <- required text (s "message") w ;; Some (EvError u l x)
  | _, _, _, _ => None
  end.
