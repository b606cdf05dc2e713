(** * The printed events: specification for C57 (no modelled code) *)
From Coq Require Import String.
From Verif Require Import PyStr Types Line DialectData Matcher Ast Compiler Robot Events.

(** an object with exactly these fields, in any order *)
Definition object (fields : list (string * (jval -> Prop))) (v : jval) : Prop :=
  exists kvs, v = JDict kvs /\ NoDup (map fst kvs) /\
    (forall k, In k (map fst kvs) -> In k (map (fun f => s (fst f)) fields)) /\
    (forall f, In f fields -> exists w, In (s (fst f), w) kvs /\ snd f w).
Definition text_is (x : str) (v : jval) : Prop := v = JStr x.
Definition id_is (n : nat) : jval -> Prop := text_is (str_of_nat n).
Definition array {A} (P : A -> jval -> Prop) (l : list A) (v : jval) : Prop := exists vs, v = JList vs /\ Forall2 P l vs.
Definition place_is (l : location) (v : jval) : Prop := v = JLoc l.
Definition opt_field {A} (k : string) (P : A -> jval -> Prop) (o : option A) : list (string * (jval -> Prop)) :=
  match o with Some a => [(k, P a)] | None => [] end.

Definition type_is (o : option ktype) (v : jval) : Prop :=
  match o with
  | None => v = JNone
  | Some KtContext => text_is (s "Context") v
  | Some KtAction => text_is (s "Action") v
  | Some KtOutcome => text_is (s "Outcome") v
  | Some KtConjunction => text_is (s "Conjunction") v
  | Some KtUnknown => text_is (s "Unknown") v
  end.
Definition argument_says (a : parg) : jval -> Prop :=
  match a with
  | PTable rows => object [("dataTable"%string, object [("rows"%string, array (fun cells => object [("cells"%string, array (fun x => object [("value"%string, text_is x)]) cells)]) rows)])]
  | PDoc content media => object [("docString"%string, object (("content"%string, text_is content) :: opt_field "mediaType" text_is media))]
  end.
Definition step_says (q : pstep) : jval -> Prop :=
  object ([("id"%string, id_is (ps_id q)); ("astNodeIds"%string, array id_is (ps_nodes q)); ("text"%string, text_is (ps_text q)); ("type"%string, type_is (ps_type q))]
          ++ opt_field "argument" argument_says (ps_arg q))%list.
Definition pickle_says (uri : str) (p : pickle) : jval -> Prop :=
  object [("id"%string, id_is (pk_id p)); ("uri"%string, text_is uri); ("name"%string, text_is (pk_name p)); ("language"%string, text_is (pk_language p));
          ("astNodeIds"%string, array id_is (pk_nodes p));
          ("tags"%string, array (fun t => object [("name"%string, text_is (pt_name t)); ("astNodeId"%string, id_is (pt_node t))]) (pk_tags p));
          ("steps"%string, array step_says (pk_steps p))].
(** what is printed for an event that can be printed: the source, a pickle, or the document of a text
    that has neither a feature nor a comment *)
Definition event_says (e : event) : jval -> Prop :=
  match e with
  | EvSource x => object [("source"%string, object [("uri"%string, text_is (so_uri x)); ("data"%string, text_is (so_data x)); ("mediaType"%string, text_is (s "text/x.cucumber.gherkin+plain"))])]
  | EvPickle uri p => object [("pickle"%string, pickle_says uri p)]
  | EvDocument uri d => object [("gherkinDocument"%string, object [("uri"%string, text_is uri); ("comments"%string, array (fun (_ : unit) (_ : jval) => True) [])])]
  | EvError _ _ _ => fun _ => False
  end.
