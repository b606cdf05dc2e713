(** * Elements of a document and the mappings that contain them: specification for C31 *)
From Verif Require Import PyStr Types Ast Robot.

(** [occurs v p n q]: [n] is a value inside [v], and [q] is the innermost mapping of [v] that contains
    [n], or [p] when there is none *)
Inductive occurs : jval -> jval -> jval -> jval -> Prop :=
| oc_here v p : occurs v p v p
| oc_dict kvs k v p n q : In (k, v) kvs -> occurs v (JDict kvs) n q -> occurs (JDict kvs) p n q
| oc_list l v p n q : In v l -> occurs v p n q -> occurs (JList l) p n q.
(** a mapping whose "id" is [x] *)
Definition has_id (n : jval) (x : str) : Prop := exists kvs, n = JDict kvs /\ jget (s "id") kvs = Some (JStr x).
