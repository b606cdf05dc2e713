(** * The command line program: C57 *)
From Verif Require Import PyStr PyStrFacts Types Regex Line Matcher Ast Parser Compiler Glob Robot Events Main IdSpec PropLine PropParse PropCompile PickleSpec PropEvents MainSpec.

(** an event with a place of the source in it: a document that is not empty, or an error *)
Definition has_place (e : event) : bool :=
  match e with
  | EvDocument _ d => match gd_feature d, gd_comments d with None, [] => false | _, _ => true end
  | EvError _ _ _ => true
  | _ => false
  end.

Lemma ids_dumpable l : forallb dumpable (map jid l) = true.
Proof. induction l; [reflexivity|]. exact IHl. Qed.
Lemma parg_dumpable a : dumpable (j_parg a) = true.
Proof.
  destruct a as [rows|c [m|]]; [|reflexivity..]. cbn [j_parg dumpable forallb snd]. rewrite !andb_true_r. induction rows as [|r rows IH]; [reflexivity|].
  cbn [map forallb]. rewrite IH, andb_true_r. cbn [dumpable forallb snd]. rewrite andb_true_r. induction r as [|v r IHr]; [reflexivity|]. cbn [map forallb]. now rewrite IHr.
Qed.
Lemma pickle_dumpable uri p : dumpable (j_pickle uri p) = true.
Proof.
  unfold j_pickle. cbn [dumpable forallb snd]. rewrite ids_dumpable. cbn [andb]. unfold jid at 1. cbn [dumpable andb].
  assert (T : forallb dumpable (map j_ptag (pk_tags p)) = true) by (induction (pk_tags p); [reflexivity|assumption]).
  assert (Q : forallb dumpable (map j_pstep (pk_steps p)) = true).
  { induction (pk_steps p) as [|q l IH]; [reflexivity|]. cbn [map forallb]. rewrite IH, andb_true_r. unfold j_pstep. cbn [dumpable].
    rewrite forallb_app. cbn [forallb snd dumpable]. rewrite ids_dumpable. unfold jid. cbn [dumpable andb].
    replace (dumpable match ps_type q with Some k => JStr (ktype_name k) | None => JNone end) with true by now destruct (ps_type q).
    cbn [andb]. destruct (ps_arg q) as [a|]; [|reflexivity]. cbn [option_map opt_kv forallb snd]. now rewrite parg_dumpable. }
  now rewrite T, Q.
Qed.
Lemma feature_not_dumpable f : dumpable (j_feature f) = false.
Proof. unfold j_feature. cbn [dumpable app forallb snd]. now rewrite andb_false_r. Qed.
Lemma event_dumpable e : dumpable (j_event e) = negb (has_place e).
Proof.
  destruct e as [x|uri d|uri p|uri loc msg]; [reflexivity| | |reflexivity].
  - unfold j_event, j_document. cbn [dumpable forallb snd has_place]. rewrite andb_true_r, forallb_app. cbn [forallb snd dumpable]. rewrite !andb_true_r.
    destruct (gd_feature d) as [f|].
    + cbn [option_map opt_kv forallb snd]. rewrite feature_not_dumpable. now destruct (gd_comments d).
    + destruct (gd_comments d) as [|c cs]; reflexivity.
  - unfold j_event. cbn [dumpable forallb snd]. now rewrite pickle_dumpable.
Qed.
Fixpoint nodupb (l : list str) : bool := match l with [] => true | x :: r => negb (existsb (str_eqb x) r) && nodupb r end.
Lemma nodupb_ok l : nodupb l = true -> NoDup l.
Proof.
  induction l as [|x r IH]; intros H; [constructor|]. cbn [nodupb] in H. apply andb_true_iff in H as [H1 H2]. constructor; [|auto].
  intros C. apply negb_true_iff in H1. assert (existsb (str_eqb x) r = true) by (apply existsb_exists; exists x; split; [exact C | now apply str_eqb_spec]). congruence.
Qed.
Ltac obj := unfold object; eexists; split; [reflexivity|]; split; [apply nodupb_ok; vm_compute; reflexivity|]; split;
  [cbn [map fst app]; intros ? K; cbn [In] in *; tauto | intros f K; cbn [In app opt_field opt_kv option_map] in K; repeat (destruct K as [<-|K]; [eexists; split; [cbn [In fst app]; repeat first [left; reflexivity | right] |] | ]); [..|destruct K]].
Lemma array_map {A} (P : A -> jval -> Prop) (f : A -> jval) l : (forall a, In a l -> P a (f a)) -> array P l (JList (map f l)).
Proof. intros H. eexists. split; [reflexivity|]. induction l; constructor; [apply H; now left | apply IHl; intros; apply H; now right]. Qed.
Lemma argument_said a : argument_says a (j_parg a).
Proof.
  destruct a as [rows|c [m|]]; unfold argument_says, j_parg.
  - obj. cbn [snd]. obj. cbn [snd]. apply array_map. intros cells _. obj. cbn [snd]. apply array_map. intros x _. obj. reflexivity.
  - obj. cbn [snd]. obj; reflexivity.
  - obj. cbn [snd]. obj; reflexivity.
Qed.
Lemma type_said o : type_is o (match o with Some k => JStr (ktype_name k) | None => JNone end).
Proof. destruct o as [[]|]; reflexivity. Qed.
Lemma step_said q : step_says q (j_pstep q).
Proof.
  unfold step_says, j_pstep. pose proof (type_said (ps_type q)) as T. set (ty := match ps_type q with Some k => JStr (ktype_name k) | None => JNone end) in *. clearbody ty.
  destruct (ps_arg q) as [a|]; cbn [opt_field opt_kv option_map app].
  - pose proof (argument_said a) as A. set (ja := j_parg a) in *. clearbody ja. obj; cbn [snd]; try reflexivity; try assumption. apply array_map. reflexivity.
  - obj; cbn [snd]; try reflexivity; try assumption. apply array_map. reflexivity.
Qed.
Lemma pickle_said uri p : pickle_says uri p (j_pickle uri p).
Proof.
  unfold pickle_says, j_pickle. obj; cbn [snd]; try reflexivity.
  - apply array_map. reflexivity.
  - apply array_map. intros t _. obj; reflexivity.
  - apply array_map. intros q _. apply step_said.
Qed.
Lemma event_said e : has_place e = false -> event_says e (j_event e).
Proof.
  destruct e as [x|uri d|uri p|uri loc msg]; cbn [has_place event_says]; intros H; [| | |discriminate H].
  - unfold j_event. obj. cbn [snd]. obj; reflexivity.
  - destruct (gd_feature d) eqn:F; [discriminate H|]. destruct (gd_comments d) eqn:C; [|discriminate H]. unfold j_event, j_document. rewrite F, C.
    cbn [option_map opt_kv app map]. obj. cbn [snd]. obj; cbn [snd]; [reflexivity|]. exists []. split; [reflexivity | constructor].
  - unfold j_event. obj. cbn [snd]. apply pickle_said.
Qed.
Lemma events_said evs : Forall (fun e => has_place e = false) evs -> Forall2 event_says evs (map j_event evs).
Proof. induction 1; constructor; [now apply event_said | assumption]. Qed.
(** What is printed are the events of C42 up to the first one with a place in it; the program ends with
    TypeError there, otherwise as the stream ends. *)
Theorem C57_printed_partial : forall o sources, exists evs x, stream o sources evs x /\
  ((Forall (fun e => has_place e = false) evs /\ exists printed, main o sources = (printed, x) /\ Forall2 event_says evs printed) \/
   (exists before e after printed, evs = before ++ e :: after /\ Forall (fun e => has_place e = false) before /\ has_place e = true /\
      main o sources = (printed, Some ETypeError) /\ Forall2 event_says before printed)).
Proof.
  intros o l. enough (X : exists evs x, stream o l evs x /\
    ((Forall (fun e => has_place e = false) evs /\ main o l = (map j_event evs, x)) \/
     (exists before e after, evs = before ++ e :: after /\ Forall (fun e => has_place e = false) before /\ has_place e = true /\
        main o l = (map j_event before, Some ETypeError)))).
  { destruct X as (evs & x & St & [[F E]|(b & e & a & E1 & F & P & E)]); exists evs, x; (split; [exact St|]); [left|right].
    - split; [exact F|]. eexists. split; [exact E | now apply events_said].
    - exists b, e, a. eexists. do 3 (split; [eassumption|]). split; [exact E | now apply events_said]. }
 destruct (enum_all o l 0) as [[evs x] n] eqn:E. exists evs, x. split; [eapply C42_event_stream; eauto|].
  unfold main. rewrite E. clear E. induction evs as [|e evs IH].
  - left. split; [constructor|reflexivity].
  - cbn [print_all map]. rewrite event_dumpable. destruct (has_place e) eqn:P; cbn [negb].
    + right. exists [], e, evs. auto.
    + destruct IH as [[F ->]|(b & e' & a & -> & F & P' & ->)].
      * left. split; [now constructor|reflexivity].
      * right. exists (e :: b), e', a. auto.
Qed.
Print Assumptions C57_printed_partial.

(** With --no-ast, for sources without errors (and outlines with plain headers), everything is printed. *)
Theorem C57_no_ast_partial : forall o sources, o_ast o = false ->
  (forall src, In src sources -> exists d, parse (so_data src) = Ok d /\ forall k, plain_headers (sh_doc k d)) ->
  exists evs printed, stream o sources evs None /\ main o sources = (printed, None) /\ Forall2 event_says evs printed.
Proof.
  intros o l A H. destruct (C57_printed_partial o l) as (evs & x & St & P).
  assert (K : Forall (fun e => has_place e = false) evs /\ x = None).
  { clear P. induction St as [|src l evs evs' x E St IH|src l evs e E].
    - split; [constructor|reflexivity].
    - destruct IH as [F ->]; [intros; apply H; now right|]. split; [|reflexivity]. apply Forall_app; split; [|exact F].
      destruct (H src (or_introl eq_refl)) as (d & Ed & _). remember None as y eqn:Y. destruct E as [d' k E _|d' k n ps n' E _ _|d' k n e E _ _ _ _|es E|e E _]; try congruence;
        rewrite A; cbn [opt_event app]; rewrite ?app_nil_r.
      + destruct (o_source o); repeat constructor.
      + apply Forall_app. split; [destruct (o_source o); repeat constructor|]. apply Forall_map, Forall_forall. reflexivity.
    - exfalso. destruct (H src (or_introl eq_refl)) as (d & Ed & Ep). remember (Some e) as y eqn:Y. destruct E as [d' k E _|d' k n ps n' E _ _|d' k n e' E _ _ _ B|es E|e' E _]; try congruence.
      rewrite Ed in E. injection E as <-. apply B, Ep. }
  destruct K as [F ->]. destruct P as [[_ (pr & P & Q)]|(b & e & a & pr & -> & _ & P & _)]; [exists evs, pr; auto|].
  apply Forall_app in F as [_ F]. inversion F; congruence.
Qed.
Print Assumptions C57_no_ast_partial.

(** Not true in general: with the default options nothing but the source is printed for a feature, and
    nothing at all for a text with an error. *)
Theorem C57_refuted : exists src1 src2 evs1 evs2,
  stream (mkOpts true true true) [src1] evs1 None /\ stream (mkOpts true true true) [src2] evs2 None /\ length evs1 = 3 /\ length evs2 = 1 /\
  main (mkOpts true true true) [src1] = ([j_event (EvSource src1)], Some ETypeError) /\ main (mkOpts true true true) [src2] = ([], Some ETypeError).
Proof.
  set (src1 := mkSource (s "a") (text_of_lines [s "Feature: f"; s "Scenario: a"; s "* x"])). set (src2 := mkSource (s "b") (s "x")).
  exists src1, src2. destruct (enum_all (mkOpts true true true) [src1] 0) as [[evs1 x1] n1] eqn:E1.
  destruct (enum_all (mkOpts true true true) [src2] 0) as [[evs2 x2] n2] eqn:E2. exists evs1, evs2.
  destruct (C42_event_stream _ _ _ _ _ E1) as [S1 _]. destruct (C42_event_stream _ _ _ _ _ E2) as [S2 _].
  vm_compute in E1. injection E1 as <- <- _. vm_compute in E2. injection E2 as <- <- _.
  split; [exact S1|]. split; [exact S2|]. do 2 (split; [reflexivity|]). split; vm_compute; reflexivity.
Qed.
Print Assumptions C57_refuted.
Example C57_case : (fun r => (length (fst r), snd r)) (main (mkOpts true false true) (firstn 2 ex_sources)) = (4, None).
Proof. vm_compute. reflexivity. Qed.
