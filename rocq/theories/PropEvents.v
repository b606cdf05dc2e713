(** * The event stream: C42 *)
From Verif Require Import PyStr PyStrFacts Types Regex Line DialectData Matcher Ast ParserTable Parser Compiler Classify Table Grammar Deriv Cert LineSpec TagIff RowIff Cst Events Scan Report Eval IdSpec Rel Ids PickleSpec PickleFacts PickleTotal WfDoc PropLine PropParse PropCompile RobotFacts.

(** ** Specification *)

(** the identifiers in an event *)
Definition event_ids (e : event) : list nat :=
  match e with EvDocument _ d => doc_ids d | EvPickle _ p => pickle_ids p | _ => [] end.
Definition opt_event (b : bool) (e : event) : list event := if b then [e] else [].
(** The events for one source and the exception that ends the generator, if any.  [d] is the document of a new parser; in the
    stream its identifiers are shifted by some number. *)
Inductive events_for (o : options) (src : source) : list event -> option exn -> Prop :=
| ef_document d k : parse (so_data src) = Ok d -> o_pickles o = false ->
    events_for o src (opt_event (o_source o) (EvSource src) ++ opt_event (o_ast o) (EvDocument (so_uri src) (sh_doc k d))) None
| ef_pickles d k n ps n' : parse (so_data src) = Ok d -> o_pickles o = true -> compile (sh_doc k d) n = Ok (ps, n') ->
    events_for o src (opt_event (o_source o) (EvSource src) ++ opt_event (o_ast o) (EvDocument (so_uri src) (sh_doc k d)) ++
                      map (EvPickle (so_uri src)) ps) None
| ef_no_pickles d k n e : parse (so_data src) = Ok d -> o_pickles o = true -> compile (sh_doc k d) n = Err e ->
    (e = EReError \/ e = EUnmodelled) -> ~ plain_headers (sh_doc k d) ->
    events_for o src (opt_event (o_source o) (EvSource src) ++ opt_event (o_ast o) (EvDocument (so_uri src) (sh_doc k d))) (Some e)
| ef_errors es : parse (so_data src) = Err (EComposite es) ->
    events_for o src (map (fun e => EvError (so_uri src) (pe_loc e) (pe_msg e)) es) None
| ef_exception e : parse (so_data src) = Err e -> (e = EAttributeError \/ e = ERuntimeError) -> events_for o src [] (Some e).
(** the events of all sources in order, up to the first exception *)
Inductive stream (o : options) : list source -> list event -> option exn -> Prop :=
| st_end : stream o [] [] None
| st_next src l evs evs' x : events_for o src evs None -> stream o l evs' x -> stream o (src :: l) (evs ++ evs') x
| st_stop src l evs e : events_for o src evs (Some e) -> stream o (src :: l) evs (Some e).

(** ** Proofs *)
Lemma sh_zero_parse ids ms lines r : fst (parse_lines false 0 ms lines) = r ->
  fst (parse_lines false ids ms lines) = match r with Ok d => Ok (sh_doc ids d) | Err e => Err e end.
Proof. intros <-. apply (parse_shift ids false 0 ms lines). Qed.
Lemma flat_map_events {A} (f : A -> event) l : flat_map event_ids (map f l) = flat_map (fun x => event_ids (f x)) l.
Proof. induction l; [reflexivity|]. cbn. now f_equal. Qed.
Lemma error_ids uri es : flat_map event_ids (map (error_event uri) es) = [].
Proof. induction es; [reflexivity | assumption]. Qed.
Lemma opt_event_ids o src d : incl (flat_map event_ids (opt_event (o_source o) (EvSource src) ++ opt_event (o_ast o) (EvDocument (so_uri src) d))) (doc_ids d) /\
  (NoDup (doc_ids d) -> NoDup (flat_map event_ids (opt_event (o_source o) (EvSource src) ++ opt_event (o_ast o) (EvDocument (so_uri src) d)))).
Proof. destruct (o_source o), (o_ast o); cbn; rewrite ?app_nil_r; split; intros; auto using incl_refl, incl_nil_l; constructor. Qed.
Lemma NoDup_join (a b : list nat) k : NoDup a -> NoDup b -> (forall x, In x a -> x < k) -> (forall x, In x b -> k <= x) -> NoDup (a ++ b).
Proof.
  intros Ha Hb La Lb. induction Ha as [|x a N Ha IH]; [exact Hb|]. cbn. constructor.
  - rewrite in_app_iff. intros [H|H]; [tauto|]. specialize (La x (or_introl eq_refl)). specialize (Lb x H). lia.
  - apply IH. intros y Hy. apply La. now right.
Qed.
Lemma enum_one_spec o src ids evs x ids' : enum_one o src ids = (evs, x, ids') ->
  events_for o src evs x /\ ids <= ids' /\ NoDup (flat_map event_ids evs) /\ (forall i, In i (flat_map event_ids evs) -> ids <= i < ids').
Proof.
  intros H. destruct (fresh_matcher (s "en") en_supported) as [ms [E1 [E2 [E3 [E4 _]]]]].
  unfold enum_one in H. rewrite E1 in H.
  pose proof (parse_lines_outcome false ids ms ms (split_lines (so_data src)) E2 E3 E4 (split_lines_nonempty _)) as P.
  pose proof (ids_monotone false ids ms (split_lines (so_data src))) as M.
  pose proof (sh_zero_parse ids ms (split_lines (so_data src)) _ eq_refl) as Z.
  assert (EP : parse (so_data src) = fst (parse_lines false 0 ms (split_lines (so_data src)))) by (unfold parse, parse_with; rewrite E1; reflexivity).
  rewrite <- EP in Z. clear EP. destruct (parse_lines false ids ms (split_lines (so_data src))) as [r c]. cbn [fst snd] in *.
  destruct (parse (so_data src)) as [d|e] eqn:EP; subst r.
  - inversion P as [l d' ids1 ? [T Ch] D I| | |]; subst.
    pose proof (doc_ids_ok _ _ _ _ D) as [I1 [I2 I3]]. rewrite Forall_forall in I3.
    destruct (opt_event_ids o src (sh_doc ids d)) as [O1 O2]. specialize (O2 I2).
    change (if o_source o then [EvSource src] else []) with (opt_event (o_source o) (EvSource src)) in H.
    change (if o_ast o then [EvDocument (so_uri src) (sh_doc ids d)] else []) with (opt_event (o_ast o) (EvDocument (so_uri src) (sh_doc ids d))) in H.
    destruct (o_pickles o) eqn:Op.
    + pose proof (compile_fine (sh_doc ids d) (ab_ids (c_b c))) as F. unfold fine, re_exn in F.
      destruct (compile (sh_doc ids d) (ab_ids (c_b c))) as [[ps n']|e] eqn:C.
      * injection H as <- <- <-. pose proof (C27_ids_and_nodes _ _ _ _ C) as [C1 [C2 _]].
        assert (N : ab_ids (c_b c) <= n') by (apply compile_made in C; destruct (gd_feature (sh_doc ids d)); [destruct C as [_ [C _]]; exact C | injection C as _ <-; lia]).
        split; [rewrite <- app_assoc; now apply (ef_pickles o src d ids (ab_ids (c_b c)) ps n')|]. split; [lia|].
        rewrite flat_map_app, flat_map_events. cbn [event_ids]. split.
        -- apply (NoDup_join _ _ (ab_ids (c_b c))); auto; intros i Hi; [apply O1, I3 in Hi; lia | apply C2 in Hi; lia].
        -- intros i Hi. apply in_app_iff in Hi as [Hi|Hi]; [apply O1, I3 in Hi; lia | apply C2 in Hi; lia].
      * injection H as <- <- <-. destruct F as [F1 F2]; [eapply doc_of_wf; eauto|]. split; [now apply (ef_no_pickles o src d ids (ab_ids (c_b c)) e)|].
        split; [lia|]. split; [exact O2|]. intros i Hi. apply O1, I3 in Hi. lia.
    + injection H as <- <- <-. split; [now apply ef_document|]. split; [lia|]. split; [exact O2|]. intros i Hi. apply O1, I3 in Hi. lia.
  - inversion P as [|es ? ? ? ? ?| |? ? [y [Y1 Y2]]]; subst; try discriminate.
    + injection H as <- <- <-. split; [now apply ef_errors|]. rewrite error_ids. split; [exact M|]. split; [constructor | intros i []].
    + apply raise_at_spec in Y2. assert (e = EAttributeError \/ e = ERuntimeError) as Ye by (destruct Y2 as [[-> _]|[-> _]]; auto).
      assert (H' : ([] : list event, Some e, ab_ids (c_b c)) = (evs, x, ids')) by (destruct Ye as [-> | ->]; exact H). injection H' as <- <- <-.
      split; [now apply ef_exception|]. split; [exact M|]. split; [constructor | intros i []].
Qed.
Lemma enum_all_spec o l : forall ids evs x ids', enum_all o l ids = (evs, x, ids') ->
  stream o l evs x /\ ids <= ids' /\ NoDup (flat_map event_ids evs) /\ (forall i, In i (flat_map event_ids evs) -> ids <= i < ids').
Proof.
  induction l as [|src l IH]; intros ids evs x ids' H; cbn [enum_all] in H.
  - injection H as <- <- <-. split; [constructor|]. split; [lia|]. split; [constructor | intros i []].
  - destruct (enum_one o src ids) as [[e1 x1] i1] eqn:E1. apply enum_one_spec in E1 as [A1 [A2 [A3 A4]]]. destruct x1 as [e|].
    + injection H as <- <- <-. split; [now apply st_stop|]. auto.
    + destruct (enum_all o l i1) as [[e2 x2] i2] eqn:E2. apply IH in E2 as [B1 [B2 [B3 B4]]]. injection H as <- <- <-.
      split; [now apply st_next|]. split; [lia|]. rewrite flat_map_app. split.
      * apply (NoDup_join _ _ i1); auto; intros i Hi; [apply A4 in Hi; lia | apply B4 in Hi; lia].
      * intros i Hi. apply in_app_iff in Hi as [Hi|Hi]; [apply A4 in Hi; lia | apply B4 in Hi; lia].
Qed.

(** C42.  For all sources and options. *)
Theorem C42_event_stream : forall o sources evs x n, enum_all o sources 0 = (evs, x, n) ->
  stream o sources evs x /\ NoDup (flat_map event_ids evs).
Proof. intros o l evs x n H. apply enum_all_spec in H as [A [_ [B _]]]. auto. Qed.
Print Assumptions C42_event_stream.
(** The stream ends with an exception only for a tag with white space, a row with an unpaired backslash or a header that is not a
    regular expression. *)
Theorem C42_no_exception : forall o sources evs x n, enum_all o sources 0 = (evs, x, n) ->
  (forall src, In src sources -> (forall line, In line (split_lines (so_data src)) -> ~ bad_tags line /\ ~ bad_row line) /\
     forall d k, parse (so_data src) = Ok d -> plain_headers (sh_doc k d)) -> x = None.
Proof.
  intros o l evs x n H. apply enum_all_spec in H as [A _]. induction A as [|src l evs evs' x A B IH|src l evs e A]; intros G; [reflexivity|apply IH; intros y Hy; apply G; now right|].
  exfalso. destruct (G src (or_introl eq_refl)) as [G1 G2]. remember (Some e) as y eqn:Y. destruct A as [| |d k n0 e' A B C D F|es E|e' E Ee]; try discriminate.
  - apply F, G2, A.
  - destruct (parse_with_outcome false (s "en") (so_data src) en_supported) as [ms0 [c [_ P]]]. unfold parse in E. rewrite E in P.
    inversion P as [|? ? ? ? ? ?|? ? ? ?|? ? [z [Z1 Z2]]]; subst; try discriminate; try (now destruct Ee). apply G1 in Z1. apply raise_at_spec in Z2. tauto.
Qed.
Print Assumptions C42_no_exception.
(* a stream with every kind of event, that ends with an exception: a document without pickles, a text in German with an outline,
   an erroneous text, a row with an unpaired backslash, and a source that is not reached *)
Definition ex_sources : list source := map (fun p => mkSource (fst p) (text_of_lines (snd p)))
  [(s "a", [s "@t"; s "Feature: f"; s "Background:"; s "* x"]);
   (s "b", [s "# language: de"; s "Funktion: f"; s "Szenario: a"; s "* x <y>"; s "Beispiele:"; s "|y|"; s "|1|"; s "|2|"]);
   (s "c", [s "Feature: f"; s "Scenario: a"; s "x"; s "Given y"; s "|a|b|"; s "|c|"; s "nothing"]);
   (s "d", [s "Feature: f"; s "Scenario: a"; s "Given y"; s "|a\"]); (s "e", [s "Feature: f"])].
Definition event_kind (e : event) : nat := match e with EvSource _ => 0 | EvDocument _ _ => 1 | EvPickle _ _ => 2 | EvError _ _ _ => 3 end.
Example C42_case :
  (fun r => (map event_kind (fst (fst r)), snd (fst r), flat_map event_ids (fst (fst r)))) (enum_all (mkOpts true true true) ex_sources 0) =
  ([0; 1; 0; 1; 2; 2; 3; 3], Some ERuntimeError, [2; 1; 0; 8; 3; 7; 4; 5; 6; 9; 10; 11; 12]).
Proof. vm_compute. reflexivity. Qed.
