(** * Properties of the pickle compiler: C20 (rectangular tables), C21 to C28

    The specification is PickleSpec.v. *)
From Verif Require Import PyStr PyStrFacts Types Regex Line Ast IdSpec Matcher Parser Compiler PickleSpec PickleFacts PickleTotal PropLine PropParse Eval WfDoc PropMdParse.

(** C21.  The pickles are those of the origins: one for each scenario without examples, one for each
    row of each examples table, in document order.  A pickle names its scenario and its row. *)
Theorem C21_pickle_per_scenario_or_row : forall d id ps id', compile d id = Ok (ps, id') ->
  map pk_nodes ps = map origin_nodes (origins d).
Proof.
  intros d id ps id' H. apply compile_made in H. unfold origins. destruct (gd_feature d) as [f|]; [|injection H as -> ->; reflexivity].
  destruct H as [H _]. cbn [fst] in H. induction H as [|o p os ps H1 H2 IH]; [reflexivity|]. cbn. now rewrite (pr_nodes _ _ _ H1), IH.
Qed.
Print Assumptions C21_pickle_per_scenario_or_row.

(** every pickle together with its origin *)
Lemma compile_pickles d f id ps id' : gd_feature d = Some f -> compile d id = Ok (ps, id') -> Forall2 (pickle_rel f) (origins d) ps /\ block id ps id'.
Proof. intros E H. apply compile_made in H. unfold origins. rewrite E in *. exact H. Qed.

(** C22. *)
Theorem C22_background_then_own_steps : forall d f id ps id', gd_feature d = Some f -> compile d id = Ok (ps, id') ->
  Forall2 (fun o p => map ps_nodes (pk_steps p) = step_nodes f o) (origins d) ps.
Proof. intros d f id ps id' E H. apply (compile_pickles d f) in H as [H _]; [|assumption]. eapply Forall2_imp; [|exact H]. intros o p R. apply R. Qed.
Print Assumptions C22_background_then_own_steps.

(** C23. *)
Theorem C23_tags_inherited : forall d f id ps id', gd_feature d = Some f -> compile d id = Ok (ps, id') ->
  Forall2 (fun o p => map (fun t => (pt_node t, pt_name t)) (pk_tags p) = map (fun t => (tag_id t, tag_name t)) (origin_tags f o)) (origins d) ps.
Proof.
  intros d f id ps id' E H. apply (compile_pickles d f) in H as [H _]; [|assumption]. eapply Forall2_imp; [|exact H]. intros o p R. rewrite (pr_tags _ _ _ R), map_map. reflexivity.
Qed.
Print Assumptions C23_tags_inherited.

(** C24.  With headers free of special characters: name, own steps and their arguments are filled in with
    the values of the row; the steps of backgrounds are taken over unchanged. *)
Lemma filled_nil x y : filled [] x y -> y = x.
Proof. now inversion 1. Qed.
Lemma step_filled_rel vars vals st p : Forall plain (map cell_value vars) -> step_rel vars vals st p -> step_filled (cols_of vars vals) st p.
Proof.
  intros P [[x [E1 E2]] A]. split; [exists x; split; [exact E1 | now apply interpolate_filled]|]. inversion A as [E F|t rows H E F|dd c m H1 H2 E F].
  - constructor.
  - constructor. eapply Forall2_imp; [|exact H]. intros r vs Hr. eapply Forall2_imp; [|exact Hr]. intros. now apply interpolate_filled.
  - constructor; [now apply interpolate_filled|]. destruct (ds_media dd), m; auto. now apply interpolate_filled.
Qed.
Lemma header_cells o : header_names o = map cell_value (vars_of o).
Proof. unfold header_names, vars_of. now destruct (o_row o) as [[[ex h] r]|]. Qed.
Lemma columns_cells o : columns o = cols_of (vars_of o) (vals_of o).
Proof. unfold columns, cols_of, vars_of, vals_of. now destruct (o_row o) as [[[ex h] r]|]. Qed.
Theorem C24_placeholders_filled : forall d f id ps id', gd_feature d = Some f -> compile d id = Ok (ps, id') ->
  Forall2 (fun o p => Forall plain (header_names o) ->
    (exists n, sc_name (o_scenario o) = Some n /\ filled (columns o) n (pk_name p)) /\
    exists p1 p2, pk_steps p = p1 ++ p2 /\ Forall2 (step_filled []) (inherited_steps f o) p1 /\
      Forall2 (step_filled (columns o)) (sc_steps (o_scenario o)) p2) (origins d) ps.
Proof.
  intros d f id ps id' E H. apply (compile_pickles d f) in H as [H _]; [|assumption]. eapply Forall2_imp; [|exact H]. intros o p R P.
  rewrite columns_cells. rewrite header_cells in P. split.
  - destruct (pr_name _ _ _ R) as [n [E1 E2]]. exists n. split; [exact E1 | now apply interpolate_filled].
  - destruct (pr_steps _ _ _ R) as [p1 [p2 [E1 [E2 E3]]]]. exists p1, p2. split; [exact E1|]. split.
    + eapply Forall2_imp; [|exact E2]. intros st q. apply (step_filled_rel [] []). constructor.
    + eapply Forall2_imp; [|exact E3]. intros st q. now apply step_filled_rel.
Qed.
Print Assumptions C24_placeholders_filled.
(** [filled] determines the result, and leaves a text without placeholders alone *)
Theorem C24_filled_unique : forall cols x y y', filled cols x y -> filled cols x y' -> y = y'.
Proof.
  intros cols x y y' H. revert y'. induction H as [x|h v cols x y z H1 H2 IH]; intros y' H'.
  - now apply filled_nil in H'.
  - inversion H' as [|? ? ? ? w ? H3 H4]; subst. assert (y = w) as -> by (eapply replaced_fun; eauto; discriminate). auto.
Qed.
Print Assumptions C24_filled_unique.
Lemma replaced_absent pat new x : pat <> [] -> (forall a b, x <> a ++ pat ++ b) -> forall y, replaced pat new x y -> y = x.
Proof.
  intros Hp. induction x as [|c x IH]; intros N y H.
  - inversion H as [|x y0 H0 E|]; subst; [reflexivity|]. apply app_eq_nil in E as [E _]. contradiction.
  - inversion H as [|x' y0 H0 E|? x' y0 N0 H0]; subst.
    + exfalso. now apply (N [] x').
    + f_equal. apply IH; [|assumption]. intros a b ->. now apply (N (c :: a) b).
Qed.
Theorem C24_no_placeholder : forall cols x y, (forall h v, In (h, v) cols -> forall a b, x <> a ++ placeholder h ++ b) -> filled cols x y -> y = x.
Proof.
  intros cols x y N H. induction H as [x|h v cols x y z H1 H2 IH]; [reflexivity|].
  assert (y = x) as -> by (eapply replaced_absent; eauto; [discriminate | intros; eapply N; now left]). apply IH. intros. eapply N. right. eauto.
Qed.
Print Assumptions C24_no_placeholder.
(* the value is inserted as it is: backslashes and group references have no effect; a value that looks like a later placeholder is filled in, too *)
Example C24_case : filled [(s "a", s "\1<b>"); (s "b", s "\n")] (s "x <a> y <b>") (s "x \1\n y \n").
Proof.
  apply (fl_cons _ _ _ _ (s "x \1<b> y <b>")); [exact (replace_replaced (placeholder (s "a")) (s "\1<b>") ltac:(discriminate) (s "x <a> y <b>"))|].
  apply (fl_cons _ _ _ _ (s "x \1\n y \n")); [exact (replace_replaced (placeholder (s "b")) (s "\n") ltac:(discriminate) (s "x \1<b> y <b>"))|]. constructor.
Qed.

(** C26.  The type of a step; in a pickle of an examples row the type is missing ([None]) instead of Unknown. *)
Theorem C26_step_types_partial : forall d f id ps id', gd_feature d = Some f -> compile d id = Ok (ps, id') ->
  Forall2 (fun o p => length (pk_steps p) = length (origin_steps f o) /\
    forall i q, nth_error (pk_steps p) i = Some q ->
      step_type (match o_row o with None => Some KtUnknown | Some _ => None end) (map st_ktype (origin_steps f o)) i (ps_type q)) (origins d) ps.
Proof.
  intros d f id ps id' E H. apply (compile_pickles d f) in H as [H _]; [|assumption]. eapply Forall2_imp; [|exact H]. intros o p R. pose proof (pr_types _ _ _ R) as T.
  split; [apply (f_equal (@length _)) in T; now rewrite map_length, types_from_length, map_length in T|].
  intros i q Hq. apply types_from_spec. fold (init_type o). rewrite <- T. now apply map_nth_error.
Qed.
Print Assumptions C26_step_types_partial.

(** C27. *)
Lemma in_ids_flat {A} (f : A -> list nat) a l x : In a l -> In x (f a) -> In x (flat_map f l).
Proof. intros. apply in_flat_map. eauto. Qed.
Definition pickle_nodes (p : pickle) : list nat := pk_nodes p ++ flat_map ps_nodes (pk_steps p) ++ map pt_node (pk_tags p).
Lemma origin_in_doc f o : In o (feature_origins f) ->
  (match o_rule o with None => In (o_scenario o) (fe_scenarios f) | Some ru => In ru (fe_rules f) /\ In (o_scenario o) (ru_scenarios ru) end) /\
  match o_row o with None => True | Some (ex, h, r) => In ex (sc_examples (o_scenario o)) /\ ex_header ex = Some h /\ In r (ex_body ex) end.
Proof.
  assert (S : forall ru sc, In o (scenario_origins ru sc) -> o_rule o = ru /\ o_scenario o = sc /\
    match o_row o with None => True | Some (ex, h, r) => In ex (sc_examples (o_scenario o)) /\ ex_header ex = Some h /\ In r (ex_body ex) end).
  { intros ru sc H. unfold scenario_origins in H. destruct (sc_examples sc) as [|e es] eqn:Ee; [destruct H as [<-|[]]; now cbn|]. rewrite <- Ee in *.
    apply in_flat_map in H as [ex [H1 H2]]. unfold examples_origins in H2. destruct (ex_header ex) as [h|] eqn:Eh; [|destruct H2]. apply in_map_iff in H2 as [r [<- H2]]. cbn. auto. }
  unfold feature_origins. intros H. apply in_app_iff in H as [H|H]; apply in_flat_map in H as [a [H1 H2]].
  - apply S in H2 as [-> [-> H2]]. auto.
  - apply in_flat_map in H2 as [sc [H2 H3]]. apply S in H3 as [-> [-> H3]]. auto.
Qed.
Lemma scenario_ids_in f o x : In o (feature_origins f) -> In x (scenario_ids (o_scenario o)) -> In x (feature_ids f).
Proof.
  intros H Hx. apply origin_in_doc in H as [H _]. unfold feature_ids. rewrite !in_app_iff. destruct (o_rule o) as [ru|].
  - destruct H as [H1 H2]. right. right. right. apply in_flat_map. exists ru. split; [exact H1|]. unfold rule_ids. right. rewrite !in_app_iff. right. right. apply in_flat_map. eauto.
  - right. right. left. apply in_flat_map. eauto.
Qed.
Lemma bg_ids b st : In st (background_steps b) -> In (st_id st) (opt_ids background_ids b).
Proof. destruct b; cbn; [|contradiction]. intros H. right. apply in_flat_map. exists st. split; [exact H | now left]. Qed.
Lemma row_id_in f o ex h r : In o (feature_origins f) -> o_row o = Some (ex, h, r) -> In (row_id r) (scenario_ids (o_scenario o)) /\ forall t, In t (ex_tags ex) -> In (tag_id t) (scenario_ids (o_scenario o)).
Proof.
  intros H E. apply origin_in_doc in H as [_ H]. rewrite E in H. destruct H as [H1 [H2 H3]].
  split; [|intros t Ht]; unfold scenario_ids; right; rewrite !in_app_iff; right; right; apply in_flat_map; exists ex; (split; [exact H1|]); unfold examples_ids; right; rewrite !in_app_iff.
  - right. right. unfold row_ids. now apply in_map.
  - left. unfold tag_ids. now apply in_map.
Qed.
Lemma nodes_exist f o p : In o (feature_origins f) -> pickle_rel f o p -> forall x, In x (pickle_nodes p) -> In x (feature_ids f).
Proof.
  intros Ho R x Hx. unfold pickle_nodes in Hx. rewrite (pr_nodes _ _ _ R), (pr_tags _ _ _ R) in Hx.
  assert (SC : forall y, In y (scenario_ids (o_scenario o)) -> In y (feature_ids f)) by (intros; eapply scenario_ids_in; eauto).
  assert (RW : forall y, In y (match o_row o with None => [] | Some (_, _, r) => [row_id r] end) -> In y (feature_ids f)).
  { intros y Hy. destruct (o_row o) as [[[ex h] r]|] eqn:Er; [|destruct Hy]. destruct Hy as [<-|[]]. apply SC. eapply row_id_in; eauto. }
  apply in_app_iff in Hx as [Hx|Hx]; [|apply in_app_iff in Hx as [Hx|Hx]].
  - unfold origin_nodes in Hx. destruct Hx as [<-|Hx]; [|now apply RW]. apply SC. now left.
  - rewrite flat_map_concat_map, (pr_snodes _ _ _ R) in Hx. unfold step_nodes in Hx. rewrite concat_app, in_app_iff in Hx. destruct Hx as [Hx|Hx].
    + rewrite <- flat_map_concat_map in Hx. apply in_flat_map in Hx as [st [H1 [<-|[]]]]. unfold inherited_steps in H1.
      destruct (sc_steps (o_scenario o)); [destruct H1|]. apply in_app_iff in H1 as [H1|H1].
      * unfold feature_ids. rewrite !in_app_iff. right. left. now apply bg_ids.
      * destruct (o_rule o) as [ru|] eqn:Er; [|destruct H1]. apply origin_in_doc in Ho as [Ho _]. rewrite Er in Ho. unfold feature_ids. rewrite !in_app_iff. right. right. right.
        apply in_flat_map. exists ru. split; [apply Ho|]. unfold rule_ids. right. rewrite !in_app_iff. right. left. now apply bg_ids.
    + rewrite <- flat_map_concat_map in Hx. apply in_flat_map in Hx as [st [H1 [<-|H2]]]; [|now apply RW]. apply SC. unfold scenario_ids. right. rewrite !in_app_iff. right. left. apply in_flat_map. exists st. split; [exact H1 | now left].
  - rewrite map_map in Hx. cbn [pt_node] in Hx. apply in_map_iff in Hx as [t [<- Ht]]. unfold origin_tags in Ht. rewrite !in_app_iff in Ht. destruct Ht as [Ht|[Ht|[Ht|Ht]]].
    + unfold feature_ids. rewrite in_app_iff. left. now apply in_map.
    + destruct (o_rule o) as [ru|] eqn:Er; [|destruct Ht]. apply origin_in_doc in Ho as [Ho _]. rewrite Er in Ho. unfold feature_ids. rewrite !in_app_iff. right. right. right.
      apply in_flat_map. exists ru. split; [apply Ho|]. unfold rule_ids. right. rewrite !in_app_iff. left. now apply in_map.
    + apply SC. unfold scenario_ids. right. rewrite !in_app_iff. left. now apply in_map.
    + destruct (o_row o) as [[[ex h] r]|] eqn:Er; [|destruct Ht]. apply SC. eapply row_id_in; eauto.
Qed.
Theorem C27_ids_and_nodes : forall d id ps id', compile d id = Ok (ps, id') ->
  NoDup (flat_map pickle_ids ps) /\ (forall x, In x (flat_map pickle_ids ps) -> id <= x < id') /\
  (forall p x, In p ps -> In x (pickle_nodes p) -> In x (doc_ids d)).
Proof.
  intros d id ps id' H. apply compile_made in H. unfold doc_ids. destruct (gd_feature d) as [f|]; [|injection H as -> ->; repeat split; try constructor; cbn in *; contradiction].
  destruct H as [H [L B]]. cbn [fst snd] in *. rewrite B. split; [apply seq_NoDup|]. split; [intros x Hx; apply in_seq in Hx; lia|].
  cbn [opt_ids]. intros p x Hp Hx. assert (G : exists o, In o (feature_origins f) /\ pickle_rel f o p).
  { clear -H Hp. induction H as [|o q os ps H1 H2 IH]; [destruct Hp|]. destruct Hp as [<-|Hp]; [exists o; split; [now left | exact H1]|]. destruct (IH Hp) as [o' [A B]]. exists o'. split; [now right | exact B]. }
  destruct G as [o [G1 G2]]. eapply nodes_exist; eauto.
Qed.
Print Assumptions C27_ids_and_nodes.

(** C20 (first half) and C28: documents returned by parse. *)
(** C28.  compile can only fail because a header is not a regular expression (or is one that the model of [re] does not cover),
    and does not fail when the headers have no special characters. *)
Theorem C28_compile_parsed : forall stop md lang text d id, supported lang -> parse_with stop md lang text = Ok d ->
  match compile d id with
  | Ok _ => True
  | Err e => (e = EReError \/ e = EUnmodelled) /\ ~ plain_headers d
  end.
Proof.
  intros stop md lang text d id H E. apply parsed_wf in E; [|assumption]. pose proof (compile_fine d id E) as F. unfold fine, re_exn in F.
  destruct (compile d id); [exact I|]. now destruct F.
Qed.
Print Assumptions C28_compile_parsed.
Theorem C28_plain_headers : forall stop md lang text d id, supported lang -> parse_with stop md lang text = Ok d -> plain_headers d ->
  exists ps id', compile d id = Ok (ps, id').
Proof.
  intros stop md lang text d id H E P. pose proof (C28_compile_parsed stop md lang text d id H E) as F.
  destruct (compile d id) as [[ps id']|e]; [eauto|]. now destruct F.
Qed.
Print Assumptions C28_plain_headers.

(** ** Concrete cases *)
Definition big_text : str := text_of_lines
  [s "@f1"; s "Feature: f"; s "Background:"; s "Given b"; s "Scenario: empty"; s "@s"; s "Scenario Outline: o <x> <y>"; s "And a <x>"; s "|<y>|z|"; s "When w <x>";
   s "``` <y>"; s "<x>"; s "```"; s "@e"; s "Examples:"; s "|x|y|"; s "|1|\\1|"; s "|<y>|3|"; s "Examples: none";
   s "@r"; s "Rule: r"; s "Background:"; s "But rb"; s "Example: in rule"; s "Then t"; s "And u"].
(* the hypotheses of C21 to C28 are met, with four pickles from every kind of origin *)
Example compile_case : exists d f ps id', parse big_text = Ok d /\ gd_feature d = Some f /\ compile d 100 = Ok (ps, id') /\
  map (fun p => (length (pk_nodes p), map pt_name (pk_tags p), pk_name p)) ps =
    [(1, [s "@f1"], s "empty"); (2, [s "@f1"; s "@s"; s "@e"], s "o 1 \1"); (2, [s "@f1"; s "@s"; s "@e"], s "o 3 3"); (1, [s "@f1"; s "@r"], s "in rule")] /\
  map (fun p => map (fun q => (ps_type q, ps_text q)) (pk_steps p)) ps =
    [ []; [(Some KtContext, s "b"); (Some KtContext, s "a 1"); (Some KtAction, s "w 1")];
      [(Some KtContext, s "b"); (Some KtContext, s "a 3"); (Some KtAction, s "w 3")];
      [(Some KtContext, s "b"); (Some KtContext, s "rb"); (Some KtOutcome, s "t"); (Some KtOutcome, s "u")] ] /\
  plain_headers d.
Proof.
  destruct (parse big_text) as [d|] eqn:E; [|vm_compute in E; discriminate]. vm_compute in E. injection E as <-. eexists _, _, _, _.
  split; [reflexivity|]. split; [reflexivity|]. split; [vm_compute; reflexivity|]. split; [reflexivity|]. split; [reflexivity|].
  unfold plain_headers. cbn. repeat (first [apply Forall_nil | apply Forall_cons; cbn | apply plain_word; vm_compute; reflexivity]).
Qed.

(** C25 is false of the code: a header is used as a regular expression. *)
Definition outline_text (header step : str) : str := text_of_lines
  [s "Feature: f"; s "Scenario: s"; s "Given " ++ step; s "Examples:"; s "|" ++ header ++ s "|"; s "|v|"].
Definition step_texts (text : str) : result (list str) :=
  rbind (parse text) (fun d => rbind (compile d 0) (fun q => Ok (flat_map (fun p => map ps_text (pk_steps p)) (fst q)))).
Theorem C25_refuted :
  (* text that is not <a.b> is replaced *) step_texts (outline_text (s "a.b") (s "<axb>")) = Ok [s "v"] /\
  (* the placeholder itself is not replaced *) step_texts (outline_text (s "a+b") (s "<a+b>")) = Ok [s "<a+b>"] /\
  (* compile fails *) step_texts (outline_text (s "a)") (s "x")) = Err EReError /\
  (* although a harmless header works *) step_texts (outline_text (s "a b") (s "<a b>")) = Ok [s "v"].
Proof. vm_compute. auto. Qed.
Print Assumptions C25_refuted.
(** What holds of C25: headers without special characters (braces and closing brackets are allowed as long as they do not
    form a repetition such as {2}) never make compile fail and only replace the literal text <header>. *)
Theorem C25_harmless_headers_partial : forall stop md lang text d id, supported lang -> parse_with stop md lang text = Ok d -> plain_headers d ->
  exists ps id', compile d id = Ok (ps, id') /\
    match gd_feature d with
    | None => ps = []
    | Some f => Forall2 (fun o p =>
        (exists n, sc_name (o_scenario o) = Some n /\ filled (columns o) n (pk_name p)) /\
        exists p1 p2, pk_steps p = p1 ++ p2 /\ Forall2 (step_filled []) (inherited_steps f o) p1 /\
          Forall2 (step_filled (columns o)) (sc_steps (o_scenario o)) p2) (origins d) ps
    end.
Proof.
  intros stop md lang text d id S E P. destruct (C28_plain_headers stop md lang text d id S E P) as [ps [id' C]]. exists ps, id'. split; [exact C|].
  destruct (gd_feature d) as [f|] eqn:Ef.
  - pose proof (C24_placeholders_filled d f id ps id' Ef C) as F. unfold plain_headers in P. clear C. revert P. induction F as [|o p os ps0 H F IH]; intros P; [constructor|].
    inversion P as [|? ? P1 P2]. constructor; [exact (H P1) | exact (IH P2)].
  - unfold compile in C. rewrite Ef in C. now injection C as <- _.
Qed.
Print Assumptions C25_harmless_headers_partial.
(* braces and closing brackets *)
Example C25_case : step_texts (outline_text (s "{a}]") (s "x <{a}]> <{a}>")) = Ok [s "x v <{a}>"] /\ plain (s "{a}]").
Proof.
  split; [vm_compute; reflexivity|]. split.
  - intros c Hc M. vm_compute in Hc, M. intuition (subst; discriminate).
  - intros [a [c [b [E Hc]]]]. vm_compute in E. destruct a as [|a0 a]; [injection E as E _; subst c; vm_compute in Hc; intuition discriminate|].
    injection E as _ E. repeat (destruct a as [|? a]; [discriminate E|]; injection E as _ E); now destruct a.
Qed.
(** C26 is false for And first in an outline: no type at all *)
Theorem C26_refuted : exists d f ps id' o p q, parse (text_of_lines
    [s "Feature: f"; s "Scenario: s"; s "And x"; s "Examples:"; s "|h|"; s "|v|"]) = Ok d /\
  gd_feature d = Some f /\ compile d 0 = Ok (ps, id') /\ origins d = [o] /\ ps = [p] /\ pk_steps p = [q] /\
  map st_ktype (origin_steps f o) = [Some KtConjunction] /\ ps_type q = None.
Proof.
  match goal with |- context [parse ?t] => destruct (parse t) as [d|] eqn:E; [|vm_compute in E; discriminate] end. vm_compute in E. injection E as <-.
  eexists _, _, _, _, _, _, _. split; [reflexivity|]. split; [reflexivity|]. split; [vm_compute; reflexivity|]. repeat split; reflexivity.
Qed.
Print Assumptions C26_refuted.

(** C20, the half about documents: every data table has rows of one width, every examples row is as wide as its header. *)
Definition doc_steps (d : gdoc) : list step :=
  match gd_feature d with
  | None => []
  | Some f => background_steps (fe_background f) ++ flat_map sc_steps (fe_scenarios f) ++
      flat_map (fun ru => background_steps (ru_background ru) ++ flat_map sc_steps (ru_scenarios ru)) (fe_rules f)
  end.
Definition doc_examples (d : gdoc) : list examples :=
  match gd_feature d with
  | None => []
  | Some f => flat_map sc_examples (fe_scenarios f) ++ flat_map (fun ru => flat_map sc_examples (ru_scenarios ru)) (fe_rules f)
  end.
Lemma Forall_flat {A B} (P : B -> Prop) (f : A -> list B) l : (forall a, In a l -> Forall P (f a)) -> Forall P (flat_map f l).
Proof. intros H. apply Forall_forall. intros b Hb. apply in_flat_map in Hb as [a [H1 H2]]. specialize (H a H1). rewrite Forall_forall in H. auto. Qed.
Theorem C20_rectangular : forall stop md lang text d, supported lang -> parse_with stop md lang text = Ok d ->
  (forall st t, In st (doc_steps d) -> st_arg st = ATable t -> exists n, Forall (fun r => length (row_cells r) = n) (dt_rows t)) /\
  (forall ex h r, In ex (doc_examples d) -> ex_header ex = Some h -> In r (ex_body ex) -> length (row_cells r) = length (row_cells h)).
Proof.
  intros stop md lang text d H E. apply parsed_wf in E; [|assumption]. unfold doc_wf in E. unfold doc_steps, doc_examples. destruct (gd_feature d) as [f|]; [|split; intros; contradiction].
  destruct E as [_ [Hb [Hs Hr]]]. rewrite Forall_forall in Hs, Hr.
  assert (B : forall b, opt_wf background_wf b -> Forall step_wf (background_steps b)) by (intros []; cbn; [auto | constructor]).
  split.
  - intros st t Hst Et. assert (W : Forall step_wf (background_steps (fe_background f) ++ flat_map sc_steps (fe_scenarios f) ++
      flat_map (fun ru => background_steps (ru_background ru) ++ flat_map sc_steps (ru_scenarios ru)) (fe_rules f))).
    { apply Forall_app. split; [now apply B|]. apply Forall_app. split; [apply Forall_flat; intros; now apply Hs|]. apply Forall_flat. intros ru Hru. destruct (Hr ru Hru) as [R1 [R2 _]].
      apply Forall_app. split; [now apply B|]. apply Forall_flat. intros sc Hsc. rewrite Forall_forall in R2. now apply R2. }
    rewrite Forall_forall in W. destruct (W st Hst) as [_ W2]. unfold step_rectangular in W2. rewrite Et in W2. exact W2.
  - intros ex h r Hex Eh Hr'. assert (W : Forall examples_wf (flat_map sc_examples (fe_scenarios f) ++ flat_map (fun ru => flat_map sc_examples (ru_scenarios ru)) (fe_rules f))).
    { apply Forall_app. split; [apply Forall_flat; intros; now apply Hs|]. apply Forall_flat. intros ru Hru. destruct (Hr ru Hru) as [_ [R2 _]]. apply Forall_flat. intros sc Hsc. rewrite Forall_forall in R2. now apply R2. }
    rewrite Forall_forall in W. specialize (W ex Hex). destruct W as [W _]. unfold examples_rectangular in W. rewrite Eh in W. unfold rows_width in W. rewrite Forall_forall in W. auto.
Qed.
Print Assumptions C20_rectangular.
Example C20_case : exists d st t ex h r, parse big_text = Ok d /\ In st (doc_steps d) /\ st_arg st = ATable t /\ In ex (doc_examples d) /\ ex_header ex = Some h /\ In r (ex_body ex).
Proof.
  destruct (parse big_text) as [d|] eqn:E; [|vm_compute in E; discriminate]. vm_compute in E. injection E as <-. eexists _, _, _, _, _, _.
  split; [reflexivity|]. split; [right; left; reflexivity|]. split; [reflexivity|]. split; [left; reflexivity|]. split; [reflexivity|]. left. reflexivity.
Qed.
