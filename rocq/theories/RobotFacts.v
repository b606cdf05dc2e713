(** * From a document to Robot tests (no modelled code) *)
From Verif Require Import PyStr PyStrFacts Types Regex Line Ast IdSpec Matcher Parser Compiler PickleSpec PickleFacts PickleTotal PropLine PropParse Eval WfDoc PropCompile
  Glob Robot RobotSpec SuiteSpec FindSpec FindFacts Ids Rel EscapeFacts ReprFacts.

Lemma en_supported : supported (s "en").
Proof. eexists; vm_compute; reflexivity. Qed.

(** ** where things are *)
Lemma occurs_trans a p b q : occurs a p b q -> forall c r, occurs b q c r -> occurs a p c r.
Proof. induction 1; intros; [assumption|eapply oc_dict; eauto|eapply oc_list; eauto]. Qed.
Lemma occurs_in kvs k v p : In (k, v) kvs -> occurs (JDict kvs) p v (JDict kvs).
Proof. intros H. eapply oc_dict; [exact H | constructor]. Qed.
Lemma occurs_elem kvs k l v p : In (k, JList l) kvs -> In v l -> occurs (JDict kvs) p v (JDict kvs).
Proof. intros H1 H2. eapply oc_dict; [exact H1|]. eapply oc_list; [exact H2 | constructor]. Qed.
Ltac kv := repeat (apply in_or_app; (left; (left; reflexivity) || (right; left; reflexivity) || (right; right; left; reflexivity)) || right);
  first [left; reflexivity | right; left; reflexivity | right; right; left; reflexivity].
Ltac inkv := rewrite ?in_app_iff; cbn [In]; tauto.

Section Doc.
Context (d : gdoc) (f : feature) (Ef : gd_feature d = Some f).
Lemma occ_feature : occurs (j_gdoc d) JNone (j_feature f) (j_gdoc d).
Proof. unfold j_gdoc. apply (occurs_in _ (s "feature")). rewrite Ef. cbn [option_map opt_kv app]. now left. Qed.
Definition f_children : list jval := j_bg_child (fe_background f) ++ map j_sc_child (fe_scenarios f) ++ map (fun r => JDict [(s "rule", j_rule r)]) (fe_rules f).
Lemma occ_f_child v : In v f_children -> occurs (j_gdoc d) JNone v (j_feature f).
Proof.
  intros H. eapply occurs_trans; [apply occ_feature|]. unfold j_feature. apply (occurs_elem _ (s "children") f_children); [|exact H].
  rewrite !in_app_iff. right. right. right. right. cbn [In]. right. left. reflexivity.
Qed.
Lemma occ_bg_child p b : b = Some p -> forall v r, occurs v r (JDict [(s "background", j_background p)]) v -> occurs v r (j_background p) (JDict [(s "background", j_background p)]).
Proof. intros _ v r H. eapply occurs_trans; [exact H|]. apply (occurs_in _ (s "background")). now left. Qed.
Lemma occ_f_background b : fe_background f = Some b -> exists p, occurs (j_gdoc d) JNone (j_background b) p.
Proof.
  intros E. exists (JDict [(s "background", j_background b)]). eapply occurs_trans; [apply occ_f_child with (v := JDict [(s "background", j_background b)])|].
  - unfold f_children. rewrite E. now left.
  - apply (occurs_in _ (s "background")). now left.
Qed.
Lemma occ_f_scenario x : In x (fe_scenarios f) -> occurs (j_gdoc d) JNone (j_scenario x) (j_sc_child x).
Proof.
  intros H. eapply occurs_trans; [apply occ_f_child with (v := j_sc_child x)|].
  - unfold f_children. rewrite !in_app_iff. right. left. now apply in_map.
  - apply (occurs_in _ (s "scenario")). now left.
Qed.
Lemma occ_rule r : In r (fe_rules f) -> occurs (j_gdoc d) JNone (j_rule r) (JDict [(s "rule", j_rule r)]).
Proof.
  intros H. eapply occurs_trans; [apply occ_f_child with (v := JDict [(s "rule", j_rule r)])|].
  - unfold f_children. rewrite !in_app_iff. right. right. apply (in_map (fun r => JDict [(s "rule", j_rule r)])), H.
  - apply (occurs_in _ (s "rule")). now left.
Qed.
Definition r_children (r : rule_ast) : list jval := j_bg_child (ru_background r) ++ map j_sc_child (ru_scenarios r).
Lemma occ_r_child r v : In r (fe_rules f) -> In v (r_children r) -> occurs (j_gdoc d) JNone v (j_rule r).
Proof.
  intros Hr H. eapply occurs_trans; [apply occ_rule, Hr|]. unfold j_rule. apply (occurs_elem _ (s "children") (r_children r)); [|exact H].
  rewrite !in_app_iff. right. right. right. cbn [In]. right. left. reflexivity.
Qed.
Lemma occ_r_background r b : In r (fe_rules f) -> ru_background r = Some b -> exists p, occurs (j_gdoc d) JNone (j_background b) p.
Proof.
  intros Hr E. exists (JDict [(s "background", j_background b)]). eapply occurs_trans; [apply (occ_r_child r (JDict [(s "background", j_background b)]) Hr)|].
  - unfold r_children. rewrite E. now left.
  - apply (occurs_in _ (s "background")). now left.
Qed.
Lemma occ_r_scenario r x : In r (fe_rules f) -> In x (ru_scenarios r) -> occurs (j_gdoc d) JNone (j_scenario x) (j_sc_child x).
Proof.
  intros Hr H. eapply occurs_trans; [apply (occ_r_child r (j_sc_child x) Hr)|].
  - unfold r_children. rewrite !in_app_iff. right. now apply in_map.
  - apply (occurs_in _ (s "scenario")). now left.
Qed.
Lemma occ_bg_step b st p : In st (bg_steps b) -> occurs (j_gdoc d) JNone (j_background b) p -> occurs (j_gdoc d) JNone (j_step st) (j_background b).
Proof.
  intros H O. eapply occurs_trans; [exact O|]. unfold j_background. apply (occurs_elem _ (s "steps") (map j_step (bg_steps b))); [|now apply in_map].
  rewrite !in_app_iff. cbn [In]. right. right. right. right. left. reflexivity.
Qed.
Lemma occ_sc_step x st p : In st (sc_steps x) -> occurs (j_gdoc d) JNone (j_scenario x) p -> occurs (j_gdoc d) JNone (j_step st) (j_scenario x).
Proof.
  intros H O. eapply occurs_trans; [exact O|]. unfold j_scenario. apply (occurs_elem _ (s "steps") (map j_step (sc_steps x))); [|now apply in_map].
  rewrite !in_app_iff. cbn [In]. right. right. right. right. left. reflexivity.
Qed.
Lemma occ_sc_row x ex r p : In ex (sc_examples x) -> In r (ex_body ex) -> occurs (j_gdoc d) JNone (j_scenario x) p -> occurs (j_gdoc d) JNone (j_row r) (j_examples ex).
Proof.
  intros H1 H2 O. eapply occurs_trans; [exact O|]. eapply occurs_trans with (q := j_scenario x) (b := j_examples ex).
  - unfold j_scenario. apply (occurs_elem _ (s "examples") (map j_examples (sc_examples x))); [|now apply in_map].
    rewrite !in_app_iff. cbn [In]. right. right. right. right. right. left. reflexivity.
  - unfold j_examples. apply (occurs_elem _ (s "tableBody") (map j_row (ex_body ex))); [|now apply in_map].
    rewrite !in_app_iff. cbn [In]. right. right. right. right. right. left. reflexivity.
Qed.

Context (N : NoDup (doc_ids d)).
Lemma id_step st : has_id (j_step st) (str_of_nat (st_id st)). Proof. eexists. split; reflexivity. Qed.
Lemma id_scenario x : has_id (j_scenario x) (str_of_nat (sc_id x)). Proof. eexists. split; reflexivity. Qed.
Lemma id_row x : has_id (j_row x) (str_of_nat (row_id x)). Proof. eexists. split; reflexivity. Qed.

Lemma origin_place o : In o (feature_origins f) ->
  match o_rule o with None => In (o_scenario o) (fe_scenarios f) | Some ru => In ru (fe_rules f) /\ In (o_scenario o) (ru_scenarios ru) end /\
  match o_row o with None => sc_examples (o_scenario o) = [] | Some (ex, h, r) => In ex (sc_examples (o_scenario o)) /\ ex_header ex = Some h /\ In r (ex_body ex) end.
Proof.
  assert (G : forall ru sc o, In o (scenario_origins ru sc) -> o_rule o = ru /\ o_scenario o = sc /\
    match o_row o with None => sc_examples sc = [] | Some (ex, h, r) => In ex (sc_examples sc) /\ ex_header ex = Some h /\ In r (ex_body ex) end).
  { intros ru sc o0 H. unfold scenario_origins in H. destruct (sc_examples sc) as [|e es] eqn:E.
    - destruct H as [<-|[]]. cbn. auto.
    - apply in_flat_map in H as [ex [H1 H2]]. unfold examples_origins in H2. destruct (ex_header ex) as [h|] eqn:Eh; [|contradiction].
      apply in_map_iff in H2 as [r [<- H2]]. cbn. auto. }
  unfold feature_origins. intros H. apply in_app_iff in H as [H|H].
  - apply in_flat_map in H as [sc [H1 H2]]. apply G in H2 as [-> [-> H2]]. auto.
  - apply in_flat_map in H as [ru [H1 H2]]. apply in_flat_map in H2 as [sc [H2 H3]]. apply G in H3 as [-> [-> H3]]. auto.
Qed.
Lemma occ_origin_scenario o : In o (feature_origins f) -> occurs (j_gdoc d) JNone (j_scenario (o_scenario o)) (j_sc_child (o_scenario o)).
Proof. intros H. apply origin_place in H as [H _]. destruct (o_rule o) as [ru|]; [destruct H; eapply occ_r_scenario; eauto | now apply occ_f_scenario]. Qed.
Lemma find_scenario o : In o (feature_origins f) ->
  find_ast_node_id (j_gdoc d) (str_of_nat (sc_id (o_scenario o))) JNone = Some (j_scenario (o_scenario o), j_sc_child (o_scenario o)).
Proof. intros H. apply find_unique; [exact N | now apply occ_origin_scenario | apply id_scenario]. Qed.
Lemma find_step o st : In o (feature_origins f) -> In st (origin_steps f o) ->
  exists p, find_ast_node_id (j_gdoc d) (str_of_nat (st_id st)) JNone = Some (j_step st, p).
Proof.
  intros H Hst. assert (O : exists p, occurs (j_gdoc d) JNone (j_step st) p).
  { pose proof (occ_origin_scenario o H) as OS. apply origin_place in H as [H _].
    unfold origin_steps, inherited_steps in Hst. apply in_app_iff in Hst as [Hst|Hst]; [|eexists; eapply occ_sc_step; eauto].
    destruct (sc_steps (o_scenario o)); [contradiction|]. apply in_app_iff in Hst as [Hst|Hst].
    - destruct (fe_background f) as [b|] eqn:Eb; [|contradiction]. destruct (occ_f_background b Eb) as [p O]. eexists. eapply occ_bg_step; eauto.
    - destruct (o_rule o) as [ru|]; [|contradiction]. destruct H as [H _]. destruct (ru_background ru) as [b|] eqn:Eb; [|contradiction].
      destruct (occ_r_background ru b H Eb) as [p O]. eexists. eapply occ_bg_step; eauto. }
  destruct O as [p O]. exists p. apply find_unique; [exact N | exact O | apply id_step].
Qed.
Lemma find_row o ex h r : In o (feature_origins f) -> o_row o = Some (ex, h, r) ->
  find_ast_node_id (j_gdoc d) (str_of_nat (row_id r)) JNone = Some (j_row r, j_examples ex).
Proof.
  intros H E. pose proof (occ_origin_scenario o H) as OS. apply origin_place in H as [_ H]. rewrite E in H. destruct H as [H1 [_ H2]].
  apply find_unique; [exact N | eapply occ_sc_row; eauto | apply id_row].
Qed.
End Doc.

Lemma step_keyword st : jitem (s "keyword") (j_step st) = match st_keyword st with Some k => Ok (JStr k) | None => Err (EKeyError (s "keyword")) end.
Proof. unfold j_step. destruct (st_keyword st), (st_ktype st), (st_text st), (st_arg st); reflexivity. Qed.
Lemma step_location st : jlocation (j_step st) = match l_col (st_loc st) with Some c => Ok (l_line (st_loc st), c - 1) | None => Err ETypeError end.
Proof. reflexivity. Qed.
Lemma scenario_location x : jlocation (j_scenario x) = match l_col (sc_loc x) with Some c => Ok (l_line (sc_loc x), c - 1) | None => Err ETypeError end.
Proof. reflexivity. Qed.
Lemma scenario_desc x : exists kvs, j_scenario x = JDict kvs /\ jget (s "description") kvs = Some (JStr (sc_desc x)).
Proof. unfold j_scenario. eexists. split; [reflexivity|]. destruct (sc_keyword x), (sc_name x); reflexivity. Qed.
Lemma row_cells_j r : exists kvs, j_row r = JDict kvs /\ jget (s "cells") kvs = Some (JList (map j_cell (row_cells r))).
Proof. eexists. split; reflexivity. Qed.
Lemma examples_keyword ex : exists kvs, j_examples ex = JDict kvs /\
  jget (s "keyword") kvs = option_map JStr (ex_keyword ex) /\ jget (s "tableHeader") kvs = option_map j_row (ex_header ex).
Proof. unfold j_examples. eexists. split; [reflexivity|]. destruct (ex_keyword ex), (ex_name ex), (ex_header ex); split; reflexivity. Qed.

Lemma name_suffix_eq hs cs : length cs <= length hs ->
  name_suffix (map j_cell hs) (map j_cell cs) = Ok (suffix_of (combine (map cell_value hs) (map cell_value cs))).
Proof.
  revert hs. induction cs as [|c cs IH]; intros hs L; [destruct hs; reflexivity|]. destruct hs as [|h hs]; [cbn in L; lia|]. cbn in L.
  cbn [map name_suffix combine]. rewrite IH by lia. cbn [suffix_of flat_map fst snd]. cbn [rbind jitem jget j_cell].
  change (jitem (s "value") (j_cell h)) with (Ok (JStr (cell_value h))). change (jitem (s "value") (j_cell c)) with (Ok (JStr (cell_value c))).
  cbn [rbind jstr]. f_equal. rewrite <- ?app_assoc. reflexivity.
Qed.

Lemma test_name_eq d f p o : gd_feature d = Some f -> NoDup (doc_ids d) -> In o (feature_origins f) -> pk_nodes p = origin_nodes o ->
  match o_row o with None => True | Some (ex, h, r) => examples_wf ex end ->
  test_name (j_gdoc d) p = Ok (pk_name p ++ match o_row o with
    | None => []
    | Some (ex, _, _) => match ex_keyword ex with Some kw => if str_eqb kw (s "Examples") then suffix_of (columns o) else [] | None => [] end
    end).
Proof.
  intros Ef N Ho Ep W. unfold test_name. rewrite Ep. unfold origin_nodes. destruct (o_row o) as [[[ex h] r]|] eqn:Er; [|now rewrite app_nil_r].
  rewrite (find_row d f Ef N o ex h r Ho Er). destruct (row_cells_j r) as [kvs [-> ->]]. destruct (examples_keyword ex) as [pkvs [-> [Ek Eh]]].
  destruct W as [W [[kw Hkw] _]]. unfold jitem at 1. rewrite Ek, Hkw. cbn [option_map rbind jstr].
  destruct (str_eqb kw (s "Examples")); [|now rewrite app_nil_r]. cbn [jlist rbind].
  apply (origin_place f) in Ho as [_ Ho]. rewrite Er in Ho. destruct Ho as [_ [Hh Hr]]. unfold examples_rectangular in W. rewrite Hh in W.
  unfold columns. rewrite Er. destruct (row_cells r) as [|c cs] eqn:Ec.
  - cbn [map]. now rewrite combine_nil, app_nil_r.
  - cbn [map]. unfold jitem at 1. rewrite Eh, Hh. cbn [option_map rbind]. destruct (row_cells_j h) as [hkvs [-> Ehc]]. cbn [jitem]. rewrite Ehc. cbn [rbind jlist].
    change (j_cell c :: map j_cell cs) with (map j_cell (c :: cs)). rewrite name_suffix_eq; [reflexivity|].
    unfold rows_width in W. rewrite Forall_forall in W. specialize (W r Hr). rewrite Ec in W. lia.
Qed.

Lemma valid_app x y : valid_str x -> valid_str y -> valid_str (x ++ y).
Proof. intros. apply Forall_app. auto. Qed.
Lemma valid_join sep l : valid_str sep -> Forall valid_str l -> valid_str (join sep l).
Proof. intros Hs H. induction H as [|x l Hx H IH]; [constructor|]. cbn [join]. destruct l; [exact Hx|]. now apply valid_app; [|apply valid_app]. Qed.
Lemma hex_valid k n : valid_str (hex k n).
Proof. eapply Forall_impl; [|apply hex_hexy]. unfold hexy. intros c Hc. lia. Qed.
Lemma repr_char_valid printable q c : (q < 1114112)%N -> (c < 1114112)%N -> valid_str (repr_char printable q c).
Proof.
  intros Hq Hc. unfold repr_char.
  repeat match goal with |- valid_str (if ?b then _ else _) => destruct b end;
    repeat match goal with
    | |- valid_str (hex _ _) => apply hex_valid
    | |- valid_str (s _ ++ _) => apply valid_app
    | |- valid_str (s _) => repeat constructor
    | |- valid_str (_ :: _) => constructor; [assumption || reflexivity|]
    | |- valid_str [] => constructor
    | |- Forall _ (_ :: _) => constructor; [assumption || reflexivity|]
    | |- Forall _ [] => constructor
    end.
Qed.
Lemma repr_str_valid printable x : valid_str x -> valid_str (repr_str printable x).
Proof.
  intros V. assert (Q : (repr_quote x < 1114112)%N) by (destruct (repr_quote_is_quote x) as [-> | ->]; reflexivity).
  unfold repr_str, repr_body. apply valid_app; [constructor; [exact Q | constructor]|]. apply valid_app; [|constructor; [exact Q | constructor]].
  revert Q. generalize (repr_quote x). intros q Q. induction V as [|c x Hc V IH]; [constructor|]. cbn [flat_map]. apply valid_app; [now apply repr_char_valid | exact IH].
Qed.
Lemma pv_repr_valid printable v : pv_valid v -> valid_str (pv_repr printable v).
Proof.
  induction v as [x|l IH|l IH] using pyval_ind'; intros V.
  - now apply repr_str_valid.
  - cbn [pv_repr]. apply valid_app; [repeat constructor|]. apply valid_app; [|repeat constructor]. apply valid_join; [repeat constructor|].
    cbn in V. induction IH as [|v l Hv _ IHl]; [constructor|]. destruct V as [V1 V2]. cbn. constructor; auto.
  - cbn [pv_repr]. apply valid_app; [repeat constructor|]. apply valid_app; [|repeat constructor]. apply valid_join; [repeat constructor|].
    cbn in V. induction IH as [|[k v] l Hv _ IHl]; [constructor|]. destruct V as [[V1 V2] V3]. cbn [map fst snd] in *. constructor; [|auto].
    apply valid_app; [now apply repr_str_valid|]. apply valid_app; [repeat constructor | auto].
Qed.
Lemma lit_valid x : forallb (fun c => (c <? 1114112)%N) x = true -> valid_str x.
Proof. intros H. apply Forall_forall. intros c Hc. rewrite forallb_forall in H. now apply N.ltb_lt, H. Qed.
Lemma arg_value_valid a : valid_arg a -> pv_valid (arg_value a).
Proof.
  destruct a as [rows|content media]; cbn [valid_arg arg_value].
  - intros H. cbn [pv_valid fold_right fst snd]. repeat split; [now apply lit_valid|].
    induction H as [|r rows Hr H IH]; [exact I|]. cbn [map fold_right]. split; [|exact IH]. cbn [pv_valid fold_right fst snd]. repeat split; [now apply lit_valid|].
    clear - Hr. induction Hr as [|v r Hv Hr IH]; [exact I|]. cbn [map fold_right]. split; [|exact IH]. cbn [pv_valid fold_right fst snd]. repeat split; [now apply lit_valid | exact Hv].
  - intros [H1 H2]. cbn [pv_valid fold_right fst snd]. split; [split; [now apply lit_valid | exact H1]|]. destruct media; cbn [fold_right fst snd pv_valid]; [|exact I].
    repeat split; [now apply lit_valid | exact H2].
Qed.
Lemma call_args_of printable a : args_of a (call_args printable a).
Proof.
  destruct a as [a|]; [|reflexivity].
  assert (G : forall x, x = pv_repr printable (arg_value a) -> valid_arg a -> py_literal (rf_unescape (escape printable x)) = Some (arg_value a)).
  { intros x -> V. apply arg_value_valid in V. destruct (escape_facts printable _ (pv_repr_valid printable _ V)) as [-> _]. now apply literal_repr. }
  destruct a as [rows|content media]; cbn [args_of call_args]; eexists; (split; [reflexivity|]); apply G; [apply repr_datatable_value | apply repr_docstring_value].
Qed.

Section Calls.
Context (printable : char -> bool).
Definition exact_args (q : pstep) (c : rcall) : Prop := rc_args c = call_args printable (ps_arg q).
Lemma build_call_eq d f o st q n : gd_feature d = Some f -> NoDup (doc_ids d) -> In o (feature_origins f) -> In st (origin_steps f o) -> step_complete st ->
  ps_nodes q = st_id st :: n -> exists c, build_call printable (j_gdoc d) q = Ok [c] /\ call_of st q c /\ exact_args q c.
Proof.
  intros Ef N Ho Hst [_ [_ [[kw Hk] [col Hc]]]] En. unfold build_call. rewrite En. destruct (find_step d f Ef N o st Ho Hst) as [p ->].
  rewrite step_keyword, step_location, Hk, Hc. cbn [rbind jstr fst snd].
  eexists (mkCall ((match ps_type q with Some KtUnknown => [] | _ => kw end) ++ ps_text q) (call_args printable (ps_arg q)) (l_line (st_loc st)) (col - 1)).
  split; [destruct (ps_type q) as [[]|]; reflexivity|]. split; [|reflexivity]. unfold call_of. cbn [rc_name rc_args rc_line rc_col]. split; [exists kw; auto|]. split; [apply (call_args_of printable)|]. split; [reflexivity|]. exists col; auto.
Qed.
Lemma build_calls_eq d f o : gd_feature d = Some f -> NoDup (doc_ids d) -> In o (feature_origins f) -> forall sts qs,
  (forall st, In st sts -> In st (origin_steps f o) /\ step_complete st) ->
  Forall2 (fun st q => exists n, ps_nodes q = st_id st :: n) sts qs ->
  exists cs, map_result (build_call printable (j_gdoc d)) qs = Ok (map (fun c => [c]) cs) /\ Forall3 call_of sts qs cs /\ Forall2 exact_args qs cs.
Proof.
  intros Ef N Ho sts qs H F. induction F as [|st q sts qs [n Hn] F IH]; [exists []; split; [reflexivity|split; constructor]|].
  destruct (H st (or_introl eq_refl)) as [H1 H2]. destruct (build_call_eq d f o st q n Ef N Ho H1 H2 Hn) as [c [E [C X]]].
  destruct IH as [cs [IH1 [IH2 IH3]]]; [intros; apply H; now right|]. exists (c :: cs). split; [|split; now constructor]. cbn [map_result]. rewrite E. cbn [rbind]. rewrite IH1. reflexivity.
Qed.
Lemma concat_singles {A} (l : list A) : concat (map (fun c => [c]) l) = l.
Proof. induction l; [reflexivity|]. cbn. now rewrite IHl. Qed.

Lemma Forall2_map_r {A B C} (g : B -> C) (R : A -> C -> Prop) l l' : Forall2 (fun a b => R a (g b)) l l' <-> Forall2 R l (map g l').
Proof.
  split; intros H.
  - induction H; cbn; constructor; auto.
  - remember (map g l') as m eqn:E. revert l' E. induction H; intros [|b l'0] E; try discriminate; [constructor|]. injection E as -> E. constructor; auto.
Qed.
Lemma step_nodes_heads f o : Forall2 (fun st n => exists r, n = st_id st :: r) (origin_steps f o) (step_nodes f o).
Proof.
  unfold origin_steps, step_nodes. apply Forall2_app.
  - induction (inherited_steps f o); cbn; constructor; eauto.
  - induction (sc_steps (o_scenario o)); cbn; constructor; eauto.
Qed.

(** the tags of a test: those of the pickle that are not tags of the feature *)
Lemma own_tags f (l : list tag) : (forall x, In x (tag_ids (fe_tags f)) -> In x (tag_ids l) -> False) ->
  map (fun t => tag_text (pt_name t)) (filter (fun t => negb (existsb (fun f => Nat.eqb (tag_id f) (pt_node t)) (fe_tags f)))
    (map (fun t => mkPt (tag_id t) (tag_name t)) (fe_tags f ++ l))) = map (fun t => tag_text (tag_name t)) l.
Proof.
  intros N. rewrite map_app, filter_app, map_app.
  assert (A : forall l', incl l' (fe_tags f) -> filter (fun t => negb (existsb (fun f0 => Nat.eqb (tag_id f0) (pt_node t)) (fe_tags f))) (map (fun t => mkPt (tag_id t) (tag_name t)) l') = []).
  { induction l' as [|t l' IH]; [reflexivity|]. intros I. cbn [map filter pt_node].
    assert (X : existsb (fun f0 => Nat.eqb (tag_id f0) (tag_id t)) (fe_tags f) = true).
    { apply existsb_exists. exists t. split; [apply I; now left | apply Nat.eqb_refl]. }
    rewrite X. cbn. apply IH. intros x Hx. apply I. now right. }
  rewrite A by apply incl_refl. cbn [app map].
  assert (B : forall l', incl l' l -> map (fun t => tag_text (pt_name t)) (filter (fun t => negb (existsb (fun f0 => Nat.eqb (tag_id f0) (pt_node t)) (fe_tags f))) (map (fun t => mkPt (tag_id t) (tag_name t)) l')) = map (fun t => tag_text (tag_name t)) l').
  { induction l' as [|t l' IH]; [reflexivity|]. intros I. cbn [map filter pt_node].
    assert (X : existsb (fun f0 => Nat.eqb (tag_id f0) (tag_id t)) (fe_tags f) = false).
    { apply not_true_iff_false. intros X. apply existsb_exists in X as [u [U1 U2]]. apply Nat.eqb_eq in U2.
      apply (N (tag_id t)); [rewrite <- U2; now apply (in_map tag_id) | apply (in_map tag_id), I; now left]. }
    rewrite X. cbn [negb map pt_name]. f_equal. apply IH. intros x Hx. apply I. now right. }
  apply B, incl_refl.
Qed.

Lemma lower_tags_ids f o x : In o (feature_origins f) -> In x (tag_ids (lower_tags o)) ->
  In x (opt_ids background_ids (fe_background f) ++ flat_map scenario_ids (fe_scenarios f) ++ flat_map rule_ids (fe_rules f)).
Proof.
  intros H Hx. apply origin_place in H as [H1 H2]. apply in_or_app. right. unfold lower_tags, tag_ids in Hx. rewrite !map_app, !in_app_iff in Hx.
  assert (S : In x (map tag_id (sc_tags (o_scenario o))) \/ In x (map tag_id match o_row o with None => [] | Some (ex, _, _) => ex_tags ex end) -> In x (scenario_ids (o_scenario o))).
  { intros [Y|Y]; unfold scenario_ids; right; rewrite !in_app_iff; [left; exact Y|]. right. right. destruct (o_row o) as [[[ex h] r]|]; [|contradiction].
    apply in_flat_map. exists ex. split; [apply H2|]. unfold examples_ids. right. apply in_or_app. now left. }
  apply in_or_app. destruct (o_rule o) as [ru|].
  - right. apply in_flat_map. exists ru. destruct H1 as [H1 H3]. split; [exact H1|]. unfold rule_ids. right. rewrite !in_app_iff. destruct Hx as [Hx|Hx]; [now left|].
    right. right. apply in_flat_map. exists (o_scenario o). auto.
  - left. destruct Hx as [[]|Hx]. apply in_flat_map. eauto.
Qed.
Lemma NoDup_app_disj (a b : list nat) : NoDup (a ++ b) -> forall x, In x a -> In x b -> False.
Proof. induction a as [|y a IHa]; cbn; intros Hn x Ha Hb; [contradiction|]. inversion Hn as [|? ? H1 H2]; subst. destruct Ha as [->|Ha]; [apply H1, in_or_app; now right | eauto]. Qed.

Lemma origin_steps_complete f o : feature_wf f -> In o (feature_origins f) -> forall st, In st (origin_steps f o) -> step_complete st.
Proof.
  intros [_ [Wb [Ws Wr]]] H st Hst. apply origin_place in H as [H _]. rewrite Forall_forall in Ws, Wr.
  assert (B : forall b, opt_wf background_wf b -> Forall step_wf (background_steps b)) by (intros []; cbn; [auto | constructor]).
  assert (G : step_wf st); [|apply G].
  assert (WS : scenario_wf (o_scenario o)).
  { destruct (o_rule o) as [ru|]; [destruct H as [H1 H2]; destruct (Wr ru H1) as [_ [Wr2 _]]; rewrite Forall_forall in Wr2; auto | auto]. }
  destruct WS as [_ [WS _]]. rewrite Forall_forall in WS.
  unfold origin_steps, inherited_steps in Hst. apply in_app_iff in Hst as [Hst|Hst]; [|auto].
  destruct (sc_steps (o_scenario o)); [contradiction|]. apply in_app_iff in Hst as [Hst|Hst].
  - apply B in Wb. rewrite Forall_forall in Wb. auto.
  - destruct (o_rule o) as [ru|]; [|contradiction]. destruct H as [H1 _]. destruct (Wr ru H1) as [Wr1 _]. apply B in Wr1. rewrite Forall_forall in Wr1. auto.
Qed.
Lemma origin_scenario_wf f o : feature_wf f -> In o (feature_origins f) -> scenario_wf (o_scenario o).
Proof.
  intros [_ [Wb [Ws Wr]]] H. apply origin_place in H as [H _]. rewrite Forall_forall in Ws, Wr.
  destruct (o_rule o) as [ru|]; [destruct H as [H1 H2]; destruct (Wr ru H1) as [_ [Wr2 _]]; rewrite Forall_forall in Wr2; auto | auto].
Qed.

Lemma lower_tags_wf f o : feature_wf f -> In o (feature_origins f) -> forall u, In u (lower_tags o) -> exists x, tag_name u = ch_at :: x.
Proof.
  intros W Ho u Hu. destruct (origin_scenario_wf f o W Ho) as [[_ [_ W1]] [_ W2]]. destruct W as [_ [_ [_ W3]]]. apply origin_place in Ho as [H1 H2].
  unfold tags_wf in *. rewrite Forall_forall in *. unfold lower_tags in Hu. rewrite !in_app_iff in Hu. destruct Hu as [Hu|[Hu|Hu]].
  - destruct (o_rule o) as [ru|]; [|contradiction]. destruct H1 as [H1 _]. destruct (W3 ru H1) as [_ [_ W4]]. unfold tags_wf in W4. rewrite Forall_forall in W4. auto.
  - auto.
  - destruct (o_row o) as [[[ex h] r]|]; [|contradiction]. destruct H2 as [H2 _]. destruct (W2 ex H2) as [_ [_ W4]]. unfold tags_wf in W4. rewrite Forall_forall in W4. auto.
Qed.
Lemma build_test_eq d f o p : gd_feature d = Some f -> doc_wf d -> NoDup (doc_ids d) -> In o (feature_origins f) -> pickle_rel f o p ->
  exists t, build_test printable (j_gdoc d) (fe_tags f) p = Ok t /\ test_of f o p t /\ Forall2 exact_args (pk_steps p) (rt_calls t).
Proof.
  intros Ef W N Ho R. unfold doc_wf in W. rewrite Ef in W. cbn in W. pose proof (origin_scenario_wf f o W Ho) as WS.
  destruct (build_calls_eq d f o Ef N Ho (origin_steps f o) (pk_steps p)) as [cs [C1 [C2 C3]]].
  { intros st Hst. split; [exact Hst|]. eapply origin_steps_complete; eauto. }
  { apply (Forall2_map_r ps_nodes (fun st n => exists r, n = st_id st :: r)). rewrite (pr_snodes _ _ _ R). apply step_nodes_heads. }
  unfold build_test. rewrite (pr_nodes _ _ _ R). unfold origin_nodes at 1. cbv beta iota zeta. rewrite C1. cbn [rbind].
  rewrite (test_name_eq d f p o Ef N Ho (pr_nodes _ _ _ R)).
  2:{ pose proof (origin_place f o Ho) as [_ P]. destruct (o_row o) as [[[ex h] r]|]; [|exact I]. destruct WS as [_ [_ WS]]. rewrite Forall_forall in WS. apply WS, P. }
  cbn [rbind]. rewrite (find_scenario d f Ef N o Ho). rewrite scenario_location. destruct WS as [[_ [[col Hc] _]] _]. rewrite Hc. cbn [rbind fst snd].
  eexists. split; [reflexivity|]. unfold test_of, test_tags. cbn [rt_name rt_doc rt_tags rt_calls rt_line rt_col]. rewrite concat_singles. split; [|exact C3]. repeat split; [| |exact C2|eauto].
  - destruct (scenario_desc (o_scenario o)) as [kvs [-> ->]]. destruct (sc_desc (o_scenario o)); reflexivity.
  - rewrite (pr_tags _ _ _ R). unfold origin_tags. fold (lower_tags o). rewrite own_tags.
    { rewrite map_map. apply map_ext_in. intros u Hu. apply (lower_tags_wf f o W Ho) in Hu as [x ->]. reflexivity. }
    intros x X1 X2. apply (lower_tags_ids f o x Ho) in X2.
    unfold doc_ids in N. rewrite Ef in N. cbn [opt_ids] in N. unfold feature_ids in N. eapply NoDup_app_disj; eauto.
Qed.
Lemma build_tests_eq d f : gd_feature d = Some f -> doc_wf d -> NoDup (doc_ids d) -> forall os ps, (forall o, In o os -> In o (feature_origins f)) -> Forall2 (pickle_rel f) os ps ->
  exists ts, map_result (build_test printable (j_gdoc d) (fe_tags f)) ps = Ok ts /\ Forall3 (test_of f) os ps ts /\ Forall2 (fun p t => Forall2 exact_args (pk_steps p) (rt_calls t)) ps ts.
Proof.
  intros Ef W N os ps H F. induction F as [|o p os ps R F IH]; [exists []; split; [reflexivity|split; constructor]|].
  destruct (build_test_eq d f o p Ef W N (H o (or_introl eq_refl)) R) as [t [E [T X]]]. destruct IH as [ts [IH1 [IH2 IH3]]]; [intros; apply H; now right|].
  exists (t :: ts). split; [|split; now constructor]. cbn [map_result]. rewrite E. cbn [rbind]. rewrite IH1. reflexivity.
Qed.
End Calls.
