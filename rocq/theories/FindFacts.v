(** * Looking up elements of a document by id (no modelled code) *)
From Coq Require Import FinFun.
From Verif Require Import PyStr PyStrFacts Types Line Ast Robot IdSpec FindSpec.

Section JInd.
Context (P : jval -> Prop) (HN : P JNone) (HS : forall x, P (JStr x)) (HLoc : forall l, P (JLoc l)) (HP : P JPath)
  (HD : forall l, Forall (fun kv => P (snd kv)) l -> P (JDict l)) (HL : forall l, Forall P l -> P (JList l)).
Fixpoint jval_ind' (v : jval) : P v :=
  match v with
  | JNone => HN | JStr x => HS x | JLoc l => HLoc l | JPath => HP
  | JDict l => HD l ((fix go l : Forall (fun kv => P (snd kv)) l := match l with [] => Forall_nil _ | kv :: l' => Forall_cons _ (jval_ind' (snd kv)) (go l') end) l)
  | JList l => HL l ((fix go l : Forall P l := match l with [] => Forall_nil _ | v :: l' => Forall_cons _ (jval_ind' v) (go l') end) l)
  end.
End JInd.

(** all mappings with an id, with their parents, in the order of the search *)
Definition own (kvs : list (str * jval)) (p : jval) : list (str * (jval * jval)) :=
  match jget (s "id") kvs with Some (JStr x) => [(x, (JDict kvs, p))] | _ => [] end.
Fixpoint nodes (v p : jval) : list (str * (jval * jval)) :=
  match v with
  | JDict kvs => own kvs p ++ flat_map (fun kv => nodes (snd kv) v) kvs
  | JList l => flat_map (fun w => nodes w p) l
  | _ => []
  end.
Fixpoint lookup {A} (x : str) (l : list (str * A)) : option A :=
  match l with [] => None | (y, a) :: l' => if str_eqb y x then Some a else lookup x l' end.
Lemma lookup_app {A} x (l1 l2 : list (str * A)) : lookup x (l1 ++ l2) = match lookup x l1 with Some a => Some a | None => lookup x l2 end.
Proof. induction l1 as [|[y a] l1 IH]; [reflexivity|]. cbn. destruct (str_eqb y x); auto. Qed.

Lemma find_lookup v : forall y p, find_ast_node_id v y p = lookup y (nodes v p).
Proof.
  induction v as [| | | |kvs IH|l IH] using jval_ind'; intros y p; try reflexivity.
  - cbn [find_ast_node_id nodes]. rewrite lookup_app.
    assert (G : forall q, (fix go (l : list (str * jval)) : option (jval * jval) :=
                  match l with
                  | [] => None
                  | (_, v) :: l' => match find_ast_node_id v y q with Some r => Some r | None => go l' end
                  end) kvs = lookup y (flat_map (fun kv => nodes (snd kv) q) kvs)).
    { intros q. induction IH as [|[k v] kvs Hv _ IHk]; [reflexivity|]. cbn [flat_map snd]. rewrite lookup_app, <- Hv. cbn [snd].
      destruct (find_ast_node_id v y q); [reflexivity|]. exact IHk. }
    unfold own. destruct (jget (s "id") kvs) as [[| | | | |]|]; cbn [lookup]; rewrite ?G; try reflexivity.
    destruct (str_eqb x y); reflexivity.
  - cbn [find_ast_node_id nodes]. induction IH as [|v l Hv _ IHk]; [reflexivity|]. cbn [flat_map]. rewrite lookup_app, <- Hv.
    destruct (find_ast_node_id v y p); [reflexivity|]. exact IHk.
Qed.

Lemma nodes_occurs v : forall p y n q, In (y, (n, q)) (nodes v p) <-> occurs v p n q /\ has_id n y.
Proof.
  induction v as [| | | |kvs IH|l IH] using jval_ind'; intros p y n q.
  1-4: cbn; split; [contradiction|]; intros [O [kvs [E _]]]; inversion O; subst; discriminate.
  - cbn [nodes]. rewrite in_app_iff, in_flat_map. rewrite Forall_forall in IH. split.
    + intros [H|[[k w] [H1 H2]]].
      * unfold own in H. destruct (jget (s "id") kvs) as [[| | | | |]|] eqn:E; try contradiction. destruct H as [H|[]].
        injection H as <- <- <-. split; [constructor|]. exists kvs. auto.
      * apply (IH _ H1) in H2 as [H2 H3]. split; [|exact H3]. eapply oc_dict; eauto.
    + intros [O HI]. inversion O as [|? k w ? ? ? H1 H2|]; subst.
      * left. destruct HI as [kvs' [E1 E2]]. injection E1 as <-. unfold own. rewrite E2. left. reflexivity.
      * right. exists (k, w). split; [exact H1|]. apply (IH _ H1). auto.
  - cbn [nodes]. rewrite in_flat_map. rewrite Forall_forall in IH. split.
    + intros [w [H1 H2]]. apply (IH _ H1) in H2 as [H2 H3]. split; [|exact H3]. eapply oc_list; eauto.
    + intros [O HI]. inversion O as [| |? w ? ? ? H1 H2]; subst.
      * destruct HI as [kvs' [E1 E2]]. discriminate.
      * exists w. split; [exact H1|]. apply (IH _ H1). auto.
Qed.

Lemma lookup_in {A} x (l : list (str * A)) a : lookup x l = Some a -> In (x, a) l.
Proof. induction l as [|[y b] l IH]; [discriminate|]. cbn. destruct (str_eqb y x) eqn:E; [|auto]. apply str_eqb_spec in E as ->. intros H. injection H as ->. now left. Qed.
Lemma lookup_none {A} x (l : list (str * A)) : lookup x l = None <-> forall a, ~ In (x, a) l.
Proof.
  induction l as [|[y b] l IH]; cbn; [split; auto|]. destruct (str_eqb y x) eqn:E.
  - apply str_eqb_spec in E as ->. split; [discriminate|]. intros H. exfalso. eapply H. now left.
  - rewrite IH. apply str_eqb_neq in E. split; intros H a; [intros [G|G]; [congruence | now apply (H a)]|]. intros G. now apply (H a); right.
Qed.
Lemma lookup_nodup {A} x (l : list (str * A)) a : NoDup (map fst l) -> In (x, a) l -> lookup x l = Some a.
Proof.
  induction l as [|[y b] l IH]; [contradiction|]. cbn. intros N [H|H].
  - injection H as -> ->. now rewrite str_eqb_refl.
  - inversion N as [|? ? N1 N2]; subst. destruct (str_eqb y x) eqn:E; [|auto]. apply str_eqb_spec in E as ->. exfalso. apply N1. now apply (in_map fst) in H.
Qed.

(** ** The ids of the mappings of a document are those of the document *)
Definition keys (v : jval) (p : jval) : list str := map fst (nodes v p).
Lemma keys_list p l : keys (JList l) p = flat_map (fun w => keys w p) l.
Proof. unfold keys. cbn [nodes]. induction l; [reflexivity|]. cbn. rewrite map_app, IHl. reflexivity. Qed.
Definition own_key (kvs : list (str * jval)) : list str := match jget (s "id") kvs with Some (JStr x) => [x] | _ => [] end.
Lemma keys_dict p kvs : keys (JDict kvs) p = own_key kvs ++ flat_map (fun kv => keys (snd kv) (JDict kvs)) kvs.
Proof.
  unfold keys. cbn [nodes]. rewrite map_app. f_equal.
  - unfold own, own_key. destruct (jget _ _) as [[]|]; reflexivity.
  - generalize (JDict kvs). intros q. induction kvs; [reflexivity|]. cbn. rewrite map_app, IHkvs. reflexivity.
Qed.
Lemma keys_atom v p : match v with JDict _ | JList _ => True | _ => keys v p = [] end.
Proof. destruct v; auto. Qed.
Definition ids_of (l : list nat) : list str := map str_of_nat l.
Lemma keys_map {A} (f : A -> jval) (g : A -> list nat) l p : (forall a q, keys (f a) q = ids_of (g a)) -> flat_map (fun w => keys w p) (map f l) = ids_of (flat_map g l).
Proof. intros H. induction l; [reflexivity|]. cbn. unfold ids_of in *. rewrite map_app, H, IHl. reflexivity. Qed.
Ltac kopt := repeat match goal with |- context [opt_kv _ (jopt ?o)] => destruct o; cbn [opt_kv jopt option_map app] end.

Lemma keys_tag t p : keys (j_tag t) p = ids_of [tag_id t]. Proof. reflexivity. Qed.
Lemma keys_tags l p : keys (JList (map j_tag l)) p = ids_of (tag_ids l).
Proof. rewrite keys_list. rewrite (keys_map _ (fun t => [tag_id t]) l p) by (intros; apply keys_tag). reflexivity. Qed.
Lemma keys_cell c p : keys (j_cell c) p = []. Proof. reflexivity. Qed.
Lemma keys_none {A} (f : A -> jval) l p : (forall a q, keys (f a) q = []) -> keys (JList (map f l)) p = [].
Proof. intros H. rewrite keys_list. induction l; [reflexivity|]. cbn. rewrite H, IHl. reflexivity. Qed.
Lemma keys_row r p : keys (j_row r) p = ids_of [row_id r].
Proof. unfold j_row. rewrite keys_dict. cbn [flat_map snd]. rewrite (keys_none j_cell) by reflexivity. reflexivity. Qed.
Lemma keys_rows l p : keys (JList (map j_row l)) p = ids_of (row_ids l).
Proof. rewrite keys_list. rewrite (keys_map _ (fun t => [row_id t]) l p) by (intros; apply keys_row). reflexivity. Qed.
Lemma keys_doc d p : keys (j_doc d) p = [].
Proof. unfold j_doc. destruct (ds_delimiter d), (ds_media d); reflexivity. Qed.
Lemma keys_table t p : keys (j_table t) p = ids_of (row_ids (dt_rows t)).
Proof. unfold j_table. rewrite keys_dict. cbn [flat_map snd]. rewrite keys_rows. cbn [own_key jget]. cbn. rewrite app_nil_r. reflexivity. Qed.
Lemma ids_app a b : ids_of (a ++ b) = ids_of a ++ ids_of b. Proof. apply map_app. Qed.
Lemma keys_opt {A} k (f : A -> jval) o q : (forall a, keys (f a) q = []) -> flat_map (fun kv => keys (snd kv) q) (opt_kv k (option_map f o)) = [].
Proof. intros H. destruct o; [|reflexivity]. cbn [option_map opt_kv flat_map snd]. now rewrite H. Qed.
Lemma keys_jopt k o q : flat_map (fun kv => keys (snd kv) q) (opt_kv k (jopt o)) = [].
Proof. apply keys_opt. reflexivity. Qed.
Ltac jkeys := rewrite keys_dict; cbn [app own_key jget]; set (q := JDict _) in *;
  rewrite ?flat_map_app; cbn [flat_map snd]; rewrite ?keys_jopt; cbn [app].
Lemma own_id n kvs : own_key ((s "id", jid n) :: kvs) = ids_of [n]. Proof. reflexivity. Qed.
Lemma keys_step x p : keys (j_step x) p = ids_of (step_ids x).
Proof.
  unfold j_step, step_ids. rewrite keys_dict. cbn [app]. rewrite own_id. set (q := JDict _). cbn [flat_map snd].
  rewrite !flat_map_app, !keys_jopt, keys_opt by reflexivity.
  destruct (st_arg x) as [|t|d]; cbn [flat_map snd app]; rewrite ?keys_table, ?keys_doc; cbn; rewrite ?app_nil_r; reflexivity.
Qed.
Lemma keys_steps l p : keys (JList (map j_step l)) p = ids_of (flat_map step_ids l).
Proof. rewrite keys_list. apply keys_map. intros; apply keys_step. Qed.
Lemma keys_background x p : keys (j_background x) p = ids_of (background_ids x).
Proof.
  unfold j_background, background_ids. rewrite keys_dict. cbn [app]. rewrite own_id. set (q := JDict _). cbn [flat_map snd].
  rewrite !flat_map_app, !keys_jopt. cbn [flat_map snd app]. rewrite keys_steps. cbn. rewrite ?app_nil_r; reflexivity.
Qed.
Lemma keys_examples x p : keys (j_examples x) p = ids_of (examples_ids x).
Proof.
  unfold j_examples, examples_ids. rewrite keys_dict. cbn [app]. rewrite own_id. set (q := JDict _). cbn [flat_map snd].
  rewrite !flat_map_app, !keys_jopt. cbn [flat_map snd app]. rewrite keys_tags, flat_map_app. cbn [flat_map snd app]. rewrite keys_rows.
  destruct (ex_header x); cbn [option_map opt_kv flat_map snd app]; rewrite ?keys_row; cbn; unfold ids_of; rewrite ?map_app, ?app_nil_r; reflexivity.
Qed.
Lemma keys_scenario x p : keys (j_scenario x) p = ids_of (scenario_ids x).
Proof.
  unfold j_scenario, scenario_ids. rewrite keys_dict. cbn [app]. rewrite own_id. set (q := JDict _). cbn [flat_map snd].
  rewrite !flat_map_app, !keys_jopt. cbn [flat_map snd app]. rewrite keys_tags, keys_steps. rewrite keys_list, (keys_map _ examples_ids) by (intros; apply keys_examples).
  cbn; unfold ids_of; rewrite ?map_app, ?app_nil_r; reflexivity.
Qed.
Lemma keys_bg_child b p : flat_map (fun w => keys w p) (j_bg_child b) = ids_of (opt_ids background_ids b).
Proof. destruct b; [|reflexivity]. cbn [j_bg_child flat_map]. rewrite keys_dict. cbn [flat_map snd]. rewrite keys_background. cbn. now rewrite !app_nil_r. Qed.
Lemma keys_sc_child x p : keys (j_sc_child x) p = ids_of (scenario_ids x).
Proof. unfold j_sc_child. rewrite keys_dict. cbn [flat_map snd]. rewrite keys_scenario. cbn. now rewrite !app_nil_r. Qed.
Lemma keys_rule x p : keys (j_rule x) p = ids_of (rule_ids x).
Proof.
  unfold j_rule, rule_ids. rewrite keys_dict. cbn [app]. rewrite own_id. set (q := JDict _). cbn [flat_map snd].
  rewrite !flat_map_app, !keys_jopt. cbn [flat_map snd app]. rewrite keys_tags. rewrite keys_list, flat_map_app, keys_bg_child, (keys_map _ scenario_ids) by (intros; apply keys_sc_child).
  cbn; unfold ids_of; rewrite ?map_app, ?app_nil_r; reflexivity.
Qed.
Lemma keys_feature x p : keys (j_feature x) p = ids_of (feature_ids x).
Proof.
  unfold j_feature, feature_ids. rewrite keys_dict.
  assert (O : own_key ([(s "tags", JList (map j_tag (fe_tags x))); (s "location", JLoc (fe_loc x))] ++
         opt_kv "language" (jopt (fe_language x)) ++ opt_kv "keyword" (jopt (fe_keyword x)) ++
         opt_kv "name" (jopt (fe_name x)) ++
         [(s "description", JStr (fe_desc x));
          (s "children", JList (j_bg_child (fe_background x) ++ map j_sc_child (fe_scenarios x) ++
                                map (fun r => JDict [(s "rule", j_rule r)]) (fe_rules x)))]) = []).
  { unfold own_key. destruct (fe_language x), (fe_keyword x), (fe_name x); reflexivity. }
  rewrite O. set (q := JDict _). cbn [flat_map snd app].
  rewrite !flat_map_app, !keys_jopt. cbn [flat_map snd app]. rewrite keys_tags. rewrite keys_list, !flat_map_app, keys_bg_child.
  rewrite (keys_map _ scenario_ids) by (intros; apply keys_sc_child).
  rewrite (keys_map (fun r => JDict [(s "rule", j_rule r)]) rule_ids) by (intros; rewrite keys_dict; cbn [flat_map snd]; rewrite keys_rule; cbn; now rewrite !app_nil_r).
  cbn; unfold ids_of; rewrite ?map_app, ?app_nil_r; reflexivity.
Qed.
Theorem keys_gdoc d p : keys (j_gdoc d) p = ids_of (doc_ids d).
Proof.
  unfold j_gdoc, doc_ids. rewrite keys_dict.
  assert (C : forall q, keys (JList (map j_comment (gd_comments d))) q = []).
  { intros q. apply keys_none. intros c r. unfold j_comment. destruct (cm_text c); reflexivity. }
  destruct (gd_feature d); cbn [option_map opt_kv app opt_ids flat_map snd]; rewrite C, ?keys_feature; cbn; rewrite ?app_nil_r; reflexivity.
Qed.

Theorem find_unique d x n q : NoDup (doc_ids d) -> occurs (j_gdoc d) JNone n q -> has_id n x -> find_ast_node_id (j_gdoc d) x JNone = Some (n, q).
Proof.
  intros N O H. rewrite find_lookup. apply lookup_nodup; [|now apply nodes_occurs].
  change (NoDup (keys (j_gdoc d) JNone)). rewrite keys_gdoc. unfold ids_of. apply Injective_map_NoDup; [|exact N]. exact str_of_nat_inj.
Qed.
