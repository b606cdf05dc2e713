(** * Steps, backgrounds, examples, scenarios, rules *)
From Verif Require Import PyStr PyStrFacts Types Regex Line DialectData Matcher Ast ParserTable Parser Classify Table Scan Grammar Deriv Cert LineSpec StepFacts Cst Report Eval LangSpec LangFacts Complete DocSpec Erase Den LineIff Means Layout Texts DocStr.

(** ** Reading children *)
Lemma gi_one r k0 i k : get_items (mkNode r [(k0, i)]) k = if key_eqb k0 k then [i] else [].
Proof. unfold get_items. cbn [n_subs filter fst]. now destruct (key_eqb k0 k). Qed.
Lemma gi_nil r k : get_items (mkNode r []) k = [].
Proof. reflexivity. Qed.
Lemma gi_title ms k a subs : title_G ms k a subs -> exists t, title_fields ms a t /\ forall r k', get_items (mkNode r subs) k' = if key_eqb (KTok k) k' then [ITok t] else [].
Proof. intros [t [-> H]]. exists t. split; [exact H|]. intros. apply gi_one. Qed.
Lemma gi_step ms a subs : step_G ms a subs -> exists t, step_fields ms a t /\ forall r k', get_items (mkNode r subs) k' = if key_eqb (KTok TkStepLine) k' then [ITok t] else [].
Proof. intros [t [-> H]]. exists t. split; [exact H|]. intros. apply gi_one. Qed.
Lemma gi_desc desc subs : desc_G desc subs -> exists L, (forall r, match L with IDesc x :: _ => x | _ => [] end = desc /\ (L = [] \/ L = [IDesc desc]) /\
  forall k, k <> KTok TkEmpty -> get_items (mkNode r subs) k = if key_eqb (KRule RDescription) k then L else []).
Proof.
  intros [b1 [m [b2 [-> [B1 [B2 [-> | [-> ->]]]]]]]].
  - exists [IDesc desc]. intros r. split; [reflexivity|]. split; [now right|]. intros k Hk. rewrite !get_items_app, (gi_blanks _ b1), (gi_blanks _ b2), gi_one by assumption. now destruct (key_eqb _ k).
  - exists []. intros r. split; [reflexivity|]. split; [now left|]. intros k Hk. rewrite !get_items_app, (gi_blanks _ b1), (gi_blanks _ b2) by assumption. now destruct (key_eqb _ k).
Qed.
Lemma gi_tags tags subs r k : tags_opt_G tags subs -> k <> KRule RTags -> get_items (mkNode r subs) k = [].
Proof.
  intros [_ H] Hk. unfold get_items. cbn [n_subs]. induction H as [|[k' i] bs E H IH]; [reflexivity|]. cbn in E. subst k'. cbn [filter fst].
  destruct (key_eqb (KRule RTags) k) eqn:Q; [|exact IH]. destruct k as [|q|]; try discriminate Q. cbn [key_eqb] in Q. apply rule_eqb_spec in Q. now subst.
Qed.
Lemma get_tags_tail tags subs rest r id : tags_opt_G tags subs -> get_items (mkNode r rest) (KRule RTags) = [] -> map no_id_tag (fst (get_tags (mkNode r (subs ++ rest)) id)) = tags.
Proof.
  intros [H _] Hr. rewrite <- (H r id). f_equal. f_equal. unfold get_tags, get_single. now rewrite get_items_app, Hr, app_nil_r.
Qed.

Lemma app_len {A} (a b c e : list A) : length a = length c -> a ++ b = c ++ e -> b = e.
Proof. revert c. induction a as [|x a IH]; intros [|y c] L H; try discriminate L; [exact H|]. injection H as _ H. eapply IH; [|exact H]. now injection L. Qed.

(** nodes that are kept as they are *)
Definition inode_G {A} (r : rule) (G : A -> list (key * item) -> Prop) (a : A) (subs : list (key * item)) : Prop :=
  exists s, subs = [(KRule r, INode r s)] /\ G a s /\ no_id_subs s = s.
Definition kept (r : rule) : bool := match r with RScenario | RExamples | RRuleHeader | RFeatureHeader => true | _ => false end.
Lemma kept_finish r s : kept r = true -> no_id_subs s = s -> finish0 r (s, []) = ([(KRule r, INode r s)], []).
Proof. intros Hr Hs. unfold finish0. destruct r; try discriminate Hr; cbn [transform_node n_rule n_subs fst no_id_res]; rewrite no_id_node, Hs; reflexivity. Qed.
Lemma means_inode {A} p r ms (S : bl A) G : kept r = true -> means (V r (prod r)) ms S G -> means (V p (R r)) ms S (inode_G r G).
Proof.
  intros Hr [F B]. assert (Hn : normal r = true) by (destruct r; try discriminate Hr; reflexivity). split.
  - intros nls ms' subs cs H. apply V_node in H. apply N_normal in H as [s [Hv Hf]]; [|exact Hn]. destruct (F _ _ _ _ Hv) as [-> [a [Ha Hg]]]. split; [reflexivity|]. exists a. split; [exact Ha|].
    rewrite kept_finish in Hf by (assumption || eapply V_erased; eauto). injection Hf as <-. exists s. split; [reflexivity|]. split; [exact Hg | eapply V_erased; eauto].
  - intros nls a cs Hne Ha. destruct (B _ _ _ Hne Ha) as [s [Hv Hg]]. pose proof (V_erased _ _ _ _ _ _ _ Hv) as He. exists [(KRule r, INode r s)]. split; [|exists s; auto].
    apply V_node. apply N_normal; [exact Hn|]. exists s. split; [exact Hv | now apply kept_finish].
Qed.

Lemma cat_cong a b b' w : (forall w, matches b w <-> matches b' w) -> matches (GCat a b) w <-> matches (GCat a b') w.
Proof. intros H. rewrite !cat_inv. split; intros [u [v [E [M1 M2]]]]; exists u, v; repeat split; auto; now apply H. Qed.
Lemma helper_lang d w : matches (GCat (GStar (T TkEmpty)) (GCat (gopt (R RDescription)) (GCat (gopt (GCat (T TkComment) noise)) d))) w <-> matches (GCat helper d) w.
Proof.
  unfold helper. rewrite cat_assoc_lang. apply cat_cong. intros. rewrite cat_assoc_lang. reflexivity.
Qed.
Lemma means_lang {A} r g g' ms (S : bl A) G : (forall w, matches g w <-> matches g' w) -> means (V r g) ms S G -> means (V r g') ms S G.
Proof. intros H. apply means_rel. intros. now apply V_lang. Qed.

Section WithMs.
Variable ms : mstate.
Context (Hi : idle ms).
Let d : dialect := ms_dialect ms.

(** ** Steps *)
Definition arg_S : bl steparg := fun nls a cs => match a with ATable t => datatable_S nls t cs | ADoc ds => doc_block nls ds cs | ANone => False end.
Definition arg_G (a : steparg) (subs : list (key * item)) : Prop :=
  match a with ATable t => subs = [(KRule RDataTable, ITable t)] | ADoc ds => subs = [(KRule RDocString, IDoc ds)] | ANone => False end.
Lemma means_arg : means (V RStep (GAlt (R RDataTable) (R RDocString))) ms arg_S arg_G.
Proof.
  apply (means_map (V RStep (GAlt (R RDataTable) (R RDocString))) ms (fun nls a cs => (exists t, a = ATable t /\ datatable_S nls t cs) \/ (exists ds, a = ADoc ds /\ doc_block nls ds cs)) arg_G).
  - apply means_alt.
    + eapply (means_map (A := datatable)); [now apply means_datatable| |].
      * intros nls t cs subs H G. exists (ATable t). split; [eauto | exact G].
      * intros nls a cs [t [-> H]]. exists t. split; [exact H | auto].
    + eapply (means_map (A := docstring)); [now apply means_docstring| |].
      * intros nls t cs subs H G. exists (ADoc t). split; [eauto | exact G].
      * intros nls a cs [t [-> H]]. exists t. split; [exact H | auto].
  - intros nls a cs subs H G. exists a. split; [|exact G]. destruct H as [[t [-> H]]|[ds [-> H]]]; exact H.
  - intros nls [|t|ds] cs H; [destruct H| |]; eexists; (split; [|intros subs G; exact G]); eauto.
Qed.
Definition arg_of (o : option steparg) : steparg := match o with Some a => a | None => ANone end.
Lemma arg_items o subs r : opt_G arg_G o subs -> (get_single (mkNode r subs) (KTok TkStepLine) = None) /\
  (match get_single (mkNode r subs) (KRule RDataTable) with Some (ITable t) => ATable t | _ => match get_single (mkNode r subs) (KRule RDocString) with Some (IDoc d) => ADoc d | _ => ANone end end) = arg_of o.
Proof. destruct o as [[|t|ds]|]; cbn [opt_G arg_G]; [contradiction|intros ->|intros ->|intros ->]; split; reflexivity. Qed.
Lemma arg_block o nls cs : maybe arg_S nls o cs <-> argument_block nls (arg_of o) cs /\ o <> Some ANone.
Proof.
  unfold argument_block. destruct o as [[|t|ds]|]; cbn [maybe arg_S arg_of].
  - split; [contradiction|]. intros [_ H]. now elim H.
  - split.
    + intros [l [ls' [rows [-> [H ->]]]]]. split; [|discriminate]. right. left. exists l, ls', rows. auto.
    + intros [[[_ [H _]]|[[l [ls' [rows [-> [H E]]]]]|[ds [_ H]]]] _]; try discriminate H. injection E as ->. exists l, ls', rows. auto.
  - split.
    + intros H. split; [|discriminate]. right. right. eauto.
    + intros [[[_ [H _]]|[[l [ls' [rows [_ [_ H]]]]]|[ds' [H E]]]] _]; try discriminate H. injection E as ->. exact H.
  - split.
    + intros [-> ->]. split; [|discriminate]. left. auto.
    + intros [[[-> [_ ->]]|[[l [ls' [rows [_ [_ H]]]]]|[ds' [_ H]]]] _]; try discriminate H. auto.
Qed.
Definition mk_step (a : titled_line * (unit * option steparg)) : step :=
  mkStep 0 (here (fst (fst (fst a)))) (Some (snd (fst (fst a)))) (Some (step_type d (snd (fst (fst a))))) (Some (snd (fst a))) (arg_of (snd (snd a))).
Lemma blanks_single bs r k : blanks bs -> k <> KTok TkEmpty -> get_single (mkNode r bs) k = None.
Proof. intros. unfold get_single. now rewrite gi_blanks. Qed.
Lemma single_app r a b k : get_single (mkNode r (a ++ b)) k = match get_single (mkNode r a) k with Some i => Some i | None => get_single (mkNode r b) k end.
Proof. unfold get_single. rewrite get_items_app. now destruct (get_items (mkNode r a) k). Qed.
Lemma means_step p : means (V p (R RStep)) ms (step_block d) (node_G RStep IStep).
Proof.
  eapply (means_node_fun p RStep ms (cat_S (step_S d) (cat_S noise_S (maybe arg_S))) (cat_G (step_G ms) (cat_G noise_G (opt_G arg_G))) (step_block d) IStep mk_step); [reflexivity| | |].
  - cbn [prod gseq]. apply means_cat; [now apply means_step_line|]. apply means_cat; [now apply means_noise|]. apply means_opt, means_arg.
  - intros [a [[] o]] s [s1 [s2 [-> [G1 [s3 [s4 [-> [G2 G3]]]]]]]] He. cbn [fst snd] in *. destruct (gi_step _ _ _ G1) as [t [[T1 [T2 [T3 T4]]] Ht]]. unfold noise_G in G2.
    unfold finish0. cbn [transform_node n_rule]. unfold get_token. rewrite !single_app, !(blanks_single s3) by (assumption || discriminate).
    assert (X : forall k, get_single (mkNode RStep s1) k = if key_eqb (KTok TkStepLine) k then Some (ITok t) else None) by (intros k; unfold get_single; rewrite Ht; now destruct (key_eqb _ k)).
    rewrite !X. cbn [key_eqb tok_eqb]. destruct (arg_items o s4 RStep G3) as [_ Ea]. rewrite Ea. cbn [fst no_id_res no_id_item]. rewrite T1, T2, T3, T4. unfold mk_step. cbn [fst snd].
    repeat f_equal. unfold no_id_step. cbn [st_loc st_keyword st_ktype st_text st_arg]. f_equal.
    destruct o as [[|tb|ds]|]; cbn [opt_G arg_G arg_of no_id_arg] in *; try reflexivity. subst s4. rewrite !no_id_subs_app in He.
    assert (Hs : no_id_subs [(KRule RDataTable, ITable tb)] = [(KRule RDataTable, ITable tb)]).
    { assert (L : length (no_id_subs s1) = length s1) by apply map_length. assert (L' : length (no_id_subs s3) = length s3) by apply map_length.
      apply app_len in He; [|exact L]. now apply app_len in He. }
    cbn in Hs. unfold no_id_sub in Hs. cbn in Hs. injection Hs as Hs. unfold no_id_table in Hs. now rewrite Hs.
  - intros nls b cs. unfold step_block. split.
    + intros [l [nz [ag [kw [text [a [cs1 [cs2 [-> [H1 [H2 [H3 [-> ->]]]]]]]]]]]]]. 
      assert (Q : exists o, arg_of o = a /\ o <> Some ANone).
      { destruct a as [|t|ds]; [exists None | exists (Some (ATable t)) | exists (Some (ADoc ds))]; (split; [reflexivity | discriminate]). }
      destruct Q as [o [Q1 Q2]]. subst a. exists ((l, kw, text), (tt, o)). split; [|reflexivity].
      exists [l], (nz ++ ag), [], (cs1 ++ cs2). split; [reflexivity|]. split; [reflexivity|]. split; [split; [reflexivity|]; split; [exact H1 | reflexivity]|].
      exists nz, ag, cs1, cs2. split; [reflexivity|]. split; [reflexivity|]. split; [exact H2|]. cbn. now apply arg_block.
    + intros [[[[l kw] text] [[] o]] [[n1 [n2 [c1 [c2 [-> [-> [[-> [H1 ->]] [nz [ag [cs1 [cs2 [-> [-> [H2 H3]]]]]]]]]]]]]] ->]]. cbn [fst snd] in *.
      exists l, nz, ag, kw, text, (arg_of o), cs1, cs2. split; [reflexivity|]. split; [exact H1|]. split; [exact H2|]. split; [now apply arg_block | split; reflexivity].
Qed.

(** ** Elements with a title line *)
Definition titled_S {B} (k : tok) (pl : place) (S : bl B) : bl (titled_line * (str * B)) := cat_S (title_S d k) (cat_S (description_block d pl) S).
Definition titled_G {B} (k : tok) (G : B -> list (key * item) -> Prop) : titled_line * (str * B) -> list (key * item) -> Prop := cat_G (title_G ms k) (cat_G desc_G G).
Lemma means_titled {B} r k pl g (S : bl B) G : title_kind k = true -> place_of r = Some pl -> means (V r g) ms S G ->
  means (V r (GCat (T k) (GCat (GStar (T TkEmpty)) (GCat (gopt (R RDescription)) (GCat (gopt (GCat (T TkComment) noise)) g))))) ms (titled_S k pl S) (titled_G k G).
Proof.
  intros Hk Hp H. eapply means_lang; [intros w; apply cat_cong; intros w'; symmetry; apply helper_lang|].
  apply means_cat; [now apply means_title|]. apply means_cat; [now apply means_helper | exact H].
Qed.
(** what is read of such an element *)
Lemma titled_reads {B} k (G : B -> list (key * item) -> Prop) a s r : titled_G k G a s -> title_kind k = true ->
  exists t s1 s2 s3, s = s1 ++ s2 ++ s3 /\ G (snd (snd a)) s3 /\ title_fields ms (fst a) t /\
  (get_items (mkNode r s3) (KTok k) = [] -> get_token (mkNode r s) k = Ok t) /\
  (get_items (mkNode r s3) (KRule RDescription) = [] -> get_description (mkNode r s) = fst (snd a)) /\
  forall q, q <> RDescription -> get_items (mkNode r s) (KRule q) = get_items (mkNode r s3) (KRule q).
Proof.
  intros [s1 [x [-> [G1 [s2 [s3 [-> [G2 G3]]]]]]]] Hk. destruct a as [a [desc b]]. cbn [fst snd] in *. destruct (gi_title _ _ _ _ G1) as [t [Ht T]]. destruct (gi_desc _ _ G2) as [L HL].
  destruct (HL r) as [L1 [L2 L3]]. exists t, s1, s2, s3. split; [reflexivity|]. split; [exact G3|]. split; [exact Ht|]. split; [|split].
  - intros _. unfold get_token, get_single. rewrite !get_items_app, T. cbn [key_eqb]. replace (tok_eqb k k) with true by (now destruct k). reflexivity.
  - intros E. unfold get_description, get_single. rewrite !get_items_app, T, E, L3 by discriminate. cbn [key_eqb rule_eqb app]. rewrite app_nil_r, <- L1. now destruct L as [|[]].
  - intros q Hq. rewrite !get_items_app, T, L3 by discriminate. cbn [key_eqb]. destruct (rule_eqb RDescription q) eqn:E; [apply rule_eqb_spec in E; congruence|]. reflexivity.
Qed.

(** ** Backgrounds *)
Lemma steps_of_items r s (steps : list step) : get_items (mkNode r s) (KRule RStep) = map IStep steps -> get_steps (mkNode r s) = steps.
Proof. intros H. unfold get_steps. rewrite H. clear. induction steps as [|x l IH]; [reflexivity|]. cbn [map flat_map app]. now rewrite IH. Qed.
Lemma examples_of_items r s xs : get_items (mkNode r s) (KRule RExamplesDefinition) = map IExamples xs -> get_examples (mkNode r s) = xs.
Proof. intros H. unfold get_examples. rewrite H. clear. induction xs as [|x l IH]; [reflexivity|]. cbn [map flat_map app]. now rewrite IH. Qed.
Lemma scenarios_of_items r s xs : get_items (mkNode r s) (KRule RScenarioDefinition) = map IScenario xs -> get_scenarios (mkNode r s) = xs.
Proof. intros H. unfold get_scenarios. rewrite H. clear. induction xs as [|x l IH]; [reflexivity|]. cbn [map flat_map app]. now rewrite IH. Qed.
Lemma rules_of_items r s xs : get_items (mkNode r s) (KRule RRule) = map IRule xs -> get_rules (mkNode r s) = xs.
Proof. intros H. unfold get_rules. rewrite H. clear. induction xs as [|x l IH]; [reflexivity|]. cbn [map flat_map app]. now rewrite IH. Qed.

Definition mk_background (a : titled_line * (str * list step)) : background :=
  mkBackground 0 (here (fst (fst (fst a)))) (Some (snd (fst (fst a)))) (Some (snd (fst a))) (fst (snd a)) (snd (snd a)).
Lemma means_background p : means (V p (R RBackground)) ms (background_block d) (node_G RBackground IBackground).
Proof.
  eapply (means_node_fun p RBackground ms (titled_S TkBackgroundLine InBackground (blocks (step_block d))) (titled_G TkBackgroundLine (nodes_G RStep IStep)) (background_block d) IBackground mk_background); [reflexivity| | |].
  - cbn [prod gseq desc_helper app]. apply means_titled; [reflexivity | reflexivity|]. apply means_nodes, means_step.
  - intros a s Hg He. destruct (titled_reads _ _ _ _ RBackground Hg eq_refl) as [t [s1 [s2 [s3 [Es [G3 [[T1 [T2 [T3 _]]] [R1 [R2 R3]]]]]]]]]. unfold nodes_G in G3.
    assert (Q : forall k, get_items (mkNode RBackground s3) k = match k with KRule q' => if rule_eqb RStep q' then map IStep (snd (snd a)) else [] | _ => [] end) by (intros k; rewrite G3; apply gi_nodes).
    unfold finish0. cbn [transform_node n_rule]. rewrite R1 by (rewrite Q; reflexivity). rewrite R2 by (rewrite Q; reflexivity). cbn [fst no_id_res no_id_item].
    assert (Hst : get_steps (mkNode RBackground s) = snd (snd a)) by (apply steps_of_items; rewrite R3 by discriminate; now rewrite Q).
    assert (Hst' : map no_id_step (snd (snd a)) = snd (snd a)) by (rewrite <- Hst, <- gsteps_no, He; reflexivity).
    unfold no_id_background. cbn [bg_loc bg_keyword bg_name bg_desc bg_steps]. rewrite Hst, Hst', T1, T2, T3. reflexivity.
  - intros nls b cs. unfold background_block. split.
    + intros [l [dl [sl [kw [name [desc [steps [cs1 [cs2 [-> [H1 [H2 [H3 [-> ->]]]]]]]]]]]]]]. exists ((l, kw, name), (desc, steps)). split; [|reflexivity].
      exists [l], (dl ++ sl), [], (cs1 ++ cs2). split; [reflexivity|]. split; [reflexivity|]. split; [split; [reflexivity|]; split; [exact H1 | reflexivity]|]. exists dl, sl, cs1, cs2. auto.
    + intros [[[[l kw] name] [desc steps]] [[n1 [n2 [c1 [c2 [-> [-> [[-> [H1 ->]] [dl [sl [cs1 [cs2 [-> [-> [H2 H3]]]]]]]]]]]]]] ->]]. cbn [fst snd] in *.
      exists l, dl, sl, kw, name, desc, steps, cs1, cs2. auto 6.
Qed.

(** ** A title line, its description and more, below perhaps some tags *)
Lemma get_node_tags {A} tags s1 r q (G : A -> list (key * item) -> Prop) a s2 : tags_opt_G tags s1 -> q <> RTags -> inode_G q G a s2 ->
  exists s, get_node (mkNode r (s1 ++ s2)) q = Some (mkNode q s) /\ G a s /\ no_id_subs s = s /\ forall id, map no_id_tag (fst (get_tags (mkNode r (s1 ++ s2)) id)) = tags.
Proof.
  intros Ht Hq [s [-> [Hg He]]]. exists s. split; [|split; [exact Hg|]; split; [exact He|]].
  - unfold get_node, get_single. rewrite get_items_app, (gi_tags tags) by (assumption || congruence). rewrite gi_one. cbn [key_eqb]. rewrite rule_eqb_refl. reflexivity.
  - intros id. apply get_tags_tail; [exact Ht|]. rewrite gi_one. cbn [key_eqb]. destruct (rule_eqb q RTags) eqn:E; [apply rule_eqb_spec in E; congruence | reflexivity].
Qed.

(** ** Examples *)
Definition rows_of_opt (o : option (list row)) : list row := match o with Some l => l | None => [] end.
Definition mk_examples (a : list tag * (titled_line * (str * option (list row)))) : examples :=
  mkExamples 0 (fst a) (here (fst (fst (fst (snd a))))) (Some (snd (fst (fst (snd a))))) (Some (snd (fst (snd a)))) (fst (snd (snd a)))
    (hd_error (rows_of_opt (snd (snd (snd a))))) (tl (rows_of_opt (snd (snd (snd a))))).
Lemma means_examples p : means (V p (R RExamplesDefinition)) ms (examples_block d) (node_G RExamplesDefinition IExamples).
Proof.
  eapply (means_node_fun p RExamplesDefinition ms (cat_S tags_block (titled_S TkExamplesLine InExamples (maybe table_block)))
    (cat_G tags_opt_G (inode_G RExamples (titled_G TkExamplesLine (opt_G (node_G RExamplesTable IRows))))) (examples_block d) IExamples mk_examples); [reflexivity| | |].
  - cbn [prod gseq]. apply means_cat; [now apply means_tags_opt|]. apply means_inode; [reflexivity|]. cbn [prod gseq desc_helper app].
    apply means_titled; [reflexivity | reflexivity|]. apply means_opt. now apply means_examples_table.
  - intros [tags a] s [s1 [s2 [-> [G1 G2]]]] He. cbn [fst snd] in *.
    destruct (get_node_tags tags s1 RExamplesDefinition RExamples _ _ _ G1 ltac:(discriminate) G2) as [sn [N1 [N2 [N3 N4]]]].
    destruct (titled_reads _ _ _ _ RExamples N2 eq_refl) as [t [x1 [x2 [x3 [Es [G3 [[T1 [T2 [T3 _]]] [R1 [R2 R3]]]]]]]]].
    assert (Q : forall k, get_items (mkNode RExamples x3) k = match snd (snd a) with Some l => if key_eqb (KRule RExamplesTable) k then [IRows l] else [] | None => [] end).
    { intros k. destruct (snd (snd a)) as [l|]; cbn [opt_G] in G3; [unfold node_G in G3|]; rewrite G3; [apply gi_one | reflexivity]. }
    unfold finish0. cbn [transform_node n_rule]. pose proof (N4 0%nat) as Et. destruct (get_tags _ 0%nat) as [tg id1]. cbn [fst] in Et. rewrite N1.
    rewrite R1 by (rewrite Q; now destruct (snd (snd a))). rewrite R2 by (rewrite Q; now destruct (snd (snd a))). cbn [fst no_id_res no_id_item].
    assert (Hr : match get_single (mkNode RExamples sn) (KRule RExamplesTable) with Some (IRows l) => l | _ => [] end = rows_of_opt (snd (snd a))).
    { unfold get_single. rewrite R3 by discriminate. rewrite Q. now destruct (snd (snd a)). }
    assert (Hn : map no_id_row (rows_of_opt (snd (snd a))) = rows_of_opt (snd (snd a))).
    { rewrite <- Hr at 2. rewrite <- N3. rewrite gs_no. unfold get_single. rewrite R3 by discriminate. rewrite Q. now destruct (snd (snd a)). }
    unfold no_id_examples. cbn [ex_tags ex_loc ex_keyword ex_name ex_desc ex_header ex_body]. rewrite Hr, Et, T1, T2, T3. unfold mk_examples. cbn [fst snd]. repeat f_equal.
    + destruct (rows_of_opt (snd (snd a))) as [|r0 rs]; [reflexivity|]. cbn in *. injection Hn as Hn1 Hn2. now rewrite Hn1.
    + destruct (rows_of_opt (snd (snd a))) as [|r0 rs]; [reflexivity|]. cbn in *. now injection Hn as Hn1 Hn2.
  - intros nls b cs. unfold examples_block. split.
    + intros [tl [l [dl [rl [tags [kw [name [desc [rows [cs0 [cs1 [cs2 [-> [H0 [H1 [H2 [H3 [-> ->]]]]]]]]]]]]]]]]]]. exists (tags, ((l, kw, name), (desc, rows))). split.
      * exists tl, (l :: dl ++ rl), cs0, (cs1 ++ cs2). split; [reflexivity|]. split; [reflexivity|]. split; [exact H0|].
        exists [l], (dl ++ rl), [], (cs1 ++ cs2). split; [reflexivity|]. split; [reflexivity|]. split; [split; [reflexivity|]; split; [exact H1 | reflexivity]|]. exists dl, rl, cs1, cs2. auto.
      * unfold mk_examples. cbn [fst snd]. f_equal; destruct rows as [[|]|]; reflexivity.
    + intros [[tags [[[l kw] name] [desc rows]]] [[tl [n0 [cs0 [c0 [-> [-> [H0 [n1 [n2 [c1 [c2 [-> [-> [[-> [H1 ->]] [dl [rl [cs1 [cs2 [-> [-> [H2 H3]]]]]]]]]]]]]]]]]]]]] ->]]. cbn [fst snd] in *.
      exists tl, l, dl, rl, tags, kw, name, desc, rows, cs0, cs1, cs2. split; [reflexivity|]. do 4 (split; [assumption|]). split; [reflexivity|].
      unfold mk_examples. cbn [fst snd]. f_equal; destruct rows as [[|]|]; reflexivity.
Qed.

(** ** Scenarios *)
Definition mk_scenario (a : list tag * (titled_line * (str * (list step * list examples)))) : scenario :=
  mkScenario 0 (fst a) (here (fst (fst (fst (snd a))))) (Some (snd (fst (fst (snd a))))) (Some (snd (fst (snd a)))) (fst (snd (snd a))) (fst (snd (snd (snd a)))) (snd (snd (snd (snd a)))).
Lemma means_scenario p : means (V p (R RScenarioDefinition)) ms (scenario_block d) (node_G RScenarioDefinition IScenario).
Proof.
  eapply (means_node_fun p RScenarioDefinition ms (cat_S tags_block (titled_S TkScenarioLine InScenario (cat_S (blocks (step_block d)) (blocks (examples_block d)))))
    (cat_G tags_opt_G (inode_G RScenario (titled_G TkScenarioLine (cat_G (nodes_G RStep IStep) (nodes_G RExamplesDefinition IExamples))))) (scenario_block d) IScenario mk_scenario); [reflexivity| | |].
  - cbn [prod gseq]. apply means_cat; [now apply means_tags_opt|]. apply means_inode; [reflexivity|]. cbn [prod gseq desc_helper app].
    apply means_titled; [reflexivity | reflexivity|]. apply means_cat; apply means_nodes; [apply means_step | apply means_examples].
  - intros [tags a] s [s1 [s2 [-> [G1 G2]]]] He. cbn [fst snd] in *.
    destruct (get_node_tags tags s1 RScenarioDefinition RScenario _ _ _ G1 ltac:(discriminate) G2) as [sn [N1 [N2 [N3 N4]]]].
    destruct (titled_reads _ _ _ _ RScenario N2 eq_refl) as [t [x1 [x2 [x3 [Es [[x4 [x5 [G3 [G4 G5]]]] [[T1 [T2 [T3 _]]] [R1 [R2 R3]]]]]]]]]. unfold nodes_G in G4, G5.
    assert (Q : forall k, get_items (mkNode RScenario x3) k = match k with KRule q' => (if rule_eqb RStep q' then map IStep (fst (snd (snd a))) else []) ++ (if rule_eqb RExamplesDefinition q' then map IExamples (snd (snd (snd a))) else []) | _ => [] end).
    { intros k. rewrite G3, get_items_app, G4, G5, !gi_nodes. now destruct k. }
    unfold finish0. cbn [transform_node n_rule]. pose proof (N4 0%nat) as Et. destruct (get_tags _ 0%nat) as [tg id1]. cbn [fst] in Et. rewrite N1.
    rewrite R1 by (rewrite Q; reflexivity). rewrite R2 by (rewrite Q; reflexivity). cbn [fst no_id_res no_id_item].
    assert (Hs : get_steps (mkNode RScenario sn) = fst (snd (snd a))) by (apply steps_of_items; rewrite R3 by discriminate; rewrite Q; cbn [rule_eqb]; apply app_nil_r).
    assert (Hx : get_examples (mkNode RScenario sn) = snd (snd (snd a))) by (apply examples_of_items; rewrite R3 by discriminate; rewrite Q; reflexivity).
    assert (Hs' : map no_id_step (fst (snd (snd a))) = fst (snd (snd a))) by (rewrite <- Hs, <- gsteps_no, N3; reflexivity).
    assert (Hx' : map no_id_examples (snd (snd (snd a))) = snd (snd (snd a))) by (rewrite <- Hx, <- gex_no, N3; reflexivity).
    unfold no_id_scenario. cbn [sc_tags sc_loc sc_keyword sc_name sc_desc sc_steps sc_examples]. rewrite Hs, Hx, Hs', Hx', Et, T1, T2, T3. reflexivity.
  - intros nls b cs. unfold scenario_block. split.
    + intros [tl [l [dl [sl [el [tags [kw [name [desc [steps [exs [cs0 [cs1 [cs2 [cs3 [-> [H0 [H1 [H2 [H3 [H4 [-> ->]]]]]]]]]]]]]]]]]]]]]]. exists (tags, ((l, kw, name), (desc, (steps, exs)))). split; [|reflexivity].
      exists tl, (l :: dl ++ sl ++ el), cs0, (cs1 ++ cs2 ++ cs3). split; [reflexivity|]. split; [reflexivity|]. split; [exact H0|].
      exists [l], (dl ++ sl ++ el), [], (cs1 ++ cs2 ++ cs3). split; [reflexivity|]. split; [reflexivity|]. split; [split; [reflexivity|]; split; [exact H1 | reflexivity]|].
      exists dl, (sl ++ el), cs1, (cs2 ++ cs3). split; [reflexivity|]. split; [reflexivity|]. split; [exact H2|]. exists sl, el, cs2, cs3. auto.
    + intros [[tags [[[l kw] name] [desc [steps exs]]]] [[tl [n0 [cs0 [c0 [-> [-> [H0 [n1 [n2 [c1 [c2 [-> [-> [[-> [H1 ->]] [dl [n3 [cs1 [c3 [-> [-> [H2 [sl [el [cs2 [cs3 [-> [-> [H3 H4]]]]]]]]]]]]]]]]]]]]]]]]]]]] ->]]. cbn [fst snd] in *.
      exists tl, l, dl, sl, el, tags, kw, name, desc, steps, exs, cs0, cs1, cs2, cs3. split; [reflexivity|]. do 5 (split; [assumption|]). split; reflexivity.
Qed.

(** ** Rules *)
Lemma background_of_items r s o : get_items (mkNode r s) (KRule RBackground) = match o with Some b => [IBackground b] | None => [] end -> get_background (mkNode r s) = o.
Proof. intros H. unfold get_background, get_single. rewrite H. now destruct o. Qed.
Lemma means_titled_last r k pl : title_kind k = true -> place_of r = Some pl ->
  means (V r (GCat (T k) helper)) ms (cat_S (title_S d k) (description_block d pl)) (cat_G (title_G ms k) desc_G).
Proof. intros Hk Hp. apply means_cat; [now apply means_title | now apply means_helper]. Qed.
Lemma header_reads tags k a s r : cat_G tags_opt_G (cat_G (title_G ms k) desc_G) (tags, a) s -> title_kind k = true ->
  exists t, title_fields ms (fst a) t /\ get_token (mkNode r s) k = Ok t /\ get_description (mkNode r s) = snd a /\ forall id, map no_id_tag (fst (get_tags (mkNode r s) id)) = tags.
Proof.
  intros [s1 [x [-> [G1 [s2 [s3 [-> [G2 G3]]]]]]]] Hk. cbn [fst snd] in *. destruct (gi_title _ _ _ _ G2) as [t [Ht T]]. destruct (gi_desc _ _ G3) as [L HL]. destruct (HL r) as [L1 [L2 L3]].
  exists t. split; [exact Ht|]. split; [|split].
  - unfold get_token, get_single. rewrite !get_items_app, (gi_tags tags), T by (assumption || discriminate). cbn [key_eqb]. replace (tok_eqb k k) with true by (now destruct k). reflexivity.
  - unfold get_description, get_single. rewrite !get_items_app, (gi_tags tags), T, L3 by (assumption || discriminate). cbn [key_eqb rule_eqb app]. rewrite <- L1. now destruct L as [|[]].
  - intros id. apply get_tags_tail; [exact G1|]. rewrite get_items_app, T, L3 by discriminate. reflexivity.
Qed.
Definition header_S (k : tok) : bl (list tag * (titled_line * str)) := cat_S tags_block (cat_S (title_S d k) (description_block d InHeader)).
Definition header_G (k : tok) : list tag * (titled_line * str) -> list (key * item) -> Prop := cat_G tags_opt_G (cat_G (title_G ms k) desc_G).
Lemma means_rule_header p : means (V p (R RRuleHeader)) ms (header_S TkRuleLine) (inode_G RRuleHeader (header_G TkRuleLine)).
Proof.
  apply means_inode; [reflexivity|]. cbn [prod gseq desc_helper app]. apply means_cat; [now apply means_tags_opt|]. now apply means_titled_last.
Qed.
Definition mk_rule (a : (list tag * (titled_line * str)) * (option background * list scenario)) : rule_ast :=
  mkRule 0 (fst (fst a)) (here (fst (fst (fst (snd (fst a)))))) (Some (snd (fst (fst (snd (fst a)))))) (Some (snd (fst (snd (fst a))))) (snd (snd (fst a))) (fst (snd a)) (snd (snd a)).
Definition opt_items {A} (f : A -> item) (o : option A) : list item := match o with Some a => [f a] | None => [] end.
Lemma gi_opt {A} r q (f : A -> item) o subs k : opt_G (node_G q f) o subs -> get_items (mkNode r subs) k = if key_eqb (KRule q) k then opt_items f o else [].
Proof. destruct o as [a|]; cbn [opt_G opt_items]; [unfold node_G|]; intros ->; [apply gi_one | now destruct (key_eqb _ k)]. Qed.
Lemma means_rule p : means (V p (R RRule)) ms (rule_block d) (node_G RRule IRule).
Proof.
  eapply (means_node_fun p RRule ms (cat_S (header_S TkRuleLine) (cat_S (maybe (background_block d)) (blocks (scenario_block d))))
    (cat_G (inode_G RRuleHeader (header_G TkRuleLine)) (cat_G (opt_G (node_G RBackground IBackground)) (nodes_G RScenarioDefinition IScenario))) (rule_block d) IRule mk_rule); [reflexivity| | |].
  - cbn [prod gseq]. apply means_cat; [apply means_rule_header|]. apply means_cat; [apply means_opt, means_background | apply means_nodes, means_scenario].
  - intros [[tags a] [bg scs]] s [s1 [s2 [-> [[sh [-> [G1 E1]]] [s3 [s4 [-> [G2 G3]]]]]]]] He. cbn [fst snd] in *. unfold nodes_G in G3.
    destruct (header_reads _ _ _ _ RRuleHeader G1 eq_refl) as [t [[T1 [T2 [T3 _]]] [R1 [R2 R3]]]].
    assert (Q : forall k, get_items (mkNode RRule ([(KRule RRuleHeader, INode RRuleHeader sh)] ++ s3 ++ s4)) k =
      (if key_eqb (KRule RRuleHeader) k then [INode RRuleHeader sh] else []) ++ (if key_eqb (KRule RBackground) k then opt_items IBackground bg else []) ++ match k with KRule q' => if rule_eqb RScenarioDefinition q' then map IScenario scs else [] | _ => [] end).
    { intros k. rewrite !get_items_app, gi_one, (gi_opt _ _ _ _ _ _ G2), G3, gi_nodes. reflexivity. }
    set (S0 := [(KRule RRuleHeader, INode RRuleHeader sh)] ++ s3 ++ s4) in *.
    assert (Hb : get_background (mkNode RRule S0) = bg) by (apply background_of_items; rewrite Q; cbn [key_eqb rule_eqb app]; rewrite app_nil_r; now destruct bg).
    assert (Hc : get_scenarios (mkNode RRule S0) = scs) by (apply scenarios_of_items; rewrite Q; reflexivity).
    assert (Hb' : option_map no_id_background bg = bg) by (rewrite <- Hb, <- gbg_no, He; reflexivity).
    assert (Hc' : map no_id_scenario scs = scs) by (rewrite <- Hc, <- gsc_no, He; reflexivity).
    unfold finish0. cbn [transform_node n_rule]. unfold get_node, get_single. rewrite Q. cbn [key_eqb rule_eqb app hd_error].
    pose proof (R3 0%nat) as Et. destruct (get_tags _ 0%nat) as [tg id1]. cbn [fst] in Et. rewrite R1, R2. cbn [fst no_id_res no_id_item]. unfold no_id_rule.
    cbn [ru_tags ru_loc ru_keyword ru_name ru_desc ru_background ru_scenarios]. rewrite Hb, Hc, Hb', Hc', Et, T1, T2, T3. reflexivity.
  - intros nls b cs. unfold rule_block. split.
    + intros [tl [l [dl [bl [sl [tags [kw [name [desc [bg [scs [cs0 [cs1 [cs2 [cs3 [-> [H0 [H1 [H2 [H3 [H4 [-> ->]]]]]]]]]]]]]]]]]]]]]]. exists ((tags, ((l, kw, name), desc)), (bg, scs)). split; [|reflexivity].
      exists (tl ++ l :: dl), (bl ++ sl), (cs0 ++ cs1), (cs2 ++ cs3). split; [rewrite <- app_assoc; reflexivity|]. split; [rewrite <- app_assoc; reflexivity|]. split.
      * exists tl, (l :: dl), cs0, cs1. split; [reflexivity|]. split; [reflexivity|]. split; [exact H0|].
        exists [l], dl, [], cs1. split; [reflexivity|]. split; [reflexivity|]. split; [split; [reflexivity|]; split; [exact H1 | reflexivity]|]. exact H2.
      * exists bl, sl, cs2, cs3. auto.
    + intros [[[tags [[[l kw] name] desc]] [bg scs]] [[nh [nb [ch [cb [-> [-> [[tl [n0 [cs0 [c0 [-> [-> [H0 [n1 [dl [c1 [cs1 [-> [-> [[-> [H1 ->]] H2]]]]]]]]]]]]]] [bl [sl [cs2 [cs3 [-> [-> [H3 H4]]]]]]]]]]]]]] ->]]. cbn [fst snd] in *.
      exists tl, l, dl, bl, sl, tags, kw, name, desc, bg, scs, cs0, cs1, cs2, cs3. split; [rewrite <- app_assoc; reflexivity|]. do 5 (split; [assumption|]). split; [rewrite <- app_assoc; reflexivity | reflexivity].
Qed.
End WithMs.
