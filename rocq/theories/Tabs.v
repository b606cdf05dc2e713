(** * The tables of a syntax tree, of its document, and of its errors *)
From Verif Require Import PyStr PyStrFacts Types Regex Line DialectData Matcher Ast ParserTable Parser Classify Table Scan Grammar Deriv Cert LineSpec RowIff Cst Report Eval LangSpec LangFacts Complete DocSpec Erase DocRun RaggedSpec Repair.

(** ** Tables of a tree *)
Definition is_tab (r : rule) : bool := match r with RDataTable | RExamplesTable => true | _ => false end.
Definition leaf_row (a : leaf) : row := mkRow 0 (t_location (lf_t a)) (get_cells (lf_t a)).
Fixpoint tree_rows (t : ltree) : list (list row) :=
  match t with
  | Leaf _ => []
  | Node r l => if is_tab r then [map leaf_row (kids TkTableRow l)] else flat_map tree_rows l
  end.
Definition trees_rows (l : list ltree) : list (list row) := flat_map tree_rows l.

(** ** Errors *)
Definition table_err (rows : list row) : list perr := match ensure_cell_count rows with Err (EParser e) => [e] | _ => [] end.
Lemma rows_of_tokens_no ts : forall id rows id', rows_of_tokens ts id = (rows, id') -> map no_id_row rows = map (fun t => mkRow 0 (t_location t) (get_cells t)) ts.
Proof.
  induction ts as [|t ts IH]; intros id rows id' H; cbn [rows_of_tokens] in H; [now injection H as <- <-|]. destruct (rows_of_tokens ts (S id)) as [l id1] eqn:E. injection H as <- <-. cbn [map]. f_equal. eauto.
Qed.
Lemma find_map {A B} (f : A -> B) (p : B -> bool) l : find p (map f l) = option_map f (find (fun a => p (f a)) l).
Proof. induction l as [|a l IH]; [reflexivity|]. cbn. destruct (p (f a)); [reflexivity | exact IH]. Qed.
Lemma ensure_no rows : ensure_cell_count (map no_id_row rows) = ensure_cell_count rows.
Proof.
  unfold ensure_cell_count. destruct rows as [|r0 rows]; [reflexivity|]. cbn [map]. pose proof (find_map no_id_row (fun r => negb (Nat.eqb (length (row_cells r)) (length (row_cells (no_id_row r0))))) (r0 :: rows)) as F.
  cbn [map] in F. rewrite F. cbn [row_cells no_id_row]. destruct (find _ (r0 :: rows)); reflexivity.
Qed.
Lemma leaf_rows l : map leaf_row (kids TkTableRow l) = map (fun t => mkRow 0 (t_location t) (get_cells t)) (map lf_t (kids TkTableRow l)).
Proof. now rewrite map_map. Qed.
Lemma table_rows_cases r l id subs es id' i : evals l id = (subs, es, id') ->
  exists rows i', get_table_rows (mkNode r subs) i = (rbind (ensure_cell_count rows) (fun _ => Ok rows), i') /\ map no_id_row rows = map leaf_row (kids TkTableRow l).
Proof.
  intros E. unfold get_table_rows. rewrite (evals_tokens r l TkTableRow _ _ _ _ ltac:(discriminate) E). destruct (rows_of_tokens _ i) as [rows i'] eqn:R.
  exists rows, i'. split; [reflexivity|]. rewrite leaf_rows. eapply rows_of_tokens_no; eauto.
Qed.
Lemma ensure_err rows : match ensure_cell_count rows with Ok _ => True | Err e => exists p, e = EParser p end.
Proof. unfold ensure_cell_count. destruct rows as [|r0 rows]; [exact I|]. destruct (find _ _); eauto. Qed.
Lemma get_token_err n k e : get_token n k = Err e -> e = EAttributeError.
Proof. unfold get_token. destruct (get_single n (KTok k)) as [[]|]; congruence. Qed.
Lemma transform_no_parser n cm id p : is_tab (n_rule n) = false -> fst (transform_node n cm id) <> Err (EParser p).
Proof.
  destruct n as [r subs]. cbn [n_rule]. intros H. destruct r; try discriminate H; unfold transform_node; cbn [n_rule]; try (intros X; discriminate X).
  - destruct (get_node _ _); [|discriminate]. destruct (get_tags _ _). destruct (get_token _ _); discriminate.
  - destruct (get_node _ _); [|discriminate]. destruct (get_tags _ _). destruct (get_token _ _); discriminate.
  - destruct (get_token _ _) as [t|e] eqn:E; [discriminate|]. apply get_token_err in E. subst e. discriminate.
  - destruct (get_tags _ _). destruct (get_node _ _); [|discriminate]. destruct (get_token _ _) as [t|e] eqn:E; [discriminate|]. apply get_token_err in E. subst e. discriminate.
  - destruct (get_tags _ _). destruct (get_node _ _); [|discriminate]. destruct (get_token _ _) as [t|e] eqn:E; [discriminate|]. apply get_token_err in E. subst e. discriminate.
  - destruct (get_token _ _) as [t|e] eqn:E; [discriminate|]. apply get_token_err in E. subst e. discriminate.
  - destruct (get_tokens _ _); [discriminate|]. destruct (t_text t); discriminate.
  - destruct (last_non_empty _); discriminate.
Qed.
Lemma tab_leaves r l : is_tab r = true -> matches (prod r) (lsyms l) -> forall t, In t l -> exists a, t = Leaf a.
Proof.
  intros H M t Ht. destruct t as [a|q l']; [eauto|]. exfalso. assert (Q : mentions (SR q) (prod r) = true) by (eapply mentions_ok; [exact M | apply in_map_iff; exists (Node q l'); auto]). destruct r; try discriminate H; destruct q; discriminate Q.
Qed.
Lemma evals_leaves_errs l id : (forall t, In t l -> exists a, t = Leaf a) -> snd (fst (evals l id)) = [].
Proof.
  revert id. induction l as [|t l IH]; intros id H; [reflexivity|]. rewrite evals_cons. destruct (H t (or_introl eq_refl)) as [a ->]. cbn [eval]. specialize (IH id (fun t' Ht' => H t' (or_intror Ht'))).
  destruct (evals l id) as [[s2 e2] id2]. exact IH.
Qed.
Lemma eval_errs : forall t p id, ok_tree p t -> snd (fst (eval t id)) = flat_map table_err (tree_rows t).
Proof.
  induction t as [a|r l IH] using tree_ind'; intros p id O; [reflexivity|]. inversion O as [|? ? M L F]; subst. rewrite eval_node. destruct (evals l id) as [[subs es] id1] eqn:E. unfold finish.
  cbn [tree_rows]. destruct (is_tab r) eqn:T.
  - pose proof (evals_leaves_errs l id (tab_leaves r l T M)) as Ee. rewrite E in Ee. cbn in Ee. subst es. cbn [flat_map app]. rewrite app_nil_r.
    destruct (table_rows_cases r l id subs [] id1 id1 E) as [rows [i' [Eg En]]]. rewrite <- En. unfold table_err. rewrite ensure_no. pose proof (ensure_err rows) as Q.
    destruct r; try discriminate T; unfold transform_node; cbn [n_rule]; rewrite Eg; destruct (ensure_cell_count rows) as [u|e]; cbn [rbind].
    + reflexivity.
    + destruct Q as [p0 ->]. reflexivity.
    + destruct rows; reflexivity.
    + destruct Q as [p0 ->]. reflexivity.
  - pose proof (transform_no_parser (mkNode r subs) [] id1) as N. assert (Es : es = flat_map table_err (flat_map tree_rows l)).
    { clear -IH F E. revert id subs es id1 E. induction l as [|t l IHl]; intros id subs es id1 E; [rewrite evals_nil in E; now injection E as <- <- <-|]. rewrite evals_cons in E.
      inversion IH as [|? ? H1 H2]; subst. inversion F as [|? ? F1 F2]; subst. specialize (H1 r id F1). destruct (eval t id) as [[s1 e1] id2]. destruct (evals l id2) as [[s2 e2] id3] eqn:E2. injection E as <- <- <-. cbn [fst snd] in H1.
      cbn [flat_map]. rewrite flat_map_app, H1. f_equal. eapply IHl; eauto. }
    destruct (transform_node (mkNode r subs) [] id1) as [[i|e] id2]; [exact Es|]. destruct e; try exact Es. elim (N e T). reflexivity.
Qed.
Lemma evals_errs l p : Forall (ok_tree p) l -> forall id, snd (fst (evals l id)) = flat_map table_err (trees_rows l).
Proof.
  induction 1 as [|t l Ht Hl IH]; intros id; [reflexivity|]. rewrite evals_cons. pose proof (eval_errs t p id Ht) as E1. destruct (eval t id) as [[s1 e1] id1]. specialize (IH id1). destruct (evals l id1) as [[s2 e2] id2].
  cbn [fst snd] in *. unfold trees_rows. cbn [flat_map]. rewrite flat_map_app, E1. f_equal. exact IH.
Qed.

(** ** Tables of what is built *)
Fixpoint tabs_item (i : item) : list (list row) :=
  match i with
  | ITable t => [dt_rows t]
  | IRows l => [l]
  | IStep x => step_tabs x
  | IBackground x => background_tabs (Some x)
  | IScenario x => scenario_tabs x
  | IExamples x => examples_tabs x
  | IRule x => rule_tabs x
  | IFeature x => feature_tabs x
  | IGdoc x => document_tabs x
  | INode _ subs => flat_map (fun p => tabs_item (snd p)) subs
  | _ => []
  end.
Definition tabs_subs (subs : list (key * item)) : list (list row) := flat_map (fun p => tabs_item (snd p)) subs.
Lemma tabs_subs_app s1 s2 : tabs_subs (s1 ++ s2) = tabs_subs s1 ++ tabs_subs s2.
Proof. apply flat_map_app. Qed.

Definition view_scenario (subs : list (key * item)) : Prop :=
  tabs_subs subs = flat_map step_tabs (get_steps (mkNode RScenario subs)) ++ flat_map examples_tabs (get_examples (mkNode RScenario subs)).
Definition rows_in (subs : list (key * item)) : list row := match get_single (mkNode RExamples subs) (KRule RExamplesTable) with Some (IRows l) => l | _ => [] end.
Definition view_examples (subs : list (key * item)) : Prop := tabs_subs subs = match rows_in subs with [] => [] | rows => [rows] end.
Definition typed (q : rule) (i : item) : Prop :=
  match q with
  | RStep => exists x, i = IStep x
  | RBackground => exists x, i = IBackground x
  | RScenarioDefinition => exists x, i = IScenario x
  | RExamplesDefinition => exists x, i = IExamples x
  | RRule => exists x, i = IRule x
  | RFeature => exists x, i = IFeature x
  | RDataTable => exists x, i = ITable x
  | RExamplesTable => exists r rs, i = IRows (r :: rs)
  | RDocString => exists x, i = IDoc x
  | RDescription => exists x, i = IDesc x
  | RTags => exists s, i = INode q s /\ tabs_subs s = []
  | RFeatureHeader => exists s, i = INode q s /\ tabs_subs s = [] /\ exists t, get_token (mkNode q s) TkFeatureLine = Ok t
  | RRuleHeader => exists s, i = INode q s /\ tabs_subs s = [] /\ exists t, get_token (mkNode q s) TkRuleLine = Ok t
  | RScenario => exists s, i = INode q s /\ view_scenario s
  | RExamples => exists s, i = INode q s /\ view_examples s
  | RGherkinDocument => exists x, i = IGdoc x
  | RNone => False
  end.
Definition keyed1 (ks : list rule) (p : key * item) : Prop :=
  match fst p with KTok _ => exists t, snd p = ITok t | KRule q => In q ks /\ typed q (snd p) | KNone => False end.
Definition keyed (ks : list rule) (subs : list (key * item)) : Prop := Forall (keyed1 ks) subs.

Lemma keyed_other ks subs r q : keyed ks subs -> ~ In q ks -> get_items (mkNode r subs) (KRule q) = [].
Proof.
  intros H Hq. unfold get_items. cbn [n_subs]. induction H as [|[k i] subs H1 H2 IH]; [reflexivity|]. cbn [filter fst]. destruct (key_eqb k (KRule q)) eqn:E; [|exact IH]. destruct k as [|q'|]; try discriminate E.
  cbn in E. apply rule_eqb_spec in E. subst q'. destruct H1 as [H1 _]. contradiction.
Qed.
Definition notab (q : rule) : bool := match q with RTags | RFeatureHeader | RRuleHeader | RDocString | RDescription => true | _ => false end.
Lemma keyed_notab ks subs : keyed ks subs -> forallb notab ks = true -> tabs_subs subs = [].
Proof.
  intros H Hk. unfold tabs_subs. induction H as [|[k i] subs H1 H2 IH]; [reflexivity|]. cbn [flat_map snd]. rewrite IH, app_nil_r. unfold keyed1 in H1. cbn [fst snd] in H1. destruct k as [k|q|]; [destruct H1 as [t ->]; reflexivity| |destruct H1].
  destruct H1 as [H1 T]. rewrite forallb_forall in Hk. specialize (Hk q H1). destruct q; try discriminate Hk; cbn [typed] in T.
  - destruct T as [x [-> [T _]]]. exact T.
  - destruct T as [x [-> [T _]]]. exact T.
  - destruct T as [x ->]. reflexivity.
  - destruct T as [x [-> T]]. exact T.
  - destruct T as [x ->]. reflexivity.
Qed.
Lemma keyed_list {A} q (inj : A -> item) (f : A -> list (list row)) (get : item -> list A) r subs :
  (forall i, typed q i -> exists x, i = inj x) -> (forall x, get (inj x) = [x]) -> (forall x, tabs_item (inj x) = f x) ->
  keyed [q] subs -> tabs_subs subs = flat_map f (flat_map get (get_items (mkNode r subs) (KRule q))).
Proof.
  intros T G F H. unfold tabs_subs, get_items. cbn [n_subs]. induction H as [|[k i] subs H1 H2 IH]; [reflexivity|]. cbn [flat_map snd filter fst]. unfold keyed1 in H1. cbn [fst snd] in H1. destruct k as [k|q'|]; [destruct H1 as [t ->]; exact IH| |destruct H1].
  destruct H1 as [[->|[]] H1]. destruct (T _ H1) as [x ->]. cbn [key_eqb]. rewrite rule_eqb_refl. cbn [map snd flat_map]. rewrite G, flat_map_app, <- IH, F. cbn [flat_map]. now rewrite app_nil_r.
Qed.
Lemma keyed_steps r subs : keyed [RStep] subs -> tabs_subs subs = flat_map step_tabs (get_steps (mkNode r subs)).
Proof. apply (keyed_list RStep IStep step_tabs (fun i => match i with IStep x => [x] | _ => [] end)); auto. Qed.
Lemma keyed_examples r subs : keyed [RExamplesDefinition] subs -> tabs_subs subs = flat_map examples_tabs (get_examples (mkNode r subs)).
Proof. apply (keyed_list RExamplesDefinition IExamples examples_tabs (fun i => match i with IExamples x => [x] | _ => [] end)); auto. Qed.
Lemma keyed_scenarios r subs : keyed [RScenarioDefinition] subs -> tabs_subs subs = flat_map scenario_tabs (get_scenarios (mkNode r subs)).
Proof. apply (keyed_list RScenarioDefinition IScenario scenario_tabs (fun i => match i with IScenario x => [x] | _ => [] end)); auto. Qed.
Lemma keyed_rules r subs : keyed [RRule] subs -> tabs_subs subs = flat_map rule_tabs (get_rules (mkNode r subs)).
Proof. apply (keyed_list RRule IRule rule_tabs (fun i => match i with IRule x => [x] | _ => [] end)); auto. Qed.

(** ** Children by the grammar *)
Definition good_t (t : ltree) : Prop := forall id subs id', eval t id = (subs, [], id') ->
  match t with Leaf _ => keyed [] subs | Node q _ => exists i, subs = [(KRule q, i)] /\ typed q i end.
Definition K (g : gx) (subs : list (key * item)) : Prop := exists l id id', matches g (lsyms l) /\ evals l id = (subs, [], id') /\ Forall good_t l.
Lemma evals_app_clean l1 l2 id subs id' : evals (l1 ++ l2) id = (subs, [], id') -> exists s1 s2 id1, subs = s1 ++ s2 /\ evals l1 id = (s1, [], id1) /\ evals l2 id1 = (s2, [], id').
Proof.
  rewrite evals_app. destruct (evals l1 id) as [[s1 e1] id1]. destruct (evals l2 id1) as [[s2 e2] id2] eqn:E2. intros H. injection H as <- H <-. apply app_eq_nil in H as [-> ->]. exists s1, s2, id1. auto.
Qed.
Lemma K_cat a b subs : K (GCat a b) subs -> exists s1 s2, subs = s1 ++ s2 /\ K a s1 /\ K b s2.
Proof.
  intros [l [id [id' [M [E F]]]]]. apply cat_inv in M as [u [v [Ew [M1 M2]]]]. unfold lsyms, syms in Ew. apply map_eq_app in Ew as [l1 [l2 [-> [<- <-]]]]. change (list (tree leaf)) with (list ltree) in *.
  destruct (evals_app_clean _ _ _ _ _ E) as [s1 [s2 [id1 [-> [E1 E2]]]]]. apply Forall_app in F as [F1 F2]. exists s1, s2. split; [reflexivity|]. split; [exists l1, id, id1 | exists l2, id1, id']; auto.
Qed.
Lemma K_opt a subs : K (gopt a) subs -> K a subs \/ subs = [].
Proof.
  intros [l [id [id' [M [E F]]]]]. apply alt_inv in M as [M|M]; [left; exists l, id, id'; auto|]. right. apply eps_inv in M. destruct l; [|discriminate M]. rewrite evals_nil in E. now injection E as <- _.
Qed.
Lemma K_alt a b subs : K (GAlt a b) subs -> K a subs \/ K b subs.
Proof. intros [l [id [id' [M [E F]]]]]. apply alt_inv in M as [M|M]; [left | right]; exists l, id, id'; auto. Qed.
Lemma K_node q subs : K (R q) subs -> exists i, subs = [(KRule q, i)] /\ typed q i.
Proof.
  intros [l [id [id' [M [E F]]]]]. apply sym_inv in M. destruct l as [|[a|q' l'] [|? ?]]; try discriminate M. injection M as ->. rewrite evals_one in E. apply Forall_inv in F. exact (F _ _ _ E).
Qed.
Lemma K_keyed ks g subs : K g subs -> (forall q, mentions (SR q) g = true -> In q ks) -> keyed ks subs.
Proof.
  intros [l [id [id' [M [E F]]]]] H. assert (Q : forall q l', In (Node q l') l -> In q ks) by (intros q l' Hin; apply H; eapply mentions_ok; [exact M | apply in_map_iff; exists (Node q l'); auto]).
  clear M H. revert id subs id' E. induction l as [|t l IH]; intros id subs id' E; [rewrite evals_nil in E; injection E as <- _; constructor|]. change (t :: l) with ([t] ++ l) in E.
  destruct (evals_app_clean _ _ _ _ _ E) as [s1 [s2 [id1 [-> [E1 E2]]]]]. rewrite evals_one in E1. inversion F as [|? ? F1 F2]; subst. apply Forall_app. split; [|eapply IH; eauto; intros q l' Hin; eapply Q; right; eauto].
  specialize (F1 _ _ _ E1). destruct t as [a|q l']; [eapply Forall_impl; [|exact F1]; intros [[k|q|] i]; cbn; [auto | intros [[] _] | auto]|]. destruct F1 as [i [-> T]]. constructor; [|constructor]. split; [eapply Q; now left | exact T].
Qed.

Ltac by_mentions := let q := fresh "q" in let Q := fresh "Q" in intros q Q; destruct q; vm_compute in Q; try discriminate Q; cbn; auto.
Lemma get_steps_only r s0 s1 s2 ks0 ks2 : keyed ks0 s0 -> ~ In RStep ks0 -> keyed ks2 s2 -> ~ In RStep ks2 -> get_steps (mkNode r (s0 ++ s1 ++ s2)) = get_steps (mkNode r s1).
Proof. intros H0 N0 H2 N2. unfold get_steps. now rewrite !get_items_app, (keyed_other _ _ _ _ H0 N0), (keyed_other _ _ _ _ H2 N2), app_nil_r. Qed.
Lemma items_last r s0 s1 ks0 q : keyed ks0 s0 -> ~ In q ks0 -> get_items (mkNode r (s0 ++ s1)) (KRule q) = get_items (mkNode r s1) (KRule q).
Proof. intros H0 N0. now rewrite get_items_app, (keyed_other _ _ _ _ H0 N0). Qed.
Lemma items_first r s0 s1 ks1 q : keyed ks1 s1 -> ~ In q ks1 -> get_items (mkNode r (s0 ++ s1)) (KRule q) = get_items (mkNode r s0) (KRule q).
Proof. intros H0 N0. now rewrite get_items_app, (keyed_other _ _ _ _ H0 N0), app_nil_r. Qed.
Ltac notin := let H := fresh in intros H; cbn in H; repeat (destruct H as [H|H]; [discriminate H|]); destruct H.
Lemma keyed_app ks s1 s2 : keyed ks s1 -> keyed ks s2 -> keyed ks (s1 ++ s2).
Proof. intros. apply Forall_app. auto. Qed.
Lemma keyed_nil ks : keyed ks [].
Proof. constructor. Qed.
Lemma keyed_one q i : typed q i -> keyed [q] [(KRule q, i)].
Proof. intros H. constructor; [|constructor]. split; [now left | exact H]. Qed.
Lemma item_one r q i : get_items (mkNode r [(KRule q, i)]) (KRule q) = [i].
Proof. unfold get_items. cbn. now rewrite rule_eqb_refl. Qed.

(** a title line and a description *)
Lemma K_title k g subs : K (GCat (T k) (GCat (GStar (T TkEmpty)) (GCat (gopt (R RDescription)) (GCat (gopt (GCat (T TkComment) noise)) g)))) subs ->
  exists s0 s1, subs = s0 ++ s1 /\ keyed [RDescription] s0 /\ K g s1.
Proof.
  intros H. apply K_cat in H as [s0 [s1 [-> [H0 H]]]]. apply K_cat in H as [s2 [s3 [-> [H2 H]]]]. apply K_cat in H as [s4 [s5 [-> [H4 H]]]]. apply K_cat in H as [s6 [s7 [-> [H6 H]]]].
  exists (s0 ++ s2 ++ s4 ++ s6), s7. split; [now rewrite <- !app_assoc|]. split; [|exact H]. repeat apply keyed_app; eapply K_keyed; try eassumption; by_mentions.
Qed.
Lemma view_scenario_K subs : K (prod RScenario) subs -> view_scenario subs.
Proof.
  intros H. change (K (GCat (T TkScenarioLine) (GCat (GStar (T TkEmpty)) (GCat (gopt (R RDescription)) (GCat (gopt (GCat (T TkComment) noise)) (GCat (GStar (R RStep)) (GStar (R RExamplesDefinition))))))) subs) in H.
  apply K_title in H as [s0 [s1 [-> [H0 H]]]]. apply K_cat in H as [s2 [s3 [-> [H2 H3]]]]. apply (K_keyed [RStep]) in H2; [|by_mentions]. apply (K_keyed [RExamplesDefinition]) in H3; [|by_mentions].
  unfold view_scenario. rewrite !tabs_subs_app, (keyed_notab _ _ H0 eq_refl), (keyed_steps RScenario _ H2), (keyed_examples RScenario _ H3). cbn [app].
  rewrite (get_steps_only RScenario s0 s2 s3 _ _ H0 ltac:(notin) H3 ltac:(notin)). f_equal. unfold get_examples. rewrite (items_last _ _ _ _ _ H0) by notin. now rewrite (items_last _ _ _ _ _ H2) by notin.
Qed.
Lemma view_examples_K subs : K (prod RExamples) subs -> view_examples subs.
Proof.
  intros H. change (K (GCat (T TkExamplesLine) (GCat (GStar (T TkEmpty)) (GCat (gopt (R RDescription)) (GCat (gopt (GCat (T TkComment) noise)) (gopt (R RExamplesTable)))))) subs) in H.
  apply K_title in H as [s0 [s1 [-> [H0 H]]]]. unfold view_examples, rows_in, get_single. rewrite (items_last _ _ _ _ _ H0) by notin. rewrite tabs_subs_app, (keyed_notab _ _ H0 eq_refl). cbn [app].
  apply K_opt in H as [H| ->]; [|reflexivity]. apply K_node in H as [i [-> T]]. destruct T as [r [rs ->]]. rewrite item_one. reflexivity.
Qed.
Lemma background_K r s0 s1 s2 ks0 ks2 : K (gopt (R RBackground)) s1 -> keyed ks0 s0 -> ~ In RBackground ks0 -> keyed ks2 s2 -> ~ In RBackground ks2 ->
  tabs_subs s1 = background_tabs (get_background (mkNode r (s0 ++ s1 ++ s2))).
Proof.
  intros H K0 N0 K2 N2. unfold get_background, get_single. rewrite (items_last _ _ _ _ _ K0 N0), (items_first _ _ _ _ _ K2 N2).
  apply K_opt in H as [H| ->]; [|reflexivity]. apply K_node in H as [i [-> [x ->]]]. rewrite item_one. cbn [hd_error]. unfold tabs_subs. cbn [flat_map snd tabs_item]. apply app_nil_r.
Qed.

(** what [transform_node] makes of the tables of the children *)
Lemma node_tabs p r l id subs id1 i id2 : ok_tree p (Node r l) -> Forall good_t l -> evals l id = (subs, [], id1) ->
  transform_node (mkNode r subs) [] id1 = (Ok i, id2) -> typed r i /\ (is_tab r = false -> tabs_item i = tabs_subs subs).
Proof.
  intros O F E Et. inversion O as [|? ? M L Fo]; subst. assert (HK : K (prod r) subs) by (exists l, id, id1; auto).
  destruct r; unfold transform_node in Et; cbn [n_rule n_subs] in Et.
  - inversion M.
  - (* document *) injection Et as <- _. split; [eexists; reflexivity|]. intros _. cbn [tabs_item]. unfold document_tabs. cbn [gd_feature].
    cbn [prod gseq] in HK. apply K_cat in HK as [s0 [s1 [-> [H0 H]]]]. apply K_cat in H as [s2 [s3 [-> [H2 H3]]]]. apply (K_keyed []) in H0; [|by_mentions]. apply (K_keyed []) in H3; [|by_mentions].
    rewrite !tabs_subs_app, (keyed_notab _ _ H0 eq_refl), (keyed_notab _ _ H3 eq_refl), app_nil_r. cbn [app]. unfold get_single. rewrite (items_last _ _ _ _ _ H0), (items_first _ _ _ _ _ H3) by notin.
    apply K_opt in H2 as [H2| ->]; [|reflexivity]. apply K_node in H2 as [i [-> [x ->]]]. rewrite item_one. cbn [hd_error]. unfold tabs_subs. cbn [flat_map snd tabs_item]. symmetry. apply app_nil_r.
  - (* feature *) cbn [prod gseq] in HK. apply K_cat in HK as [s0 [s1 [-> [H0 H]]]]. apply K_cat in H as [s2 [s3 [-> [H2 H]]]]. apply K_cat in H as [s4 [s5 [-> [H4 H5]]]].
    apply K_node in H0 as [h [-> Th]]. pose proof (keyed_one _ _ Th) as H0.  destruct Th as [sh [-> [Th [t Ht]]]].
    remember [(KRule RFeatureHeader, INode RFeatureHeader sh)] as s0 eqn:Es0. assert (E1 : get_items (mkNode RFeature s0) (KRule RFeatureHeader) = [INode RFeatureHeader sh]) by (rewrite Es0; apply item_one).
    pose proof (K_keyed [RBackground] _ _ H2 ltac:(by_mentions)) as H2'. apply (K_keyed [RScenarioDefinition]) in H4; [|by_mentions]. apply (K_keyed [RRule]) in H5; [|by_mentions].
    assert (H45 : keyed [RScenarioDefinition; RRule] (s4 ++ s5)).
    { apply keyed_app; eapply Forall_impl; try eassumption; intros [[k|q|] j]; cbn; auto; intros [[->|[]] ?]; auto. }
    unfold get_node, get_single in Et. rewrite (items_first _ s0 (s2 ++ s4 ++ s5) [RBackground; RScenarioDefinition; RRule]) in Et;
      [|apply keyed_app; [eapply Forall_impl; [|exact H2'] | eapply Forall_impl; [|exact H45]]; intros [[k|q|] j]; cbn; auto; intros [D ?]; split; auto; destruct D as [->|D]; auto | notin].
    rewrite E1 in Et. cbn [hd_error] in Et. destruct (get_tags _ _) as [tags idt]. rewrite Ht in Et. injection Et as <- _. split; [eexists; reflexivity|]. intros _. cbn [tabs_item].
    rewrite !tabs_subs_app, (keyed_notab _ _ H0 eq_refl), (keyed_scenarios RFeature _ H4), (keyed_rules RFeature _ H5). cbn [app]. unfold feature_tabs. cbn [fe_background fe_scenarios fe_rules].
    rewrite <- (background_K RFeature s0 s2 (s4 ++ s5) _ _ H2 H0 ltac:(notin) H45 ltac:(notin)). f_equal. unfold get_scenarios, get_rules.
    rewrite !(items_last _ _ _ _ _ H0), !(items_last _ _ _ _ _ H2'), (items_first _ _ _ _ _ H5), (items_last _ _ _ _ _ H4) by notin. reflexivity.
  - (* feature header *) injection Et as <- _. split; [|reflexivity]. exists subs. split; [reflexivity|]. split.
    + eapply (keyed_notab [RTags; RDescription]); [eapply K_keyed; [exact HK | by_mentions] | reflexivity].
    + destruct (lsyms_in_leaf TkFeatureLine l (must_ok (ST TkFeatureLine) (prod RFeatureHeader) eq_refl _ M)) as [a Ha]. destruct (kids TkFeatureLine l) as [|b rest] eqn:Ek; [destruct Ha|]. exists (lf_t b). eapply evals_token; [discriminate | exact E | exact Ek].
  - (* rule *) cbn [prod gseq] in HK. apply K_cat in HK as [s0 [s1 [-> [H0 H]]]]. apply K_cat in H as [s2 [s4 [-> [H2 H4]]]].
    apply K_node in H0 as [h [-> Th]]. pose proof (keyed_one _ _ Th) as H0.  destruct Th as [sh [-> [Th [t Ht]]]].
    remember [(KRule RRuleHeader, INode RRuleHeader sh)] as s0 eqn:Es0. assert (E1 : get_items (mkNode RRule s0) (KRule RRuleHeader) = [INode RRuleHeader sh]) by (rewrite Es0; apply item_one).
    pose proof (K_keyed [RBackground] _ _ H2 ltac:(by_mentions)) as H2'. apply (K_keyed [RScenarioDefinition]) in H4; [|by_mentions].
    unfold get_node, get_single in Et. rewrite (items_first _ s0 (s2 ++ s4) [RBackground; RScenarioDefinition]) in Et;
      [|apply keyed_app; [eapply Forall_impl; [|exact H2'] | eapply Forall_impl; [|exact H4]]; intros [[k|q|] j]; cbn; auto; intros [D ?]; split; auto; destruct D as [->|D]; auto | notin].
    rewrite E1 in Et. cbn [hd_error] in Et. destruct (get_tags _ _) as [tags idt]. rewrite Ht in Et. injection Et as <- _. split; [eexists; reflexivity|]. intros _. cbn [tabs_item].
    rewrite !tabs_subs_app, (keyed_notab _ _ H0 eq_refl), (keyed_scenarios RRule _ H4). cbn [app]. unfold rule_tabs. cbn [ru_background ru_scenarios].
    rewrite <- (background_K RRule s0 s2 s4 _ _ H2 H0 ltac:(notin) H4 ltac:(notin)). f_equal. unfold get_scenarios.
    rewrite (items_last _ _ _ _ _ H0), (items_last _ _ _ _ _ H2') by notin. reflexivity.
  - (* rule header *) injection Et as <- _. split; [|reflexivity]. exists subs. split; [reflexivity|]. split.
    + eapply (keyed_notab [RTags; RDescription]); [eapply K_keyed; [exact HK | by_mentions] | reflexivity].
    + destruct (lsyms_in_leaf TkRuleLine l (must_ok (ST TkRuleLine) (prod RRuleHeader) eq_refl _ M)) as [a Ha]. destruct (kids TkRuleLine l) as [|b rest] eqn:Ek; [destruct Ha|]. exists (lf_t b). eapply evals_token; [discriminate | exact E | exact Ek].
  - (* background *) destruct (get_token _ _); [|discriminate Et]. injection Et as <- _. split; [eexists; reflexivity|]. intros _. cbn [tabs_item background_tabs bg_steps].
    change (K (GCat (T TkBackgroundLine) (GCat (GStar (T TkEmpty)) (GCat (gopt (R RDescription)) (GCat (gopt (GCat (T TkComment) noise)) (GStar (R RStep)))))) subs) in HK.
    apply K_title in HK as [s0 [s1 [-> [H0 H]]]]. apply (K_keyed [RStep]) in H; [|by_mentions]. rewrite tabs_subs_app, (keyed_notab _ _ H0 eq_refl), (keyed_steps RBackground _ H). cbn [app]. unfold get_steps. now rewrite (items_last _ _ _ _ _ H0) by notin.
  - (* scenario definition *) cbn [prod gseq] in HK. apply K_cat in HK as [s0 [s1 [-> [H0 H]]]]. apply (K_keyed [RTags]) in H0; [|by_mentions]. apply K_node in H as [i' [-> [s [-> V]]]].
    destruct (get_tags _ _) as [tags idt]. unfold get_node, get_single in Et. rewrite (items_last _ _ _ _ _ H0) in Et by notin. rewrite item_one in Et. cbn [hd_error] in Et. destruct (get_token _ _); [|discriminate Et]. injection Et as <- _.
    split; [eexists; reflexivity|]. intros _. rewrite tabs_subs_app, (keyed_notab _ _ H0 eq_refl). cbn [app]. unfold tabs_subs at 1. cbn [flat_map snd tabs_item]. rewrite app_nil_r. unfold scenario_tabs. cbn [sc_steps sc_examples]. symmetry. exact V.
  - (* scenario *) injection Et as <- _. split; [|reflexivity]. exists subs. split; [reflexivity|]. now apply view_scenario_K.
  - (* examples definition *) cbn [prod gseq] in HK. apply K_cat in HK as [s0 [s1 [-> [H0 H]]]]. apply (K_keyed [RTags]) in H0; [|by_mentions]. apply K_node in H as [i' [-> [s [-> V]]]].
    destruct (get_tags _ _) as [tags idt]. unfold get_node, get_single in Et. rewrite (items_last _ _ _ _ _ H0) in Et by notin. rewrite item_one in Et. cbn [hd_error] in Et. destruct (get_token _ _); [|discriminate Et]. injection Et as <- _.
    split; [eexists; reflexivity|]. intros _. rewrite tabs_subs_app, (keyed_notab _ _ H0 eq_refl). cbn [app]. unfold tabs_subs at 1. cbn [flat_map snd tabs_item]. rewrite app_nil_r. etransitivity; [|symmetry; exact V]. unfold examples_tabs. cbn [ex_header ex_body].
    unfold rows_in, get_single. destruct (match hd_error (get_items (mkNode RExamples s) (KRule RExamplesTable)) with Some (IRows l0) => l0 | _ => [] end); reflexivity.
  - (* examples *) injection Et as <- _. split; [|reflexivity]. exists subs. split; [reflexivity|]. now apply view_examples_K.
  - (* examples table *) split; [|discriminate]. destruct (table_rows_cases RExamplesTable l id subs [] id1 id1 E) as [rows [i' [Eg En]]]. rewrite Eg in Et. destruct (ensure_cell_count rows); [|discriminate Et]. cbn [rbind] in Et. injection Et as <- _.
    destruct (lsyms_in_leaf TkTableRow l (must_ok (ST TkTableRow) (prod RExamplesTable) eq_refl _ M)) as [b Hb]. destruct (kids TkTableRow l) as [|c rest]; [destruct Hb|]. destruct rows as [|r rs]; [discriminate En|]. cbn [typed]. eauto.
  - (* step *) destruct (get_token _ _); [|discriminate Et]. injection Et as <- _. split; [eexists; reflexivity|]. intros _. cbn [tabs_item]. unfold step_tabs. cbn [st_arg].
    cbn [prod gseq] in HK. apply K_cat in HK as [s0 [s1 [-> [H0 H]]]]. apply K_cat in H as [s2 [s3 [-> [H2 H3]]]]. apply (K_keyed []) in H0; [|by_mentions]. apply (K_keyed []) in H2; [|by_mentions].
    rewrite !tabs_subs_app, (keyed_notab _ _ H0 eq_refl), (keyed_notab _ _ H2 eq_refl). cbn [app]. unfold get_single. rewrite !(items_last _ _ _ _ _ H0), !(items_last _ _ _ _ _ H2) by notin.
    apply K_opt in H3 as [H3| ->]; [|reflexivity]. apply K_alt in H3 as [H3|H3]; apply K_node in H3 as [i [-> [x ->]]]; reflexivity.
  - (* data table *) split; [|discriminate]. destruct (get_table_rows _ _) as [[[|r rows]|e] i']; try discriminate Et. injection Et as <- _. eexists. reflexivity.
  - (* doc string *) destruct (get_tokens (mkNode RDocString subs) TkDocStringSeparator); [discriminate Et|]. destruct (t_text t); [|discriminate Et]. injection Et as <- _. split; [eexists; reflexivity|]. intros _. cbn [tabs_item].
    symmetry. eapply (keyed_notab []); [eapply K_keyed; [exact HK | by_mentions] | reflexivity].
  - (* tags *) injection Et as <- _. split; [|reflexivity]. exists subs. split; [reflexivity|]. eapply (keyed_notab []); [eapply K_keyed; [exact HK | by_mentions] | reflexivity].
  - (* description *) destruct (last_non_empty _); [|discriminate Et]. injection Et as <- _. split; [eexists; reflexivity|]. intros _. cbn [tabs_item]. symmetry. eapply (keyed_notab []); [eapply K_keyed; [exact HK | by_mentions] | reflexivity].
Qed.

(** ** The tables of a clean tree *)
Lemma tab_lines_app a b : tab_lines (a ++ b) = tab_lines a ++ tab_lines b.
Proof. apply map_app. Qed.
Lemma lineno_no rows : map lineno (map no_id_row rows) = map lineno rows.
Proof. rewrite map_map. apply map_ext. intros [? ? ?]. reflexivity. Qed.
Lemma tree_tabs : forall t p, ok_tree p t -> good_t t /\ (forall id subs id', eval t id = (subs, [], id') -> tab_lines (tabs_subs subs) = tab_lines (tree_rows t)).
Proof.
  induction t as [a|r l IH] using tree_ind'; intros p O.
  - split; intros id subs id' H; cbn [eval] in H; injection H as <- _; destruct (tok_eqb (lkind a) TkComment); try reflexivity; try apply keyed_nil.
    constructor; [|constructor]. cbn. eauto.
  - inversion O as [|? ? M L F]; subst.
    assert (G : Forall good_t l).
    { apply Forall_forall. intros t Ht. rewrite Forall_forall in IH, F. exact (proj1 (IH t Ht r (F t Ht))). }
    assert (Q : forall id subs id', evals l id = (subs, [], id') -> tab_lines (tabs_subs subs) = tab_lines (flat_map tree_rows l)).
    { clear -IH F. induction l as [|t l IHl]; intros id subs id' E; [rewrite evals_nil in E; injection E as <- _; reflexivity|]. change (t :: l) with ([t] ++ l) in E.
      destruct (evals_app_clean _ _ _ _ _ E) as [s1 [s2 [id1 [-> [E1 E2]]]]]. rewrite evals_one in E1. inversion IH as [|? ? I1 I2]; subst. inversion F as [|? ? F1 F2]; subst.
      cbn [flat_map]. rewrite tabs_subs_app, !tab_lines_app. f_equal; [exact (proj2 (I1 r F1) _ _ _ E1) | eapply IHl; eauto]. }
    assert (N : forall id subs id', eval (Node r l) id = (subs, [], id') -> exists s1 id1 i, evals l id = (s1, [], id1) /\ transform_node (mkNode r s1) [] id1 = (Ok i, id') /\ subs = [(KRule r, i)]).
    { intros id subs id' H. rewrite eval_node in H. destruct (evals l id) as [[s1 e1] id1] eqn:E. unfold finish in H.
      pose proof (node_fine p r l [] id s1 e1 id1 [] ltac:(now rewrite app_nil_r) (or_intror eq_refl) (or_intror eq_refl) L F E) as NF.
      destruct (transform_node (mkNode r s1) [] id1) as [[i|e] id2] eqn:Et; cbn [fst] in NF; [injection H as <- -> <-; exists s1, id1, i; auto|].
      destruct NF as [q [-> _]]. injection H as _ H _. now apply app_eq_nil in H as [_ H]. }
    split.
    + intros id subs id' H. destruct (N _ _ _ H) as [s1 [id1 [i [E [Et ->]]]]]. exists i. split; [reflexivity|]. eapply node_tabs; eauto.
    + intros id subs id' H. destruct (N _ _ _ H) as [s1 [id1 [i [E [Et ->]]]]]. destruct (node_tabs p r l id s1 id1 i id' O G E Et) as [T V].
      unfold tabs_subs. cbn [flat_map snd tree_rows]. rewrite app_nil_r. destruct (is_tab r) eqn:Tb.
      * destruct (table_rows_cases r l id s1 [] id1 id1 E) as [rows [i' [Eg En]]]. cbn [tab_lines map]. rewrite <- En, lineno_no. unfold transform_node in Et.
        destruct r; try discriminate Tb; cbn [n_rule] in Et; rewrite Eg in Et; destruct (ensure_cell_count rows); cbn [rbind] in Et; try discriminate Et; [injection Et as <- _; reflexivity|].
        destruct rows; [discriminate Et|]. injection Et as <- _. reflexivity.
      * rewrite (V eq_refl). eapply Q; eauto.
Qed.

(** the tables of a document, without ids *)
Lemma tabs_no_step x : tab_lines (step_tabs (no_id_step x)) = tab_lines (step_tabs x).
Proof. unfold step_tabs. destruct x as [? ? ? ? ? a]. cbn. destruct a as [| |t]; cbn; try reflexivity. now rewrite lineno_no. Qed.
Lemma tabs_no_list {A} (f : A -> list (list row)) (g : A -> A) l : (forall x, tab_lines (f (g x)) = tab_lines (f x)) -> tab_lines (flat_map f (map g l)) = tab_lines (flat_map f l).
Proof. intros H. induction l as [|x l IH]; [reflexivity|]. cbn [map flat_map]. now rewrite !tab_lines_app, H, IH. Qed.
Lemma tabs_no_examples x : tab_lines (examples_tabs (no_id_examples x)) = tab_lines (examples_tabs x).
Proof. unfold examples_tabs. destruct x as [? ? ? ? ? ? h b]. cbn. destruct h as [h|]; cbn; [|reflexivity]. now rewrite lineno_no. Qed.
Lemma tabs_no_scenario x : tab_lines (scenario_tabs (no_id_scenario x)) = tab_lines (scenario_tabs x).
Proof. unfold scenario_tabs. destruct x. unfold no_id_scenario; cbn [Ast.sc_steps Ast.sc_examples]. now rewrite !tab_lines_app, (tabs_no_list step_tabs no_id_step _ tabs_no_step), (tabs_no_list examples_tabs no_id_examples _ tabs_no_examples). Qed.
Lemma tabs_no_background x : tab_lines (background_tabs (option_map no_id_background x)) = tab_lines (background_tabs x).
Proof. destruct x as [[]|]; [|reflexivity]. cbn. apply tabs_no_list, tabs_no_step. Qed.
Lemma tabs_no_rule x : tab_lines (rule_tabs (no_id_rule x)) = tab_lines (rule_tabs x).
Proof. unfold rule_tabs. destruct x. unfold no_id_rule; cbn [Ast.ru_background Ast.ru_scenarios]. now rewrite !tab_lines_app, tabs_no_background, (tabs_no_list scenario_tabs no_id_scenario _ tabs_no_scenario). Qed.
Lemma tabs_no_ids d : tab_lines (document_tabs (no_ids d)) = tab_lines (document_tabs d).
Proof.
  unfold document_tabs. destruct d as [[f|] c]; [|reflexivity]. cbn [no_ids gd_feature option_map]. unfold feature_tabs. destruct f. unfold no_id_feature; cbn [Ast.fe_background Ast.fe_scenarios Ast.fe_rules].
  now rewrite !tab_lines_app, tabs_no_background, (tabs_no_list scenario_tabs no_id_scenario _ tabs_no_scenario), (tabs_no_list rule_tabs no_id_rule _ tabs_no_rule).
Qed.
Theorem document_rows p l id subs id' cs : ok_tree p (Node RGherkinDocument l) -> evals l id = (subs, [], id') ->
  tab_lines (document_tabs (no_ids (mkGdoc (feature_in subs) cs))) = tab_lines (trees_rows l).
Proof.
  intros O E. rewrite tabs_no_ids. destruct (tree_tabs _ _ O) as [_ H]. specialize (H id [(KRule RGherkinDocument, IGdoc (mkGdoc (feature_in subs) []))] id').
  rewrite eval_node, E in H. unfold finish, transform_node in H. cbn [n_rule] in H. cbn [tree_rows is_tab] in H. unfold trees_rows. rewrite <- H; [|reflexivity].
  unfold tabs_subs. cbn [flat_map snd tabs_item]. rewrite app_nil_r. reflexivity.
Qed.
