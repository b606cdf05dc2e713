(** * From syntax trees to documents

    [eval] computes what the AstBuilder makes of a syntax tree; running the AstBuilder along the
    events of a scan gives the same, and raises nothing but parser errors. *)
From Verif Require Import PyStr PyStrFacts Types Regex Line DialectData Matcher Ast ParserTable Parser Classify Table Scan Grammar Deriv Cert LineSpec Cst Report.

Section TreeInd.
Context {A : Type} (P : tree A -> Prop)
  (Hleaf : forall a, P (Leaf a)) (Hnode : forall r l, Forall P l -> P (Node r l)).
Fixpoint tree_ind' (t : tree A) : P t :=
  match t with
  | Leaf a => Hleaf a
  | Node r l => Hnode r l ((fix go l : Forall P l := match l with [] => Forall_nil _ | x :: l' => Forall_cons _ (tree_ind' x) (go l') end) l)
  end.
End TreeInd.

Definition ans := (list (key * item) * list perr * nat)%type.
(** the end of a rule: ast_builder.py:29-31 *)
Definition finish (r : rule) (x : ans) : ans :=
  let '(subs, es, id) := x in
  match transform_node (mkNode r subs) [] id with
  | (Ok i, id') => ([(KRule r, i)], es, id')
  | (Err (EParser e), id') => ([], es ++ [e], id')
  | (Err _, id') => ([], es, id')
  end.
Definition evals_ (f : ltree -> nat -> ans) : list ltree -> nat -> ans :=
  fix go l id :=
    match l with
    | [] => ([], [], id)
    | t :: l' =>
        let '(s1, e1, id1) := f t id in
        let '(s2, e2, id2) := go l' id1 in (s1 ++ s2, e1 ++ e2, id2)
    end.
Fixpoint eval (t : ltree) (id : nat) {struct t} : ans :=
  match t with
  | Leaf a => (if tok_eqb (lkind a) TkComment then [] else [(KTok (lkind a), ITok (lf_t a))], [], id)
  | Node r l => finish r (evals_ eval l id)
  end.
Definition evals : list ltree -> nat -> ans := evals_ eval.
Lemma eval_node r l id : eval (Node r l) id = finish r (evals l id).
Proof. reflexivity. Qed.
Lemma evals_nil id : evals [] id = ([], [], id).
Proof. reflexivity. Qed.
Lemma evals_cons t l id : evals (t :: l) id =
  let '(s1, e1, id1) := eval t id in let '(s2, e2, id2) := evals l id1 in (s1 ++ s2, e1 ++ e2, id2).
Proof. reflexivity. Qed.
Lemma evals_app l1 l2 id : evals (l1 ++ l2) id =
  let '(s1, e1, id1) := evals l1 id in let '(s2, e2, id2) := evals l2 id1 in (s1 ++ s2, e1 ++ e2, id2).
Proof.
  revert id. induction l1 as [|t l1 IH]; intros id.
  - rewrite evals_nil. cbn. destruct (evals l2 id) as [[? ?] ?]. reflexivity.
  - cbn [app]. rewrite !evals_cons. destruct (eval t id) as [[s1 e1] id1]. rewrite IH.
    destruct (evals l1 id1) as [[s2 e2] id2]. destruct (evals l2 id2) as [[s3 e3] id3]. now rewrite !app_assoc.
Qed.
Lemma evals_one t id : evals [t] id = eval t id.
Proof. rewrite evals_cons. destruct (eval t id) as [[s1 e1] id1]. rewrite evals_nil. now rewrite !app_nil_r. Qed.

(** the comments among leaves *)
Definition comments_of (ls : list leaf) : list comment :=
  flat_map (fun a => if tok_eqb (lkind a) TkComment then [mkComment (t_location (lf_t a)) (t_text (lf_t a))] else []) ls.
Lemma comments_of_app l1 l2 : comments_of (l1 ++ l2) = comments_of l1 ++ comments_of l2.
Proof. apply flat_map_app. Qed.

(** ** What a node finds among its children *)
Definition kids (k : tok) (l : list ltree) : list leaf :=
  flat_map (fun t => match t with Leaf a => if tok_eqb (lkind a) k then [a] else [] | Node _ _ => [] end) l.
Lemma kids_app k l1 l2 : kids k (l1 ++ l2) = kids k l1 ++ kids k l2.
Proof. apply flat_map_app. Qed.
Lemma in_kids k l a : In a (kids k l) <-> In (Leaf a) l /\ lkind a = k.
Proof.
  unfold kids. rewrite in_flat_map. split.
  - intros [t [H1 H2]]. destruct t as [b|]; [|destruct H2]. destruct (tok_eqb (lkind b) k) eqn:E; [|destruct H2].
    destruct H2 as [<-|[]]. split; [exact H1 | now apply tok_eqb_spec].
  - intros [H1 H2]. exists (Leaf a). split; [exact H1|]. apply tok_eqb_spec in H2. rewrite H2. now left.
Qed.

Lemma get_items_app r s1 s2 k : get_items (mkNode r (s1 ++ s2)) k = get_items (mkNode r s1) k ++ get_items (mkNode r s2) k.
Proof. unfold get_items. cbn. rewrite filter_app. apply map_app. Qed.
Lemma finish_keys r x : Forall (fun p => fst p = KRule r) (fst (fst (finish r x))).
Proof.
  destruct x as [[subs es] id]. unfold finish. destruct (transform_node _ _ _) as [[i|e] id']; cbn; [repeat constructor|].
  destruct e; cbn; constructor.
Qed.
Lemma eval_items_tok r t id k : k <> TkComment ->
  get_items (mkNode r (fst (fst (eval t id)))) (KTok k) = map (fun a => ITok (lf_t a)) (kids k [t]).
Proof.
  intros Hk. destruct t as [a|r' l].
  - unfold kids. cbn. destruct (tok_eqb (lkind a) TkComment) eqn:E.
    + apply tok_eqb_spec in E. rewrite E. destruct k; try reflexivity. congruence.
    + cbn. unfold get_items. cbn. destruct (tok_eqb (lkind a) k); reflexivity.
  - rewrite eval_node. pose proof (finish_keys r' (evals l id)) as F. unfold get_items. cbn [n_subs kids flat_map app map].
    induction F as [|[k' i] rest H F IH]; [reflexivity|]. cbn in H. subst k'. cbn. exact IH.
Qed.
Lemma evals_items_tok r l k : k <> TkComment -> forall id subs es id',
  evals l id = (subs, es, id') -> get_items (mkNode r subs) (KTok k) = map (fun a => ITok (lf_t a)) (kids k l).
Proof.
  intros Hk. induction l as [|t l IH]; intros id subs es id' H.
  - rewrite evals_nil in H. now injection H as <- <- <-.
  - rewrite evals_cons in H. pose proof (eval_items_tok r t id k Hk) as E.
    destruct (eval t id) as [[s1 e1] id1]. destruct (evals l id1) as [[s2 e2] id2] eqn:E2. injection H as <- <- <-.
    cbn [fst] in E. rewrite get_items_app, E, (IH _ _ _ _ E2). change (t :: l) with ([t] ++ l). now rewrite kids_app, map_app.
Qed.
Lemma evals_tokens r l k id subs es id' : k <> TkComment -> evals l id = (subs, es, id') ->
  get_tokens (mkNode r subs) k = map lf_t (kids k l).
Proof.
  intros Hk H. unfold get_tokens. rewrite (evals_items_tok r l k Hk _ _ _ _ H).
  induction (kids k l) as [|a rest IH]; cbn; [easy | now f_equal].
Qed.
Lemma evals_token r l k id subs es id' a rest : k <> TkComment -> evals l id = (subs, es, id') -> kids k l = a :: rest ->
  get_token (mkNode r subs) k = Ok (lf_t a).
Proof.
  intros Hk H K. unfold get_token, get_single. rewrite (evals_items_tok r l k Hk _ _ _ _ H), K. reflexivity.
Qed.

(** ** Words of the grammar *)
(** every word begins with [x] *)
Fixpoint firsts (x : sym) (g : gx) : bool :=
  match g with
  | GVoid => true
  | GSym y => sym_eqb y x
  | GCat a _ => firsts x a
  | GAlt a b => firsts x a && firsts x b
  | _ => false
  end.
Lemma firsts_ok x g : firsts x g = true -> forall w, matches g w -> exists w', w = x :: w'.
Proof.
  induction g; cbn; intros H w M; try discriminate.
  - now apply void_inv in M.
  - apply sym_inv in M. apply sym_eqb_spec in H. subst. eauto.
  - apply cat_inv in M as [u [v [-> [M1 M2]]]]. destruct (IHg1 H _ M1) as [w' ->]. cbn. eauto.
  - apply andb_true_iff in H as [H1 H2]. apply alt_inv in M as [M|M]; eauto.
Qed.
(** every word contains [x] *)
Fixpoint must (x : sym) (g : gx) : bool :=
  match g with
  | GVoid => true
  | GSym y => sym_eqb y x
  | GCat a b => must x a || must x b
  | GAlt a b => must x a && must x b
  | _ => false
  end.
Lemma must_ok x g : must x g = true -> forall w, matches g w -> In x w.
Proof.
  induction g; cbn; intros H w M; try discriminate.
  - now apply void_inv in M.
  - apply sym_inv in M. apply sym_eqb_spec in H. subst. now left.
  - apply cat_inv in M as [u [v [-> [M1 M2]]]]. apply in_or_app. apply orb_true_iff in H as [H|H]; eauto.
  - apply andb_true_iff in H as [H1 H2]. apply alt_inv in M as [M|M]; eauto.
Qed.
(** some word exists *)
Fixpoint sat (g : gx) : bool :=
  match g with
  | GVoid => false
  | GCat a b => sat a && sat b
  | GAlt a b => sat a || sat b
  | _ => true
  end.
Lemma sat_ok g : sat g = true -> exists w, matches g w.
Proof.
  induction g; cbn; intros H; try discriminate.
  - exists []. constructor.
  - exists [s]. constructor.
  - apply andb_true_iff in H as [H1 H2]. destruct (IHg1 H1) as [u Hu], (IHg2 H2) as [v Hv]. exists (u ++ v). now constructor.
  - apply orb_true_iff in H as [H|H]; [destruct (IHg1 H) as [w Hw] | destruct (IHg2 H) as [w Hw]]; exists w; [now apply m_altl | now apply m_altr].
  - exists []. constructor.
Qed.
Lemma lsyms_in_leaf k l : In (ST k) (lsyms l) -> exists a, In a (kids k l).
Proof.
  intros H. apply in_map_iff in H as [t [H1 H2]]. destruct t as [a|]; [|discriminate]. cbn in H1. injection H1 as H1.
  exists a. now apply in_kids.
Qed.
Lemma lsyms_in_node r l : In (SR r) (lsyms l) -> exists l', In (Node r l') l.
Proof. intros H. apply in_map_iff in H as [t [H1 H2]]. destruct t as [a|r' l']; [discriminate|]. cbn in H1. injection H1 as ->. eauto. Qed.
Lemma kids_first k l t : k = k -> lsyms l = ST k :: t -> exists a l', l = Leaf a :: l' /\ lkind a = k /\ kids k l = a :: kids k l'.
Proof.
  intros _ H. destruct l as [|x l]; [discriminate|]. cbn in H. injection H as H1 H2. destruct x as [a|]; [|discriminate].
  cbn in H1. injection H1 as H1. exists a, l. split; [easy|]. split; [easy|]. unfold kids. cbn. rewrite H1, tok_eqb_refl. reflexivity.
Qed.

(** ** The builder raises nothing but parser errors *)

(** a description begins with a line that has a text *)
Lemma other_text ms n x ms' t : lexm TkOther ms n x = (Ok true, ms', t) -> ms_sep ms = None -> ms_indent ms = 0 ->
  t_text t = Some (rstrip_crlf x).
Proof.
  intros H S I. unfold lexm in H. destruct (_ && _); [discriminate|]. cbn [classic_match] in H. unfold match_Other in H.
  injection H as _ <-. cbn [set_matched t_text t_line new_token]. rewrite I. unfold get_line_text.
  assert (Q : (Z.of_nat (g_indent (mkLine x n)) <? Z.of_nat 0)%Z = false) by (apply Z.ltb_ge; lia). rewrite Q.
  unfold unescaped_docstring. rewrite S. reflexivity.
Qed.
Lemma rstrip_crlf_visible x : lstrip x <> [] -> rstrip_crlf x <> [].
Proof.
  intros H E. apply H. apply rstrip_by_nil in E. unfold lstrip. apply drop_while_nil.
  rewrite forallb_forall in *. intros c Hc. specialize (E c Hc). unfold is_crlf in E.
  apply orb_true_iff in E as [E|E]; apply N.eqb_eq in E; subst; reflexivity.
Qed.
Lemma sep_text ms n x ms' t : lexm TkDocStringSeparator ms n x = (Ok true, ms', t) -> ms_sep ms = None ->
  exists m, t_text t = Some m.
Proof.
  intros H S. unfold lexm in H. destruct (_ && _); [discriminate|]. cbn [classic_match] in H.
  unfold c_match_DocStringSeparator in H. rewrite S in H.
  assert (G : forall sep m u, match_separator None sep true ms (new_token x n) = (Ok true, m, u) -> exists y, t_text u = Some y).
  { intros sep m u E. unfold match_separator in E. destruct (negb _); [discriminate|]. injection E as _ <-. cbn. eauto. }
  destruct (match_separator None sep_quotes true ms (new_token x n)) as [[[[]|] m] u] eqn:E; cbn [m_or] in H.
  - injection H as -> ->. eapply G; eauto.
  - unfold match_separator in E. destruct (negb _); [|discriminate]. injection E as <- <-. eapply G; eauto.
  - discriminate.
Qed.

(** rows that do not fit are reported at their line *)
Lemma rows_of_tokens_in ts : forall id rows id', rows_of_tokens ts id = (rows, id') ->
  map row_loc rows = map t_location ts.
Proof.
  induction ts as [|t ts IH]; intros id rows id' H; cbn [rows_of_tokens] in H; [now injection H as <- <-|].
  destruct (rows_of_tokens ts (S id)) as [l id1] eqn:E. injection H as <- <-. cbn. f_equal. eauto.
Qed.
Definition cell_error (loc : location) : perr := mkPErr KAstBuilder (perr_text (s "inconsistent cell count within the table") loc) loc.
Definition located_in (ts : list token) (p : perr) : Prop := exists t, In t ts /\ p = cell_error (t_location t).
Lemma get_table_rows_cases n id : match get_table_rows n id with
  | (Ok rows, id') => rows_of_tokens (get_tokens n TkTableRow) id = (rows, id')
  | (Err e, id') => exists p, e = EParser p /\ located_in (get_tokens n TkTableRow) p
  end.
Proof.
  unfold get_table_rows. destruct (rows_of_tokens (get_tokens n TkTableRow) id) as [rows id'] eqn:E.
  unfold ensure_cell_count. destruct rows as [|r0 rows]; cbn [rbind]; [reflexivity|].
  destruct (find _ (r0 :: rows)) as [r|] eqn:F; cbn [rbind]; [|reflexivity].
  eexists. split; [reflexivity|]. apply find_some in F as [F _].
  assert (G : In (row_loc r) (map t_location (get_tokens n TkTableRow))).
  { rewrite <- (rows_of_tokens_in _ _ _ _ E). now apply in_map. }
  apply in_map_iff in G as [t [G1 G2]]. exists t. split; [exact G2|]. unfold cell_error. now rewrite <- G1.
Qed.

Lemma evals_items_rule r rr l : forall id subs es id', evals l id = (subs, es, id') ->
  (forall l', In (Node rr l') l -> forall id1, exists i id2 e2, eval (Node rr l') id1 = ([(KRule rr, i)], e2, id2)) ->
  forall i, In i (get_items (mkNode r subs) (KRule rr)) ->
  exists l' id1 id2 e2, In (Node rr l') l /\ eval (Node rr l') id1 = ([(KRule rr, i)], e2, id2).
Proof.
  induction l as [|t l IH]; intros id subs es id' H Hn i Hi.
  - rewrite evals_nil in H. injection H as <- <- <-. destruct Hi.
  - rewrite evals_cons in H. destruct (eval t id) as [[s1 e1] id1] eqn:E1. destruct (evals l id1) as [[s2 e2] id2] eqn:E2.
    injection H as <- <- <-. rewrite get_items_app in Hi. apply in_app_or in Hi as [Hi|Hi].
    + destruct t as [a|r' l'].
      * cbn in E1. destruct (tok_eqb (lkind a) TkComment); injection E1 as <- <- <-; destruct Hi.
      * pose proof (finish_keys r' (evals l' id)) as F. rewrite <- eval_node, E1 in F. cbn [fst] in F.
        assert (r' = rr) as ->.
        { unfold get_items in Hi. cbn in Hi. apply in_map_iff in Hi as [[k j] [_ Hi]]. apply filter_In in Hi as [Hi1 Hi2].
          rewrite Forall_forall in F. specialize (F _ Hi1). cbn in F, Hi2. subst k. cbn in Hi2. now apply rule_eqb_spec. }
        destruct (Hn l' (or_introl eq_refl) id) as [j [id3 [e3 E3]]]. rewrite E1 in E3. injection E3 as -> -> ->.
        cbn in Hi. unfold get_items in Hi. cbn in Hi. rewrite rule_eqb_refl in Hi. cbn in Hi. destruct Hi as [<-|[]].
        exists l', id, id3, e3. split; [now left | exact E1].
    + destruct (IH _ _ _ _ E2) with (i := i) as [l' [a [b [c [I1 I2]]]]]; [intros; apply Hn; now right | exact Hi|].
      exists l', a, b, c. split; [now right | exact I2].
Qed.
Lemma evals_rule_in r rr l : forall id subs es id' l', evals l id = (subs, es, id') -> In (Node rr l') l ->
  (forall l', In (Node rr l') l -> forall id1, exists i id2 e2, eval (Node rr l') id1 = ([(KRule rr, i)], e2, id2)) ->
  get_items (mkNode r subs) (KRule rr) <> [].
Proof.
  induction l as [|t l IH]; intros id subs es id' l' H Hin Hn; [destruct Hin|].
  rewrite evals_cons in H. destruct (eval t id) as [[s1 e1] id1] eqn:E1. destruct (evals l id1) as [[s2 e2] id2] eqn:E2.
  injection H as <- <- <-. rewrite get_items_app. intros F. apply app_eq_nil in F as [F1 F2]. destruct Hin as [->|Hin].
  - destruct (Hn l' (or_introl eq_refl) id) as [j [id3 [e3 E3]]]. rewrite E1 in E3. injection E3 as -> -> ->.
    unfold get_items in F1. cbn in F1. rewrite rule_eqb_refl in F1. discriminate.
  - revert F2. eapply IH; [exact E2 | exact Hin | intros; apply Hn; now right].
Qed.

Definition plain_rule (r : rule) : bool :=
  match r with RNone | RFeatureHeader | RRuleHeader | RScenario | RExamples | RTags => true | _ => false end.
Lemma eval_plain r l id subs es id1 : plain_rule r = true -> evals l id = (subs, es, id1) ->
  eval (Node r l) id = ([(KRule r, INode r subs)], es, id1).
Proof. intros Hr H. rewrite eval_node, H. destruct r; try discriminate Hr; reflexivity. Qed.
Lemma eval_plain_ex r l id : plain_rule r = true -> exists i id2 e2, eval (Node r l) id = ([(KRule r, i)], e2, id2).
Proof. intros Hr. destruct (evals l id) as [[subs es] id1] eqn:E. rewrite (eval_plain _ _ _ _ _ _ Hr E). eauto. Qed.

(** the header line of a node found through [get_node] *)
Lemma get_node_token r rr k l id subs es id' : plain_rule rr = true -> firsts (ST k) (prod rr) = true -> k <> TkComment ->
  In (SR rr) (lsyms l) -> Forall (ok_tree r) l -> evals l id = (subs, es, id') ->
  exists n a, get_node (mkNode r subs) rr = Some n /\ get_token n k = Ok (lf_t a).
Proof.
  intros Hp Hf Hk Hin Ho He. apply lsyms_in_node in Hin as [l' Hin].
  assert (Hn : forall l', In (Node rr l') l -> forall id1, exists i id2 e2, eval (Node rr l') id1 = ([(KRule rr, i)], e2, id2)).
  { intros l0 _ id1. now apply eval_plain_ex. }
  pose proof (evals_rule_in r rr l _ _ _ _ _ He Hin Hn) as Hne.
  pose proof (evals_items_rule r rr l _ _ _ _ He Hn) as Hall. unfold get_node, get_single.
  destruct (get_items (mkNode r subs) (KRule rr)) as [|i rest]; [congruence|]. cbn [hd_error].
  destruct (Hall i (or_introl eq_refl)) as [l0 [id1 [id2 [e2 [H1 H2]]]]].
  destruct (evals l0 id1) as [[s0 es0] id0] eqn:E0. rewrite (eval_plain _ _ _ _ _ _ Hp E0) in H2. injection H2 as <- <- <-.
  rewrite Forall_forall in Ho. specialize (Ho _ H1). inversion Ho as [|? ? M L F]; subst.
  destruct (firsts_ok _ _ Hf _ M) as [w W]. destruct (kids_first k l0 w eq_refl W) as [a [l1 [_ [_ K]]]].
  exists (mkNode rr s0), a. split; [reflexivity|]. eapply evals_token; eauto.
Qed.

(** the result of [transform_node] on a node whose children follow the grammar *)
Definition top_rule (r : rule) : bool := match r with RScenarioDefinition | RExamplesDefinition => false | _ => true end.
Lemma node_fine p r l w id subs es id' cm :
  matches (prod r) (lsyms l ++ w) -> l <> [] \/ w = [] -> top_rule r = true \/ w = [] ->
  leaves_ok p r l -> Forall (ok_tree r) l -> evals l id = (subs, es, id') ->
  match fst (transform_node (mkNode r subs) cm id') with
  | Ok _ => True
  | Err e => exists q, e = EParser q /\ located_in (map lf_t (kids TkTableRow l)) q
  end.
Proof.
  intros M Hne Hw L O E.
  assert (F : forall k, firsts (ST k) (prod r) = true -> exists a l', l = Leaf a :: l' /\ lkind a = k /\ kids k l = a :: kids k l').
  { intros k Hk. destruct (firsts_ok _ _ Hk _ M) as [w' W].
    assert (l <> []) by (destruct Hne as [?| ->]; [assumption | intros ->; discriminate W]).
    destruct l as [|x l]; [congruence|]. eapply kids_first; [easy|]. cbn in W |- *. injection W as W _. now rewrite W. }
  assert (T : forall k, k <> TkComment -> firsts (ST k) (prod r) = true -> exists a, get_token (mkNode r subs) k = Ok (lf_t a)).
  { intros k Hk Hf. destruct (F k Hf) as [a [l' [_ [_ K]]]]. exists a. eapply evals_token; eauto. }
  assert (Rows : forall i, match get_table_rows (mkNode r subs) i with
     | (Ok rows, _) => rows_of_tokens (map lf_t (kids TkTableRow l)) i = (rows, snd (get_table_rows (mkNode r subs) i))
     | (Err e, _) => exists q, e = EParser q /\ located_in (map lf_t (kids TkTableRow l)) q end).
  { intros i. pose proof (get_table_rows_cases (mkNode r subs) i) as G.
    rewrite (evals_tokens r l TkTableRow _ _ _ _ ltac:(discriminate) E) in G.
    destruct (get_table_rows (mkNode r subs) i) as [[rows|e] i']; exact G. }
  destruct r; try exact I; unfold transform_node; cbn [n_rule].
  - (* RFeature *) destruct (get_node _ _); [|exact I]. destruct (get_tags _ _). destruct (get_token _ _); exact I.
  - (* RRule *) destruct (get_node _ _); [|exact I]. destruct (get_tags _ _). destruct (get_token _ _); exact I.
  - (* RBackground *) destruct (T TkBackgroundLine ltac:(discriminate) eq_refl) as [a ->]. exact I.
  - (* RScenarioDefinition *) destruct Hw as [Hw|Hw]; [discriminate Hw|]. subst w. rewrite app_nil_r in M.
    destruct (get_node_token RScenarioDefinition RScenario TkScenarioLine l _ _ _ _ eq_refl eq_refl ltac:(discriminate) (must_ok (SR RScenario) (prod RScenarioDefinition) eq_refl _ M) O E) as [n [a [-> Ht]]].
    destruct (get_tags _ _). rewrite Ht. exact I.
  - (* RExamplesDefinition *) destruct Hw as [Hw|Hw]; [discriminate Hw|]. subst w. rewrite app_nil_r in M.
    destruct (get_node_token RExamplesDefinition RExamples TkExamplesLine l _ _ _ _ eq_refl eq_refl ltac:(discriminate) (must_ok (SR RExamples) (prod RExamplesDefinition) eq_refl _ M) O E) as [n [a [-> Ht]]].
    destruct (get_tags _ _). rewrite Ht. exact I.
  - (* RExamplesTable *) specialize (Rows id'). destruct (get_table_rows _ id') as [[rows|e] i']; [exact I | exact Rows].
  - (* RStep *) destruct (T TkStepLine ltac:(discriminate) eq_refl) as [a ->]. exact I.
  - (* RDataTable *) specialize (Rows id'). destruct (get_table_rows _ id') as [[rows|e] i']; [|exact Rows].
    destruct rows as [|r0 rows]; [|exact I]. apply rows_of_tokens_in in Rows.
    destruct (F TkTableRow eq_refl) as [a [l' [_ [_ K]]]]. rewrite K in Rows. discriminate Rows.
  - (* RDocString *) rewrite (evals_tokens RDocString l TkDocStringSeparator _ _ _ _ ltac:(discriminate) E).
    destruct (F TkDocStringSeparator eq_refl) as [a [l' [El [Ka K]]]]. rewrite K. cbn [map].
    destruct (L [] a l' El) as [_ [ms' Hl] Ho _ _]. rewrite Ka in Hl.
    destruct (sep_text _ _ _ _ _ Hl) as [m ->]; [now apply Ho | exact I].
  - (* RDescription *) rewrite (evals_tokens RDescription l TkOther _ _ _ _ ltac:(discriminate) E).
    destruct (F TkOther eq_refl) as [a [l' [El [Ka K]]]]. rewrite K. cbn [map last_non_empty].
    destruct (last_non_empty _); [exact I|]. destruct (L [] a l' El) as [Hm [ms' Hl] Ho Hp _]. rewrite Ka in Hl.
    assert (Hs : ms_sep (lf_ms a) = None) by (now apply Ho).
    rewrite (other_text _ _ _ _ _ Hl Hs (mo_indent _ Hm Hs)).
    unfold priority in Hp. rewrite Ka in Hp. destruct Hp as [_ Hp].
    pose proof (rstrip_crlf_visible (lf_x a)) as V. destruct (rstrip_crlf (lf_x a)); [|exact I].
    exfalso. apply V; [|reflexivity]. intros Q. apply (Hp eq_refl). now apply cls_empty.
Qed.

(** ** Simulation *)
Fixpoint img (cs : cstack) (ids : nat) : list node * list perr * nat :=
  match cs with
  | [] => ([mkNode RNone []], [], ids)
  | (r, l) :: cs' =>
      let '(st, es, id1) := img cs' ids in
      let '(subs, es2, id2) := evals l id1 in (mkNode r subs :: st, es ++ es2, id2)
  end.

Lemma transform_comments n cm id : n_rule n <> RGherkinDocument -> transform_node n cm id = transform_node n [] id.
Proof. unfold transform_node. destruct (n_rule n); congruence. Qed.

Lemma kids_yields k l a : In a (kids k l) -> In a (yields l).
Proof. intros H. apply in_kids in H as [H _]. unfold yields. apply in_flat_map. exists (Leaf a). split; [exact H | now left]. Qed.

Definition image (ids : nat) (cs : cstack) (b : astb) (es : list perr) : Prop :=
  img cs ids = (ab_stack b, es, ab_ids b) /\ ab_comments b = comments_of (cyield cs).

Lemma leaf_mtype p r l a : leaf_ok p r l a -> t_mtype (lf_t a) = Some (lkind a).
Proof.
  intros [_ [ms' H] _ _ _]. pose proof (lexm_kind _ _ _ _ _ _ H) as K. exact K.
Qed.

(** the error for a row that does not fit, if the leaf is one, satisfies [P] *)
Definition rowP (P : perr -> Prop) (a : leaf) : Prop := lkind a = TkTableRow -> P (cell_error (t_location (lf_t a))).
Lemma sim_step (P : perr -> Prop) ids a x cs cs' b es :
  cstep a x cs cs' -> image ids cs b es -> Forall (rowP P) (cyield cs) ->
  exists es1 b', raw_acts ast_builder (lf_t a) [x] b = (es1, Ok tt, b') /\ image ids cs' b' (es ++ es1) /\
    Forall P es1.
Proof.
  intros H [I1 I2] HP. destruct b as [st cm id]. cbn [ab_stack ab_comments ab_ids] in *. subst cm. destruct H as [r cs|r0 r l p l' cs Hr0 Hr Ok_|r l cs Hl].
  - exists [], (mkAb (mkNode r [] :: st) (comments_of (cyield cs)) id). split; [reflexivity|]. split; [|constructor].
    rewrite app_nil_r. split; cbn [ab_stack ab_comments ab_ids].
    + cbn [img]. rewrite I1, evals_nil. now rewrite app_nil_r.
    + rewrite cyield_cons. cbn. now rewrite app_nil_r.
  - cbn [img] in I1. destruct (img cs ids) as [[st0 es0] id0] eqn:E0. destruct (evals l' id0) as [[subs' es'] id1] eqn:E1.
    destruct (evals l id1) as [[subs es2] id2] eqn:E2. injection I1 as <- <- <-.
    inversion Ok_ as [|? ? M L O]; subst.
    pose proof (node_fine p r l [] _ _ _ _ (comments_of (cyield ((r, l) :: (p, l') :: cs))) ltac:(now rewrite app_nil_r) (or_intror eq_refl) (or_intror eq_refl) L O E2) as F.
    cbn [raw_acts bact ast_builder bd_end]. unfold ab_end_rule. cbn [ab_stack ab_comments ab_ids].
    rewrite transform_comments in F |- * by exact Hr.
    assert (Y : cyield ((p, l' ++ [Node r l]) :: cs) = cyield ((r, l) :: (p, l') :: cs)).
    { rewrite !cyield_cons, yields_app. cbn. rewrite app_nil_r. fold (yields l). now rewrite app_assoc. }
    assert (E3 : evals (l' ++ [Node r l]) id0 = let '(s2, e2, id2') := finish r (subs, es2, id2) in (subs' ++ s2, es' ++ e2, id2')).
    { rewrite evals_app, E1, evals_one, eval_node, E2. reflexivity. }
    unfold finish in E3. destruct (transform_node (mkNode r subs) [] id2) as [[i|e] id3]; cbn [fst] in F.
    + eexists [], _. split; [reflexivity|]. split; [|constructor]. rewrite app_nil_r. split; cbn [ab_stack ab_comments ab_ids].
      * cbn [img]. rewrite E0, E3. unfold n_add. cbn. now rewrite !app_assoc.
      * now rewrite Y.
    + destruct F as [q [-> [t [T1 T2]]]]. eexists [q], _. split; [reflexivity|]. split.
      * split; cbn [ab_stack ab_comments ab_ids]; [|now rewrite Y]. cbn [img]. rewrite E0, E3. rewrite app_nil_r. now rewrite !app_assoc.
      * constructor; [|constructor]. rewrite T2. apply in_map_iff in T1 as [c [<- T1]]. rewrite Forall_forall in HP. apply HP; [|now apply in_kids in T1 as [_ T1]].
        rewrite cyield_cons. apply in_or_app. right. eapply kids_yields; eauto.
  - cbn [img] in I1. destruct (img cs ids) as [[st0 es0] id0] eqn:E0. destruct (evals l id0) as [[subs es'] id1] eqn:E1.
    injection I1 as <- <- <-. pose proof (leaf_mtype _ _ _ _ Hl) as K.
    assert (E3 : evals (l ++ [Leaf a]) id0 = (subs ++ (if tok_eqb (lkind a) TkComment then [] else [(KTok (lkind a), ITok (lf_t a))]), es', id1)).
    { rewrite evals_app, E1, evals_one. cbn [eval]. now rewrite app_nil_r. }
    assert (Y : comments_of (cyield ((r, l ++ [Leaf a]) :: cs)) = comments_of (cyield ((r, l) :: cs)) ++ comments_of [a]).
    { rewrite <- comments_of_app. f_equal. rewrite !cyield_cons, yields_app, app_assoc. reflexivity. }
    destruct (tok_eqb (lkind a) TkComment) eqn:Q.
    + assert (Kc : lkind a = TkComment) by now apply tok_eqb_spec.
      cbn [raw_acts bact ast_builder bd_build]. unfold ab_build. rewrite K, Kc. cbn [ab_stack ab_comments ab_ids].
      eexists [], _. split; [reflexivity|]. split; [|constructor]. rewrite app_nil_r. split; cbn [ab_stack ab_comments ab_ids].
      * cbn [img]. rewrite E0, E3. now rewrite app_nil_r.
      * rewrite Y. f_equal. unfold comments_of. cbn. now rewrite Q.
    + assert (Y' : comments_of (cyield ((r, l ++ [Leaf a]) :: cs)) = comments_of (cyield ((r, l) :: cs))).
      { rewrite Y. unfold comments_of at 2. cbn. rewrite Q. cbn. now rewrite app_nil_r. }
      assert (Z : raw_acts ast_builder (lf_t a) [ABuild] (mkAb (mkNode r subs :: st0) (comments_of (cyield ((r, l) :: cs))) id1)
         = ([], Ok tt, mkAb (n_add (mkNode r subs) (KTok (lkind a)) (ITok (lf_t a)) :: st0) (comments_of (cyield ((r, l) :: cs))) id1)).
      { cbn [raw_acts bact ast_builder bd_build]. unfold ab_build. rewrite K. destruct (lkind a); try reflexivity. discriminate Q. }
      eexists [], _. split; [exact Z|]. split; [|constructor]. rewrite app_nil_r.
      split; cbn [ab_stack ab_comments ab_ids].
      * cbn [img]. rewrite E0, E3. reflexivity.
      * now rewrite Y'.
Qed.

Lemma raw_acts_cons {B} (bd : builder B) t x xs b es1 b1 : raw_acts bd t [x] b = (es1, Ok tt, b1) ->
  raw_acts bd t (x :: xs) b = let '(es2, r, b2) := raw_acts bd t xs b1 in (es1 ++ es2, r, b2).
Proof.
  cbn [raw_acts]. destruct (bact bd t x b) as [[u|e] b0].
  - intros H. injection H as <- <-. destruct (raw_acts bd t xs b0) as [[? ?] ?]. reflexivity.
  - destruct e; try discriminate. intros H. injection H as <- <-. destruct (raw_acts bd t xs b0) as [[? ?] ?]. reflexivity.
Qed.
Lemma cyield_step (P : leaf -> Prop) a x cs cs' : cstep a x cs cs' -> P a -> Forall P (cyield cs) -> Forall P (cyield cs').
Proof.
  intros H Pa F. assert (C : csteps a [x] cs cs') by (econstructor; [exact H | constructor]).
  rewrite (csteps_yield _ _ _ _ C). apply Forall_app. split; [exact F|]. unfold builds. cbn [filter]. destruct (act_eqb ABuild x); cbn; [constructor; [exact Pa|]|]; constructor.
Qed.
Lemma sim_steps (P : perr -> Prop) ids a acts cs cs' : csteps a acts cs cs' -> rowP P a -> forall b es,
  image ids cs b es -> Forall (rowP P) (cyield cs) ->
  exists es1 b', raw_acts ast_builder (lf_t a) acts b = (es1, Ok tt, b') /\ image ids cs' b' (es ++ es1) /\
    Forall P es1 /\ Forall (rowP P) (cyield cs').
Proof.
  induction 1 as [cs|x xs c1 c2 c3 H1 H2 IH]; intros Pa b es I F.
  - exists [], b. rewrite app_nil_r. repeat split; auto; apply I.
  - destruct (sim_step P _ _ _ _ _ _ _ H1 I F) as [es1 [b1 [R1 [I1 F1]]]].
    destruct (IH Pa b1 _ I1 (cyield_step _ _ _ _ _ H1 Pa F)) as [es2 [b2 [R2 [I2 [F2 F3]]]]].
    exists (es1 ++ es2), b2. split; [rewrite (raw_acts_cons _ _ _ _ _ _ _ R1), R2; reflexivity|].
    rewrite app_assoc. split; [exact I2|]. split; [now apply Forall_app | exact F3].
Qed.
Definition ev_P (P : perr -> Prop) (e : ev) : Prop :=
  match e with EvErr p => P p | EvAct a _ => rowP P a end.
Lemma sim_run (P : perr -> Prop) ids evs cs cs' : crun evs cs cs' -> forall b es,
  image ids cs b es -> Forall (ev_P P) evs -> Forall (rowP P) (cyield cs) ->
  exists es1 b' es', raw_evs ast_builder evs b = (es1, Ok tt, b') /\ image ids cs' b' (es ++ es') /\
    Forall P es1 /\ Forall (rowP P) (cyield cs') /\
    (es1 = [] -> es' = []) /\ (forall e, In (EvErr e) evs -> es1 <> []).
Proof.
  induction 1 as [cs|e evs c1 c2 H IH|a acts evs c1 c2 c3 H1 H2 IH]; intros b es I Fe F.
  - exists [], b, []. rewrite app_nil_r. repeat split; auto; apply I.
  - inversion Fe; subst. destruct (IH b es I) as [es1 [b' [es' [R [I' [F1 [F2 [N1 N2]]]]]]]]; auto.
    exists (e :: es1), b', es'. cbn [raw_evs]. rewrite R. split; [reflexivity|]. split; [exact I'|]. split; [now constructor|].
    split; [exact F2|]. split; discriminate.
  - inversion Fe; subst. destruct (sim_steps P ids a acts c1 c2 H1 ltac:(assumption) b es I F) as [es1 [b1 [R1 [I1 [F1 F2]]]]].
    destruct (IH b1 _ I1) as [es2 [b2 [es' [R2 [I2 [F3 [F4 [N1 N2]]]]]]]]; auto.
    exists (es1 ++ es2), b2, (es1 ++ es'). cbn [raw_evs]. rewrite R1, R2. split; [reflexivity|]. rewrite app_assoc. split; [exact I2|].
    split; [now apply Forall_app|]. split; [exact F4|]. split.
    + intros E. apply app_eq_nil in E as [-> E]. now rewrite (N1 E).
    + intros e [C|C]; [discriminate C|]. intros E. apply app_eq_nil in E as [_ E]. exact (N2 _ C E).
Qed.

(** ** The end of the document, also an unexpected one *)
Definition check_top : bool :=
  forallb (fun p : nat * list frame =>
    match snd p with
    | (r, res) :: _ => rule_eqb r RGherkinDocument ||
        (sat res && top_rule r && negb (gx_eqb res (prod r)))
    | [] => false
    end) cert_list.
Lemma top_ok : check_top = true.
Proof. vm_compute. reflexivity. Qed.
Lemma cert_top q r res frs : cert q = Some ((r, res) :: frs) ->
  r = RGherkinDocument \/ (sat res = true /\ top_rule r = true /\ res <> prod r).
Proof.
  unfold cert, look. destruct (find _ cert_list) as [[q' f]|] eqn:E; [|discriminate]. intros H. injection H as ->.
  apply find_some in E as [E _]. pose proof top_ok as T. unfold check_top in T. rewrite forallb_forall in T. specialize (T _ E).
  cbn in T. apply orb_true_iff in T as [T|T]; [left; now apply rule_eqb_spec | right].
  apply andb_true_iff in T as [T T3]. apply andb_true_iff in T as [T1 T2]. repeat split; auto.
  intros F. apply gx_eqb_spec in F. rewrite F in T3. discriminate.
Qed.

Lemma sim_end (P : perr -> Prop) q ms ids cs b es : st_inv q ms cs -> image ids cs b es ->
  Forall (rowP P) (cyield cs) ->
  exists es1 b', raw_acts ast_builder (new_token [] 0) [AEnd RGherkinDocument] b = (es1, Ok tt, b') /\
    Forall P es1 /\
    forall l, cs = [(RGherkinDocument, l)] -> es1 = [] /\
      exists subs, evals l ids = (subs, es, ab_ids b') /\
        ab_stack b' = [mkNode RNone [(KRule RGherkinDocument, IGdoc (mkGdoc
          (match get_single (mkNode RGherkinDocument subs) (KRule RFeature) with Some (IFeature f) => Some f | _ => None end)
          (comments_of (yields l))))]].
Proof.
  intros [fr [C [I _]]] [Im Cm] F. destruct fr as [|[r res] fr]; [|].
  { exfalso. unfold cert, look in C. destruct (find _ cert_list) as [[q' f]|] eqn:E; [|discriminate]. injection C as ->.
    apply find_some in E as [E _]. pose proof top_ok as T. unfold check_top in T. rewrite forallb_forall in T. now specialize (T _ E). }
  destruct cs as [|[r' l] cs]; [contradiction|]. cbn [sinv] in I. destruct I as [-> [E [L [O _]]]]. rewrite app_nil_r in E.
  destruct b as [st cm id]. cbn [ab_stack ab_comments ab_ids] in *. subst cm. cbn [img] in Im.
  destruct (img cs ids) as [[st0 es0] id0] eqn:E0. destruct (evals l id0) as [[subs es2] id2] eqn:E2. injection Im as <- <- <-.
  assert (N : exists n0 st1, st0 = n0 :: st1).
  { clear -E0. destruct cs as [|[r l] cs]; cbn [img] in E0; [injection E0 as <- _ _; eauto|].
    destruct (img cs ids) as [[? ?] ?]. destruct (evals l n) as [[? ?] ?]. injection E0 as <- _ _. eauto. }
  destruct N as [n0 [st1 ->]].
  cbn [raw_acts bact ast_builder bd_end]. unfold ab_end_rule. cbn [ab_stack ab_comments ab_ids].
  assert (Fine : match fst (transform_node (mkNode r subs) (comments_of (cyield ((r, l) :: cs))) id2) with
     | Ok _ => True | Err e => exists q, e = EParser q /\ located_in (map lf_t (kids TkTableRow l)) q end).
  { destruct (cert_top _ _ _ _ C) as [->|[S [T N]]]; [exact I|].
    destruct (sat_ok _ S) as [w W]. rewrite E in W. apply derivs_ok in W.
    eapply node_fine with (w := w); eauto. left. intros ->. apply N. exact E. }
  destruct (transform_node (mkNode r subs) _ id2) as [[i|e] id3] eqn:Et; cbn [fst] in Fine.
  - eexists [], _. split; [reflexivity|]. split; [constructor|]. intros l' Hl'. injection Hl' as -> -> ->.
    cbn [img] in E0. injection E0 as <- <- <- <-. split; [reflexivity|]. exists subs.
    unfold transform_node in Et. cbn [n_rule] in Et. injection Et as <- <-. split; [exact E2|]. cbn [ab_stack n_add n_rule n_subs].
    rewrite cyield_cons. reflexivity.
  - destruct Fine as [p [-> [t [T1 T2]]]]. eexists [p], _. split; [reflexivity|]. split.
    + constructor; [|constructor]. rewrite T2. apply in_map_iff in T1 as [c [<- T1]]. rewrite Forall_forall in F. apply F; [|now apply in_kids in T1 as [_ T1]].
      rewrite cyield_cons. apply in_or_app. right. eapply kids_yields; eauto.
    + intros l' Hl'. injection Hl' as -> -> ->. unfold transform_node in Et. discriminate Et.
Qed.

(** ** A whole run *)
Definition feature_in (subs : list (key * item)) : option feature :=
  match get_single (mkNode RGherkinDocument subs) (KRule RFeature) with Some (IFeature f) => Some f | _ => None end.
(** a document tree over the lines [lines] *)
Definition doc_tree (ms : mstate) (lines : list str) (l : list ltree) : Prop :=
  ok_tree RNone (Node RGherkinDocument l) /\ lchain ms 0 lines (yields l).
(** what the builder makes of it *)
Definition doc_of (ids : nat) (l : list ltree) (d : gdoc) (ids' : nat) : Prop :=
  exists subs, evals l ids = (subs, [], ids') /\ d = mkGdoc (feature_in subs) (comments_of (yields l)).

Lemma transform_no_composite n cm id es : fst (transform_node n cm id) <> Err (EComposite es).
Proof.
  assert (T : forall m k e, get_token m k = Err e -> e = EAttributeError).
  { intros m k e. unfold get_token. destruct (get_single m (KTok k)) as [[]|]; congruence. }
  pose proof (get_table_rows_cases n id) as G.
  unfold transform_node. destruct (n_rule n); cbn [fst]; try discriminate.
  - destruct (get_node _ _); [|discriminate]. destruct (get_tags _ _). destruct (get_token _ _); discriminate.
  - destruct (get_node _ _); [|discriminate]. destruct (get_tags _ _). destruct (get_token _ _); discriminate.
  - destruct (get_token _ _) eqn:E; [discriminate|]. apply T in E as ->. discriminate.
  - destruct (get_tags _ _). destruct (get_node _ _); [|discriminate]. destruct (get_token _ _) eqn:E; [discriminate|]. apply T in E as ->. discriminate.
  - destruct (get_tags _ _). destruct (get_node _ _); [|discriminate]. destruct (get_token _ _) eqn:E; [discriminate|]. apply T in E as ->. discriminate.
  - destruct (get_table_rows n id) as [[rows|e] i]; [discriminate|]. destruct G as [p [-> _]]. discriminate.
  - destruct (get_token _ _) eqn:E; [discriminate|]. apply T in E as ->. discriminate.
  - destruct (get_table_rows n id) as [[[|? ?]|e] i]; [discriminate..|]. destruct G as [p [-> _]]. discriminate.
  - destruct (get_tokens n TkDocStringSeparator) as [|t ts]; [discriminate|]. destruct (t_text t); discriminate.
  - cbv zeta. destruct (last_non_empty _); discriminate.
Qed.
Lemma ast_no_composite : no_composite ast_builder.
Proof.
  intros t a b es. destruct a; cbn [bact ast_builder bd_start bd_end bd_build]; [discriminate| |].
  - unfold ab_end_rule. destruct (ab_stack b) as [|n [|p st]]; try discriminate.
    pose proof (transform_no_composite n (ab_comments b) (ab_ids b) es) as T.
    destruct (transform_node _ _ _) as [[i|e] id]; [discriminate | cbn in *; congruence].
  - unfold ab_build. destruct (t_mtype t) as [k|]; [destruct k|]; destruct (ab_stack b); discriminate.
Qed.

(** where errors are: at a line of the text, with a column, or, without one, at the end of the text *)
Definition err_at (n : nat) (l : location) : Prop := 1 <= l_line l <= n + 1 /\ (l_line l <= n -> exists c, l_col l = Some c).

Lemma settled_at n e : err_at n (pe_loc e) -> err_at n (pe_loc (settled e)).
Proof. unfold settled. destruct (pe_kind e); auto. intros [H _]. split; [exact H|]. intros _. now exists 1. Qed.

Definition some_col (o : option nat) : Prop := exists c, o = Some c.
Lemma match_column k ms t :
  match classic_match k ms t with
  | (Ok true, _, t') => some_col (t_loc_col t')
  | (Err (EParser e), _, _) => some_col (l_col (pe_loc e))
  | _ => True
  end.
Proof.
  pose proof (classic_shape k ms t) as Sh. destruct (classic_match k ms t) as [[[[]|e] m] t'] eqn:E; [|exact I|].
  - clear Sh. destruct k; cbn [classic_match] in E;
      unfold match_EOF, c_match_Empty, c_match_Comment, c_match_TagLine, c_match_StepLine, c_match_DocStringSeparator, c_match_TableRow, match_Other, m_or, match_title, match_separator in E.
    13: { unfold c_match_Language, change_dialect in E. destruct (re_match _ _); [|discriminate]. destruct (for_name _); [|discriminate]. injection E as <- <-. eexists; reflexivity. }
    all: repeat match type of E with context [if ?b then _ else _] => destruct b; try discriminate E | context [find ?a ?b] => destruct (find a b); try discriminate E
           | context [g_tags ?a] => destruct (g_tags a); try discriminate E | context [table_cells ?a] => destruct (table_cells a); try discriminate E
           | context [ms_sep ?m] => destruct (ms_sep m); try discriminate E end; injection E as <- <-; eexists; reflexivity.
  - destruct e; try exact I. destruct Sh as [-> _]. cbn [classic_match] in E. unfold c_match_Language in E. destruct (re_match _ _); [|discriminate].
    set (name := match group 1 _ with Some x => x | None => [] end) in E. unfold change_dialect in E. destruct (for_name name); [discriminate|].
    injection E as <- _ _. eexists; reflexivity.
Qed.

Lemma choose_cols trs ms n x rest : x <> [] -> forall es c, choose trs ms n x rest = (es, c) ->
  Forall (fun e => some_col (l_col (pe_loc e))) es /\ (forall tr t ms', c = CTrans tr t ms' -> some_col (t_loc_col t)).
Proof.
  intros Hx. induction trs as [|tr trs IH]; intros es c; cbn [choose].
  - intros H. injection H as <- <-. split; [constructor | discriminate].
  - assert (L : lexm (tr_tok tr) ms n x = classic_match (tr_tok tr) ms (new_token x n)).
    { unfold lexm. destruct x; [contradiction|]. now rewrite andb_false_r. }
    rewrite L. pose proof (match_column (tr_tok tr) ms (new_token x n)) as M.
    destruct (classic_match (tr_tok tr) ms (new_token x n)) as [[[[]|e] m] t].
    + assert (G : forall es c, ([], CTrans tr t m) = (es, c) -> Forall (fun e => some_col (l_col (pe_loc e))) es /\ (forall tr t ms', c = CTrans tr t ms' -> some_col (t_loc_col t))).
      { intros es0 c0 H. injection H as <- <-. split; [constructor|]. intros ? ? ? H. injection H as <- <- <-. exact M. }
      destruct (tr_la tr) as [l|]; [|apply G]. destruct (la (la_tok l) ms rest) as [[]|e]; [apply G | apply IH|].
      intros H. injection H as <- <-. split; [constructor | discriminate].
    + apply IH.
    + destruct e; try (intros H; injection H as <- <-; split; [constructor | discriminate]).
      destruct (choose trs ms n x rest) as [es' c'] eqn:G. intros H; injection H as <- <-. destruct (IH _ _ eq_refl) as [I1 I2]. split; [constructor; [exact M | exact I1] | exact I2].
Qed.
Lemma unexpected_col t exp : t_eof t = false -> some_col (l_col (pe_loc (unexpected t exp))).
Proof. intros H. unfold unexpected. rewrite H. destruct (t_loc_col t) as [[|m]|] eqn:E; cbn; unfold t_location; rewrite ?E; eexists; reflexivity. Qed.
Definition ev_col (e : ev) : Prop := match e with EvErr p => some_col (l_col (pe_loc p)) | EvAct a _ => some_col (t_loc_col (lf_t a)) end.
Lemma scan_step_cols q ms n x rest evs r : x <> [] -> scan_step q ms n x rest = (evs, r) -> Forall ev_col evs.
Proof.
  intros Hx. unfold scan_step. destruct (ptable q) as [st|]; [|intros H; injection H as <- <-; constructor].
  destruct (choose (st_trans st) ms n x rest) as [es ch] eqn:E. destruct (choose_cols _ _ _ _ _ Hx _ _ E) as [C1 C2].
  assert (F : Forall ev_col (map EvErr es)) by now apply Forall_map.
  destruct ch as [tr t ms'| |e]; intros H; injection H as <- <-; [| |exact F]; (apply Forall_app; split; [exact F|]); constructor; try constructor; cbn.
  - eapply C2. reflexivity.
  - apply unexpected_col. unfold t_eof, new_token, g_bool. cbn. now destruct x.
Qed.
Lemma scan_cols lines : lines_ok lines -> forall q ms n evs r, scan q ms n lines = (evs, r) ->
  Forall (fun e => ev_col e \/ exists m, m = n + length lines + 1 /\ match e with EvErr p => l_line (pe_loc p) = m | EvAct a _ => t_loc_line (lf_t a) = m end) evs.
Proof.
  induction 1 as [|x rest Hx Hl IH]; intros q ms n evs r; cbn [scan].
  - intros H. eapply Forall_impl; [intros e He; right; exists (S n); split; [cbn; lia | exact He]|].
    assert (G : Forall (fun e => match e with EvErr p => l_line (pe_loc p) = S n | EvAct a _ => t_loc_line (lf_t a) = S n end) (fst (scan_step q ms (S n) [] []))).
    { unfold scan_step. destruct (ptable q) as [st|]; [|constructor].
      assert (Ch : match choose (st_trans st) ms (S n) [] [] with (es, c) => es = [] /\ forall tr t ms', c = CTrans tr t ms' -> t_loc_line t = S n end).
      { induction (st_trans st) as [|tr trs IH]; cbn [choose]; [split; [reflexivity | discriminate]|].
        destruct (tok_eqb (tr_tok tr) TkEOF) eqn:K.
        - assert (E : lexm (tr_tok tr) ms (S n) [] = (Ok true, ms, set_matched ms (new_token [] (S n)) (Some TkEOF) None None None None [])).
          { unfold lexm. rewrite K. cbn [negb andb]. apply tok_eqb_spec in K as ->. reflexivity. }
          rewrite E. destruct (tr_la tr) as [l|]; [cbn [la]|]; (split; [reflexivity|]; intros ? ? ? X; first [discriminate X | injection X as <- <- <-; reflexivity]) || exact IH.
        - assert (E : lexm (tr_tok tr) ms (S n) [] = (Ok false, ms, new_token [] (S n))) by (unfold lexm; now rewrite K). rewrite E. exact IH. }
      destruct (choose _ _ _ _ _) as [es ch]. destruct Ch as [-> Ch]. destruct ch; cbn [map app fst]; repeat apply Forall_cons; try apply Forall_nil; [eapply Ch; reflexivity | apply unexpected_line]. }
    destruct (scan_step q ms (S n) [] []) as [ev1 r1]. cbn in G. destruct r1; injection H as <- <-; exact G.
  - destruct (scan_step q ms (S n) x rest) as [ev1 r1] eqn:E. apply scan_step_cols in E; [|exact Hx].
    assert (E' : Forall (fun e => ev_col e \/ exists m, m = n + length (x :: rest) + 1 /\ match e with EvErr p => l_line (pe_loc p) = m | EvAct a _ => t_loc_line (lf_t a) = m end) ev1).
    { eapply Forall_impl; [|exact E]. auto. }
    destruct r1 as [[q' ms']|e]; [|intros H; injection H as <- <-; exact E'].
    destruct (scan q' ms' (S n) rest) as [ev2 r2] eqn:E2. intros H; injection H as <- <-. apply Forall_app. split; [exact E'|].
    eapply Forall_impl; [|eapply IH; exact E2]. intros e [He|[m [M He]]]; [auto|]. right. exists m. split; [cbn; lia | exact He].
Qed.

Theorem run_doc_P (P : perr -> Prop) ms0 lines ids : matcher_ok ms0 -> ms_sep ms0 = None -> lines_ok lines ->
  Forall (ev_P P) (fst (scan 0 ms0 0 lines)) ->
  exists es b', raw_evs ast_builder (doc_evs (scan 0 ms0 0 lines)) (ab_reset ids) = (es, Ok tt, b') /\
    Forall P es /\
    match snd (scan 0 ms0 0 lines) with
    | Err e => line_exn lines e
    | Ok _ => es = [] -> exists l d, doc_tree ms0 lines l /\ doc_of ids l d (ab_ids b') /\ ab_get_result b' = Ok d
    end.
Proof.
  intros Hm Hs Hl Fe. destruct (scan 0 ms0 0 lines) as [evs r] eqn:Es. cbn [fst] in Fe.
  assert (Inv : st_inv 0 ms0 [(RGherkinDocument, [])]).
  { exists [(RGherkinDocument, prod RGherkinDocument)]. split; [reflexivity|]. split.
    - cbn [sinv]. split; [reflexivity|]. split; [reflexivity|]. split; [apply leaves_ok_nil|]. split; [constructor | exact I].
    - split; [exact Hm|]. rewrite Hs. split; reflexivity. }
  destruct (scan_sound lines 0 ms0 0 [(RGherkinDocument, [])] evs r Hl ltac:(discriminate) Inv Es) as [Lo [cs' [q' [ms' [Run [Inv' Fin]]]]]].
  destruct (sim_run P ids evs _ _ Run (mkAb [mkNode RGherkinDocument []; mkNode RNone []] [] ids) []) as [es1 [b1 [es' [R1 [I1 [F1 [F2 [N1 N2]]]]]]]]; auto.
  { split; reflexivity. } { constructor. }
  unfold doc_evs. cbn [fst snd].
  assert (R0 : forall evs2, raw_evs ast_builder (EvAct no_leaf [AStart RGherkinDocument] :: evs2) (ab_reset ids) =
     raw_evs ast_builder evs2 (mkAb [mkNode RGherkinDocument []; mkNode RNone []] [] ids)).
  { intros evs2. cbn [raw_evs raw_acts bact ast_builder bd_start]. unfold ab_start_rule, ab_reset. cbn [ab_stack ab_comments ab_ids].
    destruct (raw_evs _ evs2 _) as [[? ?] ?]. reflexivity. }
  rewrite R0, raw_evs_app, R1. destruct r as [u|e].
  - destruct (sim_end P q' ms' ids cs' b1 _ Inv' I1 F2) as [es2 [b2 [R2 [F3 G]]]].
    exists (es1 ++ es2), b2. cbn [raw_evs no_leaf lf_t]. rewrite R2. split; [now rewrite app_nil_r|]. split; [now apply Forall_app|].
    intros E. apply app_eq_nil in E as [-> ->]. destruct Fin as [[e Fin]|[[l [-> T]] Ch]].
    + exfalso. exact (N2 _ Fin eq_refl).
    + destruct (G l eq_refl) as [_ [subs [G1 G2]]]. rewrite (N1 eq_refl) in G1.
      exists l. eexists. split.
      * split; [exact T|]. pose proof (crun_yield _ _ _ (fun _ _ => True) Run) as Y. rewrite cyield_cons in Y. cbn in Y. rewrite Y.
        { exact Ch. } eapply Forall_impl; [|exact Lo]. intros a [m [_ M]]. exists m. auto.
      * split; [exists subs; split; [exact G1 | reflexivity]|]. unfold ab_get_result. rewrite G2. reflexivity.
  - exists es1, b1. cbn [raw_evs]. rewrite app_nil_r. split; [reflexivity|]. split; [exact F1|]. exact Fin.
Qed.

Lemma scan_places ms0 lines : matcher_ok ms0 -> ms_sep ms0 = None -> lines_ok lines ->
  Forall (ev_P (fun e => err_at (length lines) (pe_loc e))) (fst (scan 0 ms0 0 lines)).
Proof.
  intros Hm Hs Hl. destruct (scan 0 ms0 0 lines) as [evs r] eqn:Es. cbn [fst].
  assert (Inv : st_inv 0 ms0 [(RGherkinDocument, [])]).
  { exists [(RGherkinDocument, prod RGherkinDocument)]. split; [reflexivity|]. split.
    - cbn [sinv]. split; [reflexivity|]. split; [reflexivity|]. split; [apply leaves_ok_nil|]. split; [constructor | exact I].
    - split; [exact Hm|]. rewrite Hs. split; reflexivity. }
  destruct (scan_sound lines 0 ms0 0 [(RGherkinDocument, [])] evs r Hl ltac:(discriminate) Inv Es) as [Lo _].
  pose proof (scan_cols lines Hl _ _ _ _ _ Es) as Lc.
  apply Forall_forall. intros e He. rewrite Forall_forall in Lo, Lc. specialize (Lo e He). specialize (Lc e He).
  destruct Lo as [m [M1 M2]]. destruct e as [p|a acts]; cbn [ev_P ev_at ev_col] in *; unfold rowP, cell_error, err_at; cbn [pe_loc].
  - rewrite M2. split; [lia|]. intros Hm'. destruct Lc as [Lc|[m' [L1 L2]]]; [exact Lc | lia].
  - intros _. destruct M2 as [_ [M2 _]]. unfold t_location. cbn [l_line l_col]. rewrite M2. split; [lia|]. intros Hm'. destruct Lc as [Lc|[m' [L1 L2]]]; [exact Lc | lia].
Qed.
Theorem run_doc ms0 lines ids : matcher_ok ms0 -> ms_sep ms0 = None -> lines_ok lines ->
  exists es b', raw_evs ast_builder (doc_evs (scan 0 ms0 0 lines)) (ab_reset ids) = (es, Ok tt, b') /\
    Forall (fun e => err_at (length lines) (pe_loc e)) es /\
    match snd (scan 0 ms0 0 lines) with
    | Err e => line_exn lines e
    | Ok _ => es = [] -> exists l d, doc_tree ms0 lines l /\ doc_of ids l d (ab_ids b') /\ ab_get_result b' = Ok d
    end.
Proof. intros Hm Hs Hl. exact (run_doc_P (fun e => err_at (length lines) (pe_loc e)) ms0 lines ids Hm Hs Hl (scan_places ms0 lines Hm Hs Hl)). Qed.

(** ** The outcome of [parse_lines] *)
Inductive parse_outcome (stop : bool) (ids : nat) (ms0 : mstate) (lines : list str) : result gdoc * ctx astb -> Prop :=
| po_doc l d ids' c : doc_tree ms0 lines l -> doc_of ids l d ids' -> ab_ids (c_b c) = ids' ->
    parse_outcome stop ids ms0 lines (Ok d, c)
| po_errors es c : stop = false -> 1 <= length es <= 11 -> distinct_msgs es ->
    Forall (fun e => err_at (length lines) (pe_loc e)) es ->
    parse_outcome stop ids ms0 lines (Err (EComposite es), c)
| po_error e c : stop = true -> err_at (length lines) (pe_loc e) ->
    parse_outcome stop ids ms0 lines (Err (EParser e), c)
| po_exn e c : line_exn lines e -> parse_outcome stop ids ms0 lines (Err e, c).

Theorem parse_lines_outcome stop ids ms ms0 lines :
  ms_reset ms = Ok ms0 -> matcher_ok ms0 -> ms_sep ms0 = None -> lines_ok lines ->
  parse_outcome stop ids ms0 lines (parse_lines stop ids ms lines).
Proof.
  intros Hr Hm Hs Hl. destruct (run_doc ms0 lines ids Hm Hs Hl) as [es [b' [R [F G]]]].
  pose proof (parse_b_outcome ast_builder ast_no_composite stop (ab_reset ids) ms ms0 lines es (Ok tt) b' Hr (matcher_good _ Hm) Hl R) as [O1 O2].
  cbv zeta in O1. unfold parse_lines. destruct (parse_b ast_builder stop (ab_reset ids) ms lines) as [r c]. cbn [fst snd] in *. subst r.
  unfold outcome. destruct stop.
  - destruct es as [|e es].
    + destruct (snd (scan 0 ms0 0 lines)) as [u|e]; cbn [rbind]; [|now apply po_exn].
      destruct (G eq_refl) as [l [d [G1 [G2 G3]]]]. rewrite (O2 eq_refl), G3. eapply po_doc; eauto. now rewrite (O2 eq_refl).
    + cbn [rbind]. apply po_error; [reflexivity|]. now inversion F.
  - destruct (feed es []) as [full errs] eqn:Fe.
    destruct (feed_inv (fun e => err_at (length lines) (pe_loc e)) (settled_at (length lines)) _ _ _ _ Fe) as [A1 [A2 [A3 [A4 [A5 _]]]]]; auto;
      [constructor | cbn; lia|].
    destruct full; [apply po_errors; auto; rewrite A4 by reflexivity; lia|].
    destruct errs as [|e errs].
    + rewrite (A5 eq_refl) in *. destruct (snd (scan 0 ms0 0 lines)) as [u|e]; cbn [rbind]; [|now apply po_exn].
      destruct (G eq_refl) as [l [d [G1 [G2 G3]]]]. rewrite (O2 eq_refl), G3. eapply po_doc; eauto. now rewrite (O2 eq_refl).
    + destruct (snd (scan 0 ms0 0 lines)) as [u|x]; cbn [rbind]; [apply po_errors; auto; cbn in *; lia | now apply po_exn].
Qed.
