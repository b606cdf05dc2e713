(** * Replacing table rows by table rows in a syntax tree *)
From Verif Require Import PyStr PyStrFacts Types Regex Line DialectData Matcher Ast ParserTable Parser Classify Table Scan Grammar Deriv Cert LineSpec RowIff Cst Report Eval LangSpec LangFacts Complete DocSpec RaggedSpec Repair.

Definition swapx (x x' : str) : Prop := x = x' \/ (is_row x /\ is_row x').
Lemma is_row_pipe x : is_row x -> startswith [ch_pipe] (lstrip x) = true /\ x <> [].
Proof. intros [items H]. apply (table_cells_iff x 0) in H as [H _]. split; [exact H|]. intros ->. discriminate H. Qed.
Lemma is_row_cls ms x : good ms -> is_row x -> cls ms x = TkTableRow.
Proof.
  intros G H. apply is_row_pipe in H as [H _]. pose proof (cls_has ms G TkTableRow x ltac:(discriminate) ltac:(discriminate)) as Q. unfold has in Q. cbn [starts existsb] in Q. rewrite H in Q. symmetry in Q. now apply tok_eqb_spec in Q.
Qed.
Lemma pipe_no_sep x : startswith [ch_pipe] (lstrip x) = true -> startswith sep_quotes (lstrip x) = false /\ startswith sep_ticks (lstrip x) = false.
Proof.
  intros H. destruct (lstrip x) as [|c y]; [discriminate|]. cbn [startswith] in H. destruct (N.eqb ch_pipe c) eqn:E; [|discriminate]. apply N.eqb_eq in E. subst c. split; reflexivity.
Qed.
Lemma row_sep_false ms n x : matcher_ok ms -> is_row x -> fst (fst (lexm TkDocStringSeparator ms n x)) = Ok false.
Proof.
  intros M H. apply is_row_pipe in H as [H Hx]. destruct (pipe_no_sep _ H) as [S1 S2]. rewrite lexm_ne by exact Hx. cbn [classic_match]. unfold c_match_DocStringSeparator.
  assert (E : forall o sep b, startswith sep (lstrip x) = false -> match_separator o sep b ms (new_token x n) = (Ok false, ms, new_token x n)).
  { intros o sep b E. unfold match_separator, g_startswith. change (g_trimmed (t_line (new_token x n))) with (lstrip x). now rewrite E. }
  destruct (mo_sep _ M) as [->|[->| ->]].
  - rewrite (E None sep_quotes true S1). cbn [m_or]. now rewrite (E None sep_ticks true S2).
  - now rewrite E.
  - now rewrite E.
Qed.
(** reading the other row instead *)
Lemma swap_lex k ms n x x' ms1 t' : matcher_ok ms -> swapx x x' -> lexm k ms n x' = (Ok true, ms1, t') ->
  exists t, lexm k ms n x = (Ok true, ms1, t) /\ tok_kind t = k.
Proof.
  intros M S L. pose proof (matcher_good _ M) as G.
  assert (Q : exists t, lexm k ms n x = (Ok true, ms1, t)).
  { destruct S as [->|[H H']]; [eauto|]. pose proof (is_row_cls ms x G H) as C. pose proof (is_row_cls ms x' G H') as C'. destruct (is_row_pipe _ H) as [_ Hx]. destruct (is_row_pipe _ H') as [_ Hx'].
    destruct (plain k) eqn:P.
    - pose proof (lexm_cls _ _ _ _ _ _ G P L) as E. rewrite C' in E. subst k. assert (ms1 = ms) by (apply (lexm_other _ _ _ _ _ _ L); discriminate). subst ms1.
      destruct H as [items H]. apply (table_cells_iff x 0) in H as [_ H]. rewrite lexm_ne by exact Hx. pose proof (classic_true ms G TkTableRow (new_token x n) x n eq_refl eq_refl C) as T. cbn iota in T. rewrite H in T. exact T.
    - destruct k; try discriminate P.
      + apply lexm_eof_nil in L. contradiction.
      + pose proof (row_sep_false ms n x' M H') as F. rewrite L in F. discriminate F.
      + exfalso. destruct (lexm_lang_inv _ _ _ _ _ L) as [name [? [N _]]]. apply (cls_language ms _ _ G) in N. congruence.
      + assert (ms1 = ms) by (apply (lexm_other _ _ _ _ _ _ L); discriminate). subst ms1. rewrite lexm_ne by exact Hx. cbn [classic_match]. unfold match_Other. eauto. }
  destruct Q as [t Q]. exists t. split; [exact Q|]. unfold tok_kind. now rewrite (lexm_kind _ _ _ _ _ _ Q).
Qed.

(** ** Relabelling *)
Section Relabel.
Variable lines : list str.
Definition text_at (n : nat) : str := nth (n - 1) lines [].
Definition relabel (a : leaf) : leaf :=
  mkLeaf (lf_ms a) (lf_n a) (text_at (lf_n a)) (snd (lexm (lkind a) (lf_ms a) (lf_n a) (text_at (lf_n a)))).
Definition swapped (a : leaf) : Prop := swapx (text_at (lf_n a)) (lf_x a).

Lemma relabel_lex a ms1 : matcher_ok (lf_ms a) -> swapped a -> lexm (lkind a) (lf_ms a) (lf_n a) (lf_x a) = (Ok true, ms1, lf_t a) ->
  lexm (lkind a) (lf_ms a) (lf_n a) (text_at (lf_n a)) = (Ok true, ms1, lf_t (relabel a)) /\ lkind (relabel a) = lkind a.
Proof.
  intros M S L. destruct (swap_lex _ _ _ _ _ _ _ M S L) as [t [L' K]]. unfold relabel. cbn [lf_t]. rewrite L'. cbn [snd]. split; [reflexivity|]. unfold lkind at 1. cbn [lf_t]. exact K.
Qed.
Lemma relabel_ok p r pre pre' a : lsyms pre' = lsyms pre -> (pre' = [] -> pre = []) -> swapped a -> leaf_ok p r pre a -> leaf_ok p r pre' (relabel a) /\ lkind (relabel a) = lkind a.
Proof.
  intros Ep En S [H1 [ms1 H2] H3 H4 H5]. destruct (relabel_lex a ms1 H1 S H2) as [L K]. split; [|exact K]. pose proof (matcher_good _ H1) as G. constructor; cbn [relabel lf_ms lf_n lf_x].
  - exact H1.
  - exists ms1. rewrite K. exact L.
  - unfold sep_open in *. now rewrite Ep.
  - unfold priority in *. rewrite K. destruct r; try exact I; destruct (lkind a) eqn:Ka; try exact I; cbn [relabel lf_ms lf_n lf_x].
    + destruct S as [-> |[S1 S2]]; [exact H4|]. pose proof (lexm_cls TkComment _ _ _ _ _ G eq_refl H2) as C. rewrite (is_row_cls _ _ G S2) in C. discriminate C.
    + destruct S as [-> |[S1 S2]]; [exact H4|]. rewrite (row_sep_false _ _ _ H1 S1). discriminate.
    + destruct S as [-> |[S1 S2]]; [split; [exact (proj1 H4) | intros E; apply H4; now apply En]|]. rewrite (is_row_cls _ _ G S1). rewrite (is_row_cls _ _ G S2) in H4. split; [exact (proj1 H4) | discriminate].
  - intros E. rewrite K. apply H5. destruct S as [S|[S1 S2]]; [congruence|]. now apply is_row_pipe in S1 as [_ S1].
Qed.

Lemma map_split {A B} (f : A -> B) l pre y post : map f l = pre ++ y :: post -> exists l1 x l2, l = l1 ++ x :: l2 /\ map f l1 = pre /\ f x = y /\ map f l2 = post.
Proof. intros H. apply map_eq_app in H as [l1 [l2 [-> [<- H]]]]. destruct l2 as [|x l2]; [discriminate|]. injection H as <- <-. eauto 8. Qed.
Lemma relabel_tree : forall t p, ok_tree p t -> Forall swapped (yield t) ->
  (forall a, t = Leaf a -> lkind (relabel a) = lkind a) -> ok_tree p (tree_map relabel t) /\ root_sym lkind (tree_map relabel t) = root_sym lkind t.
Proof.
  induction t as [a|r l IH] using tree_ind'; intros p O F Ha; cbn [tree_map root_sym].
  - split; [constructor | now rewrite Ha].
  - split; [|reflexivity]. inversion O as [|? ? M L Ok1]; subst. cbn [yield] in F.
    assert (Q : forall t, In t l -> ok_tree r (tree_map relabel t) /\ root_sym lkind (tree_map relabel t) = root_sym lkind t).
    { intros t Ht. rewrite Forall_forall in IH. apply IH; [exact Ht | rewrite Forall_forall in Ok1; now apply Ok1 | |].
      - rewrite Forall_forall in F |- *. intros a Ha'. apply F. apply in_flat_map. eauto.
      - intros a ->. apply in_split in Ht as [pre [post E]]. apply (relabel_ok r r pre pre a eq_refl (fun e => e)).
        + rewrite Forall_forall in F. apply F. rewrite E. apply in_flat_map. exists (Leaf a). split; [apply in_elt | now left].
        + pose proof (L _ _ _ E) as [H1 H2 H3 H4 H5]. constructor; auto. unfold priority in *. destruct r; auto; destruct (lkind a); auto. cbn [priority] in *. destruct H4 as [H4 H6]. split; [|exact H6].
          intros X. cbn in X. destruct X. }
    assert (Sy : forall l0, incl l0 l -> lsyms (map (tree_map relabel) l0) = lsyms l0).
    { intros l0 Hi. unfold lsyms, syms. rewrite map_map. apply map_ext_in. intros t Ht. apply (Q t (Hi t Ht)). }
    constructor.
    + rewrite Sy by apply incl_refl. exact M.
    + intros pre a post E. apply map_split in E as [l1 [x [l2 [-> [E1 [E2 E3]]]]]]. destruct x as [b|]; [|discriminate E2]. cbn in E2. injection E2 as <-.
      assert (Hb : In (Leaf b) (l1 ++ Leaf b :: l2)) by apply in_elt.
      eapply (relabel_ok p r l1 pre b); [rewrite <- E1; apply Sy; intros t Ht; apply in_or_app; now left | destruct l1; [reflexivity | rewrite <- E1; discriminate] | | apply (L _ _ _ eq_refl)].
      rewrite Forall_forall in F. apply F. apply in_flat_map. exists (Leaf b). split; [exact Hb | now left].
    + apply Forall_forall. intros t Ht. apply in_map_iff in Ht as [t0 [<- Ht]]. now apply Q.
Qed.
Lemma yield_map (f : leaf -> leaf) : forall t : ltree, yield (tree_map f t) = map f (yield t).
Proof.
  induction t as [a|r l IH] using tree_ind'; [reflexivity|]. cbn [tree_map yield]. induction IH as [|t l Ht IH IH2]; [reflexivity|]. cbn [map flat_map]. rewrite map_app, Ht. f_equal. exact IH2.
Qed.
Lemma yields_map (f : leaf -> leaf) (l : list ltree) : yields (map (tree_map f) l) = map f (yields l).
Proof. induction l as [|t l IH]; [reflexivity|]. cbn. rewrite map_app, yield_map. f_equal. exact IH. Qed.

Lemma relabel_chain rest' : forall pre rest ms ls, lines = pre ++ rest -> Forall2 swapx rest rest' -> matcher_ok ms -> lchain ms (length pre) rest' ls -> lines_ok rest ->
  lchain ms (length pre) rest (map relabel ls) /\ Forall swapped ls.
Proof.
  induction rest' as [|x' rest' IH]; intros pre rest ms ls El F M Ch Hl; inversion F as [|x ? rest0 ? Fx Fr]; subst.
  - apply lchain_nil in Ch as [t [ms' [L ->]]]. assert (E : text_at (S (length pre)) = []) by (unfold text_at; cbn; rewrite Nat.sub_0_r, El, nth_overflow; [reflexivity | rewrite app_nil_r; lia]).
    cbn [map]. unfold relabel, swapped. cbn [lf_ms lf_n lf_x lf_t]. rewrite E. split; [|constructor; [now left | constructor]].
    assert (K : lkind (mkLeaf ms (S (length pre)) [] t) = TkEOF) by (unfold lkind, tok_kind; cbn [lf_t]; now rewrite (lexm_kind _ _ _ _ _ _ L)).
    rewrite K, L. cbn [snd]. econstructor. exact L.
  - apply lchain_cons in Ch as [t [ms' [k [ls' [Hx [L [Ch ->]]]]]]]. inversion Hl as [|? ? Hx0 Hl']; subst.
    assert (E : text_at (S (length pre)) = x) by (unfold text_at; cbn; rewrite Nat.sub_0_r, El, app_nth2, Nat.sub_diag by lia; reflexivity).
    assert (M' : matcher_ok ms') by (eapply lexm_next; eauto).
    assert (Len : length (pre ++ [x]) = S (length pre)) by (rewrite app_length; cbn; lia).
    destruct (IH (pre ++ [x]) rest0 ms' ls') as [I1 I2]; [now rewrite <- app_assoc | exact Fr | exact M' | now rewrite Len | exact Hl'|]. rewrite Len in I1.
    set (a := mkLeaf ms (S (length pre)) x' t) in *.
    assert (Sw : swapped a) by (unfold swapped; cbn [a lf_n lf_x]; rewrite E; exact Fx).
    assert (K : lkind a = k) by (unfold lkind, tok_kind; cbn [a lf_t]; now rewrite (lexm_kind _ _ _ _ _ _ L)).
    destruct (relabel_lex a ms') as [R1 R2]; [exact M | exact Sw | rewrite K; exact L|]. cbn [a lf_ms lf_n] in R1. rewrite E in R1.
    split; [|constructor; [exact Sw | exact I2]]. cbn [map]. assert (Er : relabel a = mkLeaf ms (S (length pre)) x (lf_t (relabel a))) by (unfold relabel at 1; cbn [a lf_ms lf_n]; rewrite E, R1; reflexivity).
    rewrite Er. econstructor; [exact Hx0 | exact R1 | exact I1].
Qed.

(** the tree of the text with the rows replaced *)
Theorem relabel_doc ms lines' l : matcher_ok ms -> lines_ok lines -> Forall2 swapx lines lines' -> doc_tree ms lines' l -> langs_ok l ->
  doc_tree ms lines (map (tree_map relabel) l) /\ langs_ok (map (tree_map relabel) l) /\ Forall swapped (yields l).
Proof.
  intros M Hl F [O Ch] Lg. destruct (relabel_chain lines' [] lines ms (yields l) eq_refl F M Ch Hl) as [C1 C2].
  destruct (relabel_tree (Node RGherkinDocument l) RNone O) as [O' _]; [exact C2 | discriminate|]. split; [|split; [|exact C2]].
  - split; [exact O'|]. rewrite yields_map. exact C1.
  - intros a Ha. apply in_map_iff in Ha as [[b|] [E Hb]]; [|discriminate E]. cbn in E. injection E as <-. inversion O as [|? ? Mt L Fo]; subst.
    pose proof Hb as Hb'. apply in_split in Hb' as [pre [post E]]. pose proof (L _ _ _ E) as Lk.
    assert (Sw : swapped b) by (rewrite Forall_forall in C2; apply C2, in_flat_map; exists (Leaf b); split; [exact Hb | now left]).
    destruct (relabel_ok RNone RGherkinDocument pre pre b eq_refl (fun e => e) Sw Lk) as [_ K].
    specialize (Lg b Hb). unfold lang_ok in *. rewrite K. intros Kc. cbn [relabel lf_ms lf_n lf_x]. destruct Sw as [-> |[S1 S2]]; [now apply Lg|].
    destruct Lk as [H1 [ms1 H2] _ _ _]. rewrite Kc in H2. pose proof (lexm_cls TkComment _ _ _ _ _ (matcher_good _ H1) eq_refl H2) as C. rewrite (is_row_cls _ _ (matcher_good _ H1) S2) in C. discriminate C.
Qed.
End Relabel.
