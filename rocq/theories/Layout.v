(** * Blocks of lines: tags, tables, descriptions, doc strings *)
From Verif Require Import PyStr PyStrFacts Types Regex Line DialectData Matcher Ast ParserTable Parser Classify Table Scan Grammar Deriv Cert LineSpec Cst Report Eval LangSpec LangFacts Complete DocSpec Erase Den LineIff Means.

Definition blanks (subs : list (key * item)) : Prop := Forall (fun p => fst p = KTok TkEmpty) subs.
Lemma blanks_app a b : blanks a -> blanks b -> blanks (a ++ b).
Proof. intros. now apply Forall_app. Qed.
Lemma gi_blanks r bs k : blanks bs -> k <> KTok TkEmpty -> get_items (mkNode r bs) k = [].
Proof.
  intros H Hk. unfold get_items. cbn [n_subs]. induction H as [|[k' i] bs E H IH]; [reflexivity|]. cbn in E. subst k'. cbn [filter fst].
  destruct (key_eqb (KTok TkEmpty) k) eqn:Q; [|exact IH]. destruct k as [t| |]; try discriminate Q. cbn in Q. destruct t; try discriminate Q. now elim Hk.
Qed.
Lemma gi_nodes {A} r q (f : A -> item) l k : get_items (mkNode r (map (fun a => (KRule q, f a)) l)) k = match k with KRule q' => if rule_eqb q q' then map f l else [] | _ => [] end.
Proof.
  unfold get_items. cbn [n_subs]. destruct k as [t|q'|].
  - induction l as [|a l IH]; [reflexivity | exact IH].
  - destruct (rule_eqb q q') eqn:E; induction l as [|a l IH]; [reflexivity| |reflexivity|]; cbn [map filter fst key_eqb]; rewrite E; cbn [map snd]; [f_equal|]; exact IH.
  - induction l as [|a l IH]; [reflexivity | exact IH].
Qed.
Lemma gi_rule r r' subs k : get_items (mkNode r subs) k = get_items (mkNode r' subs) k.
Proof. reflexivity. Qed.

(** ** Blank lines and comments *)
Definition one_blank {A} : bl (list A) := fun nls a cs => a = [] /\ cs = [] /\ exists l, nls = [l] /\ blank_line l.
Definition one_comment {A} : bl (list A) := fun nls a cs => a = [] /\ exists l, nls = [l] /\ comment_line l /\ cs = [comment_at l].
Definition one_noise {A} : bl (list A) := fun nls a cs => one_blank nls a cs \/ one_comment nls a cs.
Lemma means_blank {A} r ms (G : list A -> list (key * item) -> Prop) : idle ms -> (forall bs, blanks bs -> G [] bs) -> means (V r (T TkEmpty)) ms one_blank G.
Proof.
  intros Hi HG. apply means_tok; [exact Hi | discriminate| |].
  - intros n x ms' t Hx H. apply lex_empty in H as [-> [H ->]]; [|exact Hx]. split; [reflexivity|]. exists []. split; [|apply HG; repeat constructor]. split; [reflexivity|]. split; [reflexivity|]. eauto.
  - intros nls a cs Hn [-> [-> [[n x] [-> H]]]]. apply Forall_inv in Hn. cbn in Hn. exists n, x. eexists. split; [reflexivity|]. split; [apply lex_empty; [exact Hn | auto]|]. split; [reflexivity|].
    apply HG. repeat constructor.
Qed.
Lemma means_comment {A} r ms (G : list A -> list (key * item) -> Prop) : idle ms -> r <> RGherkinDocument -> G [] [] -> means (V r (T TkComment)) ms one_comment G.
Proof.
  intros Hi Hr HG. apply means_tok; [exact Hi | easy| |].
  - intros n x ms' t Hx H. apply lex_comment in H as [-> [H ->]]; [|exact Hx]. split; [reflexivity|]. exists []. split; [|exact HG]. split; [reflexivity|]. exists (n, x). auto.
  - intros nls a cs Hn [-> [[n x] [-> [H ->]]]]. apply Forall_inv in Hn. cbn in Hn. exists n, x. eexists. split; [reflexivity|]. split; [apply lex_comment; [exact Hn | auto]|]. split; [reflexivity | exact HG].
Qed.
Lemma means_noise1 {A} r ms (G : list A -> list (key * item) -> Prop) : idle ms -> r <> RGherkinDocument -> (forall bs, blanks bs -> G [] bs) ->
  means (V r (GAlt (T TkEmpty) (T TkComment))) ms one_noise G.
Proof. intros Hi Hr HG. apply means_alt; [now apply means_blank | apply means_comment; auto]. apply HG. constructor. Qed.

Definition noise_S : bl unit := fun nls _ cs => noise_lines nls cs.
Definition noise_G (_ : unit) (subs : list (key * item)) : Prop := blanks subs.
Lemma noise_gather nls (a : list unit) cs : gather one_noise nls a cs <-> a = [] /\ noise_lines nls cs.
Proof.
  split.
  - induction 1 as [|n1 a c1 n2 b c2 H1 H2 [-> IH]]; [split; [reflexivity | constructor]|].
    destruct H1 as [[-> [-> [l [-> H]]]]|[-> [l [-> [H ->]]]]]; (split; [reflexivity|]); [now apply nz_blank | now apply nz_comment].
  - intros [-> H]. induction H as [|l ls cs H H0 IH|l ls cs H H0 IH]; [constructor| |].
    + apply (ga_cons _ [l] [] [] ls [] cs); [|exact IH]. left. split; [reflexivity|]. split; [reflexivity|]. eauto.
    + apply (ga_cons _ [l] [] [comment_at l] ls [] cs); [|exact IH]. right. split; [reflexivity|]. eauto.
Qed.
Lemma means_noise r ms : idle ms -> r <> RGherkinDocument -> means (V r noise) ms noise_S noise_G.
Proof.
  intros Hi Hr. eapply (means_map (A := list unit)).
  - apply means_gather; [apply (means_noise1 (A := unit) r ms (fun _ subs => blanks subs)); auto | constructor | intros; now apply blanks_app].
  - intros nls a cs subs H HG. apply noise_gather in H as [-> H]. exists tt. auto.
  - intros nls [] cs H. exists []. split; [now apply noise_gather | auto].
Qed.

(** ** Title lines *)
Definition titled_line := (nline * str * str)%type.
Definition title_S (d : dialect) (k : tok) : bl titled_line := fun nls a cs =>
  nls = [fst (fst a)] /\ title_line (keywords_of d k) (snd (fst (fst a))) (snd (fst a)) (snd a) /\ cs = [].
Definition title_fields (ms : mstate) (a : titled_line) (t : token) : Prop :=
  t_location t = here (fst (fst a)) /\ t_keyword t = Some (snd (fst a)) /\ t_text t = Some (snd a) /\ t_dialect t = Some (ms_name ms).
Definition title_G (ms : mstate) (k : tok) (a : titled_line) (subs : list (key * item)) : Prop := exists t, subs = [(KTok k, ITok t)] /\ title_fields ms a t.
Lemma means_title r k ms : idle ms -> title_kind k = true -> means (V r (T k)) ms (title_S (ms_dialect ms) k) (title_G ms k).
Proof.
  intros Hi Hk. apply means_tok; [exact Hi | destruct k; discriminate| |].
  - intros n x ms' t Hx H. apply lex_title in H as [-> [kw [name [H ->]]]]; [|exact Hk|apply Hi|exact Hx]. split; [reflexivity|]. exists ((n, x), kw, name).
    assert (E : tok_eqb k TkComment = false) by (destruct k; try reflexivity; discriminate). unfold tok_com, tok_sub. rewrite E. split; [split; [reflexivity|]; split; [exact H | reflexivity]|].
    eexists. split; [reflexivity|]. split; [now apply title_token_loc|]. split; [reflexivity|]. split; [|reflexivity]. destruct H as [_ [rest [_ ->]]]. apply title_token_text.
  - intros nls [[[n x] kw] name] cs Hn [-> [H ->]]. cbn in *. apply Forall_inv in Hn. cbn in Hn.
    assert (E : tok_eqb k TkComment = false) by (destruct k; try reflexivity; discriminate). unfold tok_com, tok_sub. rewrite E.
    exists n, x. eexists. split; [reflexivity|]. split; [apply lex_title; [exact Hk | apply Hi | exact Hn|]; split; [reflexivity|]; exists kw, name; split; [exact H | reflexivity]|]. split; [reflexivity|].
    eexists. split; [reflexivity|]. split; [now apply title_token_loc|]. split; [reflexivity|]. split; [|reflexivity]. destruct H as [_ [rest [_ ->]]]. apply title_token_text.
Qed.
Definition step_S (d : dialect) : bl titled_line := fun nls a cs => nls = [fst (fst a)] /\ step_line d (snd (fst (fst a))) (snd (fst a)) (snd a) /\ cs = [].
Definition step_fields (ms : mstate) (a : titled_line) (t : token) : Prop :=
  t_location t = here (fst (fst a)) /\ t_keyword t = Some (snd (fst a)) /\ t_text t = Some (snd a) /\ t_ktype t = Some (step_type (ms_dialect ms) (snd (fst a))).
Definition step_G (ms : mstate) (a : titled_line) (subs : list (key * item)) : Prop := exists t, subs = [(KTok TkStepLine, ITok t)] /\ step_fields ms a t.
Lemma means_step_line r ms : idle ms -> means (V r (T TkStepLine)) ms (step_S (ms_dialect ms)) (step_G ms).
Proof.
  intros Hi. apply means_tok; [exact Hi | discriminate| |].
  - intros n x ms' t Hx H. apply lex_step in H as [-> [kw [text [H ->]]]]; [|exact Hx]. split; [reflexivity|]. exists ((n, x), kw, text).
    split; [split; [reflexivity|]; split; [exact H | reflexivity]|]. eexists. split; [reflexivity|]. split; [now apply step_token_loc|]. split; [reflexivity|].
    split; [|apply step_token_type, Hi]. destruct H as [b [a [rest [_ [_ [_ ->]]]]]]. apply step_token_text.
  - intros nls [[[n x] kw] text] cs Hn [-> [H ->]]. cbn in *. apply Forall_inv in Hn. cbn in Hn.
    exists n, x. eexists. split; [reflexivity|]. split; [apply lex_step; [exact Hn|]; split; [reflexivity|]; exists kw, text; split; [exact H | reflexivity]|]. split; [reflexivity|].
    eexists. split; [reflexivity|]. split; [now apply step_token_loc|]. split; [reflexivity|].
    split; [|apply step_token_type, Hi]. destruct H as [b [a [rest [_ [_ [_ ->]]]]]]. apply step_token_text.
Qed.

(** ** Tags *)
Definition tags_of (t : token) : list tag := map (fun i => mkTag 0 (get_location t (i_column i)) (i_text i)) (t_items t).
Definition tags_G (tags : list tag) (subs : list (key * item)) : Prop := flat_map tags_of (get_tokens (mkNode RTags subs) TkTagLine) = tags.
Definition one_tags : bl (list tag) := fun nls tags cs => cs = [] /\ exists l, nls = [l] /\ tags_at_line l tags.
Lemma get_tokens_app r a b k : get_tokens (mkNode r (a ++ b)) k = get_tokens (mkNode r a) k ++ get_tokens (mkNode r b) k.
Proof. unfold get_tokens. now rewrite get_items_app, flat_map_app. Qed.
Lemma tags_G_app a b s1 s2 : tags_G a s1 -> tags_G b s2 -> tags_G (a ++ b) (s1 ++ s2).
Proof. unfold tags_G. intros <- <-. now rewrite get_tokens_app, flat_map_app. Qed.
Lemma tags_G_blanks bs : blanks bs -> tags_G [] bs.
Proof. intros H. unfold tags_G, get_tokens. now rewrite gi_blanks. Qed.
Lemma means_tagline r ms : idle ms -> means (V r (T TkTagLine)) ms one_tags tags_G.
Proof.
  intros Hi. assert (Q : forall n x items, tags_line x items -> tags_of (items_token ms (n, x) TkTagLine items) = map (fun i => mkTag 0 (at_col (n, x) (i_column i)) (i_text i)) items).
  { intros n x items H. apply tags_line_cols in H. unfold tags_of. change (t_items _) with items. apply map_ext_in. intros i Hin. rewrite Forall_forall in H.
    now rewrite items_token_col by now apply H. }
  apply means_tok; [exact Hi | discriminate| |].
  - intros n x ms' t Hx H. apply lex_tags in H as [-> [items [H ->]]]; [|exact Hx]. split; [reflexivity|]. eexists. split; [|reflexivity].
    split; [reflexivity|]. exists (n, x). split; [reflexivity|]. exists items. split; [exact H|]. unfold tags_G. cbn [tok_sub tok_eqb]. unfold get_tokens, get_items. cbn -[tags_of items_token]. rewrite app_nil_r. now apply Q.
  - intros nls tags cs Hn [-> [[n x] [-> [items [H ->]]]]]. apply Forall_inv in Hn. cbn in *.
    exists n, x. eexists. split; [reflexivity|]. split; [apply lex_tags; [exact Hn|]; split; [reflexivity|]; exists items; split; [exact H | reflexivity]|]. split; [reflexivity|].
    unfold tags_G, get_tokens, get_items. cbn -[tags_of items_token at_col]. rewrite app_nil_r. now apply Q.
Qed.
Lemma tag_lines_gather nls tags cs : gather (fun n a c => one_tags n a c \/ one_noise n a c) nls tags cs <-> tag_lines nls tags cs.
Proof.
  split.
  - induction 1 as [|n1 a c1 n2 b c2 H1 H2 IH]; [constructor|]. destruct H1 as [[-> [l [-> H]]]|[[-> [-> [l [-> H]]]]|[-> [l [-> [H ->]]]]]]; cbn [app].
    + now apply tg_tags. + now apply tg_blank. + now apply tg_comment.
  - induction 1 as [|l ls tags tags' cs H H0 IH|l ls tags cs H H0 IH|l ls tags cs H H0 IH]; [constructor| | |].
    + apply (ga_cons _ [l] tags [] ls tags' cs); [|exact IH]. left. split; [reflexivity|]. eauto.
    + apply (ga_cons _ [l] [] [] ls tags cs); [|exact IH]. right. left. split; [reflexivity|]. split; [reflexivity|]. eauto.
    + apply (ga_cons _ [l] [] [comment_at l] ls tags cs); [|exact IH]. right. right. split; [reflexivity|]. eauto.
Qed.
(** the node of tag lines *)
Definition tags_S : bl (list tag) := fun nls tags cs => exists l ls' tags1 tags2, nls = l :: ls' /\ tags_at_line l tags1 /\ tag_lines ls' tags2 cs /\ tags = tags1 ++ tags2.
Definition tags_node_G (tags : list tag) (subs : list (key * item)) : Prop := exists s, subs = [(KRule RTags, INode RTags s)] /\ tags_G tags s.
Lemma means_tags p ms : idle ms -> means (V p (R RTags)) ms tags_S tags_node_G.
Proof.
  intros Hi. pose (S := cat_S one_tags (gather (fun n a c => one_tags n a c \/ one_noise n a c))).
  assert (H : means (V RTags (prod RTags)) ms S (cat_G tags_G tags_G)).
  { cbn [prod]. apply means_cat; [now apply means_tagline|]. apply means_gather; [|apply tags_G_blanks; constructor | intros; now apply tags_G_app].
    apply means_alt; [now apply means_tagline|]. apply means_noise1; [exact Hi | discriminate | apply tags_G_blanks]. }
  destruct H as [F B]. split.
  - intros nls ms' subs cs H. apply V_node in H. apply N_normal in H as [s [Hv Hf]]; [|reflexivity]. destruct (F _ _ _ _ Hv) as [-> [[t1 t2] [Ha [s1 [s2 [-> [G1 G2]]]]]]]. split; [reflexivity|].
    exists (t1 ++ t2). destruct Ha as [n1 [n2 [c1 [c2 [-> [-> [[-> [l [-> H1]]] H2]]]]]]]. split.
    + exists l, n2, t1, t2. split; [reflexivity|]. split; [exact H1|]. split; [now apply tag_lines_gather | reflexivity].
    + exists (s1 ++ s2). split; [|now apply tags_G_app]. unfold finish0 in Hf. cbn [transform_node n_rule n_subs fst no_id_res] in Hf. rewrite no_id_node, (V_erased _ _ _ _ _ _ _ Hv) in Hf. now injection Hf as <-.
  - intros nls tags cs Hn [l [ls' [t1 [t2 [-> [H1 [H2 ->]]]]]]]. destruct (B (l :: ls') (t1, t2) cs Hn) as [s [Hv Hg]].
    { exists [l], ls', [], cs. split; [reflexivity|]. split; [reflexivity|]. split; [split; [reflexivity|]; eauto | now apply tag_lines_gather]. }
    exists [(KRule RTags, INode RTags s)]. split.
    + apply V_node. apply N_normal; [reflexivity|]. exists s. split; [exact Hv|]. unfold finish0. cbn [transform_node n_rule n_subs fst no_id_res]. now rewrite no_id_node, (V_erased _ _ _ _ _ _ _ Hv).
    + exists s. split; [reflexivity|]. destruct Hg as [s1 [s2 [-> [G1 G2]]]]. now apply tags_G_app.
Qed.
(** perhaps tags *)
Definition tags_opt_G (tags : list tag) (subs : list (key * item)) : Prop :=
  (forall r id, map no_id_tag (fst (get_tags (mkNode r subs) id)) = tags) /\ Forall (fun p => fst p = KRule RTags) subs.
Lemma means_tags_opt p ms : idle ms -> means (V p (gopt (R RTags))) ms tags_block tags_opt_G.
Proof.
  intros Hi. eapply (means_map (A := option (list tag))); [exact (means_opt _ _ _ _ _ (means_tags p ms Hi))| |].
  - intros nls [tags|] cs subs H G.
    + exists tags. split; [right; exact H|]. destruct G as [s [-> G]]. split; [|repeat constructor]. intros r id. unfold get_tags. cbn -[get_tokens tags_of_tokens]. rewrite tags_tokens_0. exact G.
    + cbn in H. destruct H as [-> ->]. cbn in G. subst. exists []. split; [left; auto|]. split; [reflexivity | constructor].
  - intros nls tags cs [[-> [-> ->]]|H].
    + exists None. split; [split; reflexivity|]. intros subs G. cbn in G. subst. split; [reflexivity | constructor].
    + exists (Some tags). split; [exact H|]. intros subs [s [-> G]]. split; [|repeat constructor]. intros r id. unfold get_tags. cbn -[get_tokens tags_of_tokens]. rewrite tags_tokens_0. exact G.
Qed.

(** ** Tables *)
Definition row_of (t : token) : row := mkRow 0 (t_location t) (get_cells t).
Definition rows_G (rs : list row) (subs : list (key * item)) : Prop := map row_of (get_tokens (mkNode RNone subs) TkTableRow) = rs.
Definition one_row : bl (list row) := fun nls rs cs => cs = [] /\ exists l r, nls = [l] /\ row_at_line l r /\ rs = [r].
Lemma rows_G_app a b s1 s2 : rows_G a s1 -> rows_G b s2 -> rows_G (a ++ b) (s1 ++ s2).
Proof. unfold rows_G. intros <- <-. now rewrite get_tokens_app, map_app. Qed.
Lemma rows_G_blanks bs : blanks bs -> rows_G [] bs.
Proof. intros H. unfold rows_G, get_tokens. now rewrite gi_blanks. Qed.
Lemma means_row r ms : idle ms -> means (V r (T TkTableRow)) ms one_row rows_G.
Proof.
  intros Hi. assert (Q : forall n x items, x <> [] -> row_line x items -> row_of (items_token ms (n, x) TkTableRow items) = mkRow 0 (here (n, x)) (map (fun i => mkCell (at_col (n, x) (i_column i)) (i_text i)) items)).
  { intros n x items Hx H. apply row_line_cols in H. unfold row_of. f_equal; [now apply items_token_loc|]. unfold get_cells. change (t_items _) with items. apply map_ext_in. intros i Hin. rewrite Forall_forall in H.
    now rewrite items_token_col by now apply H. }
  apply means_tok; [exact Hi | discriminate| |].
  - intros n x ms' t Hx H. apply lex_row in H as [-> [items [H ->]]]; [|exact Hx]. split; [reflexivity|]. eexists. split; [|reflexivity].
    split; [reflexivity|]. exists (n, x). eexists. split; [reflexivity|]. split; [exists items; split; [exact H | reflexivity]|]. unfold rows_G. cbn [tok_sub tok_eqb]. unfold get_tokens, get_items. cbn -[row_of items_token]. f_equal. now apply Q.
  - intros nls rs cs Hn [-> [[n x] [r0 [-> [[items [H ->]] ->]]]]]. apply Forall_inv in Hn. cbn in *.
    exists n, x. eexists. split; [reflexivity|]. split; [apply lex_row; [exact Hn|]; split; [reflexivity|]; exists items; split; [exact H | reflexivity]|]. split; [reflexivity|].
    unfold rows_G, get_tokens, get_items. cbn -[row_of items_token at_col here]. f_equal. now apply Q.
Qed.
Lemma row_lines_gather nls rs cs : gather (fun n a c => one_row n a c \/ one_noise n a c) nls rs cs <-> row_lines nls rs cs.
Proof.
  split.
  - induction 1 as [|n1 a c1 n2 b c2 H1 H2 IH]; [constructor|]. destruct H1 as [[-> [l [r [-> [H ->]]]]]|[[-> [-> [l [-> H]]]]|[-> [l [-> [H ->]]]]]]; cbn [app].
    + now apply rw_row. + now apply rw_blank. + now apply rw_comment.
  - induction 1 as [|l ls r rs cs H H0 IH|l ls rs cs H H0 IH|l ls rs cs H H0 IH]; [constructor| | |].
    + apply (ga_cons _ [l] [r] [] ls rs cs); [|exact IH]. left. split; [reflexivity|]. eauto.
    + apply (ga_cons _ [l] [] [] ls rs cs); [|exact IH]. right. left. split; [reflexivity|]. split; [reflexivity|]. eauto.
    + apply (ga_cons _ [l] [] [comment_at l] ls rs cs); [|exact IH]. right. right. split; [reflexivity|]. eauto.
Qed.
Lemma means_rows r ms : idle ms -> r <> RGherkinDocument -> means (V r rows) ms rows_block rows_G.
Proof.
  intros Hi Hr. apply (means_map (V r rows) ms (cat_S one_row (gather (fun n a c => one_row n a c \/ one_noise n a c))) (cat_G rows_G rows_G)).
  - unfold rows. apply means_cat; [now apply means_row|]. apply means_gather; [|apply rows_G_blanks; constructor | intros a b s1 s2; apply rows_G_app].
    apply means_alt; [now apply means_row|]. apply means_noise1; [exact Hi | exact Hr | apply rows_G_blanks].
  - intros nls [a b] cs subs [n1 [n2 [c1 [c2 [-> [-> [[-> [l [r0 [-> [H1 Ea]]]]] H2]]]]]]] [s1 [s2 [-> [G1 G2]]]]. cbn in *. subst a. exists (r0 :: b). split.
    + exists l, n2, r0, b. split; [reflexivity|]. split; [exact H1|]. split; [now apply row_lines_gather | reflexivity].
    + exact (rows_G_app _ _ _ _ G1 G2).
  - intros nls rs cs [l [ls' [r0 [rs' [-> [H1 [H2 ->]]]]]]]. exists ([r0], rs'). split.
    + exists [l], ls', [], cs. split; [reflexivity|]. split; [reflexivity|]. split; [split; [reflexivity|]; eauto | now apply row_lines_gather].
    + intros subs [s1 [s2 [-> [G1 G2]]]]. exact (rows_G_app _ _ _ _ G1 G2).
Qed.
Lemma cell_count_ok rows : ensure_cell_count rows = Ok tt <-> rectangular rows.
Proof.
  unfold ensure_cell_count, rectangular. destruct rows as [|r0 rows]; [split; [intros _ r1 r2 [] | reflexivity]|].
  destruct (find _ (r0 :: rows)) as [r|] eqn:E.
  - split; [discriminate|]. intros H. apply find_some in E as [E1 E2]. rewrite (H r r0 E1 ltac:(now left)), Nat.eqb_refl in E2. discriminate.
  - split; [|reflexivity]. intros _ r1 r2 H1 H2. pose proof (find_none _ _ E) as F. cbn beta in F.
    apply F in H1, H2. apply negb_false_iff in H1, H2. apply Nat.eqb_eq in H1, H2. congruence.
Qed.
Lemma table_rows_0 r s rs : rows_G rs s -> get_table_rows (mkNode r s) 0 = (rbind (ensure_cell_count rs) (fun _ => Ok (fst (rows_of_tokens (get_tokens (mkNode RNone s) TkTableRow) 0))), snd (rows_of_tokens (get_tokens (mkNode RNone s) TkTableRow) 0))
  /\ map no_id_row (fst (rows_of_tokens (get_tokens (mkNode RNone s) TkTableRow) 0)) = rs.
Proof.
  unfold rows_G. intros H. unfold get_table_rows. change (get_tokens (mkNode r s) TkTableRow) with (get_tokens (mkNode RNone s) TkTableRow).
  pose proof (rows_tokens_0 (get_tokens (mkNode RNone s) TkTableRow) 0) as E. destruct (rows_of_tokens _ 0) as [l id]. cbn [fst snd] in *.
  assert (E' : map no_id_row l = rs) by (rewrite E; exact H). split; [|exact E']. rewrite <- E', cell_count_no. reflexivity.
Qed.
(** the rows below an Examples line *)
Lemma means_examples_table p ms : idle ms -> means (V p (R RExamplesTable)) ms table_block (node_G RExamplesTable IRows).
Proof.
  intros Hi. eapply means_node; [reflexivity | apply (means_rows RExamplesTable ms Hi ltac:(discriminate))| |].
  - intros nls rs cs s subs H G He Hf. destruct (table_rows_0 RExamplesTable s rs G) as [E1 E2]. unfold finish0 in Hf. cbn [transform_node n_rule] in Hf. rewrite E1 in Hf.
    destruct (ensure_cell_count rs) as [[]|e] eqn:E; cbn [rbind fst no_id_res no_id_item] in Hf.
    + rewrite E2 in Hf. injection Hf as <-. exists rs. split; [|reflexivity]. split; [exact H | now apply cell_count_ok].
    + exfalso. unfold ensure_cell_count in E. destruct rs; [discriminate|]. destruct (find _ _); [|discriminate]. injection E as <-. discriminate Hf.
  - intros nls rs cs [H Hr]. exists rs. split; [exact H|]. intros s G He. destruct (table_rows_0 RExamplesTable s rs G) as [E1 E2]. unfold finish0. cbn [transform_node n_rule]. rewrite E1.
    apply cell_count_ok in Hr. rewrite Hr. cbn [rbind fst no_id_res no_id_item]. now rewrite E2.
Qed.
(** a table below a step *)
Definition datatable_S : bl datatable := fun nls t cs => exists l ls' rows, nls = l :: ls' /\ table_block nls rows cs /\ t = mkTable (here l) rows.
Lemma means_datatable p ms : idle ms -> means (V p (R RDataTable)) ms datatable_S (node_G RDataTable ITable).
Proof.
  intros Hi.
  assert (Hd : forall nls rs cs s, rows_block nls rs cs -> rows_G rs s -> match ensure_cell_count rs with Ok _ => finish0 RDataTable (s, []) = ([(KRule RDataTable, ITable (mkTable (match nls with l :: _ => here l | [] => mkLoc 0 None end) rs))], []) | Err e => snd (finish0 RDataTable (s, [])) <> [] end).
  { intros nls rs cs s [l [ls' [r [rs' [-> [H1 [H2 ->]]]]]]] G. destruct (table_rows_0 RDataTable s _ G) as [E1 E2]. unfold finish0. cbn [transform_node n_rule]. rewrite E1.
    destruct (ensure_cell_count (r :: rs')) as [[]|e] eqn:E; cbn [rbind fst no_id_res no_id_item].
    - destruct (fst (rows_of_tokens _ 0)) as [|a rows] eqn:Er; [discriminate E2|]. cbn [fst no_id_res no_id_item]. unfold no_id_table. cbn [dt_rows dt_loc]. rewrite E2.
      cbn in E2. injection E2 as E3 E4. destruct H1 as [items [_ ->]]. now injection E3 as -> _.
    - unfold ensure_cell_count in E. destruct (find _ _); [|discriminate]. injection E as <-. cbn. discriminate. }
  eapply means_node; [reflexivity | apply (means_rows RDataTable ms Hi ltac:(discriminate))| |].
  - intros nls rs cs s subs H G He Hf. specialize (Hd nls rs cs s H G). destruct (ensure_cell_count rs) as [[]|e] eqn:E.
    + rewrite Hf in Hd. injection Hd as ->. pose proof H as [l [ls' [r [rs' [-> [H1 [H2 ->]]]]]]]. eexists. split; [|reflexivity]. exists l, ls', (r :: rs'). split; [reflexivity|]. split; [|reflexivity]. split; [exact H | now apply cell_count_ok].
    + rewrite Hf in Hd. now elim Hd.
  - intros nls t cs [l [ls' [rs [-> [[H Hr] ->]]]]]. exists rs. split; [exact H|]. intros s G He. specialize (Hd _ rs cs s H G). apply cell_count_ok in Hr. rewrite Hr in Hd. exact Hd.
Qed.
