(** * Ragged tables: from the lines to the errors *)
From Verif Require Import PyStr PyStrFacts Types Regex Line DialectData Matcher Ast ParserTable Parser Classify Table Scan Grammar Deriv Cert LineSpec RowIff StepFacts Cst Report Eval LangSpec LangFacts Complete DocSpec Erase Den LineIff Means Layout DocRun RaggedSpec Repair RowSwap Tabs.

(** ** Rectangular tables *)
Definition rects : list (list row) -> Prop := Forall rectangular.
Definition straight {A} (P Q : list nline -> A -> list comment -> Prop) (f : A -> list (list row)) : Prop := forall ls x cs, P ls x cs -> rects (f x) -> Q ls x cs.
Lemma straight_blocks {A} (P Q : list nline -> A -> list comment -> Prop) f : straight P Q f -> straight (blocks P) (blocks Q) (flat_map f).
Proof.
  intros H ls xs cs B. induction B as [|ls1 ls2 x xs c1 c2 B1 B2 IH]; intros R; [constructor|]. cbn [flat_map] in R. apply Forall_app in R as [R1 R2]. constructor; auto.
Qed.
Lemma straight_step d : straight (step_with rows_block d) (step_block d) step_tabs.
Proof.
  intros ls x cs [l [noise [arg [kw [text [a [cs1 [cs2 [-> [Hl [Hn [Ha [-> ->]]]]]]]]]]]]] R. exists l, noise, arg, kw, text, a, cs1, cs2. repeat (split; [solve [auto]|]). split; [|auto].
  destruct Ha as [?|[[l0 [ls' [rows [-> [Ht ->]]]]]|?]]; [now left | | now right; right]. right. left. exists l0, ls', rows. split; [reflexivity|]. split; [|reflexivity]. split; [exact Ht|]. exact (Forall_inv R).
Qed.
Lemma straight_background d : straight (maybe (background_with rows_block d)) (maybe (background_block d)) background_tabs.
Proof.
  intros ls [x|] cs H R; [|exact H]. destruct H as [l [dl [sl [kw [name [desc [steps [cs1 [cs2 [-> [Ht [Hd [Hs [-> ->]]]]]]]]]]]]]].
  exists l, dl, sl, kw, name, desc, steps, cs1, cs2. repeat (split; [solve [auto]|]). split; [|auto]. exact (straight_blocks _ _ _ (straight_step d) _ _ _ Hs R).
Qed.
Lemma straight_examples d : straight (examples_with rows_block d) (examples_block d) examples_tabs.
Proof.
  intros ls x cs [tl [l [dl [rl [tags [kw [name [desc [rows [cs0 [cs1 [cs2 [-> [Htg [Ht [Hd [Hr [-> ->]]]]]]]]]]]]]]]]]] R.
  exists tl, l, dl, rl, tags, kw, name, desc, rows, cs0, cs1, cs2. repeat (split; [solve [auto]|]). split; [|auto]. destruct rows as [rows|]; [|exact Hr]. split; [exact Hr|].
  destruct rows as [|h b]; [destruct Hr as [? [? [? [? [_ [_ [_ Hr]]]]]]]; discriminate Hr|]. exact (Forall_inv R).
Qed.
Lemma straight_scenario d : straight (scenario_with rows_block d) (scenario_block d) scenario_tabs.
Proof.
  intros ls x cs [tl [l [dl [sl [el [tags [kw [name [desc [steps [exs [cs0 [cs1 [cs2 [cs3 [-> [Htg [Ht [Hd [Hs [He [-> ->]]]]]]]]]]]]]]]]]]]]]] R. apply Forall_app in R as [R1 R2].
  exists tl, l, dl, sl, el, tags, kw, name, desc, steps, exs, cs0, cs1, cs2, cs3. repeat (split; [solve [auto]|]).
  split; [exact (straight_blocks _ _ _ (straight_step d) _ _ _ Hs R1)|]. split; [exact (straight_blocks _ _ _ (straight_examples d) _ _ _ He R2) | auto].
Qed.
Lemma straight_rule d : straight (rule_with rows_block d) (rule_block d) rule_tabs.
Proof.
  intros ls x cs [tl [l [dl [bl [sl [tags [kw [name [desc [bg [scs [cs0 [cs1 [cs2 [cs3 [-> [Htg [Ht [Hd [Hb [Hs [-> ->]]]]]]]]]]]]]]]]]]]]]] R. apply Forall_app in R as [R1 R2].
  exists tl, l, dl, bl, sl, tags, kw, name, desc, bg, scs, cs0, cs1, cs2, cs3. repeat (split; [solve [auto]|]).
  split; [exact (straight_background d _ _ _ Hb R1)|]. split; [exact (straight_blocks _ _ _ (straight_scenario d) _ _ _ Hs R2) | auto].
Qed.
Lemma straight_feature d lang : straight (feature_with rows_block d lang) (feature_block d lang) feature_tabs.
Proof.
  intros ls x cs [tl [l [dl [bl [sl [rl [tags [kw [name [desc [bg [scs [rus [cs0 [cs1 [cs2 [cs3 [cs4 [-> [Htg [Ht [Hd [Hb [Hs [Hr [-> ->]]]]]]]]]]]]]]]]]]]]]]]]]] R. apply Forall_app in R as [R1 R2]. apply Forall_app in R2 as [R2 R3].
  exists tl, l, dl, bl, sl, rl, tags, kw, name, desc, bg, scs, rus, cs0, cs1, cs2, cs3, cs4. repeat (split; [solve [auto]|]).
  split; [exact (straight_background d _ _ _ Hb R1)|]. split; [exact (straight_blocks _ _ _ (straight_scenario d) _ _ _ Hs R2)|]. split; [exact (straight_blocks _ _ _ (straight_rule d) _ _ _ Hr R3) | auto].
Qed.
Theorem straight_document lang ls doc : stands_with rows_block lang ls doc -> Forall rectangular (document_tabs doc) -> stands_for lang ls doc.
Proof.
  intros [?|[Q|Q]] R; [now left|destruct Q as [pre [fl [d [f [cs0 [cs1 [-> [P [D [F ->]]]]]]]]]]|destruct Q as [pre [h [mid [fl [name [d [f [cs0 [cs1 [cs2 [-> [P [L1 [L2 [L3 [F ->]]]]]]]]]]]]]]]]].
  - right. left. exists pre, fl, d, f, cs0, cs1. repeat (split; [solve [auto]|]). split; [exact (straight_feature _ _ _ _ _ F R) | auto].
  - right. right. exists pre, h, mid, fl, name, d, f, cs0, cs1, cs2. repeat (split; [solve [auto]|]). split; [exact (straight_feature _ _ _ _ _ F R) | auto].
Qed.

(** ** The errors of the tables *)
Lemma table_err_cases rows : rows <> [] -> (table_err rows = [] /\ rectangular rows) \/ (exists r, first_odd rows r /\ table_err rows = [row_error r]).
Proof.
  destruct rows as [|r0 rows]; [congruence|]. intros _. unfold table_err, ensure_cell_count. destruct (find _ (r0 :: rows)) as [r|] eqn:E.
  - right. exists r. split; [|reflexivity]. cbn [find] in E. rewrite Nat.eqb_refl in E. cbn [negb] in E.
    assert (Q : exists before after, rows = before ++ r :: after /\ Forall (fun r' => length (row_cells r') = length (row_cells r0)) before /\ length (row_cells r) <> length (row_cells r0)).
    { induction rows as [|a rows IH]; [discriminate|]. cbn [find] in E. destruct (Nat.eqb (length (row_cells a)) (length (row_cells r0))) eqn:Ea; cbn [negb] in E.
      - destruct (IH E) as [b [c [-> [F N]]]]. exists (a :: b), c. split; [reflexivity|]. split; [constructor; [now apply Nat.eqb_eq | exact F] | exact N].
      - injection E as ->. exists [], rows. split; [reflexivity|]. split; [constructor | now apply Nat.eqb_neq]. }
    destruct Q as [b [c [-> [F N]]]]. exists r0, b, c. auto.
  - left. split; [reflexivity|]. assert (Q : forall r, In r (r0 :: rows) -> length (row_cells r) = length (row_cells r0)).
    { intros r Hr. pose proof (find_none _ _ E r Hr) as N. cbn in N. apply negb_false_iff in N. now apply Nat.eqb_eq. }
    intros r1 r2 H1 H2. now rewrite (Q r1 H1), (Q r2 H2).
Qed.
Lemma tables_errors ts : Forall (fun t => t <> []) ts -> table_errors ts (flat_map table_err ts).
Proof.
  induction 1 as [|t ts Ht H IH]; [constructor|]. cbn [flat_map]. destruct (table_err_cases t Ht) as [[-> R]|[r [R ->]]]; now constructor.
Qed.
Lemma rects_errors ts es : table_errors ts es -> es = [] -> Forall rectangular ts.
Proof. induction 1 as [|t ts es R H IH|]; intros E; [constructor | constructor; auto | discriminate]. Qed.
Lemma NoDup_app_split {A} (a b : list A) : NoDup (a ++ b) -> NoDup a /\ NoDup b /\ (forall x, In x a -> ~ In x b).
Proof.
  induction a as [|x a IH]; cbn; intros H; [repeat split; auto; constructor|]. inversion H as [|? ? N D]; subst. destruct (IH D) as [H1 [H2 H3]]. split; [constructor; [intros C; apply N, in_or_app; auto | exact H1]|].
  split; [exact H2|]. intros y [->|Hy]; [intros C; apply N, in_or_app; auto | auto].
Qed.
Lemma NoDup_app_join {A} (a b : list A) : NoDup a -> NoDup b -> (forall x, In x a -> ~ In x b) -> NoDup (a ++ b).
Proof.
  induction 1 as [|x a N D IH]; cbn; intros H2 H3; [exact H2|]. constructor; [intros C; apply in_app_or in C as [C|C]; [auto | eapply H3; eauto; now left]|]. apply IH; [exact H2 | intros y Hy; apply H3; now right].
Qed.
Definition err_line (e : perr) : nat := l_line (pe_loc e).
Lemma errors_lines ts es : table_errors ts es -> NoDup (concat (tab_lines ts)) -> NoDup (map err_line es) /\ incl (map err_line es) (concat (tab_lines ts)).
Proof.
  induction 1 as [|t ts es R H IH|t ts r es R H IH]; intros N; [split; [constructor | intros x []]| |]; cbn [tab_lines map concat] in N |- *; apply NoDup_app_split in N as [N1 [N2 N3]]; destruct (IH N2) as [I1 I2].
  - split; [exact I1|]. intros x Hx. apply in_or_app. right. auto.
  - assert (Hr : In (lineno r) (map lineno t)) by (destruct R as [r0 [b [a [-> _]]]]; apply in_map; right; apply in_elt).
    split; [constructor; [|exact I1]|].
    + intros C. apply I2 in C. exact (N3 _ Hr C).
    + intros x [<-|Hx]; apply in_or_app; [now left | right; auto].
Qed.

(** ** Messages *)
Lemma digits_go_digits fuel : forall n acc, Forall (fun c => 48 <= c < 58)%N acc -> Forall (fun c => 48 <= c < 58)%N (digits_go fuel n acc).
Proof.
  induction fuel as [|f IH]; intros n acc H; [exact H|]. cbn [digits_go]. assert (Q : Forall (fun c => 48 <= c < 58)%N ((48 + N.modulo n 10)%N :: acc)).
  { constructor; [|exact H]. pose proof (N.mod_upper_bound n 10). lia. }
  destruct (n <? 10)%N; auto.
Qed.
Lemma str_of_nat_digits n : Forall (fun c => 48 <= c < 58)%N (str_of_nat n).
Proof. apply digits_go_digits. constructor. Qed.
Lemma upto_colon (a b x y : str) : Forall (fun c => 48 <= c < 58)%N a -> Forall (fun c => 48 <= c < 58)%N b -> a ++ 58%N :: x = b ++ 58%N :: y -> a = b.
Proof.
  revert b. induction a as [|c a IH]; intros [|c' b] Ha Hb E; cbn in E.
  - reflexivity.
  - injection E as E _. apply Forall_inv in Hb. lia.
  - injection E as E _. apply Forall_inv in Ha. lia.
  - injection E as -> E. f_equal. inversion Ha; subst. inversion Hb; subst. eapply IH; eauto.
Qed.
Lemma row_error_inj r1 r2 : pe_msg (row_error r1) = pe_msg (row_error r2) -> lineno r1 = lineno r2.
Proof.
  unfold row_error. cbn [pe_msg]. intros E. apply app_inv_head in E. apply upto_colon in E; try apply str_of_nat_digits. now apply str_of_nat_inj.
Qed.
Lemma errors_rows ts es : table_errors ts es -> Forall (fun e => exists r, e = row_error r) es.
Proof. induction 1; [constructor | assumption | constructor; eauto]. Qed.
Lemma table_settled ts es : table_errors ts es -> Forall (fun e => settled e = e) es.
Proof. intros T. eapply Forall_impl; [|exact (errors_rows _ _ T)]. intros e [r ->]. reflexivity. Qed.
Lemma errors_distinct ts es : table_errors ts es -> NoDup (concat (tab_lines ts)) -> distinct_msgs es.
Proof.
  intros T N. destruct (errors_lines _ _ T N) as [D _]. apply errors_rows in T. unfold distinct_msgs. clear N. induction es as [|e es IH]; [constructor|]. inversion T as [|? ? [r ->] T']; subst. cbn [map] in *. inversion D as [|? ? D1 D2]; subst.
  constructor; [|auto]. intros C. apply D1. apply in_map_iff in C as [e [E He]]. rewrite Forall_forall in T'. destruct (T' e He) as [r' ->]. apply row_error_inj in E. apply in_map_iff. exists (row_error r'). split; [exact E | exact He].
Qed.
Lemma feed_distinct es : Forall (fun e => settled e = e) es -> forall errs, distinct_msgs (errs ++ es) -> length errs <= 10 -> feed es errs = (Nat.ltb 10 (length (errs ++ es)), firstn 11 (errs ++ es)).
Proof.
  induction es as [|e es IH]; intros St errs D L; cbn [feed].
  - rewrite app_nil_r. rewrite firstn_all2 by lia. f_equal. symmetry. apply Nat.ltb_ge. exact L.
  - destruct (existsb _ errs) eqn:E.
    + exfalso. apply existsb_msg in E. unfold distinct_msgs in D. rewrite map_app in D. apply NoDup_app_split in D as [_ [_ D]]. apply (D _ E). now left.
    + inversion St as [|? ? S1 S2]; subst. rewrite S1. replace (errs ++ e :: es) with ((errs ++ [e]) ++ es) in * by (rewrite <- app_assoc; reflexivity). destruct (Nat.ltb 10 (length (errs ++ [e]))) eqn:Lt.
      * apply Nat.ltb_lt in Lt. rewrite app_length in Lt. cbn in Lt. f_equal; [symmetry; apply Nat.ltb_lt; rewrite !app_length; cbn; lia|].
        rewrite firstn_app. assert (Le : length (errs ++ [e]) = 11) by (rewrite app_length; cbn; lia). rewrite Le, Nat.sub_diag, firstn_O, app_nil_r. now rewrite <- Le, firstn_all.
      * apply IH; [exact S2 | exact D | apply Nat.ltb_ge in Lt; exact Lt].
Qed.
Lemma outcome_distinct stop es : Forall (fun e => settled e = e) es -> distinct_msgs es -> outcome stop es (Ok tt) =
  match es with [] => Ok tt | e :: _ => Err (if stop then EParser e else EComposite (firstn 11 es)) end.
Proof.
  intros St D. unfold outcome. destruct stop; [destruct es; reflexivity|]. rewrite (feed_distinct es St [] D) by (cbn; lia). cbn [app].
  destruct es as [|e es]; [reflexivity|]. cbn [firstn]. destruct (Nat.ltb 10 _); reflexivity.
Qed.

(** ** The rows of a tree *)
Lemma kids_map (f : leaf -> leaf) k l : (forall a, In (Leaf a) l -> lkind (f a) = lkind a) -> kids k (map (tree_map f) l) = map f (kids k l).
Proof.
  induction l as [|t l IH]; intros H; [reflexivity|]. unfold kids in *. cbn [map flat_map]. rewrite IH by (intros a Ha; apply H; now right). rewrite map_app. f_equal.
  destruct t as [a|]; [|reflexivity]. cbn [tree_map]. rewrite (H a) by now left. now destruct (tok_eqb (lkind a) k).
Qed.
Lemma leaf_lineno p r pre a : leaf_ok p r pre a -> lineno (leaf_row a) = lf_n a.
Proof. intros [_ [ms' L] _ _ _]. apply lexm_line in L as [_ L]. unfold lineno, leaf_row. cbn [row_loc]. unfold t_location. cbn [l_line]. exact L. Qed.
Lemma relabel_rows lines : forall t p, ok_tree p t -> Forall (swapped lines) (yield t) -> tab_lines (tree_rows (tree_map (relabel lines) t)) = tab_lines (tree_rows t).
Proof.
  induction t as [a|r l IH] using tree_ind'; intros p O F; [reflexivity|]. inversion O as [|? ? M L Fo]; subst. cbn [yield] in F. cbn [tree_map tree_rows].
  assert (Sw : forall a, In (Leaf a) l -> swapped lines a) by (intros a Ha; rewrite Forall_forall in F; apply F, in_flat_map; exists (Leaf a); split; [exact Ha | now left]).
  assert (Ok2 : forall a, In (Leaf a) l -> exists pre, leaf_ok p r pre a /\ leaf_ok p r pre (relabel lines a) /\ lkind (relabel lines a) = lkind a).
  { intros a Ha. pose proof Ha as Ha'. apply in_split in Ha' as [pre [post E]]. pose proof (L _ _ _ E) as Lk. exists pre. split; [exact Lk|]. exact (relabel_ok lines p r pre pre a eq_refl (fun e => e) (Sw a Ha) Lk). }
  destruct (is_tab r).
  - cbn [tab_lines map]. f_equal. rewrite kids_map by (intros a Ha; destruct (Ok2 a Ha) as [? [_ [_ H]]]; exact H). rewrite !map_map. apply map_ext_in. intros a Ha. apply in_kids in Ha as [Ha _].
    destruct (Ok2 a Ha) as [pre [H1 [H2 _]]]. rewrite (leaf_lineno _ _ _ _ H1), (leaf_lineno _ _ _ _ H2). reflexivity.
  - clear -IH Fo F. induction l as [|t l IHl]; [reflexivity|]. inversion IH as [|? ? I1 I2]; subst. inversion Fo as [|? ? F1 F2]; subst. cbn [flat_map] in F. apply Forall_app in F as [F3 F4].
    cbn [map flat_map]. rewrite !tab_lines_app. f_equal; [exact (I1 r F1 F3) | solve [apply IHl; assumption]].
Qed.
Lemma chain_line lines : forall ms n ls, lchain ms n lines ls -> Forall (fun a => lf_x a <> [] -> In (lf_n a, lf_x a) (lines_from n lines)) ls.
Proof.
  induction lines as [|x lines IH]; intros ms n ls H.
  - apply lchain_nil in H as [t [ms' [_ ->]]]. constructor; [|constructor]. cbn. congruence.
  - apply lchain_cons in H as [t [ms' [k [ls' [_ [_ [H ->]]]]]]]. constructor; [intros _; left; reflexivity|]. eapply Forall_impl; [|exact (IH _ _ _ H)]. intros a Ha Hx. right. auto.
Qed.
Lemma leaf_from_line ls p r pre a : leaf_ok p r pre a -> lkind a = TkTableRow -> (lf_x a <> [] -> In (lf_n a, lf_x a) ls) -> from_line ls (leaf_row a).
Proof.
  intros [_ [ms' L] _ _ E] K H. assert (Hx : lf_x a <> []) by (intros C; apply E in C; congruence). exists (lf_n a, lf_x a). split; [auto|].
  rewrite K in L. apply lex_row in L as [_ [items [R Et]]]; [|exact Hx]. exists items. split; [exact R|]. unfold leaf_row. rewrite Et. f_equal; [now apply items_token_loc|].
  unfold get_cells. change (t_items _) with items. apply map_ext_in. intros i Hi. apply row_line_cols in R. rewrite Forall_forall in R. now rewrite items_token_col by now apply R.
Qed.
Lemma tree_rows_from ls : forall t p, ok_tree p t -> Forall (fun a => lf_x a <> [] -> In (lf_n a, lf_x a) ls) (yield t) -> Forall (fun t => t <> [] /\ Forall (from_line ls) t) (tree_rows t).
Proof.
  induction t as [a|r l IH] using tree_ind'; intros p O F; [constructor|]. inversion O as [|? ? M L Fo]; subst. cbn [yield] in F. cbn [tree_rows]. destruct (is_tab r) eqn:T.
  - constructor; [|constructor]. split.
    + assert (Hm : must (ST TkTableRow) (prod r) = true) by (destruct r; try discriminate T; reflexivity). destruct (lsyms_in_leaf TkTableRow l (must_ok _ _ Hm _ M)) as [b Hb]. destruct (kids TkTableRow l); [destruct Hb | discriminate].
    + apply Forall_map, Forall_forall. intros a Ha. apply in_kids in Ha as [Ha K]. pose proof Ha as Ha'. apply in_split in Ha' as [pre [post E]]. eapply leaf_from_line; [exact (L _ _ _ E) | exact K|].
      rewrite Forall_forall in F. apply F, in_flat_map. exists (Leaf a). split; [exact Ha | now left].
  - clear -IH Fo F. induction l as [|t l IHl]; [constructor|]. inversion IH as [|? ? I1 I2]; subst. inversion Fo as [|? ? F1 F2]; subst. cbn [flat_map] in *. apply Forall_app in F as [F3 F4]. apply Forall_app. split; [exact (I1 r F1 F3) | solve [apply IHl; assumption]].
Qed.
Lemma from_line_fun lines r1 r2 : from_line (lines_from 0 lines) r1 -> from_line (lines_from 0 lines) r2 -> lineno r1 = lineno r2 -> r1 = r2.
Proof.
  intros [[n1 x1] [H1 [i1 [R1 ->]]]] [[n2 x2] [H2 [i2 [R2 ->]]]] E. unfold lineno, here in E. cbn in E. subst n2.
  assert (x1 = x2).
  { assert (G : forall (lines : list str) k n x y, In (n, x) (combine (seq k (length lines)) lines) -> In (n, y) (combine (seq k (length lines)) lines) -> x = y).
    { induction lines0 as [|z lines0 IH]; intros k n x y; cbn [length seq combine]; [intros []|]. assert (Q : forall w, In (k, w) (combine (seq (S k) (length lines0)) lines0) -> False) by (intros w Hw; apply in_combine_l, List.in_seq in Hw; lia).
      intros [Ha|Ha] [Hb|Hb]; [congruence | injection Ha as -> ->; elim (Q _ Hb) | injection Hb as -> ->; elim (Q _ Ha) | eauto]. }
    exact (G lines 1 n1 x1 x2 H1 H2). }
  subst x2. apply (table_cells_iff x1 0) in R1 as [_ R1], R2 as [_ R2]. rewrite R1 in R2. now injection R2 as <-.
Qed.
Lemma rows_fun lines ts1 : forall ts2, Forall (Forall (from_line (lines_from 0 lines))) ts1 -> Forall (Forall (from_line (lines_from 0 lines))) ts2 -> tab_lines ts1 = tab_lines ts2 -> ts1 = ts2.
Proof.
  assert (G : forall t1 t2, Forall (from_line (lines_from 0 lines)) t1 -> Forall (from_line (lines_from 0 lines)) t2 -> map lineno t1 = map lineno t2 -> t1 = t2).
  { induction t1 as [|r1 t1 IH]; intros [|r2 t2] F1 F2 E; try discriminate E; [reflexivity|]. inversion F1; subst. inversion F2; subst. cbn [map] in E. injection E as E1 E2. f_equal; [eapply from_line_fun; eauto | auto]. }
  induction ts1 as [|t1 ts1 IH]; intros [|t2 ts2] F1 F2 E; try discriminate E; [reflexivity|]. inversion F1; subst. inversion F2; subst. cbn [tab_lines map] in E. injection E as E1 E2. f_equal; auto.
Qed.
(** the lines of the rows are different *)
Lemma kids_lines k l : NoDup (map lf_n (yields l)) -> NoDup (map lf_n (kids k l)) /\ incl (map lf_n (kids k l)) (map lf_n (yields l)).
Proof.
  induction l as [|t l IH]; intros N; [split; [constructor | intros x []]|]. unfold yields, kids in *. cbn [flat_map] in *. rewrite map_app in N. apply NoDup_app_split in N as [N1 [N2 N3]]. destruct (IH N2) as [I1 I2].
  rewrite !map_app. destruct t as [a|]; [|split; [exact I1 | intros x Hx; apply in_or_app; right; auto]]. cbn [yield]. destruct (tok_eqb (lkind a) k); cbn [map app].
  - split; [constructor; [|exact I1]; intros C; apply (N3 (lf_n a)); [now left | auto]|]. intros x [Hx|Hx]; [now left | right; auto].
  - split; [exact I1 | intros x Hx; right; auto].
Qed.
Lemma rows_distinct : forall t p, ok_tree p t -> NoDup (map lf_n (yield t)) -> NoDup (concat (tab_lines (tree_rows t))) /\ incl (concat (tab_lines (tree_rows t))) (map lf_n (yield t)).
Proof.
  induction t as [a|r l IH] using tree_ind'; intros p O N; [split; [constructor | intros x []]|]. inversion O as [|? ? M L Fo]; subst. cbn [yield] in N |- *. cbn [tree_rows]. destruct (is_tab r).
  - cbn [tab_lines map concat]. rewrite app_nil_r, map_map. rewrite (map_ext_in _ lf_n); [apply kids_lines; exact N|]. intros a Ha. apply in_kids in Ha as [Ha _]. apply in_split in Ha as [pre [post E]]. exact (leaf_lineno _ _ _ _ (L _ _ _ E)).
  - clear -IH Fo N. induction l as [|t l IHl]; [split; [constructor | intros x []]|]. inversion IH as [|? ? I1 I2]; subst. inversion Fo as [|? ? F1 F2]; subst. cbn [flat_map] in *. rewrite map_app in *.
    apply NoDup_app_split in N as [N1 [N2 N3]]. destruct (I1 r F1 N1) as [A1 A2]. destruct (IHl ltac:(assumption) ltac:(assumption) ltac:(assumption)) as [B1 B2]. rewrite tab_lines_app, concat_app. split.
    + apply NoDup_app_join; auto. intros x Hx C. exact (N3 x (A2 x Hx) (B2 x C)).
    + intros x Hx. apply in_app_or in Hx as [Hx|Hx]; apply in_or_app; auto.
Qed.
Lemma chain_nodup lines : forall ms n ls, lchain ms n lines ls -> NoDup (map lf_n ls) /\ Forall (fun a => n < lf_n a) ls.
Proof.
  induction lines as [|x lines IH]; intros ms n ls H.
  - apply lchain_nil in H as [t [ms' [_ ->]]]. split; [repeat constructor; auto | repeat constructor].
  - apply lchain_cons in H as [t [ms' [k [ls' [_ [_ [H ->]]]]]]]. destruct (IH _ _ _ H) as [I1 I2]. split; [|constructor; [cbn; lia | eapply Forall_impl; [|exact I2]; cbn; intros; lia]].
    cbn [map lf_n]. constructor; [|exact I1]. intros C. apply in_map_iff in C as [a [E Ha]]. rewrite Forall_forall in I2. specialize (I2 a Ha). lia.
Qed.
