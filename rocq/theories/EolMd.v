(** * Lines that differ in their line end only: language headers and Markdown (C48) *)
From Verif Require Import PyStr PyStrFacts Types Regex RegexFacts ReSem Line DialectData Matcher LineSpec StepFacts LangSpec LangFacts MdSpec MdFacts MdRun Eol.

Lemma snoc_app {A} (a b : list A) (x y : A) (c : list A) : a ++ x :: b = c ++ [y] -> (b = [] /\ a = c /\ x = y) \/ exists b', b = b' ++ [y] /\ c = a ++ x :: b'.
Proof.
  intros E. destruct (@exists_last _ (x :: b) ltac:(discriminate)) as [b' [z Z]]. rewrite Z, app_assoc in E. apply app_inj_tail in E as [E1 E2]. subst z.
  destruct b' as [|w b']; cbn in Z; injection Z as Z1 Z2; [left; subst; rewrite app_nil_r; auto|]. right. exists b'. subst. auto.
Qed.

Lemma snoc_rest (P r y : str) c e : is_space c = false -> all_space e -> P ++ c :: r = y ++ e -> exists r0, y = P ++ c :: r0 /\ r = r0 ++ e.
Proof.
  intros C S E. apply app_eq_app in E as [l [[E1 E2]|[E1 E2]]].
  - exfalso. unfold all_space in S. rewrite E2, forallb_app in S. cbn [forallb] in S. rewrite C in S. cbn in S. rewrite andb_false_r in S. discriminate S.
  - destruct l as [|a l]; cbn in E2.
    + exfalso. unfold all_space in S. rewrite <- E2 in S. cbn [forallb] in S. rewrite C in S. discriminate S.
    + injection E2 as <- E2. exists l. auto.
Qed.

(** ** Language headers *)
Lemma language_tail w t name : all_space t -> language_line (w ++ t) name <-> language_line w name.
Proof.
  intros T. split.
  - intros [a [b [c [d [e [E [A [B [C [D [F [N1 N2]]]]]]]]]]]]. set (P := a ++ s "#" ++ b ++ s "language" ++ c ++ s ":" ++ d ++ name).
    assert (E' : w ++ t = P ++ e) by (unfold P; rewrite E; now rewrite <- !app_assoc). apply app_eq_app in E' as [l [[E1 E2]|[E1 E2]]].
    + exists a, b, c, d, l. split; [rewrite E1; unfold P; now rewrite <- !app_assoc|].
      repeat (split; [first [assumption | unfold all_space; rewrite E2 in F; unfold all_space in F; rewrite forallb_app in F; now apply andb_true_iff in F as [F _]]|]); auto.
    + destruct (list_eq_dec N.eq_dec l []) as [->|L]; [exists a, b, c, d, []; rewrite !app_nil_r in *; split; [rewrite <- E1; reflexivity|]; repeat (split; [first [assumption | reflexivity]|]); auto|].
      exfalso. destruct (exists_last L) as [l' [z ->]]. destruct (exists_last N1) as [n' [y Ny]]. unfold P in E1. rewrite Ny in E1. rewrite !app_assoc in E1. apply app_inj_tail in E1 as [_ E1]. subst y.
      rewrite Ny, forallb_app in N2. apply andb_true_iff in N2 as [_ N2]. cbn in N2. rewrite andb_true_r in N2. apply name_not_space in N2.
      unfold all_space in T. rewrite E2, !forallb_app in T. cbn in T. rewrite N2 in T. rewrite andb_true_r in T. cbn in T. rewrite !andb_false_r in T. discriminate T.
  - intros [a [b [c [d [e [E [A [B [C [D [F [N1 N2]]]]]]]]]]]]. exists a, b, c, d, (e ++ t). split; [rewrite E; now rewrite <- !app_assoc|].
    repeat (split; [first [assumption | unfold all_space in *; rewrite forallb_app, F, T; reflexivity]|]). auto.
Qed.
Lemma eol_language x x' name : eol x x' -> language_line x name <-> language_line x' name.
Proof. intros [y [e [e' [N [Q [Q' [-> [-> _]]]]]]]]. rewrite (language_tail y e) by now apply ends_space. now rewrite (language_tail y e') by now apply ends_space. Qed.

(** ** Markdown headers *)
Lemma header_tail kws y f k name col : ~ In ch_nl y -> ends f -> header_line kws (y ++ f) k name col <-> header_line kws y k name col.
Proof.
  intros N Q. split; intros [ind h c k' rest e A B C D F G E].
  - assert (X : (ind ++ repeat ch_hash h ++ [c] ++ k') ++ ch_colon :: (rest ++ e) = y ++ f) by (rewrite E; now rewrite <- !app_assoc).
    apply snoc_rest in X as [r0 [Y R]]; [| reflexivity | now apply ends_space].
    assert (S : strip rest = strip r0).
    { rewrite <- (strip_tail rest e) by (now destruct G as [->| ->]). rewrite R. apply strip_tail. now apply ends_space. }
    rewrite S. apply (header_intro kws _ ind h c k' r0 []); auto.
    + intros Hi. apply N. rewrite Y. apply in_app_iff. right. now right.
    + now left.
    + rewrite Y. rewrite app_nil_r. now rewrite <- !app_assoc.
  - assert (Z : e = []). { destruct G as [->| ->]; [reflexivity|]. exfalso. apply N. rewrite E. rewrite !in_app_iff. right. right. right. right. right. right. now left. }
    subst e. rewrite app_nil_r in E. destruct Q as [->|[->| ->]].
    + apply (header_intro kws _ ind h c k' rest []); auto; try (now left); rewrite E; now rewrite !app_nil_r.
    + apply (header_intro kws _ ind h c k' rest [ch_nl]); auto; try now right. rewrite E. now rewrite <- !app_assoc.
    + replace (strip rest) with (strip (rest ++ [ch_cr])) by (apply strip_tail; reflexivity). apply (header_intro kws _ ind h c k' (rest ++ [ch_cr]) [ch_nl]); auto; try now right.
      * intros Hi. apply in_app_iff in Hi as [Hi|[Hi|[]]]; [auto | discriminate Hi].
      * rewrite E. unfold crnl. now rewrite <- !app_assoc.
Qed.
Lemma eol_header kws x x' k name col : eol x x' -> header_line kws x k name col <-> header_line kws x' k name col.
Proof. intros [y [e [e' [N [Q [Q' [-> [-> _]]]]]]]]. now rewrite !header_tail. Qed.
Lemma eol_one_line x x' : eol x x' -> one_line x /\ one_line x'.
Proof. intros [y [e [e' [N [Q [Q' [-> [-> _]]]]]]]]. split; now apply ends_one. Qed.

(** ** Rows *)
Lemma eol_table_re x x' : eol x x' -> (match re_match md_table_re x with Some _ => true | None => false end) = (match re_match md_table_re x' with Some _ => true | None => false end).
Proof.
  intros H. assert (G : (exists st, re_match md_table_re x = Some st) <-> (exists st, re_match md_table_re x' = Some st)).
  { rewrite !table_re_iff. destruct H as [y [e [e' [N [Q [Q' [-> [-> _]]]]]]]]. split; intros [ind [rest [A [L E]]]]; exists ind;
    symmetry in E; apply snoc_rest in E as [r0 [-> _]]; try reflexivity; try (now apply ends_space); eexists; split; [exact A | split; [exact L | rewrite <- app_assoc; reflexivity] | exact A | split; [exact L | rewrite <- app_assoc; reflexivity]]. }
  destruct (re_match md_table_re x) as [st|], (re_match md_table_re x') as [st'|]; try reflexivity; exfalso; [destruct (proj1 G ltac:(eauto)) as [? X]; discriminate X | destruct (proj2 G ltac:(eauto)) as [? X]; discriminate X].
Qed.
Lemma table_re_starts x st : re_match md_table_re x = Some st -> startswith [ch_pipe] (lstrip x) = true.
Proof.
  intros H. destruct (proj1 (table_re_iff x) (ex_intro _ st H)) as [ind [rest [A [_ ->]]]]. rewrite lstrip_hard; [reflexivity | exact A | reflexivity].
Qed.

(** ** Tags *)
Lemma tag_exec_full v q : v <> [] -> ~ In ch_btick v ->
  exists l p, exec md_tag_re (mkR None ([ch_btick; ch_at] ++ v ++ [ch_btick] ++ q) []) = mkR p q [(1, ch_at :: v)] :: l.
Proof.
  intros V T. destruct v as [|c v]; [easy|]. rewrite no_tick in T. cbn [forallb] in T. apply andb_true_iff in T as [T1 T2].
  unfold md_tag_re. rewrite exec_seq, exec_char. cbn [app]. rewrite N.eqb_refl. cbn [flat_map]. rewrite app_nil_r, exec_seq, exec_grp, exec_seq, exec_char. rewrite N.eqb_refl. cbn [flat_map]. rewrite app_nil_r.
  unfold RPlus. rewrite exec_seq. cbn [exec]. unfold step1 at 2. cbn [r_rest r_caps]. rewrite tick_set, T1. cbn [flat_map]. rewrite app_nil_r.
  pose proof (exec_star_set true [CChar ch_btick] (Some c) (v ++ ch_btick :: q) []) as SS. cbn [exec r_rest] in SS. cbn [r_rest]. rewrite SS. clear SS.
  rewrite flat_map_map. rewrite star1_greedy.
  - cbn [r_rest r_prev r_caps]. rewrite (drop_while_ext (cset_has true [CChar ch_btick]) not_tick) by apply tick_set.
    rewrite drop_while_app by exact T2. change (drop_while not_tick (ch_btick :: q)) with (ch_btick :: q). rewrite exec_char, N.eqb_refl. eexists _, _. f_equal. f_equal. f_equal. f_equal.
    cbn [length]. rewrite app_length. cbn [length]. replace (S (S (length v + S (length q))) - S (length q)) with (S (S (length v))) by lia. cbn [firstn]. f_equal. f_equal.
    rewrite firstn_app, Nat.sub_diag, firstn_all. cbn. now rewrite app_nil_r.
  - intros p d z caps Hd. cbn [r_rest r_prev r_caps]. rewrite exec_char. rewrite tick_set in Hd. unfold not_tick in Hd.
    destruct (N.eqb d ch_btick); [discriminate Hd | reflexivity].
Qed.
Lemma no_tag_exec x : tag_at x = false -> exec md_tag_re (mkR None x []) = [].
Proof. intros H. destruct (exec md_tag_re (mkR None x [])) eqn:E; [reflexivity|]. assert (X : tag_at x = true) by (apply tag_exec; rewrite E; discriminate). congruence. Qed.
Lemma tag_at_tail x t : ~ In ch_btick t -> tag_at (x ++ t) = true -> tag_at x = true.
Proof.
  intros T H. rewrite tag_at_iff in *. destruct H as [v [q [V [N E]]]]. change ([ch_btick; ch_at] ++ v ++ [ch_btick] ++ q) with ((ch_btick :: ch_at :: v) ++ ch_btick :: q) in E.
  apply app_eq_app in E as [l [[E1 E2]|[E1 E2]]].
  - destruct l as [|a l]; [exfalso; apply T; cbn in E2; rewrite <- E2; now left|]. cbn in E2. injection E2 as <- E2. exists v, l. rewrite E1. auto.
  - exfalso. apply T. rewrite E2. apply in_app_iff. right. now left.
Qed.
Lemma tag_at_more x t : tag_at x = true -> tag_at (x ++ t) = true.
Proof. rewrite !tag_at_iff. intros [v [q [V [N ->]]]]. exists v, (q ++ t). repeat split; auto. now rewrite <- !app_assoc. Qed.
Lemma tags_tail t : ~ In ch_btick t -> forall w skip pos i, skip <= length w -> md_tags_go (w ++ t) pos skip i = md_tags_go w pos skip i.
Proof.
  intros T. assert (N : forall t, ~ In ch_btick t -> forall pos i, md_tags_go t pos 0 i = []).
  { clear. intros t T pos i. destruct (md_tags_go t pos 0 i) eqn:E; [reflexivity|]. assert (X : tag_in t = true) by (apply (tags_go_iff t pos i); rewrite E; discriminate).
    apply tag_in_iff in X as [p [v [q [_ [_ X]]]]]. exfalso. apply T. rewrite X. apply in_app_iff. right. now left. }
  induction w as [|c w IH]; intros skip pos i L.
  - cbn in L. replace skip with 0 by lia. cbn [app]. now apply N.
  - cbn [app md_tags_go]. destruct skip as [|k]; [|apply IH; cbn in L; lia]. change (c :: w ++ t) with ((c :: w) ++ t).
    destruct (tag_at (c :: w)) eqn:E.
    + pose proof (proj1 (tag_at_iff _) E) as [v [q [V [Nv X]]]]. destruct (tag_exec_full v q V Nv) as [l [p G]]. destruct (tag_exec_full v (q ++ t) V Nv) as [l' [p' G']].
      rewrite X. rewrite <- !app_assoc. rewrite G, G'. cbn [r_rest]. unfold group. cbn [r_caps]. f_equal.
      rewrite !app_length.
      match goal with |- md_tags_go _ _ ?a _ = md_tags_go _ _ ?b _ => replace a with b by (cbn [length]; lia) end. apply IH. cbn [length].
      assert (LX : length (c :: w) = length ([ch_btick; ch_at] ++ v ++ [ch_btick] ++ q)) by now rewrite X. rewrite !app_length in LX. cbn [length] in LX. lia.
    + rewrite (no_tag_exec (c :: w)) by exact E. rewrite (no_tag_exec ((c :: w) ++ t)); [apply IH; lia|].
      destruct (tag_at ((c :: w) ++ t)) eqn:E2; [|reflexivity]. apply tag_at_tail in E2; [congruence | exact T].
Qed.
Lemma eol_md_tags l l' : eol (g_text l) (g_text l') -> ~ soft (g_text l) ->
  md_tags_go (get_line_text l (-1)) 0 0 (g_indent l) = md_tags_go (get_line_text l' (-1)) 0 0 (g_indent l').
Proof.
  intros H S. destruct (eol_indent l l' H) as [X|X]; [contradiction|]. rewrite X. change (get_line_text l (-1)) with (lstrip (g_text l)). change (get_line_text l' (-1)) with (lstrip (g_text l')).
  destruct (eol_split _ _ H) as [E1 E2|S1 S' O O'|i c z e e' I C N N' Q Q' E1 E2]; [now rewrite E1, E2 | contradiction|].
  rewrite E1, E2. cbn [app]. rewrite !lstrip_hard by assumption. change (c :: z ++ e) with ((c :: z) ++ e). change (c :: z ++ e') with ((c :: z) ++ e').
  rewrite !tags_tail; [reflexivity | | lia | | lia]; apply ends_nin; auto; discriminate.
Qed.
Lemma soft_md_tags l : soft (g_text l) -> md_tags_go (get_line_text l (-1)) 0 0 (g_indent l) = [].
Proof. intros S. change (get_line_text l (-1)) with (lstrip (g_text l)). rewrite lstrip_soft by exact S. reflexivity. Qed.
