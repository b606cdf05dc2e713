(** * Writing documents: lemmas for C54 *)
From Verif Require Import PropLine PyStr PyStrFacts Types Regex Line DialectData Matcher Ast LineSpec LineFacts StepFacts LangSpec DocSpec LineIff Parts PropDocString WriteSpec.
Local Open Scope N_scope.

(** ** Keywords *)
Definition kw_ok (k : str) : bool :=
  match k with c :: _ => negb (is_space c) | [] => false end &&
  forallb (fun c => negb (is_crlf c) && negb (c =? ch_tab)) k.
Definition all_keywords (d : dialect) : list str :=
  d_feature d ++ d_rule d ++ d_scenario d ++ d_scenarioOutline d ++ d_background d ++ d_examples d ++ all_step_keywords d.
Lemma all_kw_ok : forallb (fun p => match fst p with [] => false | _ => true end && forallb name_char (fst p) && forallb kw_ok (all_keywords (snd p))) DIALECTS = true.
Proof. vm_compute. reflexivity. Qed.
Lemma kw_fact name d : for_name name = Some d -> name <> [] /\ forallb name_char name = true /\ forall k, In k (all_keywords d) -> kw_ok k = true.
Proof.
  intros H. apply for_name_in in H. pose proof all_kw_ok as A. rewrite forallb_forall in A. specialize (A _ H). cbn [fst snd] in A.
  apply andb_true_iff in A as [A A3]. apply andb_true_iff in A as [A1 A2]. rewrite forallb_forall in A3. split; [now destruct name | auto].
Qed.
Definition crlf (w : str) : Prop := forallb is_crlf w = true.
Lemma crlf_is_space c : is_crlf c = true -> is_space c = true.
Proof. unfold is_crlf. rewrite orb_true_iff, !N.eqb_eq. intros [-> | ->]; reflexivity. Qed.
Lemma crlf_all_space w : crlf w -> all_space w.
Proof. unfold crlf, all_space. rewrite !forallb_forall. intros H c Hc. apply crlf_is_space. auto. Qed.
Lemma crlf_nl : crlf [ch_nl]. Proof. reflexivity. Qed.
Lemma all_space_app a b : all_space (a ++ b) <-> all_space a /\ all_space b.
Proof. unfold all_space. rewrite forallb_app, andb_true_iff. tauto. Qed.
Lemma blank_tail x w : crlf w -> all_space (x ++ w) <-> all_space x.
Proof. intros H. rewrite all_space_app. apply crlf_all_space in H. tauto. Qed.
Lemma lstrip_tail x w : crlf w -> (all_space x /\ lstrip x = [] /\ lstrip (x ++ w) = []) \/ lstrip (x ++ w) = lstrip x ++ w.
Proof.
  intros Hw. unfold lstrip, lstrip_by, all_space. induction x as [|c x IH].
  - left. split; [reflexivity|]. split; [reflexivity|]. apply drop_while_nil. now apply crlf_all_space.
  - cbn [app drop_while forallb]. destruct (is_space c); [exact IH | now right].
Qed.
Definition no_crlf (p : str) : Prop := p <> [] /\ forallb (fun c => negb (is_crlf c)) p = true.
Lemma starts_tail p : forallb (fun c => negb (is_crlf c)) p = true -> forall x w, crlf w -> startswith p (x ++ w) = startswith p x.
Proof.
  induction p as [|a p IH]; intros Hp x w Hw; [now destruct x|]. cbn [forallb] in Hp. apply andb_true_iff in Hp as [Ha Hp].
  destruct x as [|b x]; cbn [app startswith].
  - destruct w as [|c w]; [reflexivity|]. unfold crlf in Hw. cbn [forallb] in Hw. apply andb_true_iff in Hw as [Hc _].
    destruct (N.eqb_spec a c) as [->|]; [|reflexivity]. rewrite Hc in Ha. discriminate.
  - now rewrite IH.
Qed.
Lemma begins_tail p x w : no_crlf p -> crlf w -> begins p (x ++ w) <-> begins p x.
Proof.
  intros [H1 H2] Hw. unfold begins. destruct (lstrip_tail x w Hw) as [[_ [-> ->]]| ->]; [tauto|]. rewrite starts_tail; tauto.
Qed.
Lemma kw_no_crlf k : kw_ok k = true -> no_crlf k.
Proof.
  unfold kw_ok, no_crlf. intros H. apply andb_true_iff in H as [H1 H2]. split; [now destruct k|]. rewrite forallb_forall in *. intros c Hc. apply H2 in Hc. now apply andb_true_iff in Hc.
Qed.
Lemma title_tail kws x w : (forall k, In k kws -> kw_ok k = true) -> crlf w -> is_title kws (x ++ w) <-> is_title kws x.
Proof.
  intros H Hw. rewrite !is_title_spec, !existsb_exists. split; intros [k [K1 K2]]; exists k; (split; [exact K1|]); revert K2; apply begins_tail; auto;
   specialize (H k K1); apply kw_no_crlf in H as [H1 H2]; (split; [now destruct k | rewrite forallb_app, H2; reflexivity]).
Qed.
Lemma step_tail d x w : (forall k, In k (all_step_keywords d) -> kw_ok k = true) -> crlf w -> is_step d (x ++ w) <-> is_step d x.
Proof.
  intros H Hw. rewrite !is_step_spec, !existsb_exists. split; intros [k [K1 K2]]; exists k; (split; [exact K1|]); revert K2; apply begins_tail; auto; apply kw_no_crlf; auto.
Qed.
Lemma kw_sub name d : for_name name = Some d ->
  (forall k, In k (d_feature d) -> kw_ok k = true) /\ (forall k, In k (d_rule d) -> kw_ok k = true) /\ (forall k, In k (scenario_keywords d) -> kw_ok k = true) /\
  (forall k, In k (d_background d) -> kw_ok k = true) /\ (forall k, In k (d_examples d) -> kw_ok k = true) /\ (forall k, In k (all_step_keywords d) -> kw_ok k = true).
Proof.
  intros H. apply kw_fact in H as [_ [_ H]]. unfold all_keywords, scenario_keywords in *. repeat split; intros k Hk; apply H; rewrite !in_app_iff in *; tauto.
Qed.
Lemma ends_tail name d p x w : for_name name = Some d -> crlf w -> ends_description d p (x ++ w) <-> ends_description d p x.
Proof.
  intros H Hw. apply kw_sub in H as [_ [K2 [K3 [K4 [K5 K6]]]]]. unfold ends_description.
  assert (B : forall c, is_crlf c = false -> begins [c] (x ++ w) <-> begins [c] x). { intros c Hc. apply begins_tail; [|exact Hw]. split; [discriminate|]. cbn. now rewrite Hc. }
  rewrite (B ch_hash), (B ch_at) by reflexivity. rewrite !title_tail by auto. destruct p; rewrite ?title_tail, ?step_tail, ?(B ch_pipe) by auto; tauto.
Qed.

(** ** Lines *)
Definition eol (x : str) : str := x ++ [ch_nl].
Definition number (n : nat) (ls : list str) : list nline := combine (seq n (length ls)) (map eol ls).
Lemma number_cons n x ls : number n (x :: ls) = (n, eol x) :: number (S n) ls. Proof. reflexivity. Qed.
Lemma number_app n a b : number n (a ++ b) = number n a ++ number (n + length a) b.
Proof.
  revert n. induction a as [|x a IH]; intros n; cbn [app]; [now rewrite Nat.add_0_r|]. rewrite !number_cons. cbn [app length]. f_equal. rewrite IH. f_equal. f_equal. lia.
Qed.
Lemma number_snd {A} (g : str -> A) n ls : map (fun l => g (snd l)) (number n ls) = map (fun x => g (eol x)) ls.
Proof. revert n. induction ls as [|x ls IH]; intros n; [reflexivity|]. rewrite number_cons. cbn [map snd]. f_equal. apply IH. Qed.
Lemma number_forall (P : str -> Prop) n ls : Forall (fun x => P (eol x)) ls -> Forall (fun l => P (snd l)) (number n ls).
Proof. intros H. revert n. induction H as [|x ls H H0 IH]; intros n; [constructor|]. rewrite number_cons. constructor; auto. Qed.

Lemma split_on_nonempty c x : split_on c x <> [].
Proof. destruct x as [|a x]; cbn; [discriminate|]. destruct (a =? c); [discriminate|]. destruct (split_on c x); discriminate. Qed.
Lemma split_on_join c x : join [c] (split_on c x) = x.
Proof.
  induction x as [|a x IH]; [reflexivity|]. cbn [split_on]. pose proof (split_on_nonempty c x) as N. destruct (split_on c x) as [|y ys]; [contradiction|].
  destruct (N.eqb_spec a c) as [->|]; [cbn [join app] in *; now rewrite IH|]. destruct ys; cbn [join app] in *; now rewrite IH.
Qed.
Lemma split_on_no c x : Forall (fun y => ~ In c y) (split_on c x).
Proof.
  induction x as [|a x IH]; cbn [split_on]; [repeat constructor; auto|]. destruct (N.eqb_spec a c) as [->|Ha]; [constructor; auto|].
  destruct IH as [|y ys H H0]; [repeat constructor; intros [X|X]; auto|]. constructor; [|exact H0]. intros [X|X]; auto.
Qed.
Lemma join_split_on c ls : ls <> [] -> Forall (fun y => ~ In c y) ls -> split_on c (join [c] ls) = ls.
Proof.
  intros H0 H. induction H as [|y ls H H1 IH]; [contradiction|]. destruct ls as [|z ls].
  - cbn [join]. clear -H. induction y as [|a y IH]; [reflexivity|]. cbn [split_on]. destruct (N.eqb_spec a c) as [->|]; [elim H; now left|]. rewrite IH; [reflexivity|]. intros X. apply H. now right.
  - change (join [c] (y :: z :: ls)) with (y ++ c :: join [c] (z :: ls)). set (r := join [c] (z :: ls)) in *. assert (E : split_on c r = z :: ls) by (apply IH; discriminate). clear -H E.
    induction y as [|a y IH]; cbn [app split_on].
    + now rewrite N.eqb_refl, E.
    + destruct (N.eqb_spec a c) as [->|]; [elim H; now left|]. rewrite IH; [reflexivity|]. intros X. apply H. now right.
Qed.

(** ** Titles *)
Lemma lstrip_kw k x : kw_ok k = true -> lstrip (k ++ x) = k ++ x.
Proof. unfold kw_ok. destruct k as [|c k]; [discriminate|]. cbn [app]. intros H. apply andb_true_iff in H as [H _]. apply negb_true_iff in H. now apply drop_while_id. Qed.
Lemma strip_lead c x : is_space c = true -> strip (c :: x) = strip x.
Proof. intros H. unfold strip. f_equal. unfold lstrip, lstrip_by. cbn [drop_while]. now rewrite H. Qed.
Lemma w_title kws k n : kw_ok k = true -> In k kws -> trimmed n -> title_line kws (eol (title_text (Some k) (Some n))) k n.
Proof.
  intros K I [N1 N2]. split; [exact I|]. exists (ch_space :: eol n). unfold eol, title_text. cbn [text_in]. rewrite <- !app_assoc. split; [now rewrite lstrip_kw|].
  rewrite strip_lead, strip_eol by reflexivity. now symmetry.
Qed.

(** ** Descriptions *)
Lemma without_eol_eol x : without_eol (eol x) = without_eol x. Proof. apply crlf_eol. Qed.
Lemma w_description name d p desc n : for_name name = Some d -> description_ok d p desc ->
  description_block d p (number n (description_lines desc)) desc [].
Proof.
  intros D [-> | [H1 [H2 H3]]]; [exists [], [], []; repeat split; constructor|].
  assert (E : description_lines desc = split_on ch_nl desc). { destruct desc; [cbn in H3; contradiction | reflexivity]. }
  rewrite E. pose proof (split_on_join ch_nl desc) as J. destruct (split_on ch_nl desc) as [|y ys] eqn:Ey; [now apply split_on_nonempty in Ey|].
  exists [], (number n (y :: ys)), []. split; [cbn [app]; now rewrite app_nil_r|]. split; [constructor|]. split.
  { apply (number_forall (fun x => ~ ends_description d p x)). eapply Forall_impl; [|exact H1]. intros x [_ X]. unfold eol. rewrite (ends_tail name) by (auto; reflexivity). exact X. }
  split; [|split; [constructor | exact I]]. rewrite number_cons. split.
  { unfold blank_line. cbn [snd]. unfold eol. rewrite blank_tail by reflexivity. exact H2. }
  rewrite <- number_cons. exists (removelast (y :: ys)), (last (y :: ys) []), []. rewrite (number_snd without_eol).
  assert (L : y :: ys = removelast (y :: ys) ++ [last (y :: ys) []]) by (apply app_removelast_last; discriminate).
  split; [|split; [exact H3|split; [constructor | rewrite <- L; now symmetry]]].
  rewrite app_nil_r, <- L. rewrite <- (map_id (y :: ys)) at 2. apply map_ext_in. intros x Hx. rewrite without_eol_eol. rewrite Forall_forall in H1. now apply H1.
Qed.

(** ** Tags *)
Lemma w_tag_texts tags : tags <> [] -> Forall tag_ok tags -> exists l,
  eol (flat_map (fun t => tag_name t ++ [ch_space]) tags) = rtags_text l /\ l <> [] /\ Forall rtag_ok l /\ map (fun t => ch_at :: rt_name t) l = map tag_name tags.
Proof.
  intros H0 H. induction H as [|t tags [name [T1 T2]] H IH]; [contradiction|]. destruct tags as [|t2 tags].
  - exists [mkRtag [] name [ch_space; ch_nl]]. unfold eol. cbn [flat_map map rtags_text]. rewrite T1, !app_nil_r. split.
    { unfold rtag_text. cbn [rt_lead rt_name rt_sep app]. f_equal. now rewrite <- app_assoc. }
    split; [discriminate|]. split; [|reflexivity]. constructor; [|constructor]. split; [reflexivity|]. split; [reflexivity|]. split; [exact T2 | now left].
  - destruct IH as [l [L1 [L2 [L3 L4]]]]; [discriminate|]. exists (mkRtag [] name [ch_space] :: l). split; [|split; [discriminate|split]].
    + change (flat_map (fun t => tag_name t ++ [ch_space]) (t :: t2 :: tags)) with ((tag_name t ++ [ch_space]) ++ flat_map (fun t => tag_name t ++ [ch_space]) (t2 :: tags)).
      unfold eol in *. rewrite <- app_assoc, L1, T1. cbn [rtags_text flat_map]. unfold rtag_text at 1. cbn [rt_lead rt_name rt_sep app]. now rewrite <- !app_assoc.
    + constructor; [|exact L3]. split; [reflexivity|]. split; [reflexivity|]. split; [exact T2 | now left].
    + cbn [map]. f_equal; [cbn [rt_name]; now symmetry | exact L4].
Qed.
Lemma rtags_texts pos l : map i_text (rtags_at pos l) = map (fun t => ch_at :: rt_name t) l.
Proof. revert pos. induction l as [|t l IH]; intros pos; [reflexivity|]. cbn. f_equal. apply IH. Qed.
Lemma w_tags n tags : Forall tag_ok tags -> exists tags', tags_block (number n (tags_lines tags)) tags' [] /\ map plain_tag tags' = map plain_tag tags.
Proof.
  intros H. destruct tags as [|t tags]; [exists []; split; [left; auto | reflexivity]|]. destruct (w_tag_texts (t :: tags)) as [l [L1 [L2 [L3 L4]]]]; [discriminate | exact H|].
  set (text := flat_map (fun t => tag_name t ++ [ch_space]) (t :: tags)) in *.
  exists (map (fun i => mkTag 0 (at_col (n, eol text) (i_column i)) (i_text i)) (rtags_at 0 l)). split.
  - right. exists (n, eol text), []. eexists. exists []. split; [reflexivity|]. split; [|split; [constructor | now rewrite app_nil_r]]. exists (rtags_at 0 l). split; [|reflexivity].
    exists [], l, []. cbn [app snd length]. rewrite app_nil_r. split; [exact L1|]. split; [|reflexivity]. split; [reflexivity|]. auto.
  - rewrite map_map. unfold plain_tag at 1. cbn [tag_name]. rewrite <- (map_map i_text (fun x => mkTag 0 nowhere x)). rewrite rtags_texts, L4, map_map. reflexivity.
Qed.

(** ** Tables *)
Lemma cells_texts raws : forall pos, map i_text (cells_at pos raws) = map (fun raw => trim_cell match unescape_cell raw with Some v => v | None => [] end) raws.
Proof. induction raws as [|r raws IH]; intros pos; [reflexivity|]. cbn [cells_at map i_text]. f_equal. apply IH. Qed.
Lemma padded_cell v : unescape_cell ([ch_space] ++ escape_cell v ++ [ch_space]) = Some ([ch_space] ++ v ++ [ch_space]).
Proof. apply unescape_blank_app; [reflexivity|]. apply LineFacts.unescape_escape. reflexivity. Qed.
Lemma trim_cell_ok v : cell_ok v -> trim_cell ([ch_space] ++ v ++ [ch_space]) = v.
Proof.
  intros [H1 H2]. unfold trim_cell. rewrite drop_while_app by reflexivity. destruct v as [|c v]; [reflexivity|].
  assert (Hc : blank c = false). { destruct (blank c) eqn:Hc; [|reflexivity]. cbn [drop_while] in H1. rewrite Hc in H1. pose proof (drop_while_length blank v) as L. rewrite H1 in L. cbn in L. lia. }
  cbn [app]. rewrite drop_while_id by exact Hc. unfold rtrim_cell. change (c :: v ++ [ch_space]) with ((c :: v) ++ [ch_space]).
  assert (E : endswith [ch_nl] ((c :: v) ++ [ch_space]) = false) by (unfold endswith; rewrite rev_unit; reflexivity). rewrite E, rstrip_by_app by reflexivity. exact H2.
Qed.
Lemma w_row n r : row_ok r -> exists r', row_at_line (n, eol (row_text_of r)) r' /\ plain_row r' = plain_row r.
Proof.
  intros H. set (raws := map (fun c => [ch_space] ++ escape_cell (cell_value c) ++ [ch_space]) (row_cells r)).
  exists (mkRow 0 (here (n, eol (row_text_of r))) (map (fun i => mkCell (at_col (n, eol (row_text_of r)) (i_column i)) (i_text i)) (cells_at (0 + 1) raws))). split.
  - eexists. split; [|reflexivity]. exists [], raws, [ch_nl]. split; [reflexivity|]. split; [reflexivity|]. split; [|split; [discriminate | reflexivity]].
    unfold raws. apply Forall_forall. intros x Hx. apply in_map_iff in Hx as [c [<- Hc]]. rewrite padded_cell. discriminate.
  - unfold plain_row. cbn [row_cells]. f_equal. rewrite map_map. cbn [cell_value]. rewrite <- (map_map i_text (fun x => mkCell nowhere x)), cells_texts. unfold raws. rewrite !map_map. apply map_ext_in. intros c Hc. f_equal.
    rewrite padded_cell. apply trim_cell_ok. unfold row_ok in H. rewrite Forall_forall in H. auto.
Qed.
Lemma w_rows n rows : Forall row_ok rows -> exists rows', row_lines (number n (map row_text_of rows)) rows' [] /\ map plain_row rows' = map plain_row rows.
Proof.
  intros H. revert n. induction H as [|r rows H H0 IH]; intros n; [exists []; split; [constructor | reflexivity]|]. destruct (IH (S n)) as [rows' [R1 R2]]. destruct (w_row n r H) as [r' [E1 E2]].
  exists (r' :: rows'). cbn [map]. rewrite number_cons. split; [now constructor | now rewrite E2, R2].
Qed.
Lemma plain_row_length r r' : plain_row r' = plain_row r -> length (row_cells r') = length (row_cells r).
Proof. unfold plain_row. intros H. injection H as H. apply (f_equal (@length cell)) in H. now rewrite !map_length in H. Qed.
Lemma rectangular_plain rows' : forall rows, map plain_row rows' = map plain_row rows -> rectangular rows -> rectangular rows'.
Proof.
  intros rows E H r1 r2 H1 H2.
  assert (Q : forall r, In r rows' -> exists r0, In r0 rows /\ length (row_cells r) = length (row_cells r0)).
  { intros r Hr. apply (in_map plain_row) in Hr. rewrite E in Hr. apply in_map_iff in Hr as [r0 [E0 H0]]. exists r0. split; [exact H0|]. apply plain_row_length. now symmetry. }
  destruct (Q r1 H1) as [a [A1 ->]], (Q r2 H2) as [b [B1 ->]]. now apply H.
Qed.
Lemma w_table n rows : rows <> [] -> rows_ok rows -> exists rows', table_block (number n (map row_text_of rows)) rows' [] /\ map plain_row rows' = map plain_row rows.
Proof.
  intros H0 [H1 H2]. destruct rows as [|r rows]; [contradiction|]. inversion H1 as [|? ? R1 R2]; subst. destruct (w_row n r R1) as [r' [E1 E2]]. destruct (w_rows (S n) rows R2) as [rows' [E3 E4]].
  assert (E : map plain_row (r' :: rows') = map plain_row (r :: rows)) by (cbn; now rewrite E2, E4). exists (r' :: rows'). split; [|exact E]. split; [|now apply (rectangular_plain _ (r :: rows))].
  cbn [map]. rewrite number_cons. exists (n, eol (row_text_of r)), (number (S n) (map row_text_of rows)), r', rows'. auto.
Qed.

(** ** Doc strings *)
Lemma escape_no_nl q y : q <> ch_nl -> no_nl y -> no_nl (escape_line [q; q; q] y).
Proof.
  intros Hq C1 X. revert X. unfold escape_line, replace. generalize 0%nat. induction y as [|c y IH]; intros k; [auto|]. cbn [replace_go].
  assert (IH' : forall k, ~ In ch_nl (replace_go [q; q; q] (escaped [q; q; q]) k y)) by (intros k0 X0; apply (IH (fun X => C1 (or_intror X)) k0 X0)).
  destruct k; [|apply IH']. destruct (startswith [q; q; q] (c :: y)).
  - rewrite in_app_iff. intros [X|X]; [|now apply IH' in X]. unfold escaped in X. cbn in X. intuition discriminate.
  - intros [X|X]; [|now apply IH' in X]. apply C1. now left.
Qed.
Lemma escaped_safe sep y : separator sep -> ~ begins sep (escape_line sep y).
Proof.
  intros Hs. unfold begins. destruct (sep_char sep Hs) as [q [-> [Hb [Hq _]]]]. destruct (drop_spaces y) as [v [V1 V2]]. rewrite V2.
  assert (Hv : forall c, In c v -> c <> q). { intros c Hc ->. unfold all_space in V1. rewrite forallb_forall in V1. apply V1 in Hc. congruence. }
  unfold escape_line. change (escaped [q; q; q]) with [ch_bslash; q; ch_bslash; q; ch_bslash; q]. unfold replace. rewrite (escape_spaces q Hb) by exact Hv. rewrite lstrip_spaces by exact V1.
  set (z := lstrip y). intros X. apply (starts_escaped q Hb z). destruct z as [|c z'] eqn:Ez; [exact X|].
  assert (Hc : is_space c = false) by (eapply lstrip_head; unfold z in Ez; exact Ez).
  assert (Nl : exists e r, replace_go [q; q; q] [ch_bslash; q; ch_bslash; q; ch_bslash; q] 0 (c :: z') = e :: r /\ is_space e = false).
  { cbn [replace_go]. destruct (startswith [q; q; q] (c :: z')); [exists ch_bslash; eexists; split; reflexivity | exists c; eexists; split; [reflexivity | exact Hc]]. }
  destruct Nl as [e [r [E1 E2]]]. rewrite E1 in *. unfold lstrip, lstrip_by in X. cbn [drop_while] in X. now rewrite E2 in X.
Qed.
Lemma content_zero sep x : separator sep -> content_line 0 sep (eol x) = without_eol (replace (escaped sep) sep x).
Proof.
  intros Hs. unfold content_line. cbn [Nat.leb skipn]. destruct (sep_char sep Hs) as [q [-> [Hb [_ [Hn _]]]]]. unfold eol. rewrite replace_eol; [apply crlf_eol | unfold escaped; cbn; intuition discriminate | discriminate].
Qed.
Lemma w_doc n ds : doc_ok ds -> exists ds', doc_block (number n (doc_lines_of ds)) ds' [] /\ plain_arg (ADoc ds') = plain_arg (ADoc ds).
Proof.
  intros [sep [S1 [S2 [S3 S4]]]]. destruct (sep_char sep S2) as [q [Eq [Q1 [Q2 [Q3 Q4]]]]]. unfold doc_lines_of. rewrite S1. cbn [text_in]. set (info := text_in (ds_media ds)). set (cl := map (escape_line sep) (split_on ch_nl (ds_content ds))).
  rewrite number_cons, number_app. set (content := number (S n) cl). set (k := (S n + length cl)%nat). rewrite (number_cons k). cbn [number length seq map combine].
  assert (L : forall z, lstrip (sep ++ z) = sep ++ z) by (intros z; rewrite Eq; cbn [app]; now apply drop_while_id).
  assert (St : forall z, startswith sep (sep ++ z) = true) by (intros z; apply startswith_app).
  assert (M : match strip info with [] => None | _ => Some (strip info) end = ds_media ds).
  { unfold info. destruct (ds_media ds) as [m|]; [|reflexivity]. cbn [text_in]. destruct S4 as [M1 [_ M2]]. rewrite M2. now destruct m. }
  eexists. split.
  - exists sep, (n, eol (sep ++ info)), content, (k, eol sep), [], (strip info). split; [reflexivity|]. split; [exact S2|]. cbn [snd]. unfold eol at 1 2 3, begins. rewrite <- app_assoc, !L. split; [apply St|]. split; [apply St|]. split; [|split; [|split; [constructor|reflexivity]]].
    + unfold content. apply (number_forall (fun x => startswith sep (lstrip x) <> true)). unfold cl. apply Forall_map, Forall_forall. intros x _ X. apply (begins_eol sep (escape_line sep x) S2) in X. now apply escaped_safe in X.
    + rewrite skipn_app, skipn_all, Nat.sub_diag. cbn [app skipn]. symmetry. apply strip_eol.
  - unfold plain_arg. cbn [ds_content ds_delimiter ds_media]. f_equal. f_equal; [|now symmetry | exact M].
    assert (I : indent_of (eol (sep ++ info)) = 0%nat). { unfold indent_of, eol. rewrite <- app_assoc, L. lia. } cbn [snd]. rewrite I. unfold content. rewrite (number_snd (content_line 0 sep)). unfold cl. rewrite map_map.
    rewrite <- (split_on_join ch_nl (ds_content ds)) at 2. f_equal. rewrite <- (map_id (split_on ch_nl (ds_content ds))) at 2. apply map_ext_in. intros x Hx. rewrite Forall_forall in S3. destruct (S3 x Hx) as [X1 X2]. rewrite content_zero by exact S2. now rewrite X2.
Qed.

(** ** Steps *)
Lemma number_nil n : number n [] = []. Proof. reflexivity. Qed.
Lemma w_arg n a : arg_ok a -> exists a', argument_block (number n (arg_lines a)) a' [] /\ plain_arg a' = plain_arg a.
Proof.
  intros H. destruct a as [|t|ds]; cbn [arg_lines arg_ok] in *.
  - exists ANone. split; [left; auto | reflexivity].
  - destruct H as [H1 H2]. destruct (w_table n _ H1 H2) as [rows' [E1 E2]]. pose proof E1 as [[l [ls' [r [rs [El _]]]]] _]. exists (ATable (mkTable (here l) rows')). split.
    + right. left. exists l, ls', rows'. auto.
    + cbn [plain_arg dt_rows]. now rewrite E2.
  - destruct (w_doc n ds H) as [ds' [E1 E2]]. exists (ADoc ds'). split; [|exact E2]. right. right. eauto.
Qed.
Lemma find_first (f : str -> bool) before k after : Forall (fun k' => f k' = false) before -> f k = true -> find f (before ++ k :: after) = Some k.
Proof. intros H Hk. induction H as [|a l H _ IH]; cbn [app find]; [now rewrite Hk | now rewrite H]. Qed.
Lemma tab_split k' k t : forallb (fun c => negb (c =? ch_tab)) k' = true -> startswith k' (k ++ ch_tab :: t) = true -> startswith k' k = true.
Proof.
  revert k. induction k' as [|a k' IH]; intros k H; [now destruct k|]. cbn [forallb] in H. apply andb_true_iff in H as [H1 H2]. destruct k as [|b k]; cbn [app startswith].
  - destruct (N.eqb_spec a ch_tab) as [->|]; [discriminate H1 | discriminate].
  - intros X. apply andb_true_iff in X as [X1 X2]. rewrite X1. cbn. auto.
Qed.
Lemma w_step_line name d x k t before after : for_name name = Some d -> st_keyword x = Some k -> st_text x = Some t -> trimmed t ->
  all_step_keywords d = before ++ k :: after -> Forall (fun k' => startswith k' k = false) before -> step_line d (eol (step_text d x)) k t.
Proof.
  intros D E1 E2 [T1 T2] E3 F. apply kw_sub in D as [_ [_ [_ [_ [_ D]]]]]. assert (K : kw_ok k = true) by (apply D; rewrite E3, in_app_iff; right; now left).
  assert (Go : forall gap, (gap = [] \/ gap = [ch_tab]) -> Forall (fun k' => startswith k' (k ++ gap ++ t) = false) before -> step_line d (eol (k ++ gap ++ t)) k t).
  { intros gap Hg F2. exists before, after, (gap ++ t ++ [ch_nl]). split; [exact E3|]. unfold eol, begins. rewrite <- !app_assoc. rewrite !lstrip_kw by exact K. split; [|split; [reflexivity|]].
    - eapply Forall_impl; [|apply Forall_and; [exact F2|]]. { intros k' [X Y] Z. revert X. change (k ++ gap ++ t ++ [ch_nl]) with (k ++ (gap ++ (t ++ [ch_nl]))) in Z. rewrite !app_assoc in Z. rewrite starts_tail in Z by (try reflexivity; apply Y). rewrite <- app_assoc in Z. rewrite Z. discriminate. }
      apply Forall_forall. intros k' Hk. apply kw_no_crlf, D. rewrite E3, in_app_iff. now left.
    - destruct Hg as [-> | ->]; cbn [app]; rewrite ?strip_lead by reflexivity; rewrite strip_eol; now symmetry. }
  unfold step_text. rewrite E1, E2. cbn [text_in]. destruct (find (fun k' => startswith k' (k ++ t)) (all_step_keywords d)) as [k0|] eqn:Fd.
  - destruct (str_eqb k0 k) eqn:Ek.
    + apply str_eqb_spec in Ek as ->. apply find_split in Fd as [b2 [a2 [E4 [P4 F4]]]]. change (k ++ t) with (k ++ [] ++ t). 
      exists b2, a2, (t ++ [ch_nl]). split; [exact E4|]. unfold eol, begins. cbn [app]. rewrite <- !app_assoc, lstrip_kw by exact K. split; [|split; [reflexivity | rewrite strip_eol; now symmetry]].
      apply Forall_forall. intros k' Hk Z. rewrite Forall_forall in F4. specialize (F4 k' Hk). cbn beta in F4. rewrite app_assoc, starts_tail in Z by (try reflexivity; apply kw_no_crlf, D; rewrite E4, in_app_iff; now left). rewrite F4 in Z. discriminate.
    + apply Go; [now right|]. apply Forall_forall. intros k' Hk. rewrite Forall_forall in F. specialize (F k' Hk). cbn beta in F. destruct (startswith k' (k ++ [ch_tab] ++ t)) eqn:X; [|reflexivity]. cbn [app] in X. apply tab_split in X; [congruence|].
      assert (K' : kw_ok k' = true) by (apply D; rewrite E3, in_app_iff; now left). unfold kw_ok in K'. apply andb_true_iff in K' as [_ K']. rewrite forallb_forall in *. intros c Hc. apply K' in Hc. now apply andb_true_iff in Hc.
  - apply find_none with (x := k) in Fd; [|rewrite E3, in_app_iff; right; now left]. cbn beta in Fd. rewrite startswith_app in Fd. discriminate.
Qed.
Lemma w_step name d n x : for_name name = Some d -> step_ok d x -> exists x', step_block d (number n (step_lines d x)) x' [] /\ plain_step x' = plain_step x.
Proof.
  intros D [[k [t [before [after [E1 [E2 [E3 [T [E4 F]]]]]]]]] A]. destruct (w_arg (S n) _ A) as [a' [A1 A2]]. unfold step_lines. rewrite number_cons.
  exists (mkStep 0 (here (n, eol (step_text d x))) (Some k) (Some (step_type d k)) (Some t) a'). split.
  - exists (n, eol (step_text d x)), [], (number (S n) (arg_lines (st_arg x))), k, t, a', [], []. split; [reflexivity|]. split; [now apply (w_step_line name d x k t before after)|]. split; [constructor|]. auto.
  - unfold plain_step. cbn. now rewrite A2, E1, E2, E3.
Qed.

(** ** The larger elements *)
Lemma w_blocks {A} (block : list nline -> A -> list comment -> Prop) (ok : A -> Prop) (lines : A -> list str) (pl : A -> A) :
  (forall n x, ok x -> exists x', block (number n (lines x)) x' [] /\ pl x' = pl x) ->
  forall xs n, Forall ok xs -> exists xs', blocks block (number n (flat_map lines xs)) xs' [] /\ map pl xs' = map pl xs.
Proof.
  intros H xs n F. revert n. induction F as [|x xs F1 F2 IH]; intros n; [exists []; split; [constructor | reflexivity]|]. cbn [flat_map]. rewrite number_app. destruct (H n x F1) as [x' [X1 X2]]. destruct (IH (n + length (lines x))%nat) as [xs' [Y1 Y2]].
  exists (x' :: xs'). split; [now apply (bl_cons _ _ _ [] _ _ []) | cbn; now rewrite X2, Y2].
Qed.
Lemma w_maybe {A} (block : list nline -> A -> list comment -> Prop) (ok : A -> Prop) (lines : A -> list str) (pl : A -> A) :
  (forall n x, ok x -> exists x', block (number n (lines x)) x' [] /\ pl x' = pl x) ->
  forall o n, opt_ok ok o -> exists o', maybe block (number n (opt_lines lines o)) o' [] /\ option_map pl o' = option_map pl o.
Proof.
  intros H [x|] n; cbn [opt_ok opt_lines].
  - intros F. destruct (H n x F) as [x' [X1 X2]]. exists (Some x'). split; [exact X1 | cbn; now rewrite X2].
  - intros _. exists None. split; [split; reflexivity | reflexivity].
Qed.
Section Large.
Context (name : str) (d : dialect) (D : for_name name = Some d).
Lemma w_title_ok kws keyword nm : (forall k, In k kws -> kw_ok k = true) -> title_ok kws keyword nm -> exists k n, keyword = Some k /\ nm = Some n /\ title_line kws (eol (title_text keyword nm)) k n.
Proof. intros K [k [n [-> [-> [I T]]]]]. exists k, n. split; [reflexivity|]. split; [reflexivity|]. apply w_title; auto. Qed.
Lemma w_background n x : background_ok d x -> exists x', background_block d (number n (background_lines d x)) x' [] /\ plain_background x' = plain_background x.
Proof.
  intros [T [De Hst]]. destruct (kw_sub name d D) as [_ [_ [_ [K _]]]]. apply (w_title_ok _ _ _ K) in T as [k [t [E1 [E2 T]]]]. unfold background_lines. rewrite number_cons, number_app.
  destruct (w_blocks (step_block d) (step_ok d) (step_lines d) plain_step (fun n x => w_step name d n x D) _ (S n + length (description_lines (bg_desc x)))%nat Hst) as [steps [S1 S2]].
  eexists. split.
  - exists (n, eol (title_text (bg_keyword x) (bg_name x))), (number (S n) (description_lines (bg_desc x))). eexists. exists k, t, (bg_desc x), steps, [], []. split; [reflexivity|]. split; [exact T|]. split; [now apply (w_description name)|]. split; [exact S1|]. split; reflexivity.
  - unfold plain_background. cbn. now rewrite S2, E1, E2.
Qed.
Lemma w_examples n x : examples_ok d x -> exists x', examples_block d (number n (examples_lines x)) x' [] /\ plain_examples x' = plain_examples x.
Proof.
  intros [T [De [Tg R]]]. destruct (kw_sub name d D) as [_ [_ [_ [_ [K _]]]]]. apply (w_title_ok _ _ _ K) in T as [k [t [E1 [E2 T]]]]. unfold examples_lines. rewrite number_app, number_cons, number_app.
  destruct (w_tags n _ Tg) as [tags [G1 G2]]. set (m := (n + length (tags_lines (ex_tags x)))%nat). set (m2 := (S m + length (description_lines (ex_desc x)))%nat).
  set (rows := match ex_header x with Some h => h :: ex_body x | None => [] end).
  assert (Q : exists o, maybe table_block (number m2 (map row_text_of rows)) o [] /\
     option_map plain_row (match o with Some (h :: _) => Some h | _ => None end) = option_map plain_row (ex_header x) /\ map plain_row (match o with Some (_ :: b) => b | _ => [] end) = map plain_row (ex_body x)).
  { unfold rows. destruct (ex_header x) as [h|].
    - destruct (w_table m2 (h :: ex_body x)) as [rows' [R1 R2]]; [discriminate | exact R|]. exists (Some rows'). split; [exact R1|]. destruct rows' as [|h' b']; [discriminate R2|]. injection R2 as R2 R3. cbn [option_map]. split; [|exact R3]. unfold plain_row. now rewrite R2.
    - exists None. rewrite R. repeat split. }
  destruct Q as [o [O1 [O2 O3]]]. eexists. split.
  - exists (number n (tags_lines (ex_tags x))), (m, eol (title_text (ex_keyword x) (ex_name x))), (number (S m) (description_lines (ex_desc x))). eexists. exists tags, k, t, (ex_desc x), o, [], [], []. split; [reflexivity|]. split; [exact G1|]. split; [exact T|]. split; [now apply (w_description name)|]. split; [exact O1|]. split; reflexivity.
  - unfold plain_examples. cbn. now rewrite G2, E1, E2, O2, O3.
Qed.
Lemma w_scenario n x : scenario_ok d x -> exists x', scenario_block d (number n (scenario_lines d x)) x' [] /\ plain_scenario x' = plain_scenario x.
Proof.
  intros [T [De [Tg [Hst X]]]]. destruct (kw_sub name d D) as [_ [_ [K _]]]. apply (w_title_ok _ _ _ K) in T as [k [t [E1 [E2 T]]]]. unfold scenario_lines. rewrite number_app, number_cons, !number_app.
  destruct (w_tags n _ Tg) as [tags [G1 G2]]. set (m := (n + length (tags_lines (sc_tags x)))%nat). set (m2 := (S m + length (description_lines (sc_desc x)))%nat).
  destruct (w_blocks (step_block d) (step_ok d) (step_lines d) plain_step (fun n x => w_step name d n x D) _ m2 Hst) as [steps [S1 S2]]. set (m3 := (m2 + length (flat_map (step_lines d) (sc_steps x)))%nat).
  destruct (w_blocks (examples_block d) (examples_ok d) examples_lines plain_examples w_examples _ m3 X) as [exs [X1 X2]]. eexists. split.
  - exists (number n (tags_lines (sc_tags x))), (m, eol (title_text (sc_keyword x) (sc_name x))), (number (S m) (description_lines (sc_desc x))). do 2 eexists. exists tags, k, t, (sc_desc x), steps, exs, [], [], [], []. split; [reflexivity|]. split; [exact G1|]. split; [exact T|]. split; [now apply (w_description name)|]. split; [exact S1|]. split; [exact X1|]. split; reflexivity.
  - unfold plain_scenario. cbn. now rewrite G2, E1, E2, S2, X2.
Qed.
Lemma w_rule n x : rule_ok d x -> exists x', rule_block d (number n (rule_lines d x)) x' [] /\ plain_rule x' = plain_rule x.
Proof.
  intros [T [De [Tg [Hst X]]]]. destruct (kw_sub name d D) as [_ [K _]]. apply (w_title_ok _ _ _ K) in T as [k [t [E1 [E2 T]]]]. unfold rule_lines. rewrite number_app, number_cons, !number_app.
  destruct (w_tags n _ Tg) as [tags [G1 G2]]. set (m := (n + length (tags_lines (ru_tags x)))%nat). set (m2 := (S m + length (description_lines (ru_desc x)))%nat).
  destruct (w_maybe (background_block d) (background_ok d) (background_lines d) plain_background w_background _ m2 Hst) as [bg [S1 S2]]. set (m3 := (m2 + length (opt_lines (background_lines d) (ru_background x)))%nat).
  destruct (w_blocks (scenario_block d) (scenario_ok d) (scenario_lines d) plain_scenario w_scenario _ m3 X) as [scs [X1 X2]]. eexists. split.
  - exists (number n (tags_lines (ru_tags x))), (m, eol (title_text (ru_keyword x) (ru_name x))), (number (S m) (description_lines (ru_desc x))). do 2 eexists. exists tags, k, t, (ru_desc x), bg, scs, [], [], [], []. split; [reflexivity|]. split; [exact G1|]. split; [exact T|]. split; [now apply (w_description name)|]. split; [exact S1|]. split; [exact X1|]. split; reflexivity.
  - unfold plain_rule. cbn. now rewrite G2, E1, E2, S2, X2.
Qed.
Lemma w_feature n x : fe_language x = Some name -> feature_ok d x -> exists x', feature_block d name (number n (feature_lines d x)) x' [] /\ plain x' = plain x.
Proof.
  intros El [T [De [Tg [Hst [X R]]]]]. destruct (kw_sub name d D) as [K _]. apply (w_title_ok _ _ _ K) in T as [k [t [E1 [E2 T]]]]. unfold feature_lines. rewrite number_app, number_cons, !number_app.
  destruct (w_tags n _ Tg) as [tags [G1 G2]]. set (m := (n + length (tags_lines (fe_tags x)))%nat). set (m2 := (S m + length (description_lines (fe_desc x)))%nat).
  destruct (w_maybe (background_block d) (background_ok d) (background_lines d) plain_background w_background _ m2 Hst) as [bg [S1 S2]]. set (m3 := (m2 + length (opt_lines (background_lines d) (fe_background x)))%nat).
  destruct (w_blocks (scenario_block d) (scenario_ok d) (scenario_lines d) plain_scenario w_scenario _ m3 X) as [scs [X1 X2]]. set (m4 := (m3 + length (flat_map (scenario_lines d) (fe_scenarios x)))%nat).
  destruct (w_blocks (rule_block d) (rule_ok d) (rule_lines d) plain_rule w_rule _ m4 R) as [rus [R1 R2]]. eexists. split.
  - exists (number n (tags_lines (fe_tags x))), (m, eol (title_text (fe_keyword x) (fe_name x))), (number (S m) (description_lines (fe_desc x))). do 3 eexists. exists tags, k, t, (fe_desc x), bg, scs, rus, [], [], [], [], []. split; [reflexivity|]. split; [exact G1|]. split; [exact T|]. split; [now apply (w_description name)|]. split; [exact S1|]. split; [exact X1|]. split; [exact R1|]. split; reflexivity.
  - unfold plain. cbn. now rewrite G2, E1, E2, S2, X2, R2, El.
Qed.
End Large.

(** ** Lines that contain no line feed *)
Lemma no_nl_app a b : no_nl a -> no_nl b -> no_nl (a ++ b).
Proof. unfold no_nl. rewrite in_app_iff. tauto. Qed.
Lemma no_nl_crlf p : forallb (fun c => negb (is_crlf c)) p = true -> no_nl p.
Proof. intros H X. rewrite forallb_forall in H. apply H in X. discriminate. Qed.
Lemma nl_kw k : kw_ok k = true -> no_nl k. Proof. intros H. apply no_nl_crlf. now apply kw_no_crlf. Qed.
Lemma nl_flat {A} (f : A -> list str) l : (forall x, In x l -> Forall no_nl (f x)) -> Forall no_nl (flat_map f l).
Proof. intros H. induction l as [|x l IH]; [constructor|]. cbn [flat_map]. apply Forall_app. split; [apply H; now left | apply IH; intros y Hy; apply H; now right]. Qed.
Lemma nl_title kws keyword nm : (forall k, In k kws -> kw_ok k = true) -> title_ok kws keyword nm -> no_nl (title_text keyword nm).
Proof. intros K [k [n [-> [-> [I [T _]]]]]]. unfold title_text. cbn [text_in]. apply no_nl_app; [now apply nl_kw, K|]. apply no_nl_app; [|exact T]. intros X. vm_compute in X. intuition discriminate. Qed.
Lemma nl_description desc : Forall no_nl (description_lines desc).
Proof. unfold description_lines. destruct desc; [constructor|]. apply split_on_no. Qed.
Lemma nl_tags tags : Forall tag_ok tags -> Forall no_nl (tags_lines tags).
Proof.
  intros H. destruct tags as [|t tags]; [constructor|]. constructor; [|constructor]. revert H. generalize (t :: tags). induction 1 as [|x l [name [E N]] _ IH]; [intros []|]. cbn [flat_map]. apply no_nl_app; [|exact IH]. rewrite E. intros X. apply in_app_or in X as [[X|X]|[X|[]]]; try discriminate X.
  unfold tag_name_ok in N. rewrite forallb_forall in N. apply N in X. discriminate.
Qed.
Lemma nl_row r : no_nl (row_text_of r).
Proof.
  unfold row_text_of, row_text. intros [X|X]; [discriminate X|]. apply in_flat_map in X as [raw [X1 X2]]. apply in_map_iff in X1 as [c [<- _]]. rewrite !in_app_iff in X2. destruct X2 as [[[X|[]]|[X|[X|[]]]]|[X|[]]]; try discriminate X.
  unfold escape_cell in X. apply in_flat_map in X as [a [_ X]]. destruct (N.eqb_spec a ch_pipe), (N.eqb_spec a ch_bslash), (N.eqb_spec a ch_nl); vm_compute in X; intuition (try discriminate); congruence.
Qed.
Lemma nl_rows rows : Forall no_nl (map row_text_of rows).
Proof. apply Forall_map, Forall_forall. intros r _. apply nl_row. Qed.
Lemma nl_doc ds : doc_ok ds -> Forall no_nl (doc_lines_of ds).
Proof.
  intros [sep [S1 [S2 [_ S4]]]]. destruct (sep_char sep S2) as [q [Eq [_ [_ [Q3 _]]]]]. assert (Ns : no_nl sep) by (rewrite Eq; unfold no_nl; cbn; intuition). unfold doc_lines_of. rewrite S1. cbn [text_in]. constructor.
  - apply no_nl_app; [exact Ns|]. destruct (ds_media ds) as [m|]; [apply S4 | intros []].
  - apply Forall_app. split; [|repeat constructor; exact Ns]. apply Forall_map. eapply Forall_impl; [|apply split_on_no]. intros x Hx. rewrite Eq. now apply escape_no_nl.
Qed.
Lemma nl_step name d x : for_name name = Some d -> step_ok d x -> Forall no_nl (step_lines d x).
Proof.
  intros D [[k [t [before [after [E1 [E2 [E3 [[T _] [E4 F]]]]]]]]] A]. apply kw_sub in D as [_ [_ [_ [_ [_ D]]]]]. assert (K : no_nl k) by (apply nl_kw, D; rewrite E4, in_app_iff; right; now left). constructor.
  - unfold step_text. rewrite E1, E2. cbn [text_in]. assert (K2 : no_nl [ch_tab]) by (intros [X|[]]; discriminate X). destruct (find _ _) as [k'|]; [destruct (str_eqb k' k)|]; repeat apply no_nl_app; auto.
  - destruct (st_arg x) as [|tb|ds]; [constructor | apply nl_rows | now apply nl_doc].
Qed.
Section LargeNl.
Context (name : str) (d : dialect) (D : for_name name = Some d).
Lemma nl_background x : background_ok d x -> Forall no_nl (background_lines d x).
Proof.
  intros [T [_ H]]. destruct (kw_sub name d D) as [_ [_ [_ [K _]]]]. constructor; [now apply (nl_title _ _ _ K)|]. apply Forall_app. split; [apply nl_description|]. apply nl_flat. intros y Hy. rewrite Forall_forall in H. apply (nl_step name); auto.
Qed.
Lemma nl_examples x : examples_ok d x -> Forall no_nl (examples_lines x).
Proof.
  intros [T [_ [Tg _]]]. destruct (kw_sub name d D) as [_ [_ [_ [_ [K _]]]]]. apply Forall_app. split; [now apply nl_tags|]. constructor; [now apply (nl_title _ _ _ K)|]. apply Forall_app. split; [apply nl_description | apply nl_rows].
Qed.
Lemma nl_scenario x : scenario_ok d x -> Forall no_nl (scenario_lines d x).
Proof.
  intros [T [_ [Tg [H1 H2]]]]. destruct (kw_sub name d D) as [_ [_ [K _]]]. apply Forall_app. split; [now apply nl_tags|]. constructor; [now apply (nl_title _ _ _ K)|]. rewrite Forall_forall in H1, H2.
  apply Forall_app. split; [apply nl_description|]. apply Forall_app. split; apply nl_flat; intros y Hy; [apply (nl_step name); auto | apply nl_examples; auto].
Qed.
Lemma nl_opt_bg o : opt_ok (background_ok d) o -> Forall no_nl (opt_lines (background_lines d) o).
Proof. destruct o; cbn; [apply nl_background | constructor]. Qed.
Lemma nl_rule x : rule_ok d x -> Forall no_nl (rule_lines d x).
Proof.
  intros [T [_ [Tg [H1 H2]]]]. destruct (kw_sub name d D) as [_ [K _]]. apply Forall_app. split; [now apply nl_tags|]. constructor; [now apply (nl_title _ _ _ K)|]. rewrite Forall_forall in H2.
  apply Forall_app. split; [apply nl_description|]. apply Forall_app. split; [now apply nl_opt_bg|]. apply nl_flat; intros y Hy; apply nl_scenario; auto.
Qed.
Lemma nl_feature x : feature_ok d x -> Forall no_nl (feature_lines d x).
Proof.
  intros [T [_ [Tg [H1 [H2 H3]]]]]. destruct (kw_sub name d D) as [K _]. apply Forall_app. split; [now apply nl_tags|]. constructor; [now apply (nl_title _ _ _ K)|]. rewrite Forall_forall in H2, H3.
  apply Forall_app. split; [apply nl_description|]. apply Forall_app. split; [now apply nl_opt_bg|]. apply Forall_app. split; apply nl_flat; intros y Hy; [apply nl_scenario | apply nl_rule]; auto.
Qed.
End LargeNl.

(** ** The whole text *)
Lemma lines_number ls : Forall no_nl ls -> numbered_lines (split_lines (flat_map eol ls)) = number 1 ls.
Proof.
  intros H. change (flat_map eol ls) with (PropLine.text_of_lines ls). rewrite (split_lines_text ls H). unfold numbered_lines, number. rewrite map_length. reflexivity.
Qed.
Lemma header_line name d : for_name name = Some d -> language_line (eol (s "# language: " ++ name)) name.
Proof.
  intros D. destruct (kw_fact name d D) as [N1 [N2 _]]. exists [], (s " "), [], (s " "), [ch_nl]. split; [unfold eol; cbn; reflexivity|]. repeat split; auto.
Qed.
Theorem written_stands default x : writable x -> exists x', stands_for default (numbered_lines (split_lines (feature_text x))) (mkGdoc (Some x') []) /\ plain x' = plain x.
Proof.
  intros [name [d [El [D Ok]]]]. unfold feature_text. rewrite El. cbn [text_in]. rewrite D. change (fun l => l ++ [ch_nl]) with eol. rewrite lines_number.
  2:{ constructor; [|now apply (nl_feature name)]. apply no_nl_app; [intros X; vm_compute in X; intuition discriminate|]. destruct (kw_fact name d D) as [_ [N2 _]]. intros X. rewrite forallb_forall in N2. apply N2 in X. discriminate. }
  rewrite number_cons. destruct (w_feature name d D 2%nat x El Ok) as [x' [X1 X2]]. exists x'. split; [|exact X2]. right. right.
  exists [], (1%nat, eol (s "# language: " ++ name)), [], (number 2 (feature_lines d x)), name, d, x', [], [], []. split; [reflexivity|]. split; [split; constructor|]. split; [now apply (header_line name d)|]. split; [exact D|]. split; [constructor|]. auto.
Qed.
