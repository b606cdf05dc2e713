(** * The beginning of a Markdown text: C45, and the tag lines: C52 *)
From Verif Require Import PyStr PyStrFacts Types Regex Line DialectData Matcher Ast ParserTable Parser Classify Table Scan Grammar Deriv Cert LineSpec StepFacts Cst Report Eval Ids IdSpec PickleSpec WfDoc MdSpec MdFacts MdRun AnyRun WeakTree WeakEval AstRun MdTree RowIff PropParse PropMdParse EolMd MdTags HeadTree MdFirst.

(** C52.  A line is a tag line exactly when it has a tag, and the tags are those of the line, each with its place. *)
Theorem C52_tag_lines : forall ms x n, ms_md ms = true ->
  match do_match TkTagLine ms (new_token x n) with
  | (Ok true, _, t) => has_md_tag x /\ md_tags 0 x (map (fun i => (i_column i, i_text i)) (t_items t))
  | (Ok false, _, _) => ~ has_md_tag x
  | _ => False
  end.
Proof.
  intros ms x n M. unfold do_match. rewrite M. cbn [md_match]. pose proof (tag_line_match ms (new_token x n)) as T. pose proof (tag_line_iff ms (new_token x n)) as I.
  destruct (md_match_TagLine ms (new_token x n)) as [[[[|]|] m] t]; cbn in I, T |- *; [| |exact T].
  - destruct T as [_ [_ [l [T1 [_ T2]]]]]. split; [now apply I|]. unfold pair_of in T2. rewrite T2. exact T1.
  - intros H. apply I in H. discriminate H.
Qed.
Print Assumptions C52_tag_lines.
Theorem C52_one_reading : forall p x l1 l2, md_tags p x l1 -> md_tags p x l2 -> l1 = l2.
Proof. intros p x l1 l2 H1 H2. exact (tags_fun p x l1 H1 l2 H2). Qed.
Print Assumptions C52_one_reading.
Example C52_case : match do_match TkTagLine PropMarkdown.md_en (new_token (s " x `@a` `b` `@c d`") 4) with
  | (Ok true, _, t) => map (fun i => (i_column i, i_text i)) (t_items t) = [(5, s "@a"); (14, s "@c d")]
  | _ => False end /\ out (do_match TkTagLine PropMarkdown.md_en (new_token (s "@a `b`") 4)) = Ok false.
Proof. vm_compute. split; reflexivity. Qed.

Lemma tags_locs t : forall its id, (forall i, In i its -> i_column i <> 0) ->
  map (fun g => (tag_loc g, tag_name g)) (fst (tags_of_items t its id)) = map (fun i => (mkLoc (t_loc_line t) (Some (i_column i)), i_text i)) its.
Proof.
  induction its as [|i its IH]; intros id H; [reflexivity|]. cbn [tags_of_items]. specialize (IH (S id) ltac:(intros; apply H; now right)).
  destruct (tags_of_items t its (S id)) as [l id']. cbn [fst map] in *. rewrite IH. cbn [tag_loc tag_name]. f_equal. f_equal.
  unfold get_location. specialize (H i (or_introl eq_refl)). now destruct (i_column i).
Qed.
Lemma md_tags_col p x l : md_tags p x l -> forall c, In c l -> fst c <> 0.
Proof. induction 1; intros c Hc; [destruct Hc|]. destruct Hc as [<-|Hc]; [cbn; lia | auto]. Qed.
Lemma tags_lines (toks : list token) : forall n xs, Forall2 (fun t x => exists l, md_tags 0 x l /\ map pair_of (t_items t) = l) toks xs ->
  (forall k t, nth_error toks k = Some t -> t_loc_line t = n + k) ->
  forall id, exists l, lines_tags n xs l /\
    map (fun g => (tag_loc g, tag_name g)) (fst (tags_of_tokens toks id)) = map (fun p => (mkLoc (fst p) (Some (fst (snd p))), snd (snd p))) l.
Proof.
  induction toks as [|t toks IH]; intros n xs H N id; inversion H as [|? x ? xs' [l [T1 T2]] H2]; subst; [exists []; split; [constructor | reflexivity]|].
  cbn [tags_of_tokens]. pose proof (tags_locs t (t_items t) id) as L.
  destruct (tags_of_items t (t_items t) id) as [l1 id1]. destruct (IH (S n) xs' H2 ltac:(intros k t' E; replace (S n + k) with (n + S k) by lia; now apply N) id1) as [l2 [R1 R2]].
  destruct (tags_of_tokens toks id1) as [l2' id2]. cbn [fst] in *. exists (map (pair n) (map pair_of (t_items t)) ++ l2). split; [constructor; assumption|].
  rewrite !map_app, R2, L.
  - f_equal. rewrite !map_map. apply map_ext. intros i. cbn. rewrite (N 0 t eq_refl), Nat.add_0_r. reflexivity.
  - intros i Hi. apply (md_tags_col _ _ _ T1 (pair_of i)). now apply in_map.
Qed.

Definition titled_by (keywords : list str) (x : str) (kw name : option str) (col : option nat) : Prop :=
  (exists k n c, header_line keywords x k n c /\ kw = Some k /\ name = Some n /\ col = Some c) \/
  ((forall k n c, ~ header_line keywords x k n c) /\ kw = None /\ name = Some (rstrip_crlf (lstrip x)) /\ col = Some (length x - length (lstrip x) + 1)).

Section Run.
Context (lines : list str) (Hl : lines_ok lines) (Ho : Forall one_line lines).
Context (tags : list str) (x : str) (rest : list str) (El : lines = tags ++ x :: rest).
Context (Ht : Forall has_md_tag tags) (Hx : ~ has_md_tag x).
Context (ms : mstate) (Rs : ms_reset ms = Ok ms) (R0 : md_ready ms) (F0 : ms_feature ms = false).
Notation Fx := (F lines tags x ms).
Theorem first_parsed stop ids d c : parse_lines stop ids ms lines = (Ok d, c) ->
  exists l, wtree Fx (Node RGherkinDocument l) /\ doc_of ids l d (ab_ids (c_b c)) /\ exists r, yields l = map wrap (map (tagtok lines ms) (seq 0 (length tags))) ++ wrap (ft tags x ms) :: r.
Proof.
  unfold parse_lines, parse_b. rewrite Rs. set (b1 := mkAb [mkNode RGherkinDocument []; mkNode RNone []] [] ids).
  assert (D : do_act ast_builder (new_token [] 0) (AStart RGherkinDocument) (init_ctx stop (ab_reset ids) ms lines) = (Ok tt, mkCtx lines 0 [] [] ms b1 stop)).
  { unfold do_act, init_ctx. cbn. unfold handle_external. cbn. destruct stop; reflexivity. }
  rewrite D. set (c0 := mkCtx lines 0 [] [] ms b1 stop).
  assert (A0 : at_line lines ids tags x ms 0 ms (pre lines ms 0) (start_state 0) c0).
  { repeat (split; [reflexivity|]). split; [repeat split; cbn; auto; try constructor; lia|]. exists []. split; [apply seen_start | reflexivity]. }
  pose proof (run_first lines Hl Ho ids tags x rest El Ht Hx ms R0 F0 (nx tags) 0 c0 (S (length lines)) eq_refl A0 ltac:(lia)) as M. cbn [start_state] in M.
  destruct (parse_loop ast_builder (S (length lines)) 0 c0) as [[u|e] c2]; [|discriminate]. cbn [finished] in M. destruct M as [M1 [M2 [_ [q [[es [M3 M4]] M5]]]]].
  unfold do_act. destruct (bd_end ast_builder RGherkinDocument (c_b c2)) as [r b2] eqn:Eb. unfold handle_external. change (c_stop (set_b c2 b2)) with (c_stop c2). rewrite M2. cbn [c0 c_stop].
  destruct r as [u'|e].
  - intros H. assert (Ee : c_errors c2 = []).
    { change (c_errors (set_b c2 b2)) with (c_errors c2) in H. destruct (c_errors c2) eqn:Ee; [reflexivity|]. destruct stop; cbn in H; rewrite Ee in H; discriminate H. }
    destruct M3 as [r M3]. rewrite (M4 Ee) in M3. destruct u'. destruct (seen_done ids Fx (err_at (length lines)) _ q (c_b c2) M3 (M5 Ee) b2 Eb) as [l [d' [S1 [S2 [S3 S4]]]]].
    exists l. assert (Hd : (Ok d', set_b c2 b2) = (Ok d, c)). { rewrite <- H. destruct stop; cbn; rewrite Ee; change (c_b (set_b c2 b2)) with b2; cbn; rewrite S3; reflexivity. }
    injection Hd as -> <-. split; [exact S1|]. split; [exact S4|]. exists r. rewrite S2. unfold heads, pre. rewrite map_map, <- app_assoc. reflexivity.
  - intros H. exfalso. destruct stop; [discriminate H|]. destruct e; try discriminate H.
    + destruct (add_error e (set_b c2 b2)) as [[u'|y] c3] eqn:Ea; cbn [rbind] in H; [|discriminate H].
      unfold add_error in Ea. destruct (existsb _ _) eqn:Ex.
      * injection Ea as _ <-. destruct (c_errors (set_b c2 b2)); [discriminate Ex | discriminate H].
      * destruct (Nat.ltb 10 _); [discriminate Ea|]. injection Ea as _ <-. cbn in H. destruct (c_errors c2 ++ [settled e]) eqn:Eq; [now apply app_eq_nil in Eq as [_ Eq] | discriminate H].
    + pose proof (ast_no_composite (new_token [] 0) (AEnd RGherkinDocument) (c_b c2) es0) as NC. cbn [bact] in NC. rewrite Eb in NC. now apply NC.
Qed.
End Run.

Lemma fresh_md_feature lang dl : for_name lang = Some dl -> exists ms, new_matcher true lang = Ok ms /\ ms_reset ms = Ok ms /\ md_ready ms /\ ms_feature ms = false /\ ms_dialect ms = dl.
Proof.
  intros H. unfold new_matcher. rewrite H. unfold ms_reset. cbn.
  assert (R : str_eqb lang lang = true) by now apply str_eqb_spec. rewrite R. cbn. eexists. split; [reflexivity|]. cbn. rewrite R. cbn.
  split; [reflexivity|]. split; [split; cbn; auto|]. auto.
Qed.
(** C45.  The first line that is not a tag line is the feature line, whatever it contains: the feature of the document is at that line,
    with the keyword and the name of the header it may be, and with the tags of the lines before it. *)
Theorem C45_feature_line : forall stop lang dl text tags x rest d, for_name lang = Some dl ->
  split_lines text = tags ++ x :: rest -> Forall has_md_tag tags -> ~ has_md_tag x ->
  parse_with stop true lang text = Ok d ->
  exists f, gd_feature d = Some f /\ l_line (fe_loc f) = S (length tags) /\
    titled_by (d_feature dl) x (fe_keyword f) (fe_name f) (l_col (fe_loc f)) /\
    exists l, lines_tags 1 tags l /\ map (fun g => (tag_loc g, tag_name g)) (fe_tags f) = map (fun p => (mkLoc (fst p) (Some (fst (snd p))), snd (snd p))) l.
Proof.
  intros stop lang dl text tags x rest d Hd El Ht Hx P. destruct (fresh_md_feature lang dl Hd) as [ms [E1 [E2 [E3 [E4 E5]]]]].
  unfold parse_with in P. rewrite E1 in P. cbn [rbind] in P.
  destruct (parse_lines stop 0 ms (split_lines text)) as [r c] eqn:Ep. cbn [fst] in P. subst r.
  pose proof (split_lines_nonempty text) as Hl. pose proof (split_lines_one text) as Ho. set (lines := split_lines text) in *. clearbody lines.
  destruct (first_parsed lines Hl Ho tags x rest El Ht Hx ms E2 E3 E4 stop 0 d c Ep) as [l [W [D [r Y]]]].
  assert (Q : forall n, In n (seq 0 (length tags)) -> n < nx tags) by (intros n Hn; apply List.in_seq in Hn; unfold nx; lia).
  assert (M : forall n, n < nx tags -> t_mtype (tagtok lines ms n) = Some TkTagLine /\ t_loc_line (tagtok lines ms n) = S n /\ exists l, md_tags 0 (nth n lines []) l /\ map pair_of (t_items (tagtok lines ms n)) = l).
  { intros n Hn. pose proof (tag_call lines tags x rest El Ht ms n Hn) as T. pose proof (tag_line_match ms (fresh (nth n lines []) n)) as T2. rewrite T in T2. destruct T2 as [_ [A [l' [B [_ C]]]]].
    split; [exact A|]. split; [|exists l'; auto]. pose proof (kp_no _ _ _ (kept_match TkTagLine ms (fresh (nth n lines []) n))) as K. cbn [md_match] in K. rewrite T in K. exact K. }
  pose proof (proj1 (feature_call lines Ho tags x rest El ms E3 E4)) as Fc.
  assert (Tf : titled_by (d_feature dl) x (t_keyword (ft tags x ms)) (t_text (ft tags x ms)) (t_loc_col (ft tags x ms)) /\ t_mtype (ft tags x ms) = Some TkFeatureLine /\ t_loc_line (ft tags x ms) = S (nx tags)).
  { pose proof (kp_no _ _ _ (kept_match TkFeatureLine ms (fresh x (nx tags)))) as K. cbn [md_match] in K. rewrite Fc in K. cbn in K.
    enough (titled_by (d_feature dl) x (t_keyword (ft tags x ms)) (t_text (ft tags x ms)) (t_loc_col (ft tags x ms)) /\ t_mtype (ft tags x ms) = Some TkFeatureLine) as [A B] by (repeat split; auto).
    clear K. unfold ft. unfold md_match_FeatureLine. rewrite E4, E5. pose proof (for_name_in _ _ Hd) as Hi.
    assert (K : kws_ok (d_feature dl) = true). { pose proof title_kws_ok as T. rewrite forallb_forall in T. specialize (T _ Hi). cbn [snd title_kws forallb] in T. now apply andb_true_iff in T as [T _]. }
    assert (O : one_line x). { rewrite Forall_forall in Ho. apply Ho. rewrite El. apply in_elt. }
    pose proof (header_match (d_feature dl) TkFeatureLine ms x (S (nx tags)) (fresh x (nx tags)) K O eq_refl) as M1.
    destruct (md_match_title _ _ _ _ _ _) as [[[[|]|] m] t]; [| |destruct M1].
    - destruct M1 as [_ [k [name [col [M1 [M2 [M3 [M4 M5]]]]]]]]. cbn. split; [|exact M2]. left. exists k, name, col. auto.
    - destruct M1 as [_ [-> M1]]. cbn. split; [|reflexivity]. right. split; [exact M1|]. split; [reflexivity|]. split; [reflexivity|].
      assert (Nx : x <> []). { unfold lines_ok in Hl. rewrite Forall_forall in Hl. apply Hl. rewrite El. apply in_elt. }
      unfold g_bool, fresh, new_token, g_indent, g_trimmed. cbn. destruct x; [congruence | reflexivity]. }
  destruct Tf as [T1 [T2 T3]].
  assert (Hk : Forall (fun t => t_mtype t = Some TkTagLine) (map (tagtok lines ms) (seq 0 (length tags)))).
  { apply Forall_forall. intros t Hin. apply in_map_iff in Hin as [n [<- Hin]]. apply M. now apply Q. }
  destruct (head_feature _ l 0 _ d _ _ r W Y Hk T2 D) as [f [id [G1 [G2 [G3 [G4 G5]]]]]].
  exists f. split; [exact G1|]. rewrite G2, G3, G4, G5. unfold t_location. cbn [l_line l_col]. split; [exact T3|]. split; [exact T1|].
  apply tags_lines.
  - assert (G : forall k n, n + k = length tags -> Forall2 (fun t x0 => exists l0, md_tags 0 x0 l0 /\ map pair_of (t_items t) = l0) (map (tagtok lines ms) (seq n k)) (skipn n tags)).
    { induction k as [|k IH]; intros n Hn; cbn [seq map].
      - rewrite skipn_all2 by lia. constructor.
      - rewrite (skip_nth tags n) by lia. constructor; [|apply IH; lia]. destruct (M n ltac:(unfold nx; lia)) as [_ [_ M3]]. assert (En : nth n lines [] = nth n tags []) by (rewrite El, app_nth1 by lia; reflexivity). rewrite En in M3. exact M3. }
    exact (G (length tags) 0 eq_refl).
  - intros k t Hk2. assert (L : k < length tags). { assert (k < length (map (tagtok lines ms) (seq 0 (length tags)))) by (apply nth_error_Some; congruence). now rewrite map_length, seq_length in H. }
    rewrite nth_error_map in Hk2. rewrite (nth_error_nth' _ 0) in Hk2 by now rewrite seq_length. rewrite seq_nth in Hk2 by exact L. cbn in Hk2. injection Hk2 as <-. apply M. exact L.
Qed.
Print Assumptions C45_feature_line.

(** ... and no later line is one: after a feature line, no call of the matcher finds another, whatever it was asked in between. *)
Inductive calls : mstate -> mstate -> Prop :=
| calls_none ms : calls ms ms
| calls_one ms ms' k t r ms'' t' : calls ms ms' -> do_match k ms' t = (r, ms'', t') -> calls ms ms''.
Theorem C45_once : forall ms t ms1 t1 ms2 t2, ms_md ms = true -> ms_feature ms = false ->
  do_match TkFeatureLine ms t = (Ok true, ms1, t1) -> calls ms1 ms2 ->
  exists ms3 t3, do_match TkFeatureLine ms2 t2 = (Ok false, ms3, t3).
Proof.
  intros ms t ms1 t1 ms2 t2 Hm Hf E C.
  assert (A : ms_md ms1 = true /\ ms_feature ms1 = true).
  { unfold do_match in E. rewrite Hm in E. cbn [md_match] in E. pose proof (kp_md _ _ _ (kept_match TkFeatureLine ms t)) as K. cbn [md_match] in K. rewrite E in K. cbn in K. split; [congruence|].
    unfold md_match_FeatureLine in E. rewrite Hf in E. destruct (md_match_title _ _ _ _ _ _) as [[[[|]|] m] t0]; try discriminate E; injection E as <- _; reflexivity. }
  assert (B : ms_md ms2 = true /\ ms_feature ms2 = true).
  { clear E. revert A. induction C as [|ms1 ms' k u r ms'' u' C IH D]; intros A; [exact A|]. destruct (IH A) as [B1 B2].
    unfold do_match in D. rewrite B1 in D. pose proof (kept_match k ms' u) as [_ _ K1 _ _ K2 _]. rewrite D in K1, K2. cbn in K1, K2. split; [congruence | auto]. }
  destruct B as [B1 B2]. pose proof (feature_once ms2 t2 B2) as F. unfold do_match. rewrite B1. destruct (md_match TkFeatureLine ms2 t2) as [[r m] u]. cbn in F. subst r. eauto.
Qed.
Print Assumptions C45_once.

Example C45_case : exists d f, parse_with false true (s "en") (s "`@a`, `@b`" ++ [ch_nl] ++ s " `@c`" ++ [ch_nl] ++ s "  Hello, world" ++ [ch_nl] ++ s "# Feature: f" ++ [ch_nl]) = Ok d /\ gd_feature d = Some f /\
  fe_keyword f = None /\ fe_name f = Some (s "Hello, world") /\ fe_loc f = mkLoc 3 (Some 3) /\
  map (fun g => (tag_loc g, tag_name g)) (fe_tags f) = [(mkLoc 1 (Some 2), s "@a"); (mkLoc 1 (Some 8), s "@b"); (mkLoc 2 (Some 3), s "@c")] /\ fe_desc f = [].
Proof. eexists. eexists. split; [vm_compute; reflexivity|]. split; [reflexivity|]. repeat split; vm_compute; reflexivity. Qed.
Example C45_once_case : exists ms ms1 t1, new_matcher true (s "en") = Ok ms /\ ms_md ms = true /\ ms_feature ms = false /\ do_match TkFeatureLine ms (new_token (s "# Feature: f") 1) = (Ok true, ms1, t1) /\
  exists t2, do_match TkEmpty ms1 (new_token (s "# Feature: f") 2) = (Ok true, ms1, t2).
Proof. eexists. eexists. eexists. split; [vm_compute; reflexivity|]. repeat (split; [vm_compute; reflexivity|]). eexists. vm_compute. reflexivity. Qed.

(** a text that has only tag lines is refused, at the line after its last *)
Section TagsOnly.
Context (lines : list str) (Hl : lines_ok lines) (Ht : Forall has_md_tag lines) (ms : mstate) (Rs : ms_reset ms = Ok ms) (R0 : md_ready ms).
Definition tags_ctx (stop : bool) (n : nat) (subs : list (key * item)) : ctx astb :=
  mkCtx (skipn n lines) n [] [] ms (mkAb [mkNode RTags subs; mkNode RFeatureHeader []; mkNode RFeature []; mkNode RGherkinDocument []; mkNode RNone []] [] 0) stop.
Lemma tag_step n : n < length lines -> md_match_TagLine ms (fresh (nth n lines []) n) = (Ok true, ms, tagtok lines ms n).
Proof.
  intros H. assert (T : has_md_tag (nth n lines [])) by (rewrite Forall_forall in Ht; apply Ht; now apply nth_In).
  pose proof (proj2 (tag_line_iff ms (fresh (nth n lines []) n)) T) as T2. unfold tagtok. unfold md_match_TagLine in *. destruct (md_tags_go _ _ _ _); [discriminate T2 | reflexivity].
Qed.
Lemma tag_type n : n < length lines -> t_mtype (tagtok lines ms n) = Some TkTagLine.
Proof. intros H. pose proof (tag_line_match ms (fresh (nth n lines []) n)) as T. rewrite (tag_step n H) in T. apply T. Qed.
Lemma tags_go stop k : forall n subs fuel, n + k = length lines -> exists subs', parse_loop ast_builder (k + S fuel) 2 (tags_ctx stop n subs) = parse_loop ast_builder (S fuel) 2 (tags_ctx stop (length lines) subs').
Proof.
  induction k as [|k IH]; intros n subs fuel H.
  - exists subs. replace n with (length lines) by lia. reflexivity.
  - assert (L : n < length lines) by lia.
    destruct (IH (S n) (n_subs (n_add (mkNode RTags subs) (KTok TkTagLine) (ITok (tagtok lines ms n)))) fuel ltac:(lia)) as [subs' E]. exists subs'. rewrite <- E. clear E.
    change (S k + S fuel) with (S (k + S fuel)). remember (k + S fuel) as fu. cbn [parse_loop]. unfold read_token, tags_ctx. cbn [c_queue c_lines c_lineno]. rewrite (skip_nth lines n L). cbn [hd tl].
    change (new_token (nth n lines []) (S n)) with (fresh (nth n lines []) n). rewrite (fresh_eof lines Hl n L). unfold match_token. cbn [ptable c_errors c_ms c_b c_stop].
    change (st_trans state_2) with ([] ++ mkTr TkTagLine None [ABuild] 2 :: skipn 1 (st_trans state_2)).
    rewrite (try_known [] (mkTr TkTagLine None [ABuild] 2) _ _ _ ms (tagtok lines ms n)); [|exact R0|now apply fresh_eof|intros ? []|exact (tag_step n L)|reflexivity].
    cbn [tr_acts tr_next do_acts]. unfold do_act. cbn [bd_build ast_builder]. unfold ab_build. cbn [c_b set_ms]. rewrite (tag_type n L). cbn [ab_stack]. unfold handle_external.
    destruct stop; reflexivity.
Qed.
Lemma tags_first stop fuel : 0 < length lines -> exists subs, parse_loop ast_builder (S fuel) 0 (mkCtx (skipn 0 lines) 0 [] [] ms (mkAb [mkNode RGherkinDocument []; mkNode RNone []] [] 0) stop) = parse_loop ast_builder fuel 2 (tags_ctx stop 1 subs).
Proof.
  intros L. exists (n_subs (n_add (mkNode RTags []) (KTok TkTagLine) (ITok (tagtok lines ms 0)))).
  cbn [parse_loop]. unfold read_token. cbn [c_queue c_lines c_lineno]. rewrite (skip_nth lines 0 L). cbn [hd tl].
  change (new_token (nth 0 lines []) 1) with (fresh (nth 0 lines []) 0). rewrite (fresh_eof lines Hl 0 L). unfold match_token. cbn [ptable c_errors c_ms c_b c_stop].
  set (tr := mkTr TkTagLine None [AStart RFeature; AStart RFeatureHeader; AStart RTags; ABuild] 2).
  change (st_trans state_0) with ([mkTr TkEOF None [ABuild] 42; mkTr TkLanguage None [AStart RFeature; AStart RFeatureHeader; ABuild] 1] ++ tr :: skipn 3 (st_trans state_0)).
  rewrite (try_known _ tr _ _ _ ms (tagtok lines ms 0)); [|exact R0|now apply fresh_eof| |exact (tag_step 0 L)|reflexivity].
  2:{ intros tr0 [<-|[<-|[]]]; [|reflexivity]. cbn [tr_tok md_match c_ms]. unfold match_EOF. now rewrite (fresh_eof lines Hl 0 L). }
  unfold tr. cbn [tr_acts tr_next do_acts]. unfold do_act. cbn [bd_build bd_start ast_builder]. unfold ab_build, ab_start_rule, handle_external. cbn [c_b set_ms c_stop ab_stack ab_comments ab_ids set_b].
  destruct stop; cbn [c_b set_b c_stop ab_stack ab_comments ab_ids]; rewrite (tag_type 0 L); reflexivity.
Qed.
Definition tags_error : perr := unexpected (new_token [] (S (length lines))) (st_expected state_2).
Lemma eof_try stop trs c : Forall (fun tr => tr_tok tr <> TkEOF) trs -> try_trans ast_builder trs (new_token [] stop) c = (Ok (None, new_token [] stop), c).
Proof.
  induction 1 as [|tr trs H _ IH]; [reflexivity|]. cbn [try_trans]. unfold match_tok. change (t_eof (new_token [] stop)) with true.
  replace (tok_eqb (tr_tok tr) TkEOF) with false by (destruct (tr_tok tr); try reflexivity; congruence). exact IH.
Qed.
Lemma tags_end stop fuel subs : parse_loop ast_builder (S fuel) 2 (tags_ctx stop (length lines) subs) =
  let c := mkCtx [] (S (length lines)) [] [] ms (mkAb [mkNode RTags subs; mkNode RFeatureHeader []; mkNode RFeature []; mkNode RGherkinDocument []; mkNode RNone []] [] 0) stop in
  if stop then (Err (EParser tags_error), c) else (Ok tt, set_errors c [tags_error]).
Proof.
  cbn [parse_loop]. unfold read_token, tags_ctx. cbn [c_queue c_lines c_lineno c_errors c_ms c_b c_stop]. rewrite skipn_all. cbn [hd tl]. unfold match_token. cbn [ptable].
  rewrite eof_try by (repeat constructor; discriminate). fold tags_error. cbn [c_stop]. destruct stop; [reflexivity|]. unfold add_error. cbn [c_errors existsb app length Nat.ltb Nat.leb]. reflexivity.
Qed.
Lemma tags_only_outcome stop : lines <> [] -> fst (parse_lines stop 0 ms lines) = Err (if stop then EParser tags_error else EComposite [tags_error]).
Proof.
  intros N. unfold parse_lines, parse_b. rewrite Rs.
  assert (D : do_act ast_builder (new_token [] 0) (AStart RGherkinDocument) (init_ctx stop (ab_reset 0) ms lines) = (Ok tt, mkCtx (skipn 0 lines) 0 [] [] ms (mkAb [mkNode RGherkinDocument []; mkNode RNone []] [] 0) stop)).
  { unfold do_act, init_ctx. cbn. unfold handle_external. cbn. destruct stop; reflexivity. }
  rewrite D. assert (L : 0 < length lines) by (destruct lines; [congruence | cbn; lia]).
  destruct (tags_first stop (length lines) L) as [s1 ->]. replace (length lines) with ((length lines - 1) + 1) at 1 by lia.
  destruct (tags_go stop (length lines - 1) 1 s1 0 ltac:(lia)) as [s2 ->]. rewrite tags_end. destruct stop; reflexivity.
Qed.
End TagsOnly.
(** ... and a text of tag lines only is refused, at the line after its last *)
Theorem C45_only_tags : forall stop lang text, supported lang -> text <> [] -> Forall has_md_tag (split_lines text) ->
  exists e, parse_with stop true lang text = Err (if stop then EParser e else EComposite [e]) /\ pe_kind e = KUnexpectedEOF /\ l_line (pe_loc e) = S (length (split_lines text)).
Proof.
  intros stop lang text Hs N Ht. destruct (fresh_md lang Hs) as [ms [E1 [E2 E3]]]. unfold parse_with. rewrite E1. cbn [rbind].
  exists (tags_error (split_lines text)). split; [|split; reflexivity]. apply tags_only_outcome; auto; [apply split_lines_nonempty|].
  intros E. apply N. rewrite <- (split_lines_concat text), E. reflexivity.
Qed.
Print Assumptions C45_only_tags.
Example C45_only_tags_case : parse_with true true (s "en") (s "`@a`" ++ [ch_nl] ++ s "x `@b` y" ++ [ch_nl]) <> Err EFuel /\ (forall d, parse_with true true (s "en") (s "`@a`" ++ [ch_nl] ++ s "x `@b` y" ++ [ch_nl]) <> Ok d).
Proof. split; vm_compute; discriminate. Qed.
