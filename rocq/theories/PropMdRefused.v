(** * Prose is never refused in a Markdown file: C83 *)
From Verif Require Import PyStr PyStrFacts Types Regex RegexFacts Line DialectData Matcher Ast ParserTable Parser Classify Table Scan Grammar Cert LineSpec StepFacts Cst Report Eval MdSpec MdFacts MdRun AnyRun MdTree PropParse PropMdParse MdPlaceSpec PropMdPlaces PropMdErrors TransSpec PropLine DocSpec ErrorSpec PropErrors.
From Verif Require Import TransSpec TransFacts.
From Verif Require PropMarkdown PropPlaces.

(** ** A call of [match_Empty] *)
Lemma m_or_false ms (t1 : token) k : m_or (Ok false, ms, t1) k = k ms t1. Proof. reflexivity. Qed.
Lemma not_begins x n sep t : visible sep = true -> t_line t = mkLine x n -> ~ begins sep x -> g_startswith (t_line t) sep = false.
Proof.
  intros V -> H. unfold g_startswith, g_trimmed. cbn [g_text]. destruct (startswith sep (lstrip x)) eqn:E; [|reflexivity]. destruct H. now apply begins_iff.
Qed.
Lemma prose_empty lang d ms t x n : ready_in lang d ms -> ms_feature ms = true -> t_line t = mkLine x n -> x <> [] -> one_line x -> prose d x -> out (md_match_Empty ms t) = Ok true.
Proof.
  intros [[Hm Hn] [Hs [Hl Hd]]] Hf Ht Hne Hx [P1 [P2 [P3 [P4 [P5 P6]]]]]. unfold md_match_Empty.
  rewrite (tag_line_not ms t) by (rewrite Ht; exact P3). rewrite m_or_false. unfold md_match_FeatureLine at 1. rewrite Hf, m_or_false.
  set (t1 := set_matched ms t None None None None None []). assert (Ht1 : t_line t1 = mkLine x n) by exact Ht. clearbody t1.
  assert (T : forall k, In k md_title_kinds -> md_match k ms t1 = (Ok false, ms, t1)).
  { intros k Hk. pose proof (PropMarkdown.title_match ms x n t1 k Hn Hk Hx Ht1) as M. destruct (md_match k ms t1) as [[[[]|] m1] t2]; [|now destruct M as [-> [-> _]]|destruct M].
    exfalso. destruct M as [_ [kw [name [col [M _]]]]]. rewrite Hd in M. exact (P1 k Hk kw name col M). }
  change (md_match_ScenarioLine ms t1) with (md_match TkScenarioLine ms t1). rewrite (T TkScenarioLine) by (cbn; tauto). rewrite m_or_false.
  change (md_match_BackgroundLine ms t1) with (md_match TkBackgroundLine ms t1). rewrite (T TkBackgroundLine) by (cbn; tauto). rewrite m_or_false.
  change (md_match_ExamplesLine ms t1) with (md_match TkExamplesLine ms t1). rewrite (T TkExamplesLine) by (cbn; tauto). rewrite m_or_false.
  change (md_match_RuleLine ms t1) with (md_match TkRuleLine ms t1). rewrite (T TkRuleLine) by (cbn; tauto). rewrite m_or_false.
  assert (G : get_line_text (t_line t1) 0 = x).
  { rewrite Ht1. unfold get_line_text. cbn [Z.ltb orb Z.compare]. destruct (Z.of_nat (g_indent _) <? 0)%Z eqn:E; [apply Z.ltb_lt in E; lia | reflexivity]. }
  assert (Row : md_match_TableRow ms t1 = (Ok false, ms, t1)).
  { unfold md_match_TableRow. rewrite G. destruct (re_match md_table_re x) as [st|] eqn:E; [|reflexivity]. exfalso. apply P4.
    destruct (proj1 (table_re_iff x) (ex_intro _ st E)) as [ind [rest [Hi [_ Ex]]]]. exists ind, rest. split; [exact Hi | exact Ex]. }
  rewrite Row, m_or_false. unfold md_match_Comment at 1. change (g_startswith (t_line t1) [ch_pipe]) with (g_startswith (t_line t1) (s "|")); rewrite (not_begins x n (s "|") t1 eq_refl Ht1 P4), m_or_false.
  set (t2 := set_matched ms t1 (Some TkComment) None None None None []). assert (Ht2 : t_line t2 = mkLine x n) by exact Ht1. clearbody t2.
  unfold md_match_Language at 1. rewrite m_or_false.
  assert (B4 : ~ begins (s "````") x).
  { intros B. apply P6. destruct B as [ind [y [B1 B2]]]. exists ind, (s "`" ++ y). split; [exact B1|]. exact B2. }
  assert (Fence : forall sep op, visible sep = true -> ~ begins sep x -> forall m, match_separator (Some []) sep op m t2 = (Ok false, m, t2)).
  { intros sep op V B m. unfold match_separator. rewrite (not_begins x n sep t2 V Ht2 B). reflexivity. }
  assert (Sep : md_match_DocStringSeparator ms t2 = (Ok false, ms, t2)).
  { unfold md_match_DocStringSeparator. destruct (ms_sep ms) as [sep|] eqn:E.
    - destruct (Hs sep E) as [-> | [-> | ->]]; now apply Fence.
    - rewrite (Fence sep_quotes true eq_refl P5), m_or_false, (Fence sep_ticks4 true eq_refl B4), m_or_false. now apply Fence. }
  rewrite Sep, m_or_false. unfold match_EOF. assert (Te : t_eof t2 = false) by (unfold t_eof; rewrite Ht2; unfold g_bool; cbn [g_text]; now destruct x). rewrite Te. cbn [negb]. rewrite m_or_false.
  pose proof (bullet_match ms x n t2 Hn Hx Ht2) as M. destruct (md_match_StepLine ms t2) as [[[[]|] m1] t3]; [|reflexivity|destruct M].
  exfalso. destruct M as [_ [ind [b [gap [rest [before [k [after [y [e [B [A [R _]]]]]]]]]]]]]. rewrite Hd in A.
  specialize (P2 ind b gap rest k B ltac:(rewrite A; apply in_elt)). rewrite R, startswith_app in P2. discriminate P2.
Qed.

(** ** The run *)
(** the states before the feature line, and the final one *)
Definition early (q : nat) : bool := existsb (Nat.eqb q) [0; 1; 2; 42].
(** a blank line is accepted, once a feature line has been asked for ([f]) *)
Fixpoint takes_blank (f : bool) (trs : list trans) : bool :=
  match trs with
  | [] => false
  | tr :: rest => match tr_la tr with None => tok_eqb (tr_tok tr) TkEmpty && f || tok_eqb (tr_tok tr) TkOther | Some _ => false end
      || takes_blank (f || tok_eqb (tr_tok tr) TkFeatureLine) rest
  end.
(** ... and no later state is reached before a feature line has been asked for *)
Fixpoint asks_first (f : bool) (trs : list trans) : bool :=
  match trs with
  | [] => true
  | tr :: rest => let f' := f || tok_eqb (tr_tok tr) TkFeatureLine in (f' || early (tr_next tr)) && asks_first f' rest
  end.
Lemma table_blank q st : ptable q = Some st -> takes_blank (negb (early q)) (st_trans st) = true /\ asks_first (negb (early q)) (st_trans st) = true.
Proof.
  intros H. assert (T : all_states (fun q st => takes_blank (negb (early q)) (st_trans st) && asks_first (negb (early q)) (st_trans st)) = true) by (vm_compute; reflexivity).
  apply andb_true_iff. exact (all_states_spec _ T q st H).
Qed.
Lemma table_self q st : ptable q = Some st -> st_self st = q.
Proof.
  intros H. assert (T : all_states (fun q st => Nat.eqb (st_self st) q) = true) by (vm_compute; reflexivity). apply Nat.eqb_eq. exact (all_states_spec _ T q st H).
Qed.
Lemma builder_kind t a b : match fst (bact ast_builder t a b) with Err (EParser e) => pe_kind e = KAstBuilder | Err (EComposite _) => False | _ => True end.
Proof.
  pose proof (ast_no_composite t a b) as N. destruct (bact ast_builder t a b) as [[u|x] b'] eqn:E; [exact I|]. cbn [fst] in *. destruct x; try exact I; [|now apply (N es)].
  destruct a; cbn [bact ast_builder bd_start bd_end bd_build] in E; [discriminate E| |].
  - unfold ab_end_rule in E. destruct (ab_stack b) as [|n [|p st]]; try discriminate E.
    assert (T : match fst (transform_node n (ab_comments b) (ab_ids b)) with Err (EParser e) => pe_kind e = KAstBuilder | _ => True end).
    { clear. assert (G : match fst (get_table_rows n (ab_ids b)) with Err (EParser e) => pe_kind e = KAstBuilder | _ => True end).
      { unfold get_table_rows. destruct (rows_of_tokens _ _) as [rows i]. cbn [fst]. unfold ensure_cell_count. destruct rows as [|r0 rows]; [exact I|]. destruct (find _ _); [|exact I]. reflexivity. }
      assert (K : forall m k, match get_token m k with Err (EParser e) => False | _ => True end) by (intros m k; unfold get_token; destruct (get_single m (KTok k)) as [[]|]; exact I).
      unfold transform_node. destruct (n_rule n); cbn [fst]; try exact I.
      - destruct (get_node _ _); [|exact I]. destruct (get_tags _ _). destruct (get_token _ _); exact I.
      - destruct (get_node _ _); [|exact I]. destruct (get_tags _ _). destruct (get_token _ _); exact I.
      - pose proof (K n TkBackgroundLine) as K0. destruct (get_token _ _) as [|[]]; try exact I; contradiction.
      - destruct (get_tags _ _). destruct (get_node _ _) as [m|]; [|exact I]. pose proof (K m TkScenarioLine) as K0. destruct (get_token _ _) as [|[]]; try exact I; contradiction.
      - destruct (get_tags _ _). destruct (get_node _ _) as [m|]; [|exact I]. pose proof (K m TkExamplesLine) as K0. destruct (get_token _ _) as [|[]]; try exact I; contradiction.
      - destruct (get_table_rows n _) as [[rows|[]] i]; exact I || exact G.
      - pose proof (K n TkStepLine) as K0. destruct (get_token _ _) as [|[]]; try exact I; contradiction.
      - destruct (get_table_rows n _) as [[[|]|[]] i]; exact I || exact G.
      - destruct (get_tokens n TkDocStringSeparator) as [|t ts]; [exact I|]. destruct (t_text t); exact I.
      - cbv zeta. destruct (last_non_empty _); exact I. }
    destruct (transform_node n (ab_comments b) (ab_ids b)) as [[i|x] id]; [discriminate E|]. injection E as E _. subst x. exact T.
  - unfold ab_build in E. destruct (t_mtype t) as [k|]; [destruct k|]; destruct (ab_stack b); discriminate E.
Qed.

Section Run.
Context (lines : list str) (Hl : lines_ok lines) (Ho : Forall one_line lines) (lang : str) (d : dialect) (stop : bool).
Implicit Types cx : ctx astb.
(** an error that refuses a line: the line is not prose *)
Definition fair (e : perr) : Prop := pe_kind e = KUnexpectedToken -> exists l, In l (numbered_lines lines) /\ l_line (pe_loc e) = fst l /\ ~ prose d (snd l).
Definition tk (t : token) : Prop := exists n, t_line t = mkLine (nth n lines []) (S n) /\ t_loc_line t = S n.
Definition okc cx : Prop := c_stop cx = stop /\ Forall fair (c_errors cx) /\ Forall tk (c_queue cx) /\ c_lines cx = skipn (c_lineno cx) lines /\ ready_in lang d (c_ms cx).
Definition okr {A} (r : result A) : Prop := match r with Err (EParser e) => fair e | Err (EComposite es) => Forall fair es | _ => True end.
(** the feature line has been found *)
Definition found cx : Prop := ms_feature (c_ms cx) = true.

Lemma fair_settled e : fair e -> fair (settled e).
Proof. intros H K. unfold settled in *. destruct (pe_kind e) eqn:E; try (destruct (H K) as [l Hl0]; exists l; exact Hl0). discriminate K. Qed.
Lemma tk_real t : tk t -> t_eof t = false -> of_line lines t.
Proof.
  intros [n [N1 N2]] Te. exists n. split; [|auto]. destruct (le_lt_dec n (length lines)) as [L|L]; [exact L|]. unfold t_eof in Te. rewrite N1, nth_overflow in Te by lia. discriminate Te.
Qed.
Lemma add_error_ok e cx : okc cx -> fair e -> okc (snd (add_error e cx)) /\ okr (fst (add_error e cx)) /\ c_ms (snd (add_error e cx)) = c_ms cx.
Proof.
  intros [C1 [C2 C3]] H. unfold add_error. destruct (existsb _ _); [split; [split; [exact C1 | split; [exact C2 | exact C3]]|split; [exact I | reflexivity]]|].
  assert (F : forall e', fair e' -> Forall fair (c_errors cx ++ [e'])) by (intros e' He; apply Forall_app; split; [exact C2 | repeat constructor; exact He]).
  destruct (Nat.ltb _ _); (split; [split; [exact C1 | split; [cbn; auto | exact C3]]|split; [cbn; auto | reflexivity]]).
  - apply F. now apply fair_settled.
Qed.
Definition ok {A} (rc : result A * ctx astb) cx : Prop := okc (snd rc) /\ okr (fst rc) /\ (found cx -> found (snd rc)).
Lemma handle_ok {A} (def : A) r cx : okc cx -> match r with Err (EParser e) => fair e | Err (EComposite _) => False | _ => True end -> ok (handle_external def (r, cx)) cx.
Proof.
  intros C H. unfold handle_external. destruct (c_stop cx).
  - split; [exact C|]. split; [|auto]. destruct r as [|[]]; try exact I; [exact H | contradiction].
  - destruct r as [|[]]; try (split; [exact C | split; [exact I | auto]]); [|contradiction].
    pose proof (add_error_ok e cx C H) as [K1 [K2 K3]]. unfold ok, found. destruct (add_error e cx) as [[u|x] c']; cbn [fst snd rbind] in *; rewrite K3; (split; [exact K1|]); auto.
Qed.
Lemma do_act_ok t a cx : okc cx -> ok (do_act ast_builder t a cx) cx.
Proof.
  intros C. unfold do_act. pose proof (builder_kind t a (c_b cx)) as H.
  change (match a with AStart r => bd_start ast_builder r (c_b cx) | AEnd r => bd_end ast_builder r (c_b cx) | ABuild => bd_build ast_builder t (c_b cx) end) with (bact ast_builder t a (c_b cx)).
  destruct (bact ast_builder t a (c_b cx)) as [r b]. apply (handle_ok tt r (set_b cx b)); [exact C|]. cbn [fst] in H. destruct r as [|[]]; auto. intros K. congruence.
Qed.
Lemma do_acts_ok t l : forall cx, okc cx -> ok (do_acts ast_builder t l cx) cx.
Proof.
  induction l as [|a l IH]; intros cx C; [split; [exact C | split; [exact I | auto]]|]. cbn [do_acts]. pose proof (do_act_ok t a cx C) as [K1 [K2 K3]].
  destruct (do_act ast_builder t a cx) as [[u|x] c1]; [|split; auto]. destruct (IH c1 K1) as [J1 [J2 J3]]. split; [exact J1|]. split; auto.
Qed.
Lemma read_ok cx : okc cx -> okc (snd (read_token cx)) /\ tk (fst (read_token cx)) /\ c_ms (snd (read_token cx)) = c_ms cx.
Proof.
  intros [C1 [C2 [C3 [C4 C5]]]]. unfold read_token. destruct (c_queue cx) as [|t q] eqn:E.
  - cbn [fst snd]. split; [|split; [|reflexivity]].
    + repeat (split; [solve [auto]|]). split; [|exact C5]. cbn [c_lines c_lineno]. rewrite C4. clear. revert lines. induction (c_lineno cx) as [|n IH]; intros [|x l]; cbn; try reflexivity. now rewrite IH.
    + exists (c_lineno cx). unfold new_token. cbn [t_line t_loc_line]. split; [|reflexivity]. rewrite C4. f_equal. clear. revert lines. induction (c_lineno cx) as [|n IH]; intros [|x l]; cbn; try reflexivity. apply IH.
  - inversion C3; subst. cbn [fst snd]. split; [|split; [assumption | reflexivity]]. repeat (split; [solve [auto]|]). exact C5.
Qed.
Lemma match_tok_ok k t cx : okc cx -> tk t ->
  match match_tok k t cx with
  | (Ok (b, t'), c') => okc c' /\ tk t' /\ t_line t' = t_line t /\ (found cx -> found c') /\
      (k = TkFeatureLine -> t_eof t = false -> found c') /\
      (b = true -> k <> TkEOF -> t_eof t = false) /\
      (b = false -> t_eof t = false -> k <> TkOther /\ (k = TkEmpty -> found cx -> ~ prose d (g_text (t_line t))))
  | (Err e, c') => okr (@Err unit e)
  end.
Proof.
  intros C T. unfold match_tok. destruct (negb (tok_eqb k TkEOF) && t_eof t) eqn:Z.
  { apply andb_true_iff in Z as [_ Z]. repeat (split; [solve [auto]|]). split; [congruence|]. split; [discriminate | congruence]. }
  assert (K : k = TkEOF \/ t_eof t = false). { apply andb_false_iff in Z as [Z|Z]; [left|now right]. apply negb_false_iff in Z. now apply tok_eqb_spec. }
  pose proof C as [C1 [C2 [C3 [C4 C5]]]]. pose proof C5 as [[Hm Hn] _].
  assert (M : match do_match k (c_ms cx) t with
    | (r, ms', t') => ready_in lang d ms' /\ tk t' /\ t_line t' = t_line t /\ (ms_feature (c_ms cx) = true -> ms_feature ms' = true) /\ (k = TkFeatureLine -> ms_feature ms' = true) /\
        match r with Ok true => k <> TkEOF -> t_eof t = false | Ok false => t_eof t = false -> k <> TkOther /\ (k = TkEmpty -> found cx -> ~ prose d (g_text (t_line t))) | Err (EParser _) => False | Err (EComposite _) => False | _ => True end end).
  { destruct (t_eof t) eqn:Te.
    - destruct K as [->|K]; [|discriminate K]. unfold do_match. rewrite Hm. cbn [md_match]. unfold match_EOF. rewrite Te. cbn [negb]. split; [exact C5|]. split; [exact T|]. repeat (split; [solve [auto | discriminate]|]). congruence.
    - pose proof (tk_real t T Te) as Tl. pose proof (md_step_in lines Ho lang d k (c_ms cx) t C5 Tl (or_intror Te)) as S. pose proof (kp_feature _ _ _ (kept_match k (c_ms cx) t)) as Kf.
      assert (Hx : one_line (g_text (t_line t))) by (destruct Tl as [n [_ [N2 _]]]; rewrite N2; now apply nth_one).
      pose proof (md_call (fun _ => True) k (c_ms cx) t Hm Hn Hx (or_intror Te) (fun _ => I)) as Ce.
      assert (Ff : k = TkFeatureLine -> ms_feature (snd (fst (md_match k (c_ms cx) t))) = true).
      { intros ->. cbn [md_match]. unfold md_match_FeatureLine. destruct (ms_feature (c_ms cx)) eqn:Ef; [exact Ef|]. destruct (md_match_title _ _ _ _ _ _) as [[[[|]|] m] t0]; reflexivity. }
      assert (Fe : out (md_match k (c_ms cx) t) = Ok false -> k <> TkOther /\ (k = TkEmpty -> found cx -> ~ prose d (g_text (t_line t)))).
      { intros E. split; [intros ->; discriminate E|]. intros -> Fo P. destruct Tl as [n [N1 [N2 N3]]]. rewrite N2 in P. cbn [g_text] in P.
        assert (Ne : nth n lines [] <> []). { intros E0. unfold t_eof in Te. rewrite N2, E0 in Te. discriminate Te. }
        cbn [md_match] in E. rewrite (prose_empty lang d (c_ms cx) t (nth n lines []) (Datatypes.S n) C5 Fo N2 Ne (nth_one lines Ho n) P) in E. discriminate E. }
      unfold do_match in *. rewrite Hm in *. destruct (md_match k (c_ms cx) t) as [[r ms'] t']. destruct S as [S1 [S2 [S3 S4]]]. cbn [fst snd out ms_of] in *.
      split; [exact S1|]. split; [destruct S2 as [n [N1 N2]]; now exists n|]. split; [exact S3|]. split; [exact Kf|]. split; [exact Ff|]. destruct r as [[|]|[]]; auto. destruct Ce as [Ce _]. discriminate Ce. }
  destruct (do_match k (c_ms cx) t) as [[r ms'] t']. destruct M as [M1 [M2 [M3 [M4 [M5 M6]]]]]. unfold handle_external. change (c_stop (set_ms cx ms')) with (c_stop cx). clear Z.
  assert (Ck : okc (set_ms cx ms')) by (repeat (split; [solve [auto]|]); exact M1).
  destruct r as [b|e].
  - cbn [rbind]. assert (G : forall c', c' = set_ms cx ms' -> okc c' /\ tk t' /\ t_line t' = t_line t /\ (found cx -> found c') /\ (k = TkFeatureLine -> t_eof t = false -> found c') /\ (b = true -> k <> TkEOF -> t_eof t = false) /\ (b = false -> t_eof t = false -> k <> TkOther /\ (k = TkEmpty -> found cx -> ~ prose d (g_text (t_line t))))).
    { intros c' ->. split; [exact Ck|]. split; [exact M2|]. split; [exact M3|]. split; [exact M4|]. split; [intros E _; exact (M5 E)|]. split; intros E; subst b; exact M6. }
    destruct (c_stop cx); now apply G.
  - destruct e; try (destruct (c_stop cx); exact I); destruct M6.
Qed.
Lemma match_any_ok ks : forall t cx, okc cx -> tk t ->
  match match_any ks t cx with
  | (Ok (b, t'), c') => okc c' /\ tk t' /\ (found cx -> found c')
  | (Err e, c') => okr (@Err unit e)
  end.
Proof.
  induction ks as [|k ks IH]; intros t cx C T; [repeat split; auto; apply C|]. cbn [match_any]. pose proof (match_tok_ok k t cx C T) as M.
  destruct (match_tok k t cx) as [[[[] t1]|x] c1]; [|destruct M as [M1 [M2 [M3 [M4 _]]]]|exact M].
  - destruct M as [M1 [M2 [M3 [M4 _]]]]. auto.
  - specialize (IH t1 c1 M1 M2). destruct (match_any ks t1 c1) as [[[b t2]|x] c2]; [|exact IH]. destruct IH as [I1 [I2 I3]]. auto.
Qed.
Lemma okc_queue cx l : okc cx -> Forall tk l -> okc (set_queue cx (c_queue cx ++ l)).
Proof. intros [C1 [C2 [C3 [C4 C5]]]] F. split; [exact C1|]. split; [exact C2|]. split; [cbn; apply Forall_app; auto|]. split; [exact C4 | exact C5]. Qed.
Lemma lookahead_ok k fuel : forall acc cx, okc cx -> Forall tk acc ->
  match lookahead_go k fuel acc cx with
  | (Ok b, c') => okc c' /\ (found cx -> found c')
  | (Err e, c') => okr (@Err unit e)
  end.
Proof.
  induction fuel as [|f IH]; intros acc cx C A; [exact I|]. cbn [lookahead_go]. pose proof (read_ok cx C) as [C1 [C2 C3]]. unfold found in *. rewrite <- C3. destruct (read_token cx) as [t c1]. cbn [fst snd] in *.
  pose proof (match_tok_ok k t c1 C1 C2) as M. destruct (match_tok k t c1) as [[[[] t1]|x] c2]; [| |exact M].
  - destruct M as [M1 [M2 [M3 [M4 _]]]]. split; [|exact M4]. apply okc_queue; [exact M1|]. apply Forall_app. auto.
  - destruct M as [M1 [M2 [M3 [M4 _]]]]. pose proof (match_any_ok [TkEmpty; TkComment; TkTagLine] t1 c2 M1 M2) as M'. destruct (match_any _ t1 c2) as [[[[] t2]|x] c3]; [| |exact M'].
    + destruct M' as [N1 [N2 N3]]. specialize (IH (acc ++ [t2]) c3 N1 ltac:(apply Forall_app; auto)). destruct (lookahead_go k f (acc ++ [t2]) c3) as [[b|x] c4]; [|exact IH]. destruct IH as [I1 I2]. split; [exact I1|]. unfold found in *. auto.
    + destruct M' as [N1 [N2 N3]]. split; [|unfold found in *; auto]. apply okc_queue; [exact N1|]. apply Forall_app. auto.
Qed.
Lemma do_lookahead_ok l cx : okc cx ->
  match do_lookahead l cx with
  | (Ok b, c') => okc c' /\ (found cx -> found c') /\ (l = None -> b = true)
  | (Err e, c') => okr (@Err unit e)
  end.
Proof.
  intros C. unfold do_lookahead. destruct l as [l|]; [|auto]. pose proof (lookahead_ok (la_tok l) (S (length (c_queue cx) + length (c_lines cx))) [] cx C (Forall_nil _)) as L.
  destruct (lookahead_go _ _ _ cx) as [[b|e] c']; [|exact L]. destruct L as [L1 L2]. split; [exact L1|]. split; [exact L2 | discriminate].
Qed.
(** [f]: a feature line has been asked for, unless this is the end of the file *)
Lemma try_trans_ok trs : forall f t cx, okc cx -> tk t -> (f = true -> t_eof t = false -> found cx) -> asks_first f trs = true ->
  match try_trans ast_builder trs t cx with
  | (Ok (None, t'), c') => okc c' /\ tk t' /\ t_line t' = t_line t /\ (found cx -> found c') /\ (takes_blank f trs = true -> t_eof t = false -> ~ prose d (g_text (t_line t)))
  | (Ok (Some q, t'), c') => okc c' /\ (early q = false -> t_eof t = false -> found c')
  | (Err e, c') => okr (@Err unit e)
  end.
Proof.
  induction trs as [|tr rest IH]; intros f t cx C T F A; cbn [try_trans].
  { repeat (split; [solve [auto]|]). discriminate. }
  cbn [asks_first] in A. apply andb_true_iff in A as [A1 A2]. cbn [takes_blank]. set (f' := f || tok_eqb (tr_tok tr) TkFeatureLine) in *.
  pose proof (match_tok_ok (tr_tok tr) t cx C T) as M. destruct (match_tok (tr_tok tr) t cx) as [[[b t1]|x] c1]; [|exact M]. destruct M as [M1 [M2 [M3 [M4 [M5 [M6 M7]]]]]].
  assert (F1 : f' = true -> t_eof t = false -> found c1). { intros E Te. apply orb_true_iff in E as [E|E]; [auto|]. apply tok_eqb_spec in E. auto. }
  assert (Te : t_eof t1 = t_eof t) by (unfold t_eof; now rewrite M3).
  assert (Go : forall c2, okc c2 -> (found c1 -> found c2) ->
    (match tr_la tr with None => tok_eqb (tr_tok tr) TkEmpty && f || tok_eqb (tr_tok tr) TkOther | Some _ => false end = true -> t_eof t = false -> ~ prose d (g_text (t_line t))) ->
    match try_trans ast_builder rest t1 c2 with
    | (Ok (None, t'), c') => okc c' /\ tk t' /\ t_line t' = t_line t /\ (found cx -> found c') /\ (match tr_la tr with None => tok_eqb (tr_tok tr) TkEmpty && f || tok_eqb (tr_tok tr) TkOther | Some _ => false end || takes_blank f' rest = true -> t_eof t = false -> ~ prose d (g_text (t_line t)))
    | (Ok (Some q, t'), c') => okc c' /\ (early q = false -> t_eof t = false -> found c')
    | (Err e, c') => okr (@Err unit e)
    end).
  { intros c2 C2 F2 B. specialize (IH f' t1 c2 C2 M2 ltac:(rewrite Te; auto) A2). destruct (try_trans ast_builder rest t1 c2) as [[[[q|] t2]|x] c3]; [| |exact IH].
    - destruct IH as [I1 I2]. rewrite Te in I2. auto.
    - destruct IH as [I1 [I2 [I3 [I4 I5]]]]. split; [exact I1|]. split; [exact I2|]. split; [congruence|]. split; [auto|]. intros E Et. apply orb_true_iff in E as [E|E]; [auto|]. rewrite M3, Te in I5. auto. }
  destruct b.
  - pose proof (do_lookahead_ok (tr_la tr) c1 M1) as L. destruct (do_lookahead (tr_la tr) c1) as [[[]|x] c2]; [| |exact L].
    + destruct L as [L1 [L2 _]]. pose proof (do_acts_ok t1 (tr_acts tr) c2 L1) as [D1 [D2 D3]]. destruct (do_acts ast_builder t1 (tr_acts tr) c2) as [[u|x] c3]; [|exact D2].
      split; [exact D1|]. intros E Et. rewrite E, orb_false_r in A1. auto.
    + destruct L as [L1 [L2 L3]]. apply Go; auto. destruct (tr_la tr); [discriminate | now specialize (L3 eq_refl)].
  - apply Go; auto. destruct (tr_la tr); [discriminate|]. intros E Et. destruct (M7 eq_refl Et) as [N1 N2]. apply orb_true_iff in E as [E|E].
    + apply andb_true_iff in E as [E1 E2]. apply tok_eqb_spec in E1. auto.
    + apply tok_eqb_spec in E. contradiction.
Qed.
Lemma unexpected_fair t ks : tk t -> (t_eof t = false -> ~ prose d (g_text (t_line t))) -> fair (unexpected t ks).
Proof.
  intros [n [N1 N2]] H. unfold unexpected. destruct (t_eof t) eqn:Te; [discriminate|]. intros _.
  assert (L : n < length lines). { destruct (le_lt_dec (length lines) n) as [L|L]; [|exact L]. unfold t_eof in Te. rewrite N1, nth_overflow in Te by exact L. discriminate Te. }
  exists (S n, nth n lines []). split; [apply PropPlaces.numbered_line; split; [cbn; lia|]; cbn; rewrite Nat.sub_0_r; now apply nth_error_nth'|]. split.
  - unfold t_location. destruct (t_loc_col t) as [[|c]|]; exact N2.
  - specialize (H eq_refl). rewrite N1 in H. exact H.
Qed.
Lemma match_token_ok q t cx : okc cx -> tk t -> (early q = false -> found cx) ->
  match match_token ast_builder q t cx with
  | (Ok q', c') => okc c' /\ (early q' = false -> t_eof t = false -> found c')
  | (Err e, c') => okr (@Err unit e)
  end.
Proof.
  intros C T F. unfold match_token. destruct (ptable q) as [st|] eqn:Q; [|exact I]. destruct (table_blank q st Q) as [B1 B2].
  pose proof (try_trans_ok (st_trans st) (negb (early q)) t cx C T ltac:(intros E _; apply F; now apply negb_true_iff) B2) as M.
  destruct (try_trans ast_builder (st_trans st) t cx) as [[[[q'|] t1]|x] c1]; [exact M| |exact M]. destruct M as [M1 [M2 [M3 [M4 M5]]]].
  assert (U : fair (unexpected t1 (st_expected st))). { apply unexpected_fair; [exact M2|]. rewrite M3. unfold t_eof. rewrite M3. intros Te. now apply M5. }
  destruct (c_stop c1); [exact U|]. pose proof (add_error_ok _ c1 M1 U) as [A1 [A2 A3]]. destruct (add_error _ c1) as [[u|x] c2]; [|exact A2]. split; [exact A1|]. intros E _. unfold found in *. cbn [snd] in A3. rewrite A3. rewrite (table_self q st Q) in E. auto.
Qed.
Lemma loop_ok fuel : forall q cx, okc cx -> (early q = false -> found cx) ->
  match parse_loop ast_builder fuel q cx with (Ok _, c') => okc c' | (Err e, c') => okr (@Err unit e) end.
Proof.
  induction fuel as [|f IH]; intros q cx C F; [exact I|]. cbn [parse_loop]. pose proof (read_ok cx C) as [C1 [C2 C3]]. destruct (read_token cx) as [t c1]. cbn [fst snd] in *.
  pose proof (match_token_ok q t c1 C1 C2 ltac:(unfold found in *; rewrite C3; exact F)) as M. destruct (match_token ast_builder q t c1) as [[q'|x] c2]; [|exact M]. destruct M as [M1 M2].
  destruct (t_eof t) eqn:Te; [exact M1|]. apply IH; auto.
Qed.
Theorem prose_fair ids ms ms0 : ms_reset ms = Ok ms0 -> ready_in lang d ms0 -> okr (fst (parse_lines stop ids ms lines)).
Proof.
  intros Hr Hi. unfold parse_lines, parse_b. rewrite Hr.
  assert (C0 : okc (init_ctx stop (ab_reset ids) ms0 lines)) by (split; [reflexivity|]; split; [apply Forall_nil|]; split; [apply Forall_nil|]; split; [reflexivity | exact Hi]).
  pose proof (do_act_ok (new_token [] 0) (AStart RGherkinDocument) _ C0) as [M1 [M2 _]]. destruct (do_act ast_builder _ _ (init_ctx stop (ab_reset ids) ms0 lines)) as [[u|x] c1]; [|exact M2].
  pose proof (loop_ok (S (length lines)) 0 c1 M1 ltac:(discriminate)) as L. destruct (parse_loop ast_builder _ 0 c1) as [[u2|x] c2]; [|exact L].
  pose proof (do_act_ok (new_token [] 0) (AEnd RGherkinDocument) c2 L) as [D1 [D2 _]]. destruct (do_act ast_builder _ _ c2) as [[u3|x] c3]; [|exact D2].
  destruct D1 as [_ [D1 _]]. cbn [snd] in D1. destruct (c_errors c3) as [|e es]; cbn; [unfold ab_get_result; now repeat match goal with |- okr (match ?x with _ => _ end) => destruct x end | exact D1].
Qed.
End Run.

(** C83.  Prose is never refused in a Markdown file: the line of every error "expected ..., got ..." is a header, a step,
    a tag line, a table line or a fence, never free text; wherever the free text is. *)
Theorem C83_prose_never_refused : forall stop lang d text e, for_name lang = Some d ->
  parse_with stop true lang text = Err (EParser e) \/ (exists es, parse_with stop true lang text = Err (EComposite es) /\ In e es) ->
  pe_kind e = KUnexpectedToken ->
  exists l, In l (numbered_lines (split_lines text)) /\ l_line (pe_loc e) = fst l /\ ~ prose d (snd l).
Proof.
  intros stop lang d text e H P. destruct (fresh_in lang d H) as [ms [E1 [E2 E3]]]. unfold parse_with in P. rewrite E1 in P. cbn [rbind] in P.
  pose proof (prose_fair (split_lines text) (split_lines_one text) lang d stop 0 ms ms E2 E3) as F.
  destruct P as [P|[es [P I]]]; rewrite P in F; [exact F|]. cbn [okr] in F. rewrite Forall_forall in F. exact (F e I).
Qed.
Print Assumptions C83_prose_never_refused.

(** Prose after the title, after a step, inside a table, between the tags and the scenario and at the end; what is refused are the
    misplaced header and, because the tags still wait for their scenario, the header and the step after it. *)
Example C83_case :
  let text := text_of_lines [s "# Feature: f"; s "free text"; s "## Scenario: s"; s "* Given x"; s "more text"; s "  | a |"; s "inside the table"; s "  | b |"; s "`@t`"; s "between"; s "## Background: b"; s "## Scenario: u"; s "* Given y"; s "at the end"] in
  (exists es, parse_with false true (s "en") text = Err (EComposite es) /\ map (fun e => (pe_kind e, l_line (pe_loc e))) es = [(KUnexpectedToken, 11); (KUnexpectedToken, 12); (KUnexpectedToken, 13); (KUnexpectedEOF, 15)]) /\
  nth_error (numbered_lines (split_lines text)) 10 = Some (11, s "## Background: b" ++ [ch_nl]).
Proof. split; [eexists; split|]; vm_compute; reflexivity. Qed.
