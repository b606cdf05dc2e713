(** * Which errors the scanner reports: facts for C58 and C59 *)
From Coq Require Logic.FinFun.
From Verif Require Import PyStr PyStrFacts Types Regex Line DialectData Matcher Ast ParserTable Parser Classify Table Scan Grammar Deriv Cert LineSpec Cst Report Eval LangSpec LangFacts Complete DocSpec LineIff DocRun ErrorSpec.

(** ** No transition fits *)
Lemma choose_refuses trs ms n x rest : forall es, choose trs ms n x rest = (es, CNone) -> Forall (refuses ms n x rest) trs.
Proof.
  induction trs as [|tr trs IH]; intros es; cbn [choose]; [constructor|].
  destruct (lexm (tr_tok tr) ms n x) as [[[[]|e] m] t] eqn:E.
  - destruct (tr_la tr) as [l|] eqn:L; [|discriminate]. destruct (la (la_tok l) ms rest) as [[]|] eqn:A; try discriminate.
    intros H. constructor; [|eauto]. right. right. exists l. split; [exact L|]. exact A.
  - intros H. constructor; [|eauto]. left. now rewrite E.
  - destruct e; try discriminate. destruct (choose trs ms n x rest) as [es' c] eqn:C. intros H. injection H as <- ->.
    constructor; [right; left; rewrite E; exists e; reflexivity | eapply IH; reflexivity].
Qed.

(** ** The lists of expected kinds *)
Fixpoint nodupb (l : list tok) : bool := match l with [] => true | k :: l' => negb (tok_in k l') && nodupb l' end.
Definition check_expected (q : nat) (st : pstate) : bool :=
  nodupb (st_expected st) && negb (match st_expected st with [] => true | _ => false end) &&
  forallb (fun k => tries k (st_trans st)) (st_expected st) &&
  forallb (fun tr => tok_in (tr_tok tr) (st_expected st)) (st_trans st) &&
  (negb (tok_in TkLanguage (st_expected st)) || tries TkComment (st_trans st)) &&
  (tries TkOther (st_trans st) || match cert q with Some fr => negb (docopen fr) | None => false end).
Lemma expected_ok : all_states check_expected = true.
Proof. vm_compute. reflexivity. Qed.
Lemma tok_in_spec k l : tok_in k l = true <-> In k l.
Proof.
  unfold tok_in. rewrite existsb_exists. split; [intros [y [H E]]; apply tok_eqb_spec in E as <-; exact H|].
  intros H. exists k. split; [exact H | apply tok_eqb_refl].
Qed.
Lemma nodupb_spec l : nodupb l = true -> NoDup l.
Proof.
  induction l as [|k l IH]; cbn; [constructor|]. intros H. apply andb_true_iff in H as [H1 H2]. constructor; [|auto].
  intros F. apply tok_in_spec in F. rewrite F in H1. discriminate.
Qed.
Lemma expected_facts q st : ptable q = Some st ->
  NoDup (st_expected st) /\ st_expected st <> [] /\ (forall k, In k (st_expected st) -> tries k (st_trans st) = true) /\
  (forall tr, In tr (st_trans st) -> In (tr_tok tr) (st_expected st)) /\
  (In TkLanguage (st_expected st) -> tries TkComment (st_trans st) = true) /\
  (tries TkOther (st_trans st) = true \/ exists fr, cert q = Some fr /\ docopen fr = false).
Proof.
  intros Hq. pose proof (all_states_spec _ expected_ok q st Hq) as C. unfold check_expected in C.
  repeat (apply andb_true_iff in C as [C ?C]). split; [now apply nodupb_spec|]. split; [intros E; rewrite E in *; discriminate|].
  split; [now rewrite forallb_forall in C3|]. split; [intros tr Ht; rewrite forallb_forall in C2; now apply tok_in_spec, C2|]. split.
  - intros H. apply orb_true_iff in C1 as [C1|C1]; [|exact C1]. apply tok_in_spec in H. rewrite H in C1. discriminate.
  - apply orb_true_iff in C0 as [C0|C0]; [now left | right]. destruct (cert q) as [fr|]; [|discriminate]. exists fr. split; [reflexivity | now apply negb_true_iff].
Qed.

(** ** The kinds of lines and their names *)
Definition shown_name (k : tok) : str := ch_hash :: tok_name k.
Lemma shown_inj k k' : shown_name k = shown_name k' -> k = k'.
Proof. destruct k, k'; vm_compute; congruence. Qed.
Lemma shown_in k : In (shown_name k) (s "#EOF" :: line_names) /\ (k <> TkEOF -> In (shown_name k) line_names).
Proof. destruct k; vm_compute; intuition. Qed.
Lemma kind_cls ms x k : good ms -> kind_of_line (ms_dialect ms) x (shown_name k) ->
  match k with
  | TkOther => True | TkEOF => False
  | TkLanguage => exists name, language_line x name
  | TkDocStringSeparator => exists sep, separator sep /\ begins sep x
  | _ => cls ms x = k
  end.
Proof.
  intros G H. remember (shown_name k) as nm eqn:E. destruct H; destruct k; try (vm_compute in E; discriminate E); try exact I; try (eexists; eauto; fail).
  - now apply (cls_begins ms x TkTagLine ch_at G ltac:(discriminate) ltac:(discriminate) eq_refl).
  - now apply (cls_title ms x TkFeatureLine G eq_refl).
  - now apply (cls_title ms x TkRuleLine G eq_refl).
  - now apply (cls_title ms x TkBackgroundLine G eq_refl).
  - now apply (cls_title ms x TkScenarioLine G eq_refl).
  - now apply (cls_title ms x TkExamplesLine G eq_refl).
  - now apply (cls_step ms x G).
  - now apply (cls_begins ms x TkTableRow ch_pipe G ltac:(discriminate) ltac:(discriminate) eq_refl).
  - now apply (cls_begins ms x TkComment ch_hash G ltac:(discriminate) ltac:(discriminate) eq_refl).
  - now apply (cls_blank ms x G).
Qed.
Lemma cls_kind ms x k : good ms ->
  match k with
  | TkOther => True | TkEOF => False
  | TkLanguage => exists name, language_line x name
  | TkDocStringSeparator => exists sep, separator sep /\ begins sep x
  | _ => cls ms x = k
  end -> kind_of_line (ms_dialect ms) x (shown_name k).
Proof.
  intros G H. destruct k; try contradiction.
  - apply kl_empty. now apply (cls_blank ms x G).
  - apply kl_comment. eapply (cls_begins ms x TkComment); [exact G | discriminate | discriminate | reflexivity | exact H].
  - apply kl_tags. eapply (cls_begins ms x TkTagLine); [exact G | discriminate | discriminate | reflexivity | exact H].
  - apply kl_feature. now apply (cls_title ms x TkFeatureLine G eq_refl).
  - apply kl_rule. now apply (cls_title ms x TkRuleLine G eq_refl).
  - apply kl_background. now apply (cls_title ms x TkBackgroundLine G eq_refl).
  - apply kl_scenario. now apply (cls_title ms x TkScenarioLine G eq_refl).
  - apply kl_examples. now apply (cls_title ms x TkExamplesLine G eq_refl).
  - apply kl_step. now apply (cls_step ms x G).
  - destruct H as [sep [H1 H2]]. eapply kl_separator; eauto.
  - apply kl_row. eapply (cls_begins ms x TkTableRow); [exact G | discriminate | discriminate | reflexivity | exact H].
  - destruct H as [name H]. eapply kl_language; eauto.
  - apply kl_other.
Qed.

(** ** A line that is refused is of none of the kinds listed *)
Lemma lexm_not_kind k ms n x : good ms -> ms_sep ms = None -> x <> [] -> k <> TkLanguage -> k <> TkEOF ->
  fst (fst (lexm k ms n x)) = Ok false \/ (exists p, fst (fst (lexm k ms n x)) = Err (EParser p)) ->
  ~ kind_of_line (ms_dialect ms) x (shown_name k).
Proof.
  intros G Sp Hx K1 K2 R H. pose proof (kind_cls ms x k G H) as C.
  assert (NP : forall p, fst (fst (lexm k ms n x)) <> Err (EParser p)).
  { intros p E. destruct (lexm k ms n x) as [[r m] t] eqn:L. cbn in E. subst r. rewrite lexm_ne in L by exact Hx.
    pose proof (classic_shape k ms (new_token x n)) as Sh. rewrite L in Sh. destruct Sh as [Sh _]. contradiction. }
  destruct R as [R|[p R]]; [|exact (NP p R)].
  assert (Tr : plain k = true -> k <> TkTagLine -> k <> TkTableRow -> cls ms x = k -> False).
  { intros P N1 N2 Ck. destruct (lexm_true k ms n x G Hx P Ck N1 N2) as [t E]. rewrite E in R. discriminate R. }
  destruct k; try contradiction; try (apply Tr; [reflexivity | discriminate | discriminate | exact C]).
  - pose proof (lexm_tag ms n x G Hx C) as T. destruct (g_tags (mkLine x 0)) as [|e]; [destruct T as [t T] | destruct T as [T _]]; rewrite T in R; discriminate R.
  - destruct C as [sep [S1 S2]]. rewrite lexm_ne in R by exact Hx. cbn [classic_match] in R. unfold c_match_DocStringSeparator in R. rewrite Sp in R.
    unfold m_or, match_separator, g_startswith in R. change (g_trimmed (t_line (new_token x n))) with (lstrip x) in R. unfold begins in S2.
    destruct S1 as [-> | ->].
    + change (s """""""") with sep_quotes in S2. rewrite S2 in R. discriminate R.
    + change (s "```") with sep_ticks in S2. destruct (startswith sep_quotes (lstrip x)); cbn [negb] in R; [discriminate R|]. change (g_trimmed (t_line (new_token x n))) with (lstrip x) in R. rewrite S2 in R. discriminate R.
  - rewrite lexm_ne in R by exact Hx. pose proof (classic_true ms G TkTableRow (new_token x n) x n eq_refl eq_refl C) as T. cbv beta iota in T.
    destruct (table_cells (mkLine x 0)) as [|e]; [destruct T as [t T]|]; rewrite T in R; discriminate R.
  - rewrite lexm_ne in R by exact Hx. discriminate R.
Qed.

Lemma refused_kinds q st ms cs n x rest es : ptable q = Some st -> st_inv q ms cs -> x <> [] ->
  choose (st_trans st) ms n x rest = (es, CNone) ->
  forall k, In k (st_expected st) -> ~ kind_of_line (ms_dialect ms) x (shown_name k).
Proof.
  intros Hq Hi Hx Hc k Hk. pose proof (choose_refuses _ _ _ _ _ _ Hc) as R.
  destruct (expected_facts q st Hq) as [_ [_ [E1 [_ [E2 E3]]]]]. destruct Hi as [fr [Cf [_ [Hm Ho]]]]. pose proof (matcher_good _ Hm) as G.
  assert (Sp : ms_sep ms = None).
  { destruct E3 as [E3|[fr' [E3 E4]]]; [|apply Ho; congruence]. exfalso.
    destruct (tries_refuses _ _ _ _ _ _ R E3) as [F|[p F]]; rewrite lexm_ne in F by exact Hx; discriminate F. }
  destruct (tok_eqb k TkLanguage) eqn:Q1.
  - apply tok_eqb_spec in Q1 as ->. intros H. destruct (kind_cls ms x TkLanguage G H) as [name Hn].
    pose proof (cls_language ms x name G Hn) as C. specialize (E2 Hk).
    refine (lexm_not_kind TkComment ms n x G Sp Hx ltac:(discriminate) ltac:(discriminate) (tries_refuses _ _ _ _ _ _ R E2) _).
    now apply cls_kind.
  - destruct (tok_eqb k TkEOF) eqn:Q2; [apply tok_eqb_spec in Q2 as ->; intros H; exact (kind_cls ms x TkEOF G H)|].
    apply (lexm_not_kind k ms n x G Sp Hx); [intros -> | intros -> | apply (tries_refuses _ _ _ _ _ _ R); auto]; discriminate.
Qed.
Lemma expected_names st : expected_text (st_expected st) = shown (map shown_name (st_expected st)).
Proof. reflexivity. Qed.
Lemma strip_lstrip x : strip (lstrip x) = strip x.
Proof. unfold strip. now rewrite lstrip_idem. Qed.
Lemma unexpected_line_shown n x exp : x <> [] -> unexpected (new_token x n) exp = unexpected_line_error (n, x) (map shown_name exp).
Proof.
  intros Hx. unfold unexpected. assert (E : t_eof (new_token x n) = false) by (destruct x; [contradiction | reflexivity]). rewrite E.
  cbn [t_loc_col new_token]. unfold unexpected_line_error, mk_perr, token_value. rewrite E.
  change (get_line_text (t_line (new_token x n)) (-1)) with (lstrip x). rewrite strip_lstrip. reflexivity.
Qed.
Lemma unexpected_end_shown n exp : unexpected (new_token [] n) exp = unexpected_end_error n (map shown_name exp).
Proof. reflexivity. Qed.

(** ** The events of a line *)
Definition no_language (l : nline) (name : str) : perr := mkPErr KNoSuchLanguage (message (here l) (s "Language not supported: " ++ name)) (here l).
Lemma lexm_error k ms n x e m t : x <> [] -> lexm k ms n x = (Err (EParser e), m, t) ->
  k = TkLanguage /\ exists name, language_line x name /\ for_name name = None /\ e = no_language (n, x) name.
Proof.
  intros Hx H. assert (k = TkLanguage) as ->.
  { rewrite lexm_ne in H by exact Hx. pose proof (classic_shape k ms (new_token x n)) as Sh. rewrite H in Sh. now destruct Sh. }
  split; [reflexivity|]. pose proof (language_re x) as R. destruct (re_match LANGUAGE_RE (lstrip x)) as [st|] eqn:E.
  - destruct R as [name [_ R]]. exists name. split; [exact R|]. destruct (for_name name) as [d|] eqn:D.
    + rewrite (lexm_lang_true ms n x name d Hx R D) in H. discriminate.
    + rewrite (lexm_lang_err ms n x name Hx R D) in H. injection H as <- _ _. split; reflexivity.
  - rewrite (lexm_lang_false ms n x Hx R) in H. discriminate.
Qed.
Lemma choose_error trs ms n x rest : x <> [] -> forall es c, choose trs ms n x rest = (es, c) ->
  Forall (fun e => exists name, language_line x name /\ for_name name = None /\ e = no_language (n, x) name) es.
Proof.
  intros Hx. induction trs as [|tr trs IH]; intros es c; cbn [choose].
  - intros H. injection H as <- <-. constructor.
  - destruct (lexm (tr_tok tr) ms n x) as [[[[]|e] m] t] eqn:E.
    + destruct (tr_la tr) as [l|]; [destruct (la (la_tok l) ms rest) as [[]|]|]; try (intros H; injection H as <- <-; constructor). apply IH.
    + apply IH.
    + destruct e; try (intros H; injection H as <- <-; constructor).
      destruct (choose trs ms n x rest) as [es' c'] eqn:C. intros H. injection H as <- <-. constructor; [|eapply IH; reflexivity].
      now apply lexm_error in E as [_ E].
Qed.
Lemma lexm_dialect k ms n x ms' t : matcher_ok ms -> lexm k ms n x = (Ok true, ms', t) ->
  ms_dialect ms' = ms_dialect ms \/ exists name, language_line x name /\ for_name name = Some (ms_dialect ms').
Proof.
  intros Hm H. destruct (tok_eqb k TkLanguage) eqn:Q.
  - apply tok_eqb_spec in Q as ->. apply lexm_lang_inv in H as [name [d [H1 [H2 [-> _]]]]]. right. exists name. auto.
  - left. destruct (tok_eqb k TkDocStringSeparator) eqn:Q2.
    + apply tok_eqb_spec in Q2 as ->. now destruct (lexm_sep _ _ _ _ _ H Hm) as [_ [_ [_ [E _]]]].
    + rewrite (lexm_other _ _ _ _ _ _ H); [reflexivity | intros -> | intros ->]; discriminate.
Qed.
Lemma row_leaf ms n x ms' t : good ms -> lexm TkTableRow ms n x = (Ok true, ms', t) -> begins [ch_pipe] x /\ t_location t = here (n, x).
Proof.
  intros G H. split.
  - apply (cls_begins ms x TkTableRow ch_pipe G ltac:(discriminate) ltac:(discriminate) eq_refl). apply (lexm_cls TkTableRow ms n x ms' t G eq_refl H).
  - assert (Hx : x <> []) by (intros ->; discriminate H). pose proof H as H'. rewrite lexm_ne in H by exact Hx. pose proof (classic_shape TkTableRow ms (new_token x n)) as Sh. rewrite H in Sh.
    destruct Sh as [_ [_ Sh]]. unfold t_location. rewrite Sh; [|destruct x; [contradiction | reflexivity] | discriminate..].
    apply lexm_line in H' as [_ ->]. reflexivity.
Qed.

Lemma step_explained lang before q st ms cs n x after evs r : ptable q = Some st -> st_inv q ms cs -> x <> [] -> language_so_far lang before (ms_dialect ms) ->
  scan_step q ms n x (map snd after) = (evs, r) ->
  Forall (ev_P (explained lang (before ++ (n, x) :: after))) evs.
Proof.
  intros Hq Hi Hx Hd. unfold scan_step. rewrite Hq. destruct (choose (st_trans st) ms n x (map snd after)) as [es ch] eqn:E.
  assert (G : good ms) by (destruct Hi as [fr [_ [_ [M _]]]]; now apply matcher_good).
  assert (F : Forall (ev_P (explained lang (before ++ (n, x) :: after))) (map EvErr es)).
  { apply Forall_map. eapply Forall_impl; [|exact (choose_error _ _ _ _ _ Hx _ _ E)]. intros e [name [H1 [H2 ->]]]. cbn [ev_P].
    apply (ex_language _ _ (n, x) name); [apply in_elt | exact H1 | exact H2 | left; reflexivity]. }
  destruct ch as [tr t ms'| |e]; intros H; injection H as <- <-; [| |exact F]; (apply Forall_app; split; [exact F|]); constructor; try constructor; cbn [ev_P].
  - intros K. destruct (choose_good _ _ _ _ _ _ _ _ _ G E) as [_ [_ L]].
    assert (Kt : tr_tok tr = TkTableRow) by (unfold lkind, tok_kind in K; cbn in K; now rewrite (lexm_kind _ _ _ _ _ _ L) in K).
    rewrite Kt in L. destruct (row_leaf ms n x ms' t G L) as [R1 R2]. cbn [lf_t]. rewrite R2.
    apply (ex_row _ _ (n, x)); [apply in_elt | exact R1].
  - rewrite unexpected_line_shown by exact Hx. destruct (expected_facts q st Hq) as [N1 [N2 _]].
    eapply ex_line with (d := ms_dialect ms); [reflexivity | exact Hd | | |].
    + split; [destruct (st_expected st); [contradiction | discriminate]|]. apply FinFun.Injective_map_NoDup; [exact shown_inj | exact N1].
    + intros nm H. apply in_map_iff in H as [k [<- _]]. apply shown_in.
    + intros nm H. apply in_map_iff in H as [k [<- Hk]]. eapply refused_kinds; eauto.
Qed.
Lemma end_explained lang lines q st ms n evs r : ptable q = Some st -> length lines = n ->
  scan_step q ms (S n) [] [] = (evs, r) -> Forall (ev_P (explained lang lines)) evs.
Proof.
  intros Hq Hn. unfold scan_step. rewrite Hq. destruct (choose (st_trans st) ms (S n) [] []) as [es ch] eqn:E.
  assert (es = []) as ->.
  { clear -E. revert es ch E. induction (st_trans st) as [|tr trs IH]; intros es ch; cbn [choose]; [intros H; now injection H|].
    destruct (tok_eqb (tr_tok tr) TkEOF) eqn:Q.
    - apply tok_eqb_spec in Q. rewrite Q. change (lexm TkEOF ms (S n) []) with (Ok true, ms, set_matched ms (new_token [] (S n)) (Some TkEOF) None None None None []).
      cbv iota. destruct (tr_la tr) as [l|]; [cbn [la]; apply IH | intros H; now injection H].
    - rewrite lexm_nil by (intros F; rewrite F in Q; discriminate). apply IH. }
  destruct ch as [tr t ms'| |e]; intros H; injection H as <- <-; [| |constructor]; cbn [map app]; constructor; try constructor; cbn [ev_P].
  - intros K. exfalso. destruct (choose_split _ _ _ _ _ _ _ _ _ E) as [_ [_ [_ [_ L]]]].
    unfold lkind, tok_kind in K; cbn in K. rewrite (lexm_kind _ _ _ _ _ _ L) in K. rewrite (lexm_nonempty _ _ _ _ _ _ L eq_refl) in K. discriminate K.
  - rewrite unexpected_end_shown, <- Hn. destruct (expected_facts q st Hq) as [N1 [N2 [N3 _]]]. apply ex_end.
    + split; [destruct (st_expected st); [contradiction | discriminate]|]. apply FinFun.Injective_map_NoDup; [exact shown_inj | exact N1].
    + intros nm H. apply in_map_iff in H as [k [<- Hk]]. apply shown_in. intros ->.
      destruct (tries_refuses _ _ _ _ _ _ (choose_refuses _ _ _ _ _ _ E) (N3 _ Hk)) as [F|[p F]]; discriminate F.
Qed.
Theorem scan_explained lang lines : forall q ms n before cs, lines_ok lines -> ptable q <> None -> st_inv q ms cs ->
  language_so_far lang before (ms_dialect ms) -> length before = n ->
  Forall (ev_P (explained lang (before ++ lines_from n lines))) (fst (scan q ms n lines)).
Proof.
  induction lines as [|x rest IH]; intros q ms n before cs Hl Hq Hi Hd Hn; cbn [scan]; (destruct (ptable q) as [st|] eqn:Eq; [|contradiction]).
  - change (lines_from n []) with (@nil nline). rewrite app_nil_r. destruct (scan_step q ms (S n) [] []) as [ev1 r1] eqn:E.
    pose proof (end_explained lang before q st ms n ev1 r1 Eq Hn E) as F. destruct r1; exact F.
  - inversion Hl as [|? ? Hx Hl']; subst. set (n := length before) in *. change (lines_from n (x :: rest)) with ((S n, x) :: lines_from (S n) rest).
    assert (Er : map snd (lines_from (S n) rest) = rest) by (unfold lines_from; generalize (S (S n)); clear; induction rest as [|y rest IH]; intros m; [reflexivity|]; cbn; f_equal; apply IH).
    destruct (scan_step q ms (S n) x rest) as [ev1 r1] eqn:E. pose proof E as E'. rewrite <- Er in E'.
    pose proof (step_explained lang before q st ms cs (S n) x (lines_from (S n) rest) ev1 r1 Eq Hi Hx Hd E') as F.
    destruct (scan_step_sound _ _ _ _ _ _ _ _ _ Eq Hi E) as [_ [cs' [_ D]]].
    destruct r1 as [[q' ms']|e]; [|exact F]. destruct D as [D1 [D2 D3]].
    assert (Hd' : language_so_far lang (before ++ [(S n, x)]) (ms_dialect ms')).
    { assert (K : ms_dialect ms' = ms_dialect ms \/ exists name, language_line x name /\ for_name name = Some (ms_dialect ms')).
      { clear -E Eq Hi. destruct Hi as [fr [_ [_ [M _]]]]. unfold scan_step in E. rewrite Eq in E. destruct (choose (st_trans st) ms (S n) x rest) as [es ch] eqn:C.
        destruct ch as [tr t m| |e]; [| |discriminate E]; injection E as _ <- <-; [|now left].
        destruct (choose_good _ _ _ _ _ _ _ _ _ (matcher_good _ M) C) as [_ [_ L]]. eapply lexm_dialect; eauto. }
      destruct K as [K|[name [K1 K2]]].
      - rewrite K. destruct Hd as [Hd|[l [name [H1 H2]]]]; [now left | right]. exists l, name. split; [apply in_or_app; now left | exact H2].
      - right. exists (S n, x), name. split; [apply in_or_app; right; now left | auto]. }
    destruct (scan q' ms' (S n) rest) as [ev2 r2] eqn:E2. cbn [fst]. apply Forall_app. split; [exact F|].
    replace (before ++ (S n, x) :: lines_from (S n) rest) with ((before ++ [(S n, x)]) ++ lines_from (S n) rest) by (now rewrite <- app_assoc).
    specialize (IH q' ms' (S n) (before ++ [(S n, x)]) cs' Hl' (D2 Hx) D1 Hd' ltac:(rewrite app_length; cbn; unfold n; lia)).
    now rewrite E2 in IH.
Qed.
