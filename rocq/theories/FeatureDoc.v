(** * Features and their language *)
From Verif Require Import PyStr PyStrFacts Types Regex Line DialectData Matcher Ast ParserTable Parser Classify Table Scan Grammar Deriv Cert LineSpec StepFacts Cst Report Eval LangSpec LangFacts Complete DocSpec Erase Den LineIff Means Layout Texts DocStr Blocks.

Definition in_language (ms : mstate) (name : str) (d : dialect) : mstate := mkMs (ms_md ms) (ms_default ms) name d (ms_indent ms) (ms_sep ms) (ms_feature ms).
(** perhaps a language header and the blank lines and comments after it *)
Definition lang_part (ms : mstate) (nls : list nline) (ms1 : mstate) (cs : list comment) : Prop :=
  (nls = [] /\ ms1 = ms /\ cs = []) \/
  (exists h mid name d, nls = h :: mid /\ language_line (snd h) name /\ for_name name = Some d /\ noise_lines mid cs /\ ms1 = in_language ms name d).
Definition lang_subs (subs : list (key * item)) : Prop := Forall (fun p => fst p = KTok TkLanguage \/ fst p = KTok TkEmpty) subs.
Lemma gi_lang r subs k : lang_subs subs -> k <> KTok TkLanguage -> k <> KTok TkEmpty -> get_items (mkNode r subs) k = [].
Proof.
  intros H K1 K2. unfold get_items. cbn [n_subs]. induction H as [|[k' i] bs E H IH]; [reflexivity|]. cbn in E. cbn [filter fst].
  destruct (key_eqb k' k) eqn:Q; [|exact IH]. exfalso. destruct E as [-> | ->]; destruct k as [q| |]; try discriminate Q; destruct q; try discriminate Q; congruence.
Qed.
Lemma blanks_lang s : blanks s -> lang_subs s.
Proof. apply Forall_impl. auto. Qed.
Lemma idle_lang ms n x ms1 t : idle ms -> lexm TkLanguage ms n x = (Ok true, ms1, t) -> idle ms1.
Proof. intros [H1 H2] L. destruct (lexm_language _ _ _ _ _ L H1) as [A [B _]]. split; [exact A | congruence]. Qed.
Definition lang_gx : gx := gopt (GCat (T TkLanguage) noise).
Lemma lang_reads ms n1 ms1 s1 c1 : idle ms -> V RFeatureHeader lang_gx ms n1 ms1 s1 c1 -> lang_part ms n1 ms1 c1 /\ lang_subs s1 /\ idle ms1.
Proof.
  intros Hi H. apply V_opt in H as [H|[-> [-> [-> ->]]]]; [|split; [now left|]; split; [constructor | exact Hi]].
  apply V_cat in H as [m1 [m2 [ms2 [t1 [t2 [d1 [d2 [-> [-> [-> [H1 H2]]]]]]]]]]]. apply V_tok in H1 as [n [x [t [-> [Hx [L [_ [_ [_ [-> ->]]]]]]]]]].
  pose proof (idle_lang _ _ _ _ _ Hi L) as Hi2. destruct (means_noise RFeatureHeader ms2 Hi2 ltac:(discriminate)) as [F _]. destruct (F _ _ _ _ H2) as [-> [[] [N1 N2]]].
  split; [|split; [|exact Hi2]].
  - right. apply lexm_lang_inv in L as [name [d [L1 [L2 [L3 _]]]]]. exists (n, x), m2, name, d. auto.
  - apply Forall_app. split; [|now apply blanks_lang]. unfold tok_sub. cbn. repeat constructor.
Qed.
Lemma lang_read_back ms n1 ms1 c1 : idle ms -> nonempty n1 -> lang_part ms n1 ms1 c1 -> exists s1, V RFeatureHeader lang_gx ms n1 ms1 s1 c1.
Proof.
  intros Hi Hn [[-> [-> ->]]|[[n x] [mid [name [d [-> [H1 [H2 [H3 ->]]]]]]]]].
  - exists []. apply V_opt. auto.
  - inversion Hn as [|? ? Hx Hm]; subst. cbn in Hx, H1. pose proof (lexm_lang_true ms n x name d Hx H1 H2) as L. pose proof (idle_lang _ _ _ _ _ Hi L) as Hi2.
    destruct (means_noise RFeatureHeader _ Hi2 ltac:(discriminate)) as [_ B]. destruct (B mid tt c1 Hm H3) as [s2 [V2 _]].
    eexists. apply V_opt. left. apply V_cat. exists [(n, x)], mid. eexists. do 2 eexists. exists [], c1. split; [reflexivity|]. split; [reflexivity|]. split; [reflexivity|]. split; [|exact V2].
    apply V_tok. exists n, x. eexists. split; [reflexivity|]. split; [exact Hx|]. split; [exact L|]. destruct Hi as [Hi1 Hi3]. do 2 (split; [assumption|]). split; [discriminate|]. split; reflexivity.
Qed.

(** ** Features *)
Definition feature_S (ms : mstate) : bl feature := feature_block (ms_dialect ms) (ms_name ms).
Section After.
Variable ms : mstate.
Context (Hi : idle ms).
Let d : dialect := ms_dialect ms.
Definition feature_rest : gx := GCat (gopt (R RBackground)) (GCat (GStar (R RScenarioDefinition)) (GStar (R RRule))).
Lemma means_rest : means (V RFeature feature_rest) ms (cat_S (maybe (background_block d)) (cat_S (blocks (scenario_block d)) (blocks (rule_block d))))
  (cat_G (opt_G (node_G RBackground IBackground)) (cat_G (nodes_G RScenarioDefinition IScenario) (nodes_G RRule IRule))).
Proof.
  apply means_cat; [apply means_opt; now apply means_background|]. apply means_cat; apply means_nodes; [now apply means_scenario | now apply means_rule].
Qed.
Definition header_gx : gx := GCat (gopt (R RTags)) (GCat (T TkFeatureLine) helper).
Lemma means_header : means (V RFeatureHeader header_gx) ms (header_S ms TkFeatureLine) (header_G ms TkFeatureLine).
Proof. apply means_cat; [now apply means_tags_opt|]. now apply means_titled_last. Qed.
Definition mk_feature (a : (list tag * (titled_line * str)) * (option background * (list scenario * list rule_ast))) : feature :=
  mkFeature (fst (fst a)) (here (fst (fst (fst (snd (fst a)))))) (Some (ms_name ms)) (Some (snd (fst (fst (snd (fst a)))))) (Some (snd (fst (snd (fst a))))) (snd (snd (fst a)))
    (fst (snd a)) (fst (snd (snd a))) (snd (snd (snd a))).
Lemma feature_build sl sh s2 a b : lang_subs sl -> header_G ms TkFeatureLine a sh ->
  cat_G (opt_G (node_G RBackground IBackground)) (cat_G (nodes_G RScenarioDefinition IScenario) (nodes_G RRule IRule)) b s2 ->
  no_id_subs s2 = s2 ->
  finish0 RFeature ([(KRule RFeatureHeader, INode RFeatureHeader (sl ++ sh))] ++ s2, []) = ([(KRule RFeature, IFeature (mk_feature (a, b)))], []).
Proof.
  intros Hl Hh [s3 [s4 [-> [G2 [s5 [s6 [-> [G3 G4]]]]]]]] He. destruct b as [bg [scs rus]], a as [tags a]. cbn [fst snd] in *. unfold nodes_G in G3, G4.
  destruct (header_reads _ _ _ _ _ RFeatureHeader Hh eq_refl) as [t [[T1 [T2 [T3 T4]]] [R1 [R2 R3]]]].
  set (H0 := [(KRule RFeatureHeader, INode RFeatureHeader (sl ++ sh))]).
  assert (Q : forall k, get_items (mkNode RFeature (H0 ++ s3 ++ s5 ++ s6)) k =
      (if key_eqb (KRule RFeatureHeader) k then [INode RFeatureHeader (sl ++ sh)] else []) ++ (if key_eqb (KRule RBackground) k then opt_items IBackground bg else []) ++
      match k with KRule q' => (if rule_eqb RScenarioDefinition q' then map IScenario scs else []) ++ (if rule_eqb RRule q' then map IRule rus else []) | _ => [] end).
  { intros k. unfold H0. rewrite !get_items_app, gi_one, (gi_opt _ _ _ _ _ _ G2), G3, G4, !gi_nodes. f_equal. f_equal. now destruct k. }
  assert (Q2 : forall k, k <> KRule RFeatureHeader -> get_items (mkNode RFeature (s3 ++ s5 ++ s6)) k = get_items (mkNode RFeature (H0 ++ s3 ++ s5 ++ s6)) k).
  { intros k Hk. rewrite (get_items_app _ H0). unfold H0. rewrite gi_one. destruct (key_eqb (KRule RFeatureHeader) k) eqn:E; [|reflexivity]. destruct k as [|q|]; try discriminate E. cbn [key_eqb] in E. apply rule_eqb_spec in E. now subst. }
  set (S0 := H0 ++ s3 ++ s5 ++ s6) in *. set (S1 := s3 ++ s5 ++ s6) in *.
  assert (Eb : get_background (mkNode RFeature S1) = get_background (mkNode RFeature S0)) by (unfold get_background, get_single; rewrite Q2 by discriminate; reflexivity).
  assert (Ec : get_scenarios (mkNode RFeature S1) = get_scenarios (mkNode RFeature S0)) by (unfold get_scenarios; rewrite Q2 by discriminate; reflexivity).
  assert (Er : get_rules (mkNode RFeature S1) = get_rules (mkNode RFeature S0)) by (unfold get_rules; rewrite Q2 by discriminate; reflexivity).
  assert (Hb : get_background (mkNode RFeature S0) = bg) by (apply background_of_items; rewrite Q; cbn [key_eqb rule_eqb app]; rewrite app_nil_r; now destruct bg).
  assert (Hc : get_scenarios (mkNode RFeature S0) = scs) by (apply scenarios_of_items; rewrite Q; cbn [key_eqb rule_eqb app]; apply app_nil_r).
  assert (Hr : get_rules (mkNode RFeature S0) = rus) by (apply rules_of_items; rewrite Q; reflexivity).
  assert (Hb' : option_map no_id_background bg = bg) by (rewrite <- Hb, <- Eb, <- gbg_no, He; reflexivity).
  assert (Hc' : map no_id_scenario scs = scs) by (rewrite <- Hc, <- Ec, <- gsc_no, He; reflexivity).
  assert (Hr' : map no_id_rule rus = rus) by (rewrite <- Hr, <- Er, <- gru_no, He; reflexivity).
  assert (I : forall k, k <> KTok TkLanguage -> k <> KTok TkEmpty -> get_items (mkNode RFeatureHeader (sl ++ sh)) k = get_items (mkNode RFeatureHeader sh) k) by (intros k K1 K2; rewrite get_items_app, (gi_lang _ sl) by assumption; reflexivity).
  unfold finish0. cbn [transform_node n_rule]. unfold get_node, get_single. rewrite Q. cbn [key_eqb rule_eqb app hd_error].
  assert (Et : forall id, get_tags (mkNode RFeatureHeader (sl ++ sh)) id = get_tags (mkNode RFeatureHeader sh) id) by (intros; unfold get_tags, get_single; rewrite I by discriminate; reflexivity).
  assert (El : get_token (mkNode RFeatureHeader (sl ++ sh)) TkFeatureLine = get_token (mkNode RFeatureHeader sh) TkFeatureLine) by (unfold get_token, get_single; rewrite I by discriminate; reflexivity).
  assert (Ed : get_description (mkNode RFeatureHeader (sl ++ sh)) = get_description (mkNode RFeatureHeader sh)) by (unfold get_description, get_single; rewrite I by discriminate; reflexivity).
  rewrite Et. pose proof (R3 0%nat) as Eg. destruct (get_tags _ 0%nat) as [tg id1]. cbn [fst] in Eg. rewrite El, Ed, R1, R2. cbn [fst no_id_res no_id_item]. unfold no_id_feature.
  cbn [fe_tags fe_loc fe_language fe_keyword fe_name fe_desc fe_background fe_scenarios fe_rules]. rewrite Hb, Hc, Hr, Hb', Hc', Hr', Eg, T1, T2, T3, T4. reflexivity.
Qed.
Lemma feature_parts nls f cs : feature_S ms nls f cs <-> exists a b n1 n2 c1 c2, nls = n1 ++ n2 /\ cs = c1 ++ c2 /\ f = mk_feature (a, b) /\ header_S ms TkFeatureLine n1 a c1 /\
  cat_S (maybe (background_block d)) (cat_S (blocks (scenario_block d)) (blocks (rule_block d))) n2 b c2.
Proof.
  unfold feature_S, feature_block. split.
  - intros [tl [l [dl [bl [sl [rl [tags [kw [name [desc [bg [scs [rus [cs0 [cs1 [cs2 [cs3 [cs4 [-> [H0 [H1 [H2 [H3 [H4 [H5 [-> ->]]]]]]]]]]]]]]]]]]]]]]]]]].
    exists (tags, ((l, kw, name), desc)), (bg, (scs, rus)), (tl ++ l :: dl), (bl ++ sl ++ rl), (cs0 ++ cs1), (cs2 ++ cs3 ++ cs4).
    split; [rewrite <- app_assoc; reflexivity|]. split; [rewrite <- app_assoc; reflexivity|]. split; [reflexivity|]. split.
    + exists tl, (l :: dl), cs0, cs1. split; [reflexivity|]. split; [reflexivity|]. split; [exact H0|].
      exists [l], dl, [], cs1. split; [reflexivity|]. split; [reflexivity|]. split; [split; [reflexivity|]; split; [exact H1 | reflexivity]|]. exact H2.
    + exists bl, (sl ++ rl), cs2, (cs3 ++ cs4). split; [reflexivity|]. split; [reflexivity|]. split; [exact H3|]. exists sl, rl, cs3, cs4. auto.
  - intros [[tags [[[l kw] name] desc]] [[bg [scs rus]] [nh [nb [ch [cb [-> [-> [-> [[tl [n0 [cs0 [c0 [-> [-> [H0 [n1 [dl [c1 [cs1 [-> [-> [[-> [H1 ->]] H2]]]]]]]]]]]]]] [bl [n2 [cs2 [c2 [-> [-> [H3 [sl [rl [cs3 [cs4 [-> [-> [H4 H5]]]]]]]]]]]]]]]]]]]]]]]]. cbn [fst snd] in *.
    exists tl, l, dl, bl, sl, rl, tags, kw, name, desc, bg, scs, rus, cs0, cs1, cs2, cs3, cs4. split; [rewrite <- app_assoc; reflexivity|]. do 6 (split; [assumption|]). split; [rewrite <- app_assoc; reflexivity | reflexivity].
Qed.
End After.

Theorem feature_means p ms : idle ms ->
  (forall nls ms' subs cs, V p (R RFeature) ms nls ms' subs cs -> exists n1 n2 c1 c2 f, nls = n1 ++ n2 /\ cs = c1 ++ c2 /\ lang_part ms n1 ms' c1 /\ feature_S ms' n2 f c2 /\ subs = [(KRule RFeature, IFeature f)]) /\
  (forall n1 n2 ms' c1 c2 f, nonempty (n1 ++ n2) -> lang_part ms n1 ms' c1 -> feature_S ms' n2 f c2 -> V p (R RFeature) ms (n1 ++ n2) ms' [(KRule RFeature, IFeature f)] (c1 ++ c2)).
Proof.
  intros Hi. split.
  - intros nls ms' subs cs H. apply V_node in H. apply N_normal in H as [s [Hv Hf]]; [|reflexivity]. change (prod RFeature) with (GCat (R RFeatureHeader) feature_rest) in Hv.
    apply V_cat in Hv as [m1 [m2 [ms1 [s1 [s2 [c1 [c2 [-> [-> [-> [H1 H2]]]]]]]]]]]. apply V_node in H1. apply N_normal in H1 as [sh [Hh Hg]]; [|reflexivity].
    rewrite kept_finish in Hg by (reflexivity || eapply V_erased; eauto). injection Hg as <-. change (prod RFeatureHeader) with (GCat lang_gx header_gx) in Hh.
    apply V_cat in Hh as [n1 [n2 [ms2 [sl [sh' [d1 [d2 [-> [-> [-> [L1 L2]]]]]]]]]]]. destruct (lang_reads _ _ _ _ _ Hi L1) as [Lp [Ls Hi2]].
    destruct (means_header ms2 Hi2) as [F _]. destruct (F _ _ _ _ L2) as [-> [a [Ha Ga]]]. destruct (means_rest ms2 Hi2) as [F2 _]. destruct (F2 _ _ _ _ H2) as [-> [b [Hb Gb]]].
    exists n1, (n2 ++ m2), d1, (d2 ++ c2), (mk_feature ms2 (a, b)). split; [now rewrite app_assoc|]. split; [now rewrite app_assoc|]. split; [exact Lp|]. split.
    + apply feature_parts. exists a, b, n2, m2, d2, c2. auto.
    + erewrite feature_build in Hf; eauto; [|eapply V_erased; eauto]. now injection Hf as <-.
  - intros n1 n2 ms' c1 c2 f Hn Hl Hf. apply Forall_app in Hn as [N1 N2]. destruct (lang_read_back _ _ _ _ Hi N1 Hl) as [sl L1]. destruct (lang_reads _ _ _ _ _ Hi L1) as [_ [Ls Hi2]].
    apply feature_parts in Hf as [a [b [m1 [m2 [d1 [d2 [-> [-> [-> [Ha Hb]]]]]]]]]]. apply Forall_app in N2 as [M1 M2].
    destruct (means_header ms' Hi2) as [_ B]. destruct (B _ _ _ M1 Ha) as [sh [Vh Gh]]. destruct (means_rest ms' Hi2) as [_ B2]. destruct (B2 _ _ _ M2 Hb) as [s2 [V2 G2]].
    apply V_node. apply N_normal; [reflexivity|]. exists ([(KRule RFeatureHeader, INode RFeatureHeader (sl ++ sh))] ++ s2). split; [|eapply feature_build; eauto; eapply V_erased; eauto].
    change (prod RFeature) with (GCat (R RFeatureHeader) feature_rest). apply V_cat. exists (n1 ++ m1), m2, ms'. do 2 eexists. exists (c1 ++ d1), d2. split; [now rewrite app_assoc|]. split; [reflexivity|]. split; [now rewrite app_assoc|]. split; [|exact V2].
    assert (Vh' : V RFeatureHeader (prod RFeatureHeader) ms (n1 ++ m1) ms' (sl ++ sh) (c1 ++ d1)) by (change (prod RFeatureHeader) with (GCat lang_gx header_gx); apply V_cat; exists n1, m1, ms', sl, sh, c1, d1; auto).
    apply V_node. apply N_normal; [reflexivity|]. exists (sl ++ sh). split; [exact Vh'|]. apply kept_finish; [reflexivity | eapply V_erased; eauto].
Qed.
