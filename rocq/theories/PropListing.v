(** * C66: the token listing *)
From Verif Require Import PyStr PyStrFacts Types Regex Line DialectData Matcher Ast ParserTable Parser Classify Table Scan Grammar Deriv Cert LineSpec TagIff RowIff StepFacts Cst Report Eval LangSpec LangFacts Complete DocSpec Erase Den LineIff Means Layout DocRun FeatureDoc DocMeans PropLine PropParse PropDoc RaggedSpec Repair RowSwap Tabs RaggedFacts PropRagged ListSpec ListFacts.

Lemma clean_errs evs : ev_errs evs = [] <-> clean evs.
Proof.
  split.
  - intros H e He. assert (In e (ev_errs evs)) by (apply in_flat_map; exists (EvErr e); split; [exact He | now left]). rewrite H in *. contradiction.
  - intros C. destruct (ev_errs evs) as [|e es] eqn:E; [reflexivity|]. exfalso. assert (I : In e (ev_errs evs)) by (rewrite E; now left). apply in_flat_map in I as [[e'|] [I1 I2]]; [|destruct I2].
    destruct I2 as [->|[]]. exact (C e I1).
Qed.
Lemma fmt_outcome stop m0 lines evs r : ms_reset m0 = Ok m0 -> matcher_ok m0 -> ms_sep m0 = None -> lines_ok lines -> scan 0 m0 0 lines = (evs, r) ->
  fst (parse_b fmt_builder stop [] m0 lines) = outcome stop (ev_errs evs) r /\
  (clean evs -> c_b (snd (parse_b fmt_builder stop [] m0 lines)) = map lf_t (ev_leaves evs)).
Proof.
  intros E2 E3 E4 Hl Es.
  assert (Inv : st_inv 0 m0 [(RGherkinDocument, [])]).
  { exists [(RGherkinDocument, prod RGherkinDocument)]. split; [reflexivity|]. split.
    - cbn [sinv]. split; [reflexivity|]. split; [reflexivity|]. split; [apply leaves_ok_nil|]. split; [constructor | exact I].
    - split; [exact E3|]. rewrite E4. split; reflexivity. }
  destruct (scan_sound lines 0 m0 0 _ evs r Hl ltac:(discriminate) Inv Es) as [Lo _].
  assert (RE : raw_evs fmt_builder (doc_evs (scan 0 m0 0 lines)) [] = (ev_errs evs, Ok tt, map lf_t (ev_leaves evs))).
  { rewrite Es. unfold doc_evs. cbn [fst snd raw_evs raw_acts bact fmt_builder bd_start]. rewrite raw_evs_app.
    rewrite fmt_evs by (intros e He; rewrite Forall_forall in Lo; destruct (Lo e He) as [m [_ M]]; eauto).
    destruct r; cbn; now rewrite ?app_nil_r. }
  destruct (parse_b_outcome fmt_builder fmt_no_composite stop [] m0 m0 lines _ _ _ E2 (matcher_good _ E3) Hl RE) as [O1 O2].
  rewrite Es in O1. cbn [snd] in O1. cbv zeta in O1. split; [exact O1|]. intros C. apply O2. now apply clean_errs.
Qed.
Lemma tokens_scan stop lang text m0 out : new_matcher false lang = Ok m0 -> ms_reset m0 = Ok m0 -> matcher_ok m0 -> ms_sep m0 = None ->
  parse_tokens stop false lang text = Ok out <-> exists evs, scan 0 m0 0 (split_lines text) = (evs, Ok tt) /\ clean evs /\ out = format_tokens (map lf_t (ev_leaves evs)).
Proof.
  intros E1 E2 E3 E4. unfold parse_tokens. rewrite E1. cbn [rbind]. destruct (scan 0 m0 0 (split_lines text)) as [evs r] eqn:Es.
  destruct (fmt_outcome stop m0 _ evs r E2 E3 E4 (split_lines_nonempty text) Es) as [O1 O2].
  destruct (parse_b fmt_builder stop [] m0 (split_lines text)) as [res c]. cbn [fst snd] in *. rewrite O1. split.
  - intros H. destruct (outcome_ok _ _ _ _ _ H) as [Z [[] ->]]. pose proof Z as Cl. apply clean_errs in Cl. rewrite Z, outcome_nil in H. cbn in H. injection H as <-. rewrite (O2 Cl). eauto.
  - intros [evs' [F [Cl ->]]]. injection F as <- ->. pose proof Cl as Z. apply clean_errs in Z. rewrite Z, outcome_nil. cbn. now rewrite (O2 Cl).
Qed.

(** C66.  The listing of an accepted text has one entry for each line, as [listed] says, and EOF. *)
Theorem C66_listing : forall stop lang text out, supported lang ->
  parse_tokens stop false lang text = Ok out ->
  exists d es, for_name lang = Some d /\ listing d AtStart (numbered_lines (split_lines text)) es /\ out = join [ch_nl] es.
Proof.
  intros stop lang text out H E. destruct (fresh_matcher lang H) as [m0 [E1 [E2 [E3 [E4 E5]]]]].
  pose proof (proj1 (tokens_scan stop lang text m0 out E1 E2 E3 E4) E) as [evs [Es [Cl Eo]]]. subst out. clear E.
  assert (Inv : st_inv 0 m0 [(RGherkinDocument, [])]).
  { exists [(RGherkinDocument, prod RGherkinDocument)]. split; [reflexivity|]. split.
    - cbn [sinv]. split; [reflexivity|]. split; [reflexivity|]. split; [apply leaves_ok_nil|]. split; [constructor | exact I].
    - split; [exact E3|]. rewrite E4. split; reflexivity. }
  exists (ms_dialect m0), (map (fun a => format_token (lf_t a)) (ev_leaves evs)). split.
  - destruct H as [d Hd]. unfold new_matcher in E1. rewrite Hd in E1. unfold ms_reset in E1. cbn in E1. rewrite (proj2 (str_eqb_spec lang lang) eq_refl) in E1. cbn in E1. injection E1 as <-. exact Hd.
  - split; [|unfold format_tokens; now rewrite map_map].
    apply (scan_listing (split_lines text) 0 m0 0 AtStart evs (split_lines_nonempty text)); eauto; [discriminate | cbn; auto].
Qed.
Print Assumptions C66_listing.

(** ** The entries are determined *)
Lemma title_unique kws x kw1 n1 kw2 n2 : Forall (fun k => no_colon k = true) kws -> title_line kws x kw1 n1 -> title_line kws x kw2 n2 -> kw1 = kw2 /\ n1 = n2.
Proof.
  intros Hc [I1 [r1 [E1 ->]]] [I2 [r2 [E2 ->]]]. rewrite Forall_forall in Hc. rewrite E1 in E2. apply colon_prefix in E2 as [-> ->]; auto.
Qed.
Lemma step_unique d x kw1 t1 kw2 t2 : step_line d x kw1 t1 -> step_line d x kw2 t2 -> kw1 = kw2 /\ t1 = t2.
Proof.
  intros [b1 [a1 [r1 [E1 [N1 [B1 ->]]]]]] [b2 [a2 [r2 [E2 [N2 [B2 ->]]]]]].
  assert (Q : forall kw b a (rest : str), all_step_keywords d = b ++ kw :: a -> Forall (fun k => ~ begins k x) b -> lstrip x = kw ++ rest -> find (fun k => startswith k (lstrip x)) (all_step_keywords d) = Some kw).
  { intros kw b a rest -> N B. induction N as [|w b Hw Hb IH]; cbn [app find]; [now rewrite B, startswith_app|]. unfold begins in Hw. apply not_true_iff_false in Hw. now rewrite Hw. }
  assert (kw1 = kw2) by (pose proof (Q _ _ _ _ E1 N1 B1); pose proof (Q _ _ _ _ E2 N2 B2); congruence). subst kw2. split; [reflexivity|]. rewrite B1 in B2. apply app_inv_head in B2. now subst.
Qed.
Section Unique.
Context (lname : str) (d : dialect) (Hd : for_name lname = Some d).
Let ms := mkMs false lname lname d 0 None false.
Lemma u_good : good ms.
Proof. split; [reflexivity|]. exact (for_name_ok _ _ Hd). Qed.
Lemma u_title k kw name x : title_kind k = true -> title_line (keywords_of d k) x kw name -> cls ms x = k.
Proof. intros H T. apply (cls_title ms x k u_good H). exists kw, name. exact T. Qed.
Lemma u_begins k c x : k <> TkEmpty -> k <> TkOther -> starts d k = [[c]] -> begins [c] x -> cls ms x = k.
Proof. intros H1 H2 E B. now apply (cls_begins ms x k c u_good H1 H2 E). Qed.
Definition titled (kind : str) : option tok :=
  find (fun k => str_eqb (tok_name k) kind) [TkFeatureLine; TkRuleLine; TkBackgroundLine; TkScenarioLine; TkExamplesLine].
Lemma titles_kind kind kws p : titles d kind kws p -> exists k, kind = tok_name k /\ kws = keywords_of d k /\ title_place k = Some p /\ title_kind k = true.
Proof. destruct 1; [exists TkFeatureLine | exists TkRuleLine | exists TkBackgroundLine | exists TkScenarioLine | exists TkExamplesLine]; repeat split. Qed.
(** the class of a formed line *)
Lemma formed_class l e pos : formed d l e pos ->
  (exists k p kw name, cls ms (snd l) = k /\ title_kind k = true /\ title_place k = Some p /\ title_line (keywords_of d k) (snd l) kw name /\ pos = AfterTitle p false /\
     e = entry (fst l) (first_col l) (tok_name k) (s "()" ++ kw) name []) \/
  (exists kw text, cls ms (snd l) = TkStepLine /\ step_line d (snd l) kw text /\ pos = Elsewhere /\
     e = entry (fst l) (first_col l) (s "StepLine") (s "(" ++ type_name (step_type d kw) ++ s ")" ++ kw) text []) \/
  (exists items, cls ms (snd l) = TkTagLine /\ tags_line (snd l) items /\ pos = Elsewhere /\ e = entry (fst l) (first_col l) (s "TagLine") [] [] (items_entry items)) \/
  (exists items, cls ms (snd l) = TkTableRow /\ row_line (snd l) items /\ pos = Elsewhere /\ e = entry (fst l) (first_col l) (s "TableRow") [] [] (items_entry items)) \/
  (exists sep, cls ms (snd l) = TkDocStringSeparator /\ separator sep /\ begins sep (snd l) /\ pos = InQuotes (indent_of (snd l)) sep /\
     e = entry (fst l) (first_col l) (s "DocStringSeparator") (s "()" ++ sep) (strip (skipn (length sep) (lstrip (snd l)))) []).
Proof.
  intros [kind kws p kw name T L|kw text L|items L|items L|sep media S B ->].
  - left. destruct (titles_kind _ _ _ T) as [k [-> [-> [P K]]]]. exists k, p, kw, name. split; [eapply u_title; eauto | auto 6].
  - right. left. exists kw, text. split; [apply (cls_step ms _ u_good); exists kw, text; exact L | auto].
  - right. right. left. exists items. split; [|auto]. pose proof L as L'. apply (g_tags_iff (snd l) 0) in L' as [B _]. apply (u_begins _ ch_at); [discriminate | discriminate | reflexivity | exact B].
  - right. right. right. left. exists items. split; [|auto]. pose proof L as L'. apply (table_cells_iff (snd l) 0) in L' as [B _]. apply (u_begins _ ch_pipe); [discriminate | discriminate | reflexivity | exact B].
  - right. right. right. right. exists sep. split; [|auto].
    apply (cls_has ms (snd l) TkDocStringSeparator u_good); [discriminate | discriminate|]. unfold has. cbn [starts]. apply existsb_exists. exists sep. split; [|exact B]. destruct S as [-> | ->]; cbn; auto.
Qed.
Lemma formed_unique l e1 p1 e2 p2 : formed d l e1 p1 -> formed d l e2 p2 -> e1 = e2 /\ p1 = p2.
Proof.
  intros H1 H2. apply formed_class in H1, H2.
  destruct H1 as [[k [p [kw [name [C [K [P [T [-> ->]]]]]]]]]|[[kw [text [C [T [-> ->]]]]]|[[items [C [T [-> ->]]]]|[[items [C [T [-> ->]]]]|[sep [C [S [B [-> ->]]]]]]]]];
  destruct H2 as [[k2 [p2' [kw2 [name2 [C2 [K2 [P2 [T2 [-> ->]]]]]]]]]|[[kw2 [text2 [C2 [T2 [-> ->]]]]]|[[items2 [C2 [T2 [-> ->]]]]|[[items2 [C2 [T2 [-> ->]]]]|[sep2 [C2 [S2 [B2 [-> ->]]]]]]]]];
  rewrite C in C2; try discriminate C2; try (rewrite C2 in K; discriminate K); try (rewrite <- C2 in K2; discriminate K2).
  - subst k2. rewrite P in P2. injection P2 as <-. destruct (title_unique (keywords_of d k) (snd l) kw name kw2 name2) as [-> ->]; auto.
    apply Forall_forall. intros w Hw. eapply title_no_colon; [exact Hd|]. unfold title_keywords.
    destruct k; try discriminate K; cbn [keywords_of] in *; rewrite !in_app_iff; unfold scenario_keywords in *; rewrite ?in_app_iff in *; tauto.
  - destruct (step_unique _ _ _ _ _ _ T T2) as [-> ->]. auto.
  - apply (g_tags_iff (snd l) 0) in T as [_ T]. apply (g_tags_iff (snd l) 0) in T2 as [_ T2]. rewrite T in T2. injection T2 as ->. auto.
  - apply (table_cells_iff (snd l) 0) in T as [_ T]. apply (table_cells_iff (snd l) 0) in T2 as [_ T2]. rewrite T in T2. injection T2 as ->. auto.
  - assert (sep = sep2); [|subst; auto]. destruct S as [-> | ->], S2 as [-> | ->]; try reflexivity; exfalso; eapply quotes_ticks; eauto.
Qed.
Lemma formed_other l e p : formed d l e p -> cls ms (snd l) <> TkEmpty /\ cls ms (snd l) <> TkComment.
Proof.
  intros H. apply formed_class in H.
  destruct H as [[k [p0 [kw [name [C [K _]]]]]]|[[kw [text [C _]]]|[[items [C _]]|[[items [C _]]|[sep [C _]]]]]]; rewrite C; split; try discriminate; destruct k; discriminate.
Qed.
Lemma u_comment (l : nline) : comment_line l -> cls ms (snd l) = TkComment.
Proof. intros B. apply (u_begins _ ch_hash); [discriminate | discriminate | reflexivity | exact B]. Qed.
Lemma u_language (l : nline) name : language_line (snd l) name -> cls ms (snd l) = TkComment.
Proof.
  intros [a [b [c [dd [e [E [A _]]]]]]]. apply (u_comment l). unfold comment_line, begins. rewrite E. unfold all_space in A.
  assert (Q : forall y, lstrip (a ++ s "#" ++ y) = s "#" ++ y); [|rewrite Q; reflexivity].
  clear -A. intros y. unfold lstrip, lstrip_by. induction a as [|c a IH]; [reflexivity|]. cbn [forallb app drop_while] in *. apply andb_true_iff in A as [-> A]. auto.
Qed.
Lemma u_blank (l : nline) : blank_line l -> cls ms (snd l) = TkEmpty.
Proof. intros B. now apply (cls_blank ms _ u_good). Qed.
End Unique.
Lemma listed_unique lname d (Hd : for_name lname = Some d) pos l e1 d1 p1 e2 d2 p2 : listed d pos l e1 d1 p1 -> listed d pos l e2 d2 p2 -> e1 = e2 /\ d1 = d2 /\ p1 = p2.
Proof.
  intros H1 H2.
  destruct H1 as [l name d' L D|pos l B P|pos l C F N|pos l e pos' F Fo|p b l Ne Nb|k sep l Nb|k sep l Bs].
  - inversion H2 as [? name2 d2' L2 D2|? ? B2 P2|? ? C2 F2 N2|? ? ? ? F2 Fo2| | |]; subst.
    + rewrite (language_unique _ _ _ L L2) in *. rewrite D in D2. injection D2 as <-. auto.
    + apply (u_language _ _ Hd) in L. apply (u_blank _ _ Hd) in B2. congruence.
    + exfalso. exact (N2 eq_refl _ L).
    + apply (u_language _ _ Hd) in L. apply (formed_other _ _ Hd) in Fo2 as [_ Fo2]. congruence.
  - inversion H2 as [? name2 d2' L2 D2|? ? B2 P2|? ? C2 F2 N2|? ? ? ? F2 Fo2|p2' b2 ? Ne2 Nb2|k2 sep2 ? Nb2|k2 sep2 ? Bs2]; subst; auto.
    + apply (u_language _ _ Hd) in L2. apply (u_blank _ _ Hd) in B. congruence.
    + apply (u_comment _ _ Hd) in C2. apply (u_blank _ _ Hd) in B. congruence.
    + apply (u_blank _ _ Hd) in B. apply (formed_other _ _ Hd) in Fo2 as [Fo2 _]. congruence.
    + destruct P as [P|[P|[p P]]]; try discriminate P. injection P as <- ->. now destruct (Nb2 eq_refl).
    + destruct P as [P|[P|[p P]]]; discriminate P.
    + destruct P as [P|[P|[p P]]]; discriminate P.
  - inversion H2 as [? name2 d2' L2 D2|? ? B2 P2|? ? C2 F2 N2|? ? ? ? F2 Fo2|p2' b2 ? Ne2 Nb2|k2 sep2 ? Nb2|k2 sep2 ? Bs2]; subst; auto; try contradiction.
    + exfalso. exact (N eq_refl _ L2).
    + apply (u_comment _ _ Hd) in C. apply (u_blank _ _ Hd) in B2. congruence.
    + apply (u_comment _ _ Hd) in C. apply (formed_other _ _ Hd) in Fo2 as [_ Fo2]. congruence.
  - inversion H2 as [? name2 d2' L2 D2|? ? B2 P2|? ? C2 F2 N2|? ? ? ? F2 Fo2|p2' b2 ? Ne2 Nb2|k2 sep2 ? Nb2|k2 sep2 ? Bs2]; subst; auto; try contradiction.
    + apply (u_language _ _ Hd) in L2. apply (formed_other _ _ Hd) in Fo as [_ Fo]. congruence.
    + apply (u_blank _ _ Hd) in B2. apply (formed_other _ _ Hd) in Fo as [Fo _]. congruence.
    + apply (u_comment _ _ Hd) in C2. apply (formed_other _ _ Hd) in Fo as [_ Fo]. congruence.
    + destruct (formed_unique _ _ Hd _ _ _ _ _ Fo Fo2) as [-> ->]. auto.
  - inversion H2 as [? name2 d2' L2 D2|? ? B2 P2|? ? C2 F2 N2|? ? ? ? F2 Fo2|p2' b2 ? Ne2 Nb2|k2 sep2 ? Nb2|k2 sep2 ? Bs2]; subst; auto; try contradiction.
    destruct P2 as [P2|[P2|[p' P2]]]; try discriminate P2. injection P2 as <- ->. now destruct (Nb eq_refl).
  - inversion H2 as [? name2 d2' L2 D2|? ? B2 P2|? ? C2 F2 N2|? ? ? ? F2 Fo2|p2' b2 ? Ne2 Nb2|k2 sep2 ? Nb2|k2 sep2 ? Bs2]; subst; auto; try contradiction.
    destruct P2 as [P2|[P2|[p' P2]]]; discriminate P2.
  - inversion H2 as [? name2 d2' L2 D2|? ? B2 P2|? ? C2 F2 N2|? ? ? ? F2 Fo2|p2' b2 ? Ne2 Nb2|k2 sep2 ? Nb2|k2 sep2 ? Bs2]; subst; auto; try contradiction.
    destruct P2 as [P2|[P2|[p' P2]]]; discriminate P2.
Qed.
(** Lines, position and language determine the entries. *)
Theorem C66_determined : forall ls lname d pos es1 es2, for_name lname = Some d -> listing d pos ls es1 -> listing d pos ls es2 -> es1 = es2.
Proof.
  induction ls as [|l ls IH]; intros lname d pos es1 es2 Hd H1 H2; inversion H1 as [|? ? ? e1 d1 p1 ? es1' L1 R1]; inversion H2 as [|? ? ? e2 d2 p2 ? es2' L2 R2]; subst; [reflexivity|].
  destruct (listed_unique lname d Hd _ _ _ _ _ _ _ _ L1 L2) as [-> [-> ->]]. f_equal.
  assert (Q : exists n, for_name n = Some d2) by (destruct L2; eauto). destruct Q as [n Hn]. eapply IH; eauto.
Qed.
Print Assumptions C66_determined.

(** ** The accepted texts *)
Lemma tokens_tree stop lang text m0 : new_matcher false lang = Ok m0 -> ms_reset m0 = Ok m0 -> matcher_ok m0 -> ms_sep m0 = None ->
  (exists out, parse_tokens stop false lang text = Ok out) <-> exists l, doc_tree m0 (split_lines text) l /\ langs_ok l.
Proof.
  intros E1 E2 E3 E4. pose proof (split_lines_nonempty text) as Hl. split.
  - intros [out E]. apply (proj1 (tokens_scan stop lang text m0 out E1 E2 E3 E4)) in E as [evs [Es [Cl _]]].
    assert (Inv : st_inv 0 m0 [(RGherkinDocument, [])]).
    { exists [(RGherkinDocument, prod RGherkinDocument)]. split; [reflexivity|]. split.
      - cbn [sinv]. split; [reflexivity|]. split; [reflexivity|]. split; [apply leaves_ok_nil|]. split; [constructor | exact I].
      - split; [exact E3|]. rewrite E4. split; reflexivity. }
    destruct (scan_sound _ 0 m0 0 [(RGherkinDocument, [])] evs _ Hl ltac:(discriminate) Inv Es) as [Lo [cs' [q' [ms' [Run [_ Fin]]]]]].
    destruct Fin as [[e Fin]|[[l [-> O]] Ch]]; [now apply Cl in Fin|]. exists l. split.
    + split; [exact O|]. pose proof (crun_yield _ _ _ (fun _ _ => True) Run) as Y. rewrite cyield_cons in Y. cbn in Y. rewrite Y; [exact Ch|]. eapply Forall_impl; [|exact Lo]. intros a [m [_ M]]. exists m. auto.
    + apply heads_langs; [now inversion O|]. pose proof (crun_walk _ _ _ Run) as W. rewrite !cwalk_cons in W. cbn in W. injection W as ->. eapply scan_langs; eauto.
  - intros [l [T L]]. destruct (tree_found m0 _ l E3 E4 Hl T L) as [evs [Es [Cl _]]]. eexists. apply (tokens_scan stop lang text m0 _ E1 E2 E3 E4). eauto.
Qed.
(** Every text that stands for a document is listed, also if it has ragged tables. *)
Theorem C66_accepts : forall stop lang text doc, supported lang ->
  stands_with rows_block lang (numbered_lines (split_lines text)) doc ->
  exists out, parse_tokens stop false lang text = Ok out.
Proof.
  intros stop lang text doc H St. destruct (fresh_matcher lang H) as [ms [E1 [E2 [E3 [E4 _]]]]]. pose proof (split_lines_nonempty text) as Hl.
  change (numbered_lines (split_lines text)) with (lines_from 0 (split_lines text)) in St. apply (tokens_tree stop lang text ms E1 E2 E3 E4). set (lines := split_lines text) in *.
  destruct (repaired _ _ _ St) as [ls' [doc' [F [St' [Et _]]]]]. destruct (swapped_lines _ _ _ F) as [lines' [-> Fx]]. pose proof (swapx_ok _ _ Fx Hl) as Hl'.
  rewrite <- (doc_stands lang ms _ doc' E1) in St'. rewrite <- (doc_means ms lines' 0 doc' (Logic.conj E3 E4) Hl') in St'. destruct St' as [l' [subs' [ids' [T' [L' [Ev' Ed]]]]]].
  destruct (relabel_doc lines ms lines' l' E3 Hl Fx T' L') as [T [L Sw]]. eauto.
Qed.
Print Assumptions C66_accepts.
(** A text that is listed is accepted by the parser, or its only errors are those of ragged tables. *)
Theorem C66_rejects : forall stop lang text out, supported lang -> parse_tokens stop false lang text = Ok out ->
  (exists d, parse_with stop false lang text = Ok d) \/
  exists e es, Forall (fun e => exists r, e = row_error r) (e :: es) /\
    parse_with stop false lang text = Err (if stop then EParser e else EComposite (firstn 11 (e :: es))).
Proof.
  intros stop lang text out H E. destruct (fresh_matcher lang H) as [ms [E1 [E2 [E3 [E4 _]]]]]. pose proof (split_lines_nonempty text) as Hl.
  destruct (proj1 (tokens_tree stop lang text ms E1 E2 E3 E4) (ex_intro _ _ E)) as [l [T L]]. set (lines := split_lines text) in *.
  destruct (evals l 0) as [[subs es] ids2] eqn:Ev. pose proof (proj1 T) as O. inversion O as [|? ? M Lv Fo]; subst.
  pose proof (evals_errs l RGherkinDocument Fo 0) as Ee. rewrite Ev in Ee. cbn [fst snd] in Ee.
  pose proof (tree_rows_from (lines_from 0 lines) _ _ O) as Q. cbn [yield tree_rows is_tab] in Q. specialize (Q (chain_line lines ms 0 _ (proj2 T))). change (Forall (fun t => t <> [] /\ Forall (from_line (lines_from 0 lines)) t) (trees_rows l)) in Q.
  assert (TE : table_errors (trees_rows l) es) by (rewrite Ee; apply tables_errors; eapply Forall_impl; [|exact Q]; intros t [Ht _]; exact Ht).
  assert (D : distinct_msgs es).
  { eapply errors_distinct; [exact TE|]. pose proof (chain_nodup _ _ _ _ (proj2 T)) as [N _]. exact (proj1 (rows_distinct (Node RGherkinDocument l) RNone O N)). }
  pose proof (parse_lines_tree stop 0 ms ms lines l subs es ids2 E2 E3 E4 Hl T L Ev) as [P _]. rewrite (outcome_distinct stop _ (table_settled _ _ TE) D) in P.
  unfold parse_with. rewrite E1. cbn [rbind]. destruct es as [|e es].
  - left. eexists. exact P.
  - right. exists e, es. split; [exact (errors_rows _ _ TE) | exact P].
Qed.
Print Assumptions C66_rejects.

(** a description with a keyword line, doc string content, a ragged table, a language header and a comment that looks like one *)
Definition c66_text : str := text_of_lines
  [s "# c"; s " # language: de"; s "#language: fr"; s "Funktion: f"; s ""; s "  Wenn so"; s ""; s "Szenario: a"; s "  Angenommen x"; s "  ``` t/p"; s "    y"; s "  \`\`\`"; s " # no"; s " ```"; s " Und z"; s "  | a | b |"; s "  | 1 |"; s "@t @u"; s "Szenario: b "].
Example C66_case : parse_tokens false false (s "en") c66_text = Ok (join [ch_nl]
  [s "(1:1)Comment:/# c/"; s "(2:2)Language:/de/"; s "(3:1)Comment:/#language: fr/"; s "(4:1)FeatureLine:()Funktion/f/"; s "(5:1)Empty://"; s "(6:1)Other:/  Wenn so/"; s "(7:1)Other://";
   s "(8:1)ScenarioLine:()Szenario/a/"; s "(9:3)StepLine:(Context)Angenommen /x/"; s "(10:3)DocStringSeparator:()```/t/p/"; s "(11:1)Other:/  y/"; s "(12:1)Other:/```/"; s "(13:1)Other:/# no/"; s "(14:2)DocStringSeparator:()```//";
   s "(15:2)StepLine:(Conjunction)Und /z/"; s "(16:3)TableRow://5:a,9:b"; s "(17:3)TableRow://5:1"; s "(18:1)TagLine://1:@t,4:@u"; s "(19:1)ScenarioLine:()Szenario/b/"; s "EOF"]).
Proof. vm_compute. reflexivity. Qed.
