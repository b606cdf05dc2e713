(** * Markdown: C43, C44, C46 *)
From Verif Require Import PyStr PyStrFacts Types Regex Line DialectData Matcher Ast ParserTable Parser Classify LineSpec StepFacts MdSpec MdFacts PropLine.
Local Open Scope N_scope.

Definition md_en : mstate := match new_matcher true (s "en") with Ok m => m | Err _ => en_matcher end.
Example md_en_ok : md_state md_en. Proof. vm_compute. auto. Qed.

(** C44.  Title lines.  (The keywords of a language are free of colons, so the keyword is the only one that fits.) *)
Lemma kind_kws d name k : for_name name = Some d -> In k md_title_kinds -> kws_ok (title_keywords d k) = true.
Proof.
  intros H Hk. apply for_name_in in H. pose proof title_kws_ok as K. rewrite forallb_forall in K. specialize (K _ H). cbn [snd] in K.
  unfold title_kws in K. cbn [forallb] in K. rewrite !andb_true_iff in K. destruct K as [_ [K1 [K2 [K3 [K4 [K5 _]]]]]].
  cbn in Hk. destruct Hk as [<-|[<-|[<-|[<-|[]]]]]; cbn [title_keywords]; try assumption.
  unfold kws_ok in *. destruct (d_scenario d) as [|a l]; [discriminate K3|]. destruct (d_scenarioOutline d) as [|b r]; [discriminate K4|].
  change (forallb (fun k => negb (existsb (N.eqb ch_colon) k)) ((a :: l) ++ b :: r) = true).
  rewrite forallb_app. apply andb_true_iff. now split.
Qed.
Lemma header_sub l1 l2 x k name col : incl l1 l2 -> header_line l1 x k name col -> header_line l2 x k name col.
Proof. intros H [ind h c k' rest e A B C D E F G]. econstructor; eauto. Qed.
Lemma header_either l1 l2 x k name col : header_line (l1 ++ l2) x k name col -> header_line l1 x k name col \/ header_line l2 x k name col.
Proof. intros [ind h c k' rest e A B C D E F G]. apply in_app_iff in D as [D|D]; [left | right]; econstructor; eauto. Qed.

Lemma title_match ms x n t k : for_name (ms_name ms) = Some (ms_dialect ms) -> In k md_title_kinds -> one_line x -> t_line t = mkLine x n ->
  match md_match k ms t with
  | (Ok true, ms', t') => ms' = ms /\ exists kw name col, header_line (title_keywords (ms_dialect ms) k) x kw name col /\ tok_is k kw name col t'
  | (Ok false, ms', t') => ms' = ms /\ t' = t /\ forall kw name col, ~ header_line (title_keywords (ms_dialect ms) k) x kw name col
  | _ => False
  end.
Proof.
  intros Hn Hk Hx Ht. pose proof Hn as Hd. apply for_name_in in Hd. pose proof title_kws_ok as K. rewrite forallb_forall in K. specialize (K _ Hd). cbn [snd] in K.
  unfold title_kws in K. cbn [forallb] in K. rewrite !andb_true_iff in K. destruct K as [_ [K1 [K2 [K3 [K4 [K5 _]]]]]].
  cbn in Hk. destruct Hk as [<-|[<-|[<-|[<-|[]]]]]; cbn [title_keywords md_match].
  - apply (header_match (d_rule (ms_dialect ms)) TkRuleLine ms x n t K1 Hx Ht).
  - apply (header_match (d_background (ms_dialect ms)) TkBackgroundLine ms x n t K2 Hx Ht).
  - unfold md_match_ScenarioLine. pose proof (header_match (d_scenario (ms_dialect ms)) TkScenarioLine ms x n t K3 Hx Ht) as H1.
    destruct (md_match_title md_header (d_scenario (ms_dialect ms)) [ch_colon] TkScenarioLine ms t) as [[[[|]|] ms1] t1]; [| |easy]; cbn [m_or].
    + destruct H1 as [-> [kw [name [col [H1 H2]]]]]. split; [reflexivity|]. exists kw, name, col. split; [|exact H2]. eapply header_sub; [|exact H1]. intros ? ?; apply in_or_app; auto.
    + destruct H1 as [-> [-> H1]]. pose proof (header_match (d_scenarioOutline (ms_dialect ms)) TkScenarioLine ms x n t K4 Hx Ht) as H2.
      destruct (md_match_title md_header (d_scenarioOutline (ms_dialect ms)) [ch_colon] TkScenarioLine ms t) as [[[[|]|] ms1] t1]; [| |easy].
      * destruct H2 as [-> [kw [name [col [H2 H3]]]]]. split; [reflexivity|]. exists kw, name, col. split; [|exact H3]. eapply header_sub; [|exact H2]. intros ? ?; apply in_or_app; auto.
      * destruct H2 as [-> [-> H2]]. split; [reflexivity|]. split; [reflexivity|]. intros kw name col H. apply header_either in H as [H|H]; [eapply H1 | eapply H2]; eauto.
  - apply (header_match (d_examples (ms_dialect ms)) TkExamplesLine ms x n t K5 Hx Ht).
Qed.

Theorem C44_title_lines : forall ms x n k, md_state ms -> In k md_title_kinds -> one_line x ->
  (fst (recognise k ms x n) = Ok true <-> exists kw name col, header_line (title_keywords (ms_dialect ms) k) x kw name col) /\
  (forall t kw name col, recognise k ms x n = (Ok true, t) -> header_line (title_keywords (ms_dialect ms) k) x kw name col ->
     t_mtype t = Some k /\ t_keyword t = Some kw /\ t_text t = Some name /\ t_location t = mkLoc n (Some col)).
Proof.
  intros ms x n k [Hm Hn] Hk Hx. unfold recognise, do_match. rewrite Hm.
  pose proof (title_match ms x n (new_token x n) k Hn Hk Hx eq_refl) as H. pose proof (kind_kws _ _ k Hn Hk) as Hok.
  assert (L : t_loc_line (snd (md_match k ms (new_token x n))) = n).
  { cbn in Hk. destruct Hk as [<-|[<-|[<-|[<-|[]]]]]; cbn [md_match]; unfold md_match_RuleLine, md_match_BackgroundLine, md_match_ScenarioLine, md_match_ExamplesLine, md_match_title;
      cbn [new_token t_line];
      repeat (match goal with |- context [match re_search ?a ?b with _ => _ end] => destruct (re_search a b) as [[? ?]|] end; cbn [m_or snd]); reflexivity. }
  destruct (md_match k ms (new_token x n)) as [[[[|]|] ms'] t']; [| |easy].
  - destruct H as [_ [kw [name [col [H1 [T1 [T2 [T3 T4]]]]]]]]. split; [split; [eauto | reflexivity]|].
    intros t kw' name' col' E H2. injection E as <-. destruct (header_unique _ _ _ _ _ _ _ _ Hok H1 H2) as [-> [-> ->]].
    unfold t_location. cbn [snd] in L. now rewrite T1, T2, T3, T4, L.
  - destruct H as [_ [_ H]]. split; [split; [discriminate|]|discriminate]. intros [kw [name [col H1]]]. destruct (H _ _ _ H1).
Qed.
Print Assumptions C44_title_lines.
Example C44_title_case :
  header_line (title_keywords (ms_dialect md_en) TkScenarioLine) (s "  ### Scenario Outline:  two words " ++ [ch_nl]) (s "Scenario Outline") (s "two words") 7 /\
  one_line (s "  ### Scenario Outline:  two words " ++ [ch_nl]) /\
  let t := snd (recognise TkScenarioLine md_en (s "  ### Scenario Outline:  two words " ++ [ch_nl]) 4) in
  (t_keyword t, t_text t, t_loc_col t) = (Some (s "Scenario Outline"), Some (s "two words"), Some 7%nat).
Proof.
  split; [|split; [|vm_compute; reflexivity]].
  - change (s "two words") with (strip (s "  two words ")). change 7%nat with (length (s "  ") + 3 + 2)%nat.
    apply (header_intro _ _ (s "  ") 3 32 (s "Scenario Outline") (s "  two words ") [ch_nl]); try reflexivity; try lia.
    + vm_compute. tauto.
    + vm_compute. intuition discriminate.
    + now right.
  - exists (s "  ### Scenario Outline:  two words "), [ch_nl]. split; [reflexivity|]. split; [|now right]. vm_compute. intuition discriminate.
Qed.

(** C44.  Step lines.  Among the keywords that fit, the first one listed counts, as in C12. *)
Theorem C44_step_lines : forall ms x n, md_state ms -> one_line x ->
  (fst (recognise TkStepLine ms x n) = Ok true <->
     exists ind b gap rest k, bullet_line x ind b gap rest /\ In k (all_step_keywords (ms_dialect ms)) /\ startswith k rest = true) /\
  (forall t ind b gap rest, recognise TkStepLine ms x n = (Ok true, t) -> bullet_line x ind b gap rest ->
     exists before k after y e,
       all_step_keywords (ms_dialect ms) = before ++ k :: after /\
       rest = k ++ y ++ e /\ line_end e /\ ~ In ch_nl y /\ Forall (fun k' => startswith k' rest = false) before /\
       t_mtype t = Some TkStepLine /\ t_keyword t = Some k /\ t_text t = Some (strip y) /\
       t_ktype t = Some (md_step_type (ms_dialect ms) k) /\ t_location t = mkLoc n (Some (length ind + length gap + 2)%nat)).
Proof.
  intros ms x n [Hm Hn] Hx. unfold recognise, do_match. rewrite Hm. cbn [md_match].
  pose proof (bullet_match ms x n (new_token x n) Hn Hx eq_refl) as H.
  assert (L : t_loc_line (snd (md_match_StepLine ms (new_token x n))) = n).
  { unfold md_match_StepLine, md_match_title. destruct (re_search _ _) as [[? ?]|]; reflexivity. }
  destruct (md_match_StepLine ms (new_token x n)) as [[[[|]|] ms'] t']; [| |easy].
  - destruct H as [_ [ind [b [gap [rest [before [k [after [y [e [B [K [R [Hy [He [Hb [[T1 [T2 [T3 T4]]] T5]]]]]]]]]]]]]]]]]. cbn [snd] in L. split.
    + split; [|reflexivity]. intros _. exists ind, b, gap, rest, k. split; [exact B|]. split; [rewrite K; apply in_or_app; right; now left|]. rewrite R. apply startswith_app.
    + intros t i1 b1 g1 r1 E B1. injection E as <-. destruct (bullet_unique _ _ _ _ _ _ _ _ _ B B1) as [<- [<- [<- <-]]].
      exists before, k, after, y, e. unfold t_location. rewrite L, T4. repeat (split; [assumption|]). reflexivity.
  - destruct H as [_ [_ H]]. split; [|discriminate]. split; [discriminate|]. intros [ind [b [gap [rest [k [B [K S]]]]]]]. rewrite (H _ _ _ _ k B K) in S. discriminate S.
Qed.
Print Assumptions C44_step_lines.
Example C44_step_case :
  bullet_line (s " -  Given x " ++ [ch_nl]) (s " ") 45 (s "  ") (s "Given x " ++ [ch_nl]) /\
  let t := snd (recognise TkStepLine md_en (s " -  Given x " ++ [ch_nl]) 4) in
  (t_keyword t, t_text t, t_ktype t, t_loc_col t) = (Some (s "Given "), Some (s "x"), Some KtContext, Some 5%nat).
Proof. split; [|vm_compute; reflexivity]. repeat split; auto. Qed.

(** C46.  Table rows: at most five white space characters, then a bar, and no cell of a separator row;
    the cells are those that the classic matcher finds. *)
Theorem C46_table_rows : forall ms classic x n, ms_md ms = true -> ms_md classic = false ->
  (fst (recognise TkTableRow ms x n) = Ok true <->
     (exists ind rest, all_space ind /\ (length ind <= 5)%nat /\ x = ind ++ ch_pipe :: rest) /\
     exists t, recognise TkTableRow classic x n = (Ok true, t) /\ forall i, In i (t_items t) -> ~ separator_cell (i_text i)) /\
  (forall t tc, recognise TkTableRow ms x n = (Ok true, t) -> recognise TkTableRow classic x n = (Ok true, tc) ->
     t_items t = t_items tc /\ t_mtype t = t_mtype tc /\ t_location t = t_location tc).
Proof.
  intros ms cl x n Hm Hc. unfold recognise, do_match. rewrite Hm, Hc. cbn [md_match classic_match]. unfold md_match_TableRow, c_match_TableRow.
  cbn [t_line new_token].
  assert (G : get_line_text (mkLine x n) 0 = x).
  { unfold get_line_text. cbn [Z.ltb orb Z.compare]. destruct (Z.of_nat (g_indent (mkLine x n)) <? 0)%Z eqn:E; [apply Z.ltb_lt in E; lia | reflexivity]. }
  rewrite G. pose proof (table_re_iff x) as T.
  assert (P : forall ind rest, all_space ind -> x = ind ++ ch_pipe :: rest -> g_startswith (mkLine x n) [ch_pipe] = true).
  { intros ind rest Hi ->. unfold g_startswith, g_trimmed. cbn [g_text]. unfold lstrip, lstrip_by. rewrite drop_while_app by exact Hi. reflexivity. }
  destruct (re_match md_table_re x) as [st|].
  - destruct (proj1 T (ex_intro _ st eq_refl)) as [ind [rest [Hi [Hl E]]]]. rewrite (P ind rest Hi E). cbn [negb].
    destruct (table_cells (mkLine x n)) as [cells|e] eqn:TC.
    + pose proof (gfm_iff cells) as I. destruct (is_gfm_separator cells) eqn:S; cbn [fst].
      * split; [|discriminate]. split; [discriminate|]. intros [_ [t [Et Hs]]]. injection Et as <-. cbn [set_matched t_items] in Hs.
        destruct (proj1 I eq_refl) as [i [I1 I2]]. destruct (Hs i I1 I2).
      * split.
        -- split; [|reflexivity]. intros _. split; [now exists ind, rest|]. eexists. split; [reflexivity|]. cbn [set_matched t_items]. intros i Hi1 Hs.
           assert (F : false = true) by (apply I; now exists i). discriminate F.
        -- intros t tc E1 E2. injection E1 as <-. injection E2 as <-. repeat split; reflexivity.
    + cbn [fst]. split; [|discriminate]. split; [discriminate|]. intros [_ [t [Et _]]]. discriminate Et.
  - cbn [fst]. split; [|discriminate]. split; [discriminate|]. intros [H _]. apply T in H as [st H]. discriminate H.
Qed.
Print Assumptions C46_table_rows.
(** A row with a separator cell is a comment, whatever its indentation. *)
Theorem C46_separator_rows : forall ms classic x n t, ms_md ms = true -> ms_md classic = false ->
  recognise TkTableRow classic x n = (Ok true, t) -> (exists i, In i (t_items t) /\ separator_cell (i_text i)) ->
  fst (recognise TkTableRow ms x n) = Ok false /\ fst (recognise TkComment ms x n) = Ok true.
Proof.
  intros ms cl x n t Hm Hc H [i [I1 I2]]. unfold recognise, do_match in *. rewrite Hc in H. rewrite Hm. cbn [md_match classic_match] in *.
  unfold c_match_TableRow in H. cbn [t_line new_token] in H. unfold md_match_TableRow, md_match_Comment. cbn [t_line new_token].
  destruct (g_startswith (mkLine x n) [ch_pipe]); [|discriminate H]. cbn [negb] in H.
  destruct (table_cells (mkLine x n)) as [cells|e]; [|discriminate H]. injection H as <-. cbn [set_matched t_items] in I1.
  assert (S : is_gfm_separator cells = true) by (apply gfm_iff; now exists i). rewrite S. split; [destruct (re_match _ _)|]; reflexivity.
Qed.
Print Assumptions C46_separator_rows.
Example C46_case :
  fst (recognise TkTableRow md_en (s "  | --- | :-: |") 3) = Ok false /\
  map i_text (t_items (snd (recognise TkTableRow en_matcher (s "  | --- | :-: |") 3))) = [s "---"; s ":-:"] /\
  separator_cell (s "---") /\ separator_cell (s ":-:") /\
  fst (recognise TkTableRow md_en (s "     | a | - b |") 3) = Ok true /\ fst (recognise TkTableRow md_en (s "      | a |") 3) = Ok false.
Proof.
  repeat split; try (vm_compute; reflexivity).
  - exists [], 3%nat, [], []. repeat split; auto. now left.
  - exists (s ":"), 1%nat, (s ":"), []. repeat split; auto. now left.
Qed.

(** C43.  The property: the builder receives the lines in their order.  It fails: here the tag line 6 and the
    scenario of line 7 come before line 5; the text is accepted, and the scenario "b" is lost, its tag being given to "d". *)
Definition built_lines (md : mstate) (text : str) : list nat := map t_loc_line (c_b (snd (parse_b fmt_builder false [] md (split_lines text)))).
Definition misordered : str :=
  text_of_lines [s "# Feature: f"; s "## Scenario: a"; s "* Given x"; s "`@t`"; s "## Scenario: b `@z`"; s "`@u`"; s "## Scenario: c"; s "## Scenario: d"].
Theorem C43_refuted :
  built_lines md_en misordered = [1; 2; 3; 4; 6; 7; 5; 8; 9]%nat /\
  exists d f, parse_with false true (s "en") misordered = Ok d /\ gd_feature d = Some f /\
    map (fun sc => (l_line (sc_loc sc), sc_name sc, map tag_name (sc_tags sc))) (fe_scenarios f) =
      [(2%nat, Some (s "a"), []); (7%nat, Some (s "c"), [s "@t"; s "@u"]); (8%nat, Some (s "d"), [s "@z"])].
Proof.
  split; [vm_compute; reflexivity|]. eexists _, _. split; [vm_compute; reflexivity|]. split; vm_compute; reflexivity.
Qed.
Print Assumptions C43_refuted.
