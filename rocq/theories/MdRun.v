(** * Runs of the parser with the Markdown matcher *)
From Verif Require Import PyStr PyStrFacts Types Regex RegexFacts ReSem Line DialectData Matcher Ast ParserTable Parser Classify Table Cert Cst LineSpec StepFacts LangFacts MdSpec MdFacts.

Definition out (r : mret) : result bool := fst (fst r).
Definition ms_of (r : mret) : mstate := snd (fst r).
Definition t_of (r : mret) : token := snd r.

(** ** What every method of the matcher keeps *)
Definition delims : list str := [sep_quotes; sep_ticks4; sep_ticks].
Definition opener (x : str) : option str := find (fun d => startswith d (lstrip x)) delims.
Definition delim_ok (D x : str) : Prop := forall d, opener x = Some d -> d = D.
Definition sep_in (D : str) (ms : mstate) : Prop := ms_sep ms = None \/ ms_sep ms = Some D.

Record kept (ms : mstate) (t : token) (r : mret) : Prop := mkKept {
  kp_line : t_line (t_of r) = t_line t;
  kp_no : t_loc_line (t_of r) = t_loc_line t;
  kp_md : ms_md (ms_of r) = ms_md ms;
  kp_name : ms_name (ms_of r) = ms_name ms;
  kp_dialect : ms_dialect (ms_of r) = ms_dialect ms;
  kp_feature : ms_feature ms = true -> ms_feature (ms_of r) = true;
  kp_sep : forall D, In D delims -> sep_in D ms -> delim_ok D (g_text (t_line t)) -> sep_in D (ms_of r) }.
Lemma kept_refl b ms t : kept ms t (b, ms, t). Proof. constructor; auto. Qed.
Lemma kept_set b ms t ty text kw kt ind items : kept ms t (b, ms, set_matched ms t ty text kw kt ind items). Proof. constructor; auto. Qed.
Lemma kept_trans ms t r r' : kept ms t r -> kept (ms_of r) (t_of r) r' -> kept ms t r'.
Proof.
  intros [A1 A2 A3 A4 A5 A6 A7] [B1 B2 B3 B4 B5 B6 B7]. constructor; try congruence; auto.
  intros D HD H1 H2. apply B7; [exact HD | now apply A7 | now rewrite A1].
Qed.
Lemma kept_or ms t r k : kept ms t r -> (forall ms t, kept ms t (k ms t)) -> kept ms t (m_or r k).
Proof.
  intros H K. unfold m_or. destruct r as [[[[|]|] ms1] t1]; try exact H. eapply kept_trans; [exact H|]. apply K.
Qed.
Lemma kept_title p kws suf ty ms t : kept ms t (md_match_title p kws suf ty ms t).
Proof. unfold md_match_title. destruct (re_search _ _) as [[? ?]|]; [apply kept_set | apply kept_refl]. Qed.
Lemma kept_feature ms t : kept ms t (md_match_FeatureLine ms t).
Proof.
  unfold md_match_FeatureLine. destruct (ms_feature ms) eqn:F; [apply kept_set|].
  pose proof (kept_title md_header (d_feature (ms_dialect ms)) [ch_colon] TkFeatureLine ms t) as K.
  destruct (md_match_title _ _ _ _ ms t) as [[[[|]|] ms1] t1]; destruct K as [A1 A2 A3 A4 A5 A6 A7]; cbn in *; constructor; cbn; auto.
Qed.
Lemma kept_scenario ms t : kept ms t (md_match_ScenarioLine ms t).
Proof. apply kept_or; [apply kept_title | intros; apply kept_title]. Qed.
Lemma kept_row ms t : kept ms t (md_match_TableRow ms t).
Proof.
  unfold md_match_TableRow. destruct (re_match _ _); [|apply kept_refl]. destruct (table_cells _) as [c|e]; [|apply kept_refl].
  destruct (is_gfm_separator c); [apply kept_refl | apply kept_set].
Qed.
Lemma kept_comment ms t : kept ms t (md_match_Comment ms t).
Proof.
  unfold md_match_Comment. destruct (g_startswith _ _); [|apply kept_set]. destruct (table_cells _) as [c|e]; [apply kept_set | apply kept_refl].
Qed.
Lemma kept_tag ms t : kept ms t (md_match_TagLine ms t).
Proof. unfold md_match_TagLine. destruct (md_tags_go _ _ _ _); [apply kept_refl | apply kept_set]. Qed.
Lemma kept_eof ms t : kept ms t (match_EOF ms t).
Proof. unfold match_EOF. destruct (negb _); [apply kept_refl | apply kept_set]. Qed.
Lemma kept_separator ms t : kept ms t (md_match_DocStringSeparator ms t).
Proof.
  unfold md_match_DocStringSeparator. destruct (ms_sep ms) as [sep|] eqn:E.
  - unfold match_separator. destruct (negb _); [apply kept_refl|]. constructor; cbn; auto. intros. now left.
  - unfold m_or, match_separator, g_startswith, g_trimmed.
    assert (K : forall d t', t_line t' = t_line t -> t_loc_line t' = t_loc_line t -> opener (g_text (t_line t)) = Some d ->
       kept ms t (Ok true, mkMs (ms_md ms) (ms_default ms) (ms_name ms) (ms_dialect ms) (g_indent (t_line t)) (Some d) (ms_feature ms), t')).
    { intros d t' T1 T2 O. constructor; cbn; auto. intros D _ _ H. right. cbn. f_equal. now apply H. }
    unfold opener, delims in K. cbn [find] in K.
    destruct (startswith sep_quotes (lstrip (g_text (t_line t)))); cbn [negb].
    { apply (K sep_quotes); reflexivity. }
    destruct (startswith sep_ticks4 (lstrip (g_text (t_line t)))); cbn [negb].
    { apply (K sep_ticks4); reflexivity. }
    destruct (startswith sep_ticks (lstrip (g_text (t_line t)))); cbn [negb].
    { apply (K sep_ticks); reflexivity. }
    apply kept_refl.
Qed.
Lemma kept_empty ms t : kept ms t (md_match_Empty ms t).
Proof.
  unfold md_match_Empty.
  match goal with |- kept _ _ (match ?a with _ => _ end) => assert (K : kept ms t a) end.
  { repeat (apply kept_or; [|first [intros; apply kept_title | intros; apply kept_feature | intros; apply kept_scenario | intros; apply kept_row | intros; apply kept_comment
      | intros; apply kept_refl | intros; apply kept_separator | intros; apply kept_eof]]). apply kept_tag. }
  match goal with |- kept _ _ (match ?a with _ => _ end) => destruct a as [[[b|e] ms1] t1] end; [|exact K].
  destruct (_ || _); [eapply kept_trans; [exact K|]; apply kept_set|]. destruct K; constructor; assumption.
Qed.
Lemma kept_match k ms t : kept ms t (md_match k ms t).
Proof.
  destruct k; cbn [md_match]; first [apply kept_title | apply kept_feature | apply kept_scenario | apply kept_row | apply kept_comment | apply kept_refl
    | apply kept_separator | apply kept_eof | apply kept_empty | apply kept_tag | apply kept_set | idtac].
Qed.
Lemma title_type p kws suf ty ms t : out (md_match_title p kws suf ty ms t) = Ok true -> t_mtype (t_of (md_match_title p kws suf ty ms t)) = Some ty.
Proof. unfold md_match_title. destruct (re_search _ _) as [[? ?]|]; [reflexivity | discriminate]. Qed.
Lemma match_type k ms t : out (md_match k ms t) = Ok true -> t_mtype (t_of (md_match k ms t)) = Some k.
Proof.
  destruct k; cbn [md_match]; try apply title_type.
  - unfold match_EOF. destruct (negb _); [discriminate | reflexivity].
  - unfold md_match_Empty. match goal with |- context [match ?a with _ => _ end] => destruct a as [[[b|e] ms1] t1] end; [|discriminate]. destruct (_ || _); [reflexivity | discriminate].
  - unfold md_match_Comment. destruct (g_startswith _ _); [|discriminate]. destruct (table_cells _); [reflexivity | discriminate].
  - unfold md_match_TagLine. destruct (md_tags_go _ _ _ _); [discriminate | reflexivity].
  - unfold md_match_FeatureLine. destruct (ms_feature ms); [discriminate|].
    pose proof (title_type md_header (d_feature (ms_dialect ms)) [ch_colon] TkFeatureLine ms t) as T.
    destruct (md_match_title _ _ _ _ ms t) as [[[[|]|] ms1] t1]; [exact T | reflexivity | discriminate].
  - unfold md_match_ScenarioLine. pose proof (title_type md_header (d_scenario (ms_dialect ms)) [ch_colon] TkScenarioLine ms t) as T.
    destruct (md_match_title md_header (d_scenario _) _ _ ms t) as [[[[|]|] ms1] t1]; cbn [m_or]; [exact T | apply title_type | discriminate].
  - unfold md_match_DocStringSeparator, match_separator. destruct (ms_sep ms).
    + destruct (negb _); [discriminate | reflexivity].
    + unfold m_or. repeat (destruct (negb _); [try discriminate|try reflexivity]).
  - unfold md_match_TableRow. destruct (re_match _ _); [|discriminate]. destruct (table_cells _); [|discriminate]. destruct (is_gfm_separator _); [discriminate | reflexivity].
  - discriminate.
  - reflexivity.
Qed.
Lemma feature_once ms t : ms_feature ms = true -> out (md_match TkFeatureLine ms t) = Ok false.
Proof. intros H. cbn [md_match]. unfold md_match_FeatureLine. rewrite H. reflexivity. Qed.

(** ** Tags *)
Definition not_tick (c : char) : bool := negb (N.eqb c ch_btick).
Definition tag_at (x : str) : bool :=
  match x with
  | a :: b :: c :: y => N.eqb a ch_btick && N.eqb b ch_at && not_tick c && match drop_while not_tick y with [] => false | _ => true end
  | _ => false
  end.
Lemma tick_set c : cset_has true [CChar ch_btick] c = not_tick c.
Proof. unfold cset_has, not_tick. cbn [existsb citem_has]. now rewrite orb_false_r. Qed.
Lemma tag_exec x : (exec md_tag_re (mkR None x []) <> []) <-> tag_at x = true.
Proof.
  unfold md_tag_re. rewrite exec_seq, exec_char. destruct x as [|a x]; [split; [easy | discriminate]|].
  destruct (N.eqb a ch_btick) eqn:Ea; cbn [flat_map tag_at]; rewrite Ea; cbn [andb].
  2:{ destruct x as [|? [|? ?]]; split; easy. }
  rewrite app_nil_r, exec_seq, exec_grp, exec_seq, exec_char. destruct x as [|b x]; [split; [easy | discriminate]|].
  destruct (N.eqb b ch_at) eqn:Eb; cbn [flat_map andb]; [|destruct x; split; easy].
  rewrite app_nil_r. unfold RPlus. rewrite exec_seq. cbn [exec]. unfold step1 at 2. cbn [r_rest r_caps].
  destruct x as [|c y]; [split; [easy | discriminate]|]. rewrite tick_set. destruct (not_tick c) eqn:Ec; cbn [flat_map andb]; [|split; easy].
  rewrite app_nil_r. pose proof (exec_star_set true [CChar ch_btick] (Some c) y []) as S. cbn [exec r_rest] in S. cbn [r_rest]. rewrite S.
  rewrite flat_map_map. rewrite star1_greedy.
  - cbn [r_rest r_prev r_caps]. rewrite (drop_while_ext (cset_has true [CChar ch_btick]) not_tick) by apply tick_set.
    rewrite exec_char. destruct (drop_while not_tick y) as [|z w] eqn:E; [split; easy|].
    apply drop_while_head in E. unfold not_tick in E. destruct (N.eqb z ch_btick); [split; [reflexivity | discriminate] | discriminate E].
  - intros p d z caps Hd. cbn [r_rest r_prev r_caps]. rewrite exec_char. rewrite tick_set in Hd. unfold not_tick in Hd.
    destruct (N.eqb d ch_btick); [discriminate Hd | reflexivity].
Qed.
Fixpoint tag_in (x : str) : bool := match x with [] => false | _ :: y => tag_at x || tag_in y end.
Lemma tags_go_iff x : forall pos i, md_tags_go x pos 0 i <> [] <-> tag_in x = true.
Proof.
  induction x as [|c x IH]; intros pos i; cbn [md_tags_go tag_in]; [easy|].
  pose proof (tag_exec (c :: x)) as T. destruct (exec md_tag_re (mkR None (c :: x) [])) as [|st l].
  - assert (tag_at (c :: x) = false) as ->. { destruct (tag_at (c :: x)) eqn:E; [|reflexivity]. exfalso. now apply (proj2 T eq_refl). } apply IH.
  - rewrite (proj1 T) by discriminate. split; [reflexivity | discriminate].
Qed.
Lemma no_tick v : ~ In ch_btick v <-> forallb not_tick v = true.
Proof.
  induction v as [|c v IH]; [split; [reflexivity | easy]|]. cbn [forallb In]. rewrite andb_true_iff, <- IH. unfold not_tick. destruct (N.eqb c ch_btick) eqn:E.
  - apply N.eqb_eq in E. split; [intros H; exfalso; apply H; now left | intros [H _]; discriminate H].
  - apply N.eqb_neq in E. cbn. tauto.
Qed.
Lemma tag_at_iff x : tag_at x = true <-> exists v q, v <> [] /\ ~ In ch_btick v /\ x = [ch_btick; ch_at] ++ v ++ [ch_btick] ++ q.
Proof.
  split.
  - destruct x as [|a [|b [|c y]]]; try discriminate. cbn [tag_at]. rewrite !andb_true_iff. intros [[[H1 H2] H3] H4]. apply N.eqb_eq in H1 as ->. apply N.eqb_eq in H2 as ->.
    destruct (drop_while_suffix not_tick y) as [p [E F]]. destruct (drop_while not_tick y) as [|z w] eqn:D; [discriminate H4|].
    apply drop_while_head in D. unfold not_tick in D. destruct (N.eqb z ch_btick) eqn:Z; [|discriminate D]. apply N.eqb_eq in Z as ->.
    exists (c :: p), w. split; [discriminate|]. split; [|rewrite E; reflexivity]. rewrite no_tick. cbn [forallb]. now rewrite H3, F.
  - intros [v [q [H1 [H2 ->]]]]. destruct v as [|c v]; [easy|]. rewrite no_tick in H2. cbn [forallb] in H2. apply andb_true_iff in H2 as [H2 H3].
    cbn [app tag_at]. rewrite H2. rewrite drop_while_app by exact H3. reflexivity.
Qed.
Lemma tag_in_iff x : tag_in x = true <-> has_md_tag x.
Proof.
  unfold has_md_tag. induction x as [|c x IH]; cbn [tag_in].
  - split; [discriminate|]. intros [p [v [q [_ [_ H]]]]]. destruct p; discriminate H.
  - rewrite orb_true_iff, IH, tag_at_iff. split.
    + intros [[v [q [H1 [H2 H]]]]|[p [v [q [H1 [H2 H]]]]]]; [exists [], v, q; auto|]. exists (c :: p), v, q. rewrite H. auto.
    + intros [p [v [q [H1 [H2 H]]]]]. destruct p as [|a p]; cbn in H; [left; exists v, q; auto|]. injection H as -> H. right. exists p, v, q. auto.
Qed.
Lemma has_tag_lstrip x : has_md_tag (lstrip x) <-> has_md_tag x.
Proof.
  destruct (drop_while_suffix is_space x) as [i [E H]]. change (drop_while is_space x) with (lstrip x) in E. split.
  - intros [p [v [q [H1 [H2 H3]]]]]. exists (i ++ p), v, q. repeat split; auto. rewrite E at 1. rewrite H3. now rewrite <- app_assoc.
  - intros T. rewrite <- tag_in_iff in *. rewrite E in T. clear E. induction i as [|c i IH]; [exact T|].
    cbn [app tag_in] in T. cbn [forallb] in H. apply andb_true_iff in H as [Hc H]. apply orb_true_iff in T as [T|T]; [|now apply IH].
    exfalso. cbn [tag_at] in T. destruct (i ++ lstrip x) as [|b [|d y]]; try discriminate T. rewrite !andb_true_iff in T. destruct T as [[[T _] _] _]. apply N.eqb_eq in T. subst c. discriminate Hc.
Qed.
Lemma tag_line_iff ms t : out (md_match_TagLine ms t) = Ok true <-> has_md_tag (g_text (t_line t)).
Proof.
  rewrite <- has_tag_lstrip, <- tag_in_iff. change (lstrip (g_text (t_line t))) with (get_line_text (t_line t) (-1)).
  rewrite <- (tags_go_iff _ 0 (g_indent (t_line t))). unfold md_match_TagLine. destruct (md_tags_go _ _ _ _); split; easy.
Qed.
Lemma tag_line_not ms t : ~ has_md_tag (g_text (t_line t)) -> md_match_TagLine ms t = (Ok false, ms, t).
Proof. rewrite <- (tag_line_iff ms t). unfold md_match_TagLine. destruct (md_tags_go _ _ _ _); [reflexivity | intros H; now exfalso; apply H]. Qed.

(** ** Decisions that do not depend on the state of the matcher (after the feature line) *)
Section Decide.
Context (d : dialect) (D : str) (HD : In D delims).
Definition calm (ms : mstate) (l : gline) : Prop :=
  ms_dialect ms = d /\ ms_feature ms = true /\ sep_in D ms /\ delim_ok D (g_text l).
Definition agrees (m : mstate -> token -> mret) (f : gline -> result bool) : Prop :=
  forall ms t, calm ms (t_line t) -> out (m ms t) = f (t_line t) /\ calm (ms_of (m ms t)) (t_line t) /\ t_line (t_of (m ms t)) = t_line t.
Lemma calm_kept ms t r : calm ms (t_line t) -> kept ms t r -> calm (ms_of r) (t_line t) /\ t_line (t_of r) = t_line t.
Proof. intros [A [B [C E]]] [K1 K2 K3 K4 K5 K6 K7]. repeat split; [congruence | auto | now apply K7 | assumption | assumption]. Qed.
Lemma agrees_kept m f : (forall ms t, kept ms t (m ms t)) -> (forall ms t, calm ms (t_line t) -> out (m ms t) = f (t_line t)) -> agrees m f.
Proof. intros K F ms t C. destruct (calm_kept ms t _ C (K ms t)). auto. Qed.
Definition f_or (f g : gline -> result bool) (l : gline) : result bool := match f l with Ok false => g l | r => r end.
Lemma agrees_or m1 m2 f1 f2 : agrees m1 f1 -> agrees m2 f2 -> agrees (fun ms t => m_or (m1 ms t) m2) (f_or f1 f2).
Proof.
  intros A1 A2 ms t C. destruct (A1 ms t C) as [B1 [B2 B3]]. unfold f_or. destruct (m1 ms t) as [[r ms1] t1]. cbn in B1, B2, B3. rewrite <- B1.
  destruct r as [[|]|]; cbn [m_or]; try (cbn; auto; fail). destruct (A2 ms1 t1) as [C1 [C2 C3]]; [now rewrite B3|]. rewrite B3 in *. auto.
Qed.
Definition f_title (p : re) (kws : list str) (suf : str) (l : gline) : result bool :=
  Ok (match re_search (md_title_re p kws suf) (get_line_text l (-1)) with Some _ => true | None => false end).
Lemma agrees_title p (kws : dialect -> list str) suf ty : agrees (fun ms t => md_match_title p (kws (ms_dialect ms)) suf ty ms t) (f_title p (kws d) suf).
Proof.
  apply agrees_kept; [intros; apply kept_title|]. intros ms t [Hd _]. unfold md_match_title, f_title. rewrite Hd. destruct (re_search _ _) as [[? ?]|]; reflexivity.
Qed.
Definition f_scenario : gline -> result bool := f_or (f_title md_header (d_scenario d) [ch_colon]) (f_title md_header (d_scenarioOutline d) [ch_colon]).
Lemma agrees_scenario : agrees md_match_ScenarioLine f_scenario.
Proof. apply (agrees_or _ _ _ _ (agrees_title md_header d_scenario [ch_colon] TkScenarioLine) (agrees_title md_header d_scenarioOutline [ch_colon] TkScenarioLine)). Qed.
Definition f_row (l : gline) : result bool := out (md_match_TableRow (mkMs true [] [] d 0 None true) (mkTok l 0 None None None [] None None 0%Z None)).
Lemma agrees_row : agrees md_match_TableRow f_row.
Proof.
  apply agrees_kept; [apply kept_row|]. intros ms t _. unfold f_row, md_match_TableRow. cbn [t_line]. destruct (re_match _ _); [|reflexivity].
  destruct (table_cells _) as [c|e]; [|reflexivity]. destruct (is_gfm_separator c); reflexivity.
Qed.
Definition f_comment (l : gline) : result bool :=
  if g_startswith l [ch_pipe] then match table_cells l with Ok c => Ok (is_gfm_separator c) | Err e => Err e end else Ok false.
Lemma agrees_comment : agrees md_match_Comment f_comment.
Proof.
  apply agrees_kept; [apply kept_comment|]. intros ms t _. unfold f_comment, md_match_Comment. destruct (g_startswith _ _); [|reflexivity]. destruct (table_cells _); reflexivity.
Qed.
Definition f_tag (l : gline) : result bool := Ok (tag_in (get_line_text l (-1))).
Lemma agrees_tag : agrees md_match_TagLine f_tag.
Proof.
  apply agrees_kept; [apply kept_tag|]. intros ms t _. unfold f_tag. pose proof (tags_go_iff (get_line_text (t_line t) (-1)) 0 (g_indent (t_line t))) as T.
  unfold md_match_TagLine. destruct (md_tags_go _ _ _ _).
  - destruct (tag_in _); [exfalso; now apply (proj2 T) | reflexivity].
  - rewrite (proj1 T) by discriminate. reflexivity.
Qed.
Lemma agrees_feature : agrees md_match_FeatureLine (fun _ => Ok false).
Proof. apply agrees_kept; [apply kept_feature|]. intros ms t [_ [H _]]. apply (feature_once ms t H). Qed.
Lemma agrees_language : agrees md_match_Language (fun _ => Ok false).
Proof. apply agrees_kept; [intros; apply kept_refl|]. reflexivity. Qed.
Definition f_eof (l : gline) : result bool := Ok (negb (g_bool l)).
Lemma agrees_eof : agrees match_EOF f_eof.
Proof. apply agrees_kept; [apply kept_eof|]. intros ms t _. unfold match_EOF, f_eof, t_eof. destruct (g_bool _); reflexivity. Qed.
Definition f_sep (l : gline) : result bool := Ok (startswith D (lstrip (g_text l))).
Lemma agrees_sep : agrees md_match_DocStringSeparator f_sep.
Proof.
  apply agrees_kept; [apply kept_separator|]. intros ms t [_ [_ [Hs Ho]]]. unfold f_sep, md_match_DocStringSeparator. destruct Hs as [E|E]; rewrite E.
  - unfold m_or, match_separator, g_startswith, g_trimmed. unfold delim_ok, opener, delims in Ho. cbn [find] in Ho. unfold delims in HD. cbn [In] in HD.
    destruct (startswith sep_quotes (lstrip (g_text (t_line t)))) eqn:E1; cbn [negb]; [rewrite <- (Ho _ eq_refl), E1; reflexivity|].
    destruct (startswith sep_ticks4 (lstrip (g_text (t_line t)))) eqn:E2; cbn [negb]; [rewrite <- (Ho _ eq_refl), E2; reflexivity|].
    destruct (startswith sep_ticks (lstrip (g_text (t_line t)))) eqn:E3; cbn [negb]; [rewrite <- (Ho _ eq_refl), E3; reflexivity|].
    destruct HD as [<-|[<-|[<-|[]]]]; [rewrite E1 | rewrite E2 | rewrite E3]; reflexivity.
  - unfold match_separator, g_startswith, g_trimmed. destruct (startswith D _); reflexivity.
Qed.
Definition f_step : gline -> result bool := f_title md_bullet (step_keywords d) [].
Definition f_any : gline -> result bool :=
  f_or (f_or (f_or (f_or (f_or (f_or (f_or (f_or (f_or (f_or (f_or f_tag (fun _ => Ok false)) f_scenario) (f_title md_header (d_background d) [ch_colon]))
    (f_title md_header (d_examples d) [ch_colon])) (f_title md_header (d_rule d) [ch_colon])) f_row) f_comment) (fun _ => Ok false)) f_sep) f_eof) f_step.
Definition f_empty (l : gline) : result bool :=
  match f_any l with Err e => Err e | Ok m => Ok (negb m || g_is_empty l) end.
Lemma agrees_empty : agrees md_match_Empty f_empty.
Proof.
  apply agrees_kept; [apply kept_empty|]. intros ms t C. unfold md_match_Empty, f_empty.
  match goal with |- context [match ?a with _ => _ end] => assert (A : out a = f_any (t_line t)) end.
  { assert (A : agrees (fun ms t => m_or (m_or (m_or (m_or (m_or (m_or (m_or (m_or (m_or (m_or (m_or (md_match_TagLine ms t)
      md_match_FeatureLine) md_match_ScenarioLine) md_match_BackgroundLine) md_match_ExamplesLine) md_match_RuleLine) md_match_TableRow) md_match_Comment)
      md_match_Language) md_match_DocStringSeparator) match_EOF) md_match_StepLine) f_any).
    { unfold f_any.
      apply (agrees_or (fun ms t => m_or _ _) md_match_StepLine); [|apply (agrees_title md_bullet step_keywords [] TkStepLine)].
      apply (agrees_or (fun ms t => m_or _ _) match_EOF); [|apply agrees_eof].
      apply (agrees_or (fun ms t => m_or _ _) md_match_DocStringSeparator); [|apply agrees_sep].
      apply (agrees_or (fun ms t => m_or _ _) md_match_Language); [|apply agrees_language].
      apply (agrees_or (fun ms t => m_or _ _) md_match_Comment); [|apply agrees_comment].
      apply (agrees_or (fun ms t => m_or _ _) md_match_TableRow); [|apply agrees_row].
      apply (agrees_or (fun ms t => m_or _ _) md_match_RuleLine); [|apply (agrees_title md_header d_rule [ch_colon] TkRuleLine)].
      apply (agrees_or (fun ms t => m_or _ _) md_match_ExamplesLine); [|apply (agrees_title md_header d_examples [ch_colon] TkExamplesLine)].
      apply (agrees_or (fun ms t => m_or _ _) md_match_BackgroundLine); [|apply (agrees_title md_header d_background [ch_colon] TkBackgroundLine)].
      apply (agrees_or (fun ms t => m_or _ _) md_match_ScenarioLine); [|apply agrees_scenario].
      apply (agrees_or md_match_TagLine md_match_FeatureLine); [apply agrees_tag | apply agrees_feature]. }
    exact (proj1 (A ms t C)). }
  match goal with |- context [match ?a with _ => _ end] => destruct a as [[[b|e] ms1] t1] end; cbn in A; rewrite <- A; [|reflexivity].
  destruct (negb b || g_is_empty (t_line t)); reflexivity.
Qed.
End Decide.
