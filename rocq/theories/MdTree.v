(** * Markdown texts: what parse returns *)
From Verif Require Import PyStr PyStrFacts Types Regex RegexFacts ReSem Line DialectData Matcher Ast ParserTable Parser Classify Table Scan Grammar Deriv Cert LineSpec Cst Report Eval Ids IdSpec PickleSpec PickleFacts WfDoc RowIff StepFacts LangFacts MdSpec MdFacts MdRun AnyRun WeakTree WeakEval AstRun PropLine PropParse PropMarkdown.

(** ** Lines *)
Lemma split_lines_one text : Forall one_line (split_lines text).
Proof.
  induction text as [|c text IH]; cbn [split_lines]; [constructor|].
  destruct (c =? ch_nl)%N eqn:E.
  - apply N.eqb_eq in E. subst c. constructor; [|exact IH]. exists [], [ch_nl]. split; [reflexivity|]. split; [easy | now right].
  - apply N.eqb_neq in E. destruct (split_lines text) as [|l ls].
    + constructor; [|constructor]. exists [c], []. split; [reflexivity|]. split; [intros [H|[]]; congruence | now left].
    + inversion IH as [|? ? [y [e [-> [H1 H2]]]] H3]; subst. constructor; [|exact H3]. exists (c :: y), e. split; [reflexivity|]. split; [|exact H2]. intros [H|H]; [congruence | auto].
Qed.

(** ** Errors *)
Definition row_errors (r : mret) (l : gline) : Prop := forall e, out r = Err e -> e = ERuntimeError /\ bad_row (g_text l).
Lemma row_errors_or ms t r k : row_errors r (t_line t) -> kept ms t r -> (forall ms t, row_errors (k ms t) (t_line t)) -> row_errors (m_or r k) (t_line t).
Proof.
  intros H K H2 e. pose proof (kp_line _ _ _ K) as L. destruct r as [[[[|]|] ms1] t1]; cbn [m_or]; [discriminate| |apply H]. cbn in L. rewrite <- L. apply H2.
Qed.
Lemma bad_cells x n e : startswith [ch_pipe] (lstrip x) = true -> table_cells (mkLine x n) = Err e -> e = ERuntimeError /\ bad_row x.
Proof. intros H1 H2. apply (table_cells_err x n) in H2 as [-> H2]; [|exact H1]. repeat split; assumption. Qed.
Lemma line_parts (l : gline) : l = mkLine (g_text l) (g_number l). Proof. now destruct l. Qed.
Lemma get_line_0 l : get_line_text l 0 = g_text l.
Proof. unfold get_line_text. cbn [Z.ltb orb Z.compare]. destruct (Z.of_nat (g_indent l) <? 0)%Z eqn:E; [apply Z.ltb_lt in E; lia | reflexivity]. Qed.
Lemma errors_row ms t : row_errors (md_match_TableRow ms t) (t_line t).
Proof.
  intros e. unfold md_match_TableRow. rewrite get_line_0. pose proof (table_re_iff (g_text (t_line t))) as T. destruct (re_match _ _) as [st|]; [|discriminate].
  destruct (proj1 T (ex_intro _ st eq_refl)) as [ind [rest [Hi [_ E]]]]. destruct (table_cells (t_line t)) as [c|e'] eqn:TC; [destruct (is_gfm_separator c); discriminate|].
  intros H. injection H as ->. rewrite (line_parts (t_line t)) in TC. eapply bad_cells; [|exact TC].
  rewrite E. unfold lstrip, lstrip_by. rewrite drop_while_app by exact Hi. reflexivity.
Qed.
Lemma errors_comment ms t : row_errors (md_match_Comment ms t) (t_line t).
Proof.
  intros e. unfold md_match_Comment. destruct (g_startswith _ _) eqn:S; [|discriminate]. destruct (table_cells (t_line t)) as [c|e'] eqn:TC; [discriminate|].
  intros H. injection H as ->. rewrite (line_parts (t_line t)) in TC. eapply bad_cells; [exact S | exact TC].
Qed.
Lemma errors_title p kws suf ty ms t : row_errors (md_match_title p kws suf ty ms t) (t_line t).
Proof. intros e. unfold md_match_title. destruct (re_search _ _) as [[? ?]|]; discriminate. Qed.
Lemma errors_feature ms t : row_errors (md_match_FeatureLine ms t) (t_line t).
Proof.
  intros e. unfold md_match_FeatureLine. destruct (ms_feature ms); [discriminate|].
  pose proof (errors_title md_header (d_feature (ms_dialect ms)) [ch_colon] TkFeatureLine ms t e) as K.
  destruct (md_match_title _ _ _ _ ms t) as [[[[|]|] ms1] t1]; [discriminate | discriminate | exact K].
Qed.
Lemma errors_scenario ms t : row_errors (md_match_ScenarioLine ms t) (t_line t).
Proof. apply (row_errors_or ms); [apply errors_title | apply kept_title | intros; apply errors_title]. Qed.
Lemma errors_separator ms t : row_errors (md_match_DocStringSeparator ms t) (t_line t).
Proof.
  intros e. unfold md_match_DocStringSeparator, match_separator, m_or. destruct (ms_sep ms); repeat (destruct (negb _)); discriminate.
Qed.
Lemma errors_tag ms t : row_errors (md_match_TagLine ms t) (t_line t).
Proof. intros e. unfold md_match_TagLine. destruct (md_tags_go _ _ _ _); discriminate. Qed.
Lemma errors_eof ms t : row_errors (match_EOF ms t) (t_line t).
Proof. intros e. unfold match_EOF. destruct (negb _); discriminate. Qed.
Lemma errors_language ms t : row_errors (md_match_Language ms t) (t_line t).
Proof. intros e. discriminate. Qed.
Lemma errors_empty ms t : row_errors (md_match_Empty ms t) (t_line t).
Proof.
  unfold md_match_Empty.
  match goal with |- row_errors (match ?a with _ => _ end) _ => assert (K : row_errors a (t_line t)) end.
  { repeat (apply (row_errors_or ms); [| |first [intros; apply errors_title | intros; apply errors_feature | intros; apply errors_scenario | intros; apply errors_row | intros; apply errors_comment
      | intros; apply errors_language | intros; apply errors_separator | intros; apply errors_eof]]).
    1: apply errors_tag.
    all: repeat (apply kept_or; [|first [intros; apply kept_title | intros; apply kept_feature | intros; apply kept_scenario | intros; apply kept_row | intros; apply kept_comment
      | intros; apply kept_refl | intros; apply kept_separator | intros; apply kept_eof]]); apply kept_tag. }
  match goal with |- row_errors (match ?a with _ => _ end) _ => destruct a as [[[b|e] ms1] t1] end; [|exact K].
  intros e. destruct (_ || _); discriminate.
Qed.
Lemma errors_match k ms t : row_errors (md_match k ms t) (t_line t).
Proof.
  destruct k; cbn [md_match]; first [apply errors_title | apply errors_feature | apply errors_scenario | apply errors_row | apply errors_comment | apply errors_language
    | apply errors_separator | apply errors_eof | apply errors_empty | apply errors_tag | idtac].
  intros e. discriminate.
Qed.

(** ** Texts of other lines *)
Definition seen (x : str) : Prop := exists c, In c x /\ is_space c = false.
Lemma seen_lstrip x : lstrip x <> [] <-> seen x.
Proof.
  split.
  - intros H. destruct (forallb is_space x) eqn:E; [exfalso; apply H; now apply lstrip_nil|].
    assert (N : ~ forallb is_space x = true) by congruence. rewrite forallb_forall in N.
    destruct (existsb (fun c => negb (is_space c)) x) eqn:Ex.
    + apply existsb_exists in Ex as [c [H1 H2]]. exists c. split; [exact H1|]. now apply negb_true_iff in H2.
    + exfalso. apply N. intros c Hc. destruct (is_space c) eqn:S; [reflexivity|]. assert (F : existsb (fun c => negb (is_space c)) x = true) by (apply existsb_exists; exists c; rewrite S; auto). congruence.
  - intros [c [H1 H2]] E. apply lstrip_nil in E. rewrite forallb_forall in E. rewrite (E c H1) in H2. discriminate.
Qed.
Lemma replaced_seen p new x y : seen new -> replaced p new x y -> seen x -> seen y.
Proof.
  intros [c [Hc Hs]]. induction 1 as [|x y H IH|a x y H1 H2 IH]; intros Hx; [exact Hx| |].
  - exists c. split; [apply in_or_app; now left | exact Hs].
  - destruct Hx as [b [[<-|Hb] Hv]]; [exists a; split; [now left | exact Hv]|]. destruct IH as [z [Z1 Z2]]; [now exists b|]. exists z. split; [now right | exact Z2].
Qed.
Lemma unescaped_seen ms x : seen x -> seen (unescaped_docstring ms x).
Proof.
  intros H. unfold unescaped_docstring. destruct (ms_sep ms) as [sep|]; [|exact H].
  destruct (str_eqb sep sep_quotes); [|destruct (str_eqb sep sep_ticks); [|exact H]].
  - eapply replaced_seen; [|apply (replace_replaced esc_quotes sep_quotes); discriminate|exact H]. exists 34%N. split; [now left | reflexivity].
  - eapply replaced_seen; [|apply (replace_replaced esc_ticks sep_ticks); discriminate|exact H]. exists 96%N. split; [now left | reflexivity].
Qed.
Lemma rstrip_seen x : seen x -> exists c y, rstrip_crlf x = c :: y.
Proof.
  intros H. apply seen_lstrip in H. apply rstrip_crlf_visible in H. destruct (rstrip_crlf x) as [|c y]; [congruence | eauto].
Qed.
Lemma skip_spaces n x : n <= length x - length (lstrip x) -> seen x -> seen (skipn n x).
Proof.
  intros Hn [c [Hc Hs]]. destruct (drop_while_suffix is_space x) as [ind [E Hi]]. change (drop_while is_space x) with (lstrip x) in E.
  assert (L : length x = length ind + length (lstrip x)) by (rewrite E at 1; apply app_length).
  assert (N : n <= length ind) by lia. rewrite E in Hc |- *. rewrite skipn_app. replace (n - length ind) with 0 by lia. cbn [skipn].
  apply in_app_or in Hc as [Hc|Hc]; [rewrite forallb_forall in Hi; rewrite (Hi c Hc) in Hs; discriminate|]. exists c. split; [apply in_or_app; now right | exact Hs].
Qed.
Lemma line_text_seen l n : g_is_empty l = false -> seen (get_line_text l (Z.of_nat n)).
Proof.
  intros H. assert (S : seen (g_text l)). { apply seen_lstrip. unfold g_is_empty, g_trimmed in H. destruct (lstrip (g_text l)); congruence. }
  unfold get_line_text. destruct (_ || _) eqn:E.
  - unfold g_trimmed. apply seen_lstrip in S. destruct (lstrip (g_text l)) as [|c y] eqn:L; [congruence|]. exists c. split; [now left|]. exact (lstrip_head _ _ _ L).
  - apply orb_false_iff in E as [_ E]. apply Z.ltb_ge in E. rewrite Nat2Z.id. apply skip_spaces; [|exact S]. unfold g_indent, g_trimmed in E. lia.
Qed.

(** ** Complete tokens *)
Lemma tag_group x st : In st (exec md_tag_re (mkR None x [])) -> exists y, group 1 st = Some (ch_at :: y).
Proof.
  unfold md_tag_re. rewrite exec_seq, exec_char. destruct x as [|a x]; [easy|]. destruct (N.eqb a ch_btick); cbn [flat_map]; [|easy].
  rewrite app_nil_r, exec_seq, exec_grp, exec_seq, exec_char. destruct x as [|b x]; [easy|]. destruct (N.eqb b ch_at) eqn:Eb; cbn [flat_map]; [|easy]. rewrite app_nil_r.
  apply N.eqb_eq in Eb. subst b. unfold RPlus. rewrite exec_seq. cbn [exec]. unfold step1 at 2. cbn [r_rest r_caps].
  destruct x as [|c y]; [easy|]. destruct (cset_has true [CChar ch_btick] c) eqn:Ec; cbn [flat_map]; [|easy].
  rewrite app_nil_r. pose proof (exec_star_set true [CChar ch_btick] (Some c) y []) as Sx. cbn [exec r_rest] in Sx. cbn [r_rest]. rewrite Sx. clear Sx.
  intros H. apply in_flat_map in H as [st1 [H1 H2]]. apply in_map_iff in H1 as [st2 [<- H1]].
  assert (Z : length (r_rest st2) <= length y).
  { clear -H1. revert H1. generalize (Some c). generalize (@nil (nat * str)). induction y as [|d y IH]; intros caps p; cbn [star1].
    - intros [<-|[]]. cbn. lia.
    - destruct (cset_has true [CChar ch_btick] d); [|intros [<-|[]]; cbn; lia]. intros H. apply in_app_or in H as [H|[<-|[]]]; [|cbn; lia]. apply IH in H. cbn. lia. }
  rewrite exec_char in H2. destruct (r_rest st2) as [|e w]; [destruct H2|]. destruct (N.eqb e ch_btick); [|destruct H2]. destruct H2 as [<-|[]].
  unfold group. cbn [r_caps find fst Nat.eqb option_map snd]. cbn [length] in *. replace (S (S (length y)) - S (length w)) with (S (S (length y) - S (length w))) by lia.
  cbn [firstn]. eauto.
Qed.
Lemma tag_items x : forall pos skip ind, Forall (fun i => exists y, i_text i = ch_at :: y) (md_tags_go x pos skip ind).
Proof.
  induction x as [|c x IH]; intros pos skip ind; cbn [md_tags_go]; [constructor|]. destruct skip as [|k]; [|apply IH].
  pose proof (tag_group (c :: x)) as G. destruct (exec md_tag_re _) as [|st l]; [apply IH|]. constructor; [|apply IH]. cbn [i_text].
  destruct (G st (or_introl eq_refl)) as [y ->]. eauto.
Qed.
Definition placed (t : token) : Prop := some_col (t_loc_col t).
Lemma md_placed k ms t : out (md_match k ms t) = Ok true -> placed (t_of (md_match k ms t)).
Proof.
  assert (T : forall p kws suf ty, out (md_match_title p kws suf ty ms t) = Ok true -> placed (t_of (md_match_title p kws suf ty ms t))).
  { intros p kws suf ty. unfold md_match_title. destruct (re_search _ _) as [[? ?]|]; [|discriminate]. intros _. eexists. reflexivity. }
  destruct k; cbn [md_match]; try apply T.
  - unfold match_EOF. destruct (negb _); [discriminate|]. intros _. eexists. reflexivity.
  - unfold md_match_Empty. match goal with |- context [match ?a with _ => _ end] => destruct a as [[[b|e] ms1] t1] end; [|discriminate]. destruct (_ || _); [|discriminate]. intros _. eexists. reflexivity.
  - unfold md_match_Comment. destruct (g_startswith _ _); [|discriminate]. destruct (table_cells _); [|discriminate]. intros _. eexists. reflexivity.
  - unfold md_match_TagLine. destruct (md_tags_go _ _ _ _); [discriminate|]. intros _. eexists. reflexivity.
  - unfold md_match_FeatureLine. destruct (ms_feature ms); [discriminate|]. specialize (T md_header (d_feature (ms_dialect ms)) [ch_colon] TkFeatureLine).
    destruct (md_match_title _ _ _ _ ms t) as [[[[|]|] ms1] t1]; [exact T | intros _; eexists; reflexivity | discriminate].
  - unfold md_match_ScenarioLine. pose proof (T md_header (d_scenario (ms_dialect ms)) [ch_colon] TkScenarioLine) as T1.
    unfold md_match_title in *. destruct (re_search (md_title_re md_header (d_scenario (ms_dialect ms)) _) _) as [[? ?]|]; cbn [m_or]; [exact T1|]. apply (T md_header (d_scenarioOutline (ms_dialect ms)) [ch_colon] TkScenarioLine).
  - unfold md_match_DocStringSeparator, match_separator, m_or. destruct (ms_sep ms); repeat (destruct (negb _)); try discriminate; intros _; eexists; reflexivity.
  - unfold md_match_TableRow. destruct (re_match _ _); [|discriminate]. destruct (table_cells _); [|discriminate]. destruct (is_gfm_separator _); [discriminate|]. intros _. eexists. reflexivity.
  - discriminate.
  - intros _. eexists. reflexivity.
Qed.
Lemma md_full k ms t : for_name (ms_name ms) = Some (ms_dialect ms) -> one_line (g_text (t_line t)) -> out (md_match k ms t) = Ok true -> tok_full (t_of (md_match k ms t)).
Proof.
  intros Hn Hx Ho. pose proof (match_type k ms t Ho) as Ty. unfold tok_full, tok_kind. rewrite Ty.
  assert (T : forall p kws suf ty, out (md_match_title p kws suf ty ms t) = Ok true -> let t' := t_of (md_match_title p kws suf ty ms t) in
     (exists x, t_text t' = Some x) /\ (exists x, t_keyword t' = Some x) /\ (exists x, t_dialect t' = Some x) /\ located (t_location t')).
  { intros p kws suf ty. unfold md_match_title. destruct (re_search _ _) as [[? ?]|]; [|discriminate]. intros _. repeat split; eexists; reflexivity. }
  destruct k; try exact I; cbn [md_match] in *.
  - (* tags *) unfold md_match_TagLine in *. pose proof (tag_items (get_line_text (t_line t) (-1)) 0 0 (g_indent (t_line t))) as G. destruct (md_tags_go _ _ _ _); [discriminate Ho | exact G].
  - (* feature *) unfold md_match_FeatureLine in *. destruct (ms_feature ms); [discriminate Ho|]. specialize (T md_header (d_feature (ms_dialect ms)) [ch_colon] TkFeatureLine).
    destruct (md_match_title _ _ _ _ ms t) as [[[[|]|] ms1] t1]; [| |discriminate Ho].
    + destruct (T Ho) as [T1 [_ [T2 _]]]. split; assumption.
    + split; eexists; reflexivity.
  - (* scenario *) unfold md_match_ScenarioLine in *. pose proof (T md_header (d_scenario (ms_dialect ms)) [ch_colon] TkScenarioLine) as T1.
    unfold md_match_title in *. destruct (re_search (md_title_re md_header (d_scenario (ms_dialect ms)) _) _) as [[? ?]|]; cbn [m_or] in *.
    + destruct (T1 Ho) as [A [_ [_ B]]]. split; assumption.
    + destruct (T md_header (d_scenarioOutline (ms_dialect ms)) [ch_colon] TkScenarioLine Ho) as [A [_ [_ B]]]. split; assumption.
  - (* examples *) now apply T.
  - (* step *) pose proof (bullet_match ms (g_text (t_line t)) (g_number (t_line t)) t Hn Hx (line_parts _)) as B.
    destruct (md_match_StepLine ms t) as [[[[|]|] ms1] t1]; try discriminate Ho. destruct B as [_ [ind [b [gap [rest [before [kw [after [y [e [_ [_ [_ [_ [_ [_ [[T1 [T2 [T3 T4]]] T5]]]]]]]]]]]]]]]]].
    cbn [t_of snd]. repeat split; eauto. exists (length ind + length gap + 2). exact T4.
Qed.

(** ** One call of the matcher *)
Lemma md_call (F : token -> Prop) k ms t : ms_md ms = true -> for_name (ms_name ms) = Some (ms_dialect ms) -> one_line (g_text (t_line t)) -> k = TkEOF \/ t_eof t = false ->
  (out (md_match k ms t) = Ok true -> F (t_of (md_match k ms t))) ->
  match md_match k ms t with
  | (r, ms', t') =>
      match r with
      | Ok true => wmatched F k t'
      | Ok false => wrefused k (t_line t)
      | Err (EParser p) => False
      | Err e => e = ERuntimeError /\ bad_row (g_text (t_line t))
      end
  end.
Proof.
  intros Hm Hn Hx Hk HF. pose proof (errors_match k ms t) as E. pose proof (kept_match k ms t) as K. pose proof (md_full k ms t Hn Hx) as Fu. pose proof (match_type k ms t) as Ty.
  assert (Sep : k = TkDocStringSeparator -> out (md_match k ms t) = Ok true -> t_text (t_of (md_match k ms t)) <> None).
  { intros ->. cbn [md_match]. unfold md_match_DocStringSeparator, match_separator, m_or. destruct (ms_sep ms); repeat (destruct (negb _)); cbn; discriminate. }
  assert (Oth : k = TkOther -> g_is_empty (t_line t) = false -> exists c y, t_text (t_of (md_match k ms t)) = Some (c :: y)).
  { intros -> Hemp. cbn [md_match]. unfold match_Other, t_of. cbn [snd set_matched t_text].
    destruct (rstrip_seen (unescaped_docstring ms (get_line_text (t_line t) (Z.of_nat (ms_indent ms))))) as [c [y ->]]; [apply unescaped_seen; now apply line_text_seen | eauto]. }
  assert (Eof : k = TkEOF -> out (md_match k ms t) = Ok true -> t_eof t = true).
  { intros ->. cbn [md_match]. unfold match_EOF. destruct (t_eof t); [reflexivity | discriminate]. }
  assert (Emp : k = TkEmpty -> out (md_match k ms t) = Ok false -> g_is_empty (t_line t) = false).
  { intros ->. cbn [md_match]. unfold md_match_Empty. match goal with |- context [match ?a with _ => _ end] => destruct a as [[[b|e] ms1] t1] end; [|discriminate].
    destruct (negb b); [discriminate|]. destruct (g_is_empty (t_line t)); [discriminate | reflexivity]. }
  pose proof (kp_line _ _ _ K) as L. destruct (md_match k ms t) as [[[[|]|e] ms'] t']; cbn [out t_of fst snd] in *.
  - repeat split; auto.
    + intros H1 H2. apply Oth; [exact H1 | now rewrite <- L].
    + destruct Hk as [Hk|Hk]; [now left | right]. unfold t_eof in *. now rewrite L.
    + intros H1. unfold t_eof in *. rewrite L. now apply Eof.
  - intros H. now apply Emp.
  - destruct (E e eq_refl) as [-> E2]. split; [reflexivity | exact E2].
Qed.
