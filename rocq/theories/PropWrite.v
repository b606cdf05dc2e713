(** * Every document can be written and read back: C54 *)
From Verif Require Import PyStr PyStrFacts Types Regex Line DialectData Matcher Ast Parser LineSpec LangSpec DocSpec PropLine PropParse PropDoc WriteSpec WriteRead WriteBack.

(** ** Ids and locations do not matter *)
Lemma map_ext2 {A B} (f g : A -> B) l : (forall x, f x = g x) -> map f l = map g l. Proof. intros H. now apply map_ext. Qed.
Lemma opt_map2 {A B C} (f : B -> C) (g : A -> B) (h : A -> C) o : (forall x, f (g x) = h x) -> option_map f (option_map g o) = option_map h o.
Proof. intros H. destruct o; cbn; [now rewrite H | reflexivity]. Qed.
Lemma map_map2 {A B C} (f : B -> C) (g : A -> B) (h : A -> C) l : (forall x, f (g x) = h x) -> map f (map g l) = map h l.
Proof. intros H. rewrite map_map. now apply map_ext. Qed.
Lemma plain_no_step x : plain_step (no_id_step x) = plain_step x.
Proof. unfold plain_step. cbn. f_equal. destruct (st_arg x) as [|t|ds]; cbn; try reflexivity. now rewrite (map_map2 _ _ plain_row). Qed.
Lemma plain_no_background x : plain_background (no_id_background x) = plain_background x.
Proof. unfold plain_background. cbn. now rewrite (map_map2 _ _ plain_step) by apply plain_no_step. Qed.
Lemma plain_no_examples x : plain_examples (no_id_examples x) = plain_examples x.
Proof. unfold plain_examples. cbn. now rewrite (map_map2 _ _ plain_tag), (map_map2 _ _ plain_row), (opt_map2 _ _ plain_row). Qed.
Lemma plain_no_scenario x : plain_scenario (no_id_scenario x) = plain_scenario x.
Proof. unfold plain_scenario. cbn. rewrite (map_map2 _ _ plain_tag) by reflexivity. now rewrite (map_map2 _ _ plain_step), (map_map2 _ _ plain_examples) by (apply plain_no_step || apply plain_no_examples). Qed.
Lemma plain_no_rule x : plain_rule (no_id_rule x) = plain_rule x.
Proof. unfold plain_rule. cbn. rewrite (map_map2 _ _ plain_tag) by reflexivity. now rewrite (opt_map2 _ _ plain_background), (map_map2 _ _ plain_scenario) by (apply plain_no_background || apply plain_no_scenario). Qed.
Lemma plain_no_ids x : plain (no_id_feature x) = plain x.
Proof.
  unfold plain. cbn. rewrite (map_map2 _ _ plain_tag) by reflexivity. rewrite (opt_map2 _ _ plain_background), (map_map2 _ _ plain_scenario), (map_map2 _ _ plain_rule) by (apply plain_no_background || apply plain_no_scenario || apply plain_no_rule). reflexivity.
Qed.

Lemma forall_plain {A} (P : A -> Prop) (pl : A -> A) l : (forall x, P (pl x) <-> P x) -> Forall P (map pl l) <-> Forall P l.
Proof. intros H. rewrite Forall_map. split; apply Forall_impl; intros x; apply H. Qed.
Lemma opt_plain {A} (P : A -> Prop) (pl : A -> A) o : (forall x, P (pl x) <-> P x) -> opt_ok P (option_map pl o) <-> opt_ok P o.
Proof. intros H. destruct o; cbn; [apply H | tauto]. Qed.
Lemma ok_tag t : tag_ok (plain_tag t) <-> tag_ok t. Proof. reflexivity. Qed.
Lemma ok_row r : row_ok (plain_row r) <-> row_ok r.
Proof. unfold row_ok. cbn [plain_row row_cells]. rewrite Forall_map. reflexivity. Qed.
Lemma ok_rect rows : rectangular (map plain_row rows) <-> rectangular rows.
Proof.
  unfold rectangular. split; intros H.
  - intros r1 r2 H1 H2. specialize (H (plain_row r1) (plain_row r2) (in_map _ _ _ H1) (in_map _ _ _ H2)). cbn in H. now rewrite !map_length in H.
  - intros r1 r2 H1 H2. apply in_map_iff in H1 as [a [<- H1]], H2 as [b [<- H2]]. cbn. rewrite !map_length. auto.
Qed.
Lemma ok_rows rows : rows_ok (map plain_row rows) <-> rows_ok rows.
Proof. unfold rows_ok. rewrite ok_rect, (forall_plain row_ok plain_row) by apply ok_row. reflexivity. Qed.
Lemma ok_step d x : step_ok d (plain_step x) <-> step_ok d x.
Proof.
  unfold step_ok. cbn [plain_step st_keyword st_text st_ktype st_arg]. destruct (st_arg x) as [|t|ds]; cbn [plain_arg arg_ok dt_rows]; [reflexivity | | reflexivity]. rewrite ok_rows. now destruct (dt_rows t).
Qed.
Section Plain.
Context (d : dialect).
Lemma ok_background x : background_ok d (plain_background x) <-> background_ok d x.
Proof. unfold background_ok. cbn. now rewrite (forall_plain _ _ _ (ok_step d)). Qed.
Lemma ok_examples x : examples_ok d (plain_examples x) <-> examples_ok d x.
Proof.
  unfold examples_ok. cbn [plain_examples ex_keyword ex_name ex_desc ex_tags ex_header ex_body]. rewrite (forall_plain _ _ _ ok_tag). destruct (ex_header x) as [h|]; cbn [option_map].
  - change (plain_row h :: map plain_row (ex_body x)) with (map plain_row (h :: ex_body x)). now rewrite ok_rows.
  - now destruct (ex_body x).
Qed.
Lemma ok_scenario x : scenario_ok d (plain_scenario x) <-> scenario_ok d x.
Proof. unfold scenario_ok. cbn [plain_scenario sc_keyword sc_name sc_desc sc_tags sc_steps sc_examples]. now rewrite (forall_plain _ _ _ ok_tag), (forall_plain _ _ _ (ok_step d)), (forall_plain _ _ _ ok_examples). Qed.
Lemma ok_rule x : rule_ok d (plain_rule x) <-> rule_ok d x.
Proof. unfold rule_ok. cbn [plain_rule ru_keyword ru_name ru_desc ru_tags ru_background ru_scenarios]. now rewrite (forall_plain _ _ _ ok_tag), (opt_plain _ _ _ ok_background), (forall_plain _ _ _ ok_scenario). Qed.
Lemma ok_feature x : feature_ok d (plain x) <-> feature_ok d x.
Proof. unfold feature_ok. cbn [plain fe_keyword fe_name fe_desc fe_tags fe_background fe_scenarios fe_rules]. now rewrite (forall_plain _ _ _ ok_tag), (opt_plain _ _ _ ok_background), (forall_plain _ _ _ ok_scenario), (forall_plain _ _ _ ok_rule). Qed.
End Plain.
Lemma ok_plain x : writable (plain x) <-> writable x.
Proof. unfold writable. split; intros [lang [d [H1 [H2 H3]]]]; exists lang, d; (split; [exact H1|]); (split; [exact H2|]); now apply (ok_feature d x). Qed.

(** the written text does not depend on ids and locations *)
Lemma flat_plain {A B} (f : A -> list B) (pl : A -> A) l : (forall x, f (pl x) = f x) -> flat_map f (map pl l) = flat_map f l.
Proof. intros H. induction l as [|x l IH]; [reflexivity|]. cbn. now rewrite H, IH. Qed.
Lemma lines_tags tags : tags_lines (map plain_tag tags) = tags_lines tags.
Proof.
  destruct tags as [|t tags]; [reflexivity|]. assert (E : flat_map (fun t => tag_name t ++ [ch_space]) (map plain_tag (t :: tags)) = flat_map (fun t => tag_name t ++ [ch_space]) (t :: tags)) by now apply flat_plain. 
  unfold tags_lines. cbn [map] in *. now rewrite E.
Qed.
Lemma text_row r : row_text_of (plain_row r) = row_text_of r.
Proof. unfold row_text_of. cbn. rewrite map_map. reflexivity. Qed.
Lemma text_rows rows : map row_text_of (map plain_row rows) = map row_text_of rows.
Proof. apply map_map2. apply text_row. Qed.
Lemma lines_step d x : step_lines d (plain_step x) = step_lines d x.
Proof. unfold step_lines, step_text. cbn. destruct (st_arg x) as [|t|ds]; cbn; try reflexivity. now rewrite text_rows. Qed.
Section PlainLines.
Context (d : dialect).
Lemma lines_background x : background_lines d (plain_background x) = background_lines d x.
Proof. unfold background_lines. cbn. now rewrite (flat_plain _ _ _ (lines_step d)). Qed.
Lemma lines_examples x : examples_lines (plain_examples x) = examples_lines x.
Proof. unfold examples_lines. cbn [plain_examples ex_keyword ex_name ex_desc ex_tags ex_header ex_body]. rewrite lines_tags. destruct (ex_header x); cbn [option_map map]; [now rewrite text_row, text_rows | reflexivity]. Qed.
Lemma lines_scenario x : scenario_lines d (plain_scenario x) = scenario_lines d x.
Proof. unfold scenario_lines. cbn [plain_scenario sc_keyword sc_name sc_desc sc_tags sc_steps sc_examples]. now rewrite lines_tags, (flat_plain _ _ _ (lines_step d)), (flat_plain _ _ _ lines_examples). Qed.
Lemma lines_bg o : opt_lines (background_lines d) (option_map plain_background o) = opt_lines (background_lines d) o.
Proof. destruct o; cbn [option_map opt_lines]; [apply lines_background | reflexivity]. Qed.
Lemma lines_rule x : rule_lines d (plain_rule x) = rule_lines d x.
Proof. unfold rule_lines. cbn [plain_rule ru_keyword ru_name ru_desc ru_tags ru_background ru_scenarios]. now rewrite lines_tags, lines_bg, (flat_plain _ _ _ lines_scenario). Qed.
Lemma lines_feature x : feature_lines d (plain x) = feature_lines d x.
Proof. unfold feature_lines. cbn [plain fe_keyword fe_name fe_desc fe_tags fe_background fe_scenarios fe_rules]. now rewrite lines_tags, lines_bg, (flat_plain _ _ _ lines_scenario), (flat_plain _ _ _ lines_rule). Qed.
End PlainLines.
Lemma text_plain x : feature_text (plain x) = feature_text x.
Proof. unfold feature_text. cbn [plain fe_language]. destruct (for_name (text_in (fe_language x))) as [d|]; [|reflexivity]. now rewrite lines_feature. Qed.

(** ** C54 *)

(** C54.  A document that can be written is read back from its text. *)
Theorem C54_written : forall stop lang f, supported lang -> writable f ->
  exists d f', parse_with stop false lang (feature_text f) = Ok d /\ gd_feature d = Some f' /\ gd_comments d = [] /\ plain f' = plain f.
Proof.
  intros stop lang f H W. destruct (written_stands lang f W) as [x' [X1 X2]]. apply (C04_parse_iff stop lang _ _ H) in X1 as [d [P E]].
  destruct d as [[f'|] cs]; [|discriminate E]. unfold no_ids in E. cbn in E. injection E as E ->. exists (mkGdoc (Some f') []), f'. split; [exact P|]. split; [reflexivity|]. split; [reflexivity|]. rewrite <- (plain_no_ids f'), E. exact X2.
Qed.
Print Assumptions C54_written.

(** C54.  Every feature the parser returns can be written. *)
Theorem C54_returned : forall stop lang text d f, supported lang -> parse_with stop false lang text = Ok d -> gd_feature d = Some f -> writable f.
Proof.
  intros stop lang text d f H P F. destruct d as [o cs]. cbn in F. subst o.
  assert (S : stands_for lang (numbered_lines (split_lines text)) (mkGdoc (Some (no_id_feature f)) cs)) by (apply (C04_parse_iff stop lang text _ H); eexists; split; [exact P | reflexivity]).
  apply stands_writable in S. apply ok_plain. rewrite <- plain_no_ids. now apply ok_plain.
Qed.
Print Assumptions C54_returned.

(** C54.  So the documents the parser returns are, ids and locations aside, exactly those that can be written. *)
Theorem C54_documents : forall stop lang f, supported lang ->
  (writable f <-> exists text d f', parse_with stop false lang text = Ok d /\ gd_feature d = Some f' /\ plain f' = plain f).
Proof.
  intros stop lang f H. split.
  - intros W. destruct (C54_written stop lang f H W) as [d [f' [P [F [_ E]]]]]. exists (feature_text f), d, f'. auto.
  - intros [text [d [f' [P [F E]]]]]. apply (C54_returned stop lang text d f' H P) in F. apply ok_plain in F. rewrite E in F. now apply ok_plain.
Qed.
Print Assumptions C54_documents.

(** C54.  Writing what was read, and reading it, loses nothing but ids, locations and comments; writing it again
    gives the same text. *)
Theorem C54_round_trip : forall stop lang text d f, supported lang -> parse_with stop false lang text = Ok d -> gd_feature d = Some f ->
  exists d' f', parse_with stop false lang (feature_text f) = Ok d' /\ gd_feature d' = Some f' /\ gd_comments d' = [] /\ plain f' = plain f /\ feature_text f' = feature_text f.
Proof.
  intros stop lang text d f H P F. apply (C54_returned stop lang text d f H P) in F. destruct (C54_written stop lang f H F) as [d' [f' [P' [F' [C E]]]]].
  exists d', f'. repeat (split; [assumption|]). rewrite <- (text_plain f'), E. apply text_plain.
Qed.
Print Assumptions C54_round_trip.

(** a document with a language header, tags, descriptions, escapes *)
Definition c54_text : str := text_of_lines
  [s "# a comment"; s " #language:ht"; s ""; s "@a   @b # no tag"; s "  Fonksyonalite: f "; s "   what"; s ""; s "   it is"; s ""; s "Senaryo: s"; s "  Sipoze  ke x"; s "  | a\|b |\\|"; s "     # more"; s "  |  c \n || d"; s "  Le y"; s "    ``` json"; s "      \`\`\` z"; s "    ```"].
Example C54_case : exists d f, parse_with false false (s "en") c54_text = Ok d /\ gd_feature d = Some f /\ writable f /\
  feature_text f = text_of_lines
  [s "# language: ht"; s "@a @b "; s "Fonksyonalite: f"; s "   what"; s ""; s "   it is"; s "Senaryo: s"; s "Sipoze ke x"; s "| a\|b | \\ |"; s "| c \n |  |"; s "Le y"; s "```json"; s "  \`\`\` z"; s "```"].
Proof.
  assert (S : supported (s "en")) by (eexists; vm_compute; reflexivity).
  assert (P : exists f cs, parse_with false false (s "en") c54_text = Ok (mkGdoc (Some f) cs)) by (do 2 eexists; vm_compute; reflexivity). destruct P as [f [cs P]].
  pose proof (C54_returned false (s "en") c54_text _ f S P eq_refl) as W. exists (mkGdoc (Some f) cs), f. split; [exact P|]. split; [reflexivity|]. split; [exact W|]. vm_compute in P. injection P as <- _. vm_compute. reflexivity.
Qed.
(** a step of which keyword and text would together read as another keyword *)
Definition c54_fr (step : str) : str := text_of_lines [s "# language: fr"; s "Fonctionnalit" ++ [233%N] ++ s ": f"; s "Exemple: e"; step].
Example C54_case_tab : exists d f x, parse_with false false (s "en") (c54_fr (s "Sachant  que x")) = Ok d /\ gd_feature d = Some f /\ map sc_steps (fe_scenarios f) = [[x]] /\
  st_keyword x = Some (s "Sachant ") /\ st_text x = Some (s "que x") /\ feature_text f = c54_fr (s "Sachant " ++ [ch_tab] ++ s "que x").
Proof. do 3 eexists. split; [vm_compute; reflexivity|]. vm_compute. repeat split. Qed.
