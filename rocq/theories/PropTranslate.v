(** * A Markdown feature and the classic one it stands for: C68 *)
From Verif Require Import PyStr PyStrFacts Types Regex Line DialectData Matcher Ast ParserTable Parser LineSpec MdSpec MdFacts MdRun PropMarkdown PropLine PropParse PropMdParse PropStop TransSpec TransFacts TransRun.
Local Open Scope N_scope.

(** C68.  When each line of a Markdown text stands for the line of a classic text with the same number
    ([translation] in TransSpec.v: headers without the hashes, steps without the bullet, tags without the backticks,
    rows and doc strings as they are, prose left empty), the two parsers agree: either both accept, and
    the documents have the same content, with the same ids and on the same lines; or both reject. *)
Theorem C68_translation : forall stop lang d text text', for_name lang = Some d ->
  translation d Start (split_lines text) (split_lines text') ->
  match parse_with stop true lang text, parse_with stop false lang text' with
  | Ok g, Ok g' => plain_document d g = plain_document d g'
  | Err _, Err _ => True
  | _, _ => False
  end.
Proof.
  intros stop lang d text text' Hd T. assert (Hs : supported lang) by (exists d; exact Hd).
  assert (X : match parse_with true true lang text, parse_with true false lang text' with Ok g, Ok g' => plain_document d g = plain_document d g' | Err _, Err _ => True | _, _ => False end).
  { pose proof (parse_both lang d Hd text text' T) as X. pose proof (C01_markdown true lang text Hs) as A. pose proof (C01_defined_outcome true lang text' Hs) as B.
    destruct (parse_with true true lang text) as [g|e], (parse_with true false lang text') as [g'|e']; auto; subst; [destruct B | destruct A]. }
  destruct stop; [exact X|]. pose proof (C53_first_error true lang text Hs) as A. pose proof (C53_first_error false lang text' Hs) as B.
  assert (E : forall md text, match parse_with true md lang text with Ok d => parse_with false md lang text = Ok d | Err _ => exists x, parse_with false md lang text = Err x end).
  { intros md t. pose proof (C53_first_error md lang t Hs) as C. destruct (parse_with true md lang t) as [g|e]; [exact C|]. destruct e; eauto. destruct C as [[e' [es [C _]]]|[C|C]]; eauto. }
  pose proof (E true text) as E1. pose proof (E false text') as E2.
  destruct (parse_with true true lang text) as [g|e], (parse_with true false lang text') as [g'|e']; try contradiction.
  - now rewrite E1, E2.
  - destruct E1 as [x1 ->], E2 as [x2 ->]. exact I.
Qed.
Print Assumptions C68_translation.

(** concrete texts *)
Definition md_text : str := text_of_lines [
  s " `@a`  `@b`";
  s "# Feature: shop";
  s "Some prose.";
  s "## Background: b";
  s "* Given a shop";
  s "## Rule: r";
  s "`@slow`";
  s "";
  s "### Scenario Outline: buy";
  s "- When I buy <x>";
  s "  """"""text";
  s "  hi";
  s "  """"""";
  s "* Then this";
  s "  |a|b|";
  s "  |-|-|";
  s "  |1|2|";
  s "#### Examples:";
  s " |x|";
  s " |7|"].
Definition classic_text : str := text_of_lines [
  s "@a @b ";
  s "Feature: shop";
  s "";
  s "Background: b";
  s "Given a shop";
  s "Rule: r";
  s "@slow ";
  s "";
  s "Scenario Outline: buy";
  s "When I buy <x>";
  s "  """"""text";
  s "  hi";
  s "  """"""";
  s "Then this";
  s "  |a|b|";
  s "#";
  s "  |1|2|";
  s "Examples:";
  s " |x|";
  s " |7|"].
Definition en : dialect := ms_dialect md_en.
Lemma no_tag x : out (md_match_TagLine md_en (new_token x 0)) = Ok false -> ~ has_md_tag x.
Proof. intros H F. apply (tag_line_iff md_en (new_token x 0)) in F. congruence. Qed.
Lemma prose_first d x : out (md_match_TagLine md_en (new_token x 0)) = Ok false ->
  match first x with Some c => negb (existsb (N.eqb c) (s "#*+-|""`")) | None => true end = true -> prose d x.
Proof.
  intros T F. assert (N : forall c, In c (s "#*+-|""`") -> first x <> Some c).
  { intros c Hc E. rewrite E in F. apply negb_true_iff in F. assert (existsb (N.eqb c) (s "#*+-|""`") = true); [|congruence]. apply existsb_exists. exists c. split; [exact Hc | apply N.eqb_refl]. }
  repeat split.
  - intros k _ kw name col H. apply header_first in H. revert H. apply N. cbn. tauto.
  - intros ind b gap rest kw B. apply bullet_first in B as [B1 B2]. exfalso. revert B1. apply N. destruct B2 as [-> | [-> | ->]]; cbn; tauto.
  - now apply no_tag.
  - intros B. revert B. cbn [s]. intros B. apply begins_hd in B; [|reflexivity]. revert B. apply N. cbn. tauto.
  - intros B. apply begins_hd in B; [|reflexivity]. revert B. apply N. cbn. tauto.
  - intros B. apply begins_hd in B; [|reflexivity]. revert B. apply N. cbn. tauto.
Qed.
Lemma line_nl x : ~ In ch_nl x -> one_line (x ++ [ch_nl]).
Proof. intros H. exists x, [ch_nl]. split; [reflexivity|]. split; [exact H | now right]. Qed.
Ltac no_nl := let F := fresh in intros F; cbn in F; repeat (destruct F as [F|F]; [discriminate F|]); exact F.
Ltac nl x := apply (line_nl x); no_nl.
Ltac head h k kw rest := apply (sd_head en k [] h 32 kw rest [ch_nl]); [cbn; tauto | vm_compute; tauto | reflexivity | lia | reflexivity | discriminate | no_nl | now right | apply no_tag; vm_compute; reflexivity].
Ltac bullet x b rest kw := apply (sd_step en (x ++ [ch_nl]) [] b (s " ") (rest ++ [ch_nl]) kw); [nl x | apply no_tag; vm_compute; reflexivity
  | split; [reflexivity|]; split; [tauto|]; split; [reflexivity|]; split; reflexivity | vm_compute; tauto | reflexivity].
Lemma row_ok x ind rest : x = ind ++ s "|" ++ rest -> one_line x -> out (md_match_TagLine md_en (new_token x 0)) = Ok false -> all_space ind -> (length ind <= 5)%nat ->
  match table_cells (mkLine x 0) with Ok cells => is_gfm_separator cells = false | Err _ => False end -> stands en LRow x x.
Proof.
  intros E O T A L C. destruct (table_cells (mkLine x 0)) as [cells|] eqn:Q; [|contradiction]. eapply sd_row; eauto; [now apply no_tag|].
  intros i Hi S. assert (is_gfm_separator cells = true); [apply gfm_iff; eauto | congruence].
Qed.
Ltac row x ind rest := apply (row_ok (x ++ [ch_nl]) ind (rest ++ [ch_nl])); [reflexivity | nl x | vm_compute; reflexivity | reflexivity | cbn; lia | vm_compute; reflexivity].
Example C68_case : translation en Start (split_lines md_text) (split_lines classic_text).
Proof.
  change (split_lines md_text) with (map (fun x => x ++ [ch_nl]) [s " `@a`  `@b`"; s "# Feature: shop"; s "Some prose."; s "## Background: b"; s "* Given a shop"; s "## Rule: r"; s "`@slow`"; s "";
    s "### Scenario Outline: buy"; s "- When I buy <x>"; s "  """"""text"; s "  hi"; s "  """""""; s "* Then this"; s "  |a|b|"; s "  |-|-|"; s "  |1|2|"; s "#### Examples:"; s " |x|"; s " |7|"]).
  change (split_lines classic_text) with (map (fun x => x ++ [ch_nl]) [s "@a @b "; s "Feature: shop"; s ""; s "Background: b"; s "Given a shop"; s "Rule: r"; s "@slow "; s "";
    s "Scenario Outline: buy"; s "When I buy <x>"; s "  """"""text"; s "  hi"; s "  """""""; s "Then this"; s "  |a|b|"; s "#"; s "  |1|2|"; s "Examples:"; s " |x|"; s " |7|"]).
  cbn [map].
  eapply (tn_line _ _ LTags); [reflexivity | apply (sd_tags en (s " ") [(s "a", s "  "); (s "b", [ch_nl])]); [reflexivity | discriminate | | nl (s " `@a`  `@b`")]|].
  { intros n g [E | [E | []]]; injection E as <- <-; (split; [reflexivity|]; split; [discriminate|]; split; [no_nl | reflexivity]). }
  eapply (tn_line _ _ (LHead TkFeatureLine)); [reflexivity | head 1%nat TkFeatureLine (s "Feature") (s " shop")|].
  eapply (tn_line _ _ LBlank); [reflexivity | apply sd_prose; [discriminate | nl (s "Some prose.") | apply prose_first; vm_compute; reflexivity]|].
  eapply (tn_line _ _ (LHead TkBackgroundLine)); [reflexivity | head 2%nat TkBackgroundLine (s "Background") (s " b")|].
  eapply (tn_line _ _ LStep); [reflexivity | bullet (s "* Given a shop") 42 (s "Given a shop") (s "Given ")|].
  eapply (tn_line _ _ (LHead TkRuleLine)); [reflexivity | head 2%nat TkRuleLine (s "Rule") (s " r")|].
  eapply (tn_line _ _ LTags); [reflexivity | apply (sd_tags en [] [(s "slow", [ch_nl])]); [reflexivity | discriminate | | nl (s "`@slow`")]|].
  { intros n g [E | []]; injection E as <- <-; (split; [reflexivity|]; split; [discriminate|]; split; [no_nl | reflexivity]). }
  eapply (tn_line _ _ LBlank); [reflexivity | apply sd_prose; [discriminate | nl (s "") | apply prose_first; vm_compute; reflexivity]|].
  eapply (tn_line _ _ (LHead TkScenarioLine)); [reflexivity | head 3%nat TkScenarioLine (s "Scenario Outline") (s " buy")|].
  eapply (tn_line _ _ LStep); [reflexivity | bullet (s "- When I buy <x>") 45 (s "When I buy <x>") (s "When ")|].
  eapply (tn_line _ _ (LOpen true)); [reflexivity | apply sd_open|].
  { exists (s "  "), (s "text" ++ [ch_nl]). split; reflexivity. }
  { intros B. apply begins_hd in B; [discriminate B | reflexivity]. }
  eapply (tn_line _ _ (LText true)); [reflexivity | apply sd_text; [discriminate|]|].
  { intros B. apply begins_hd in B; [discriminate B | reflexivity]. }
  eapply (tn_line _ _ (LClose true)); [reflexivity | apply sd_close|].
  { exists (s "  "), [ch_nl]. split; reflexivity. }
  eapply (tn_line _ _ LStep); [reflexivity | bullet (s "* Then this") 42 (s "Then this") (s "Then ")|].
  eapply (tn_line _ _ LRow); [reflexivity | row (s "  |a|b|") (s "  ") (s "a|b|")|].
  eapply (tn_line _ _ LRule_of_dashes); [reflexivity | eapply (sd_dashes en (s "  |-|-|" ++ [ch_nl]) 0); [nl (s "  |-|-|") | apply no_tag; vm_compute; reflexivity | | vm_compute; reflexivity | apply gfm_iff; vm_compute; reflexivity]|].
  { exists (s "  "), (s "-|-|" ++ [ch_nl]). split; reflexivity. }
  eapply (tn_line _ _ LRow); [reflexivity | row (s "  |1|2|") (s "  ") (s "1|2|")|].
  eapply (tn_line _ _ (LHead TkExamplesLine)); [reflexivity | head 4%nat TkExamplesLine (s "Examples") (s "")|].
  eapply (tn_line _ _ LRow); [reflexivity | row (s " |x|") (s " ") (s "x|")|].
  eapply (tn_line _ _ LRow); [reflexivity | row (s " |7|") (s " ") (s "7|")|].
  constructor.
Qed.
(** both are accepted, with a rule, an outline, a table and a doc string in it *)
Example C68_case_accepted : exists (g : gdoc) (r : rule_ast) (sc : scenario) (st1 st2 : step), parse_with false true (s "en") md_text = Ok g /\
  match parse_with false false (s "en") classic_text with Ok g' => plain_document en g = plain_document en g' | Err _ => False end /\
  option_map (fun f => (length (fe_tags f), fe_rules f)) (gd_feature g) = Some (2%nat, [r]) /\ ru_scenarios r = [sc] /\ sc_steps sc = [st1; st2] /\ length (sc_examples sc) = 1%nat /\
  (exists x, st_arg st1 = ADoc x) /\ (exists x, st_arg st2 = ATable x).
Proof.
  assert (E : exists g, parse_with false true (s "en") md_text = Ok g) by (vm_compute; eexists; reflexivity). destruct E as [g E]. pose proof E as E2. vm_compute in E2. injection E2 as E2. rewrite <- E2 in E. clear E2 g.
  eexists _, _, _, _, _. split; [exact E|]. split; [vm_compute; reflexivity|]. split; [reflexivity|]. split; [reflexivity|]. split; [reflexivity|]. split; [reflexivity|]. split; eexists; reflexivity.
Qed.
