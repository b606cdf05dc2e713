(** * Descriptions: C47 *)
From Verif Require Import PyStr PyStrFacts Types Regex Line DialectData Matcher Ast ParserTable Parser Classify Table Scan LineSpec TagIff RowIff LangSpec DocSpec LineIff PropLine PropParse PropDoc PartsSpec Parts PropPlaces.

(** ** Specification *)
Definition next (P : nline -> Prop) (after : list nline) : Prop := match after with [] => True | l :: _ => P l end.
(** the element at [loc] has the description [desc]: after its title line and blank lines, the lines up
    to the next line that ends a description there *)
Definition described (d : dialect) (p : place) (lines : list nline) (loc : location) (desc : str) : Prop :=
  exists before title blanks body after, lines = before ++ title :: blanks ++ body ++ after /\ loc = here title /\
    Forall blank_line blanks /\ Forall (fun l => ~ ends_description d p (snd l)) body /\
    next (fun l => ends_description d p (snd l)) after /\
    match body with [] => desc = [] | first :: _ => ~ blank_line first /\ description_text body desc end.

(** ** Proof *)
Section Desc.
Context (d : dialect).
Definition ender (l : nline) : Prop := forall p, ends_description d p (snd l).
Definition ends (p : place) (l : nline) : Prop := ends_description d p (snd l).
Lemma hash_ends l : comment_line l -> ender l. Proof. intros H p. left. exact H. Qed.
Lemma tag_ends l tags : tags_at_line l tags -> ender l.
Proof. intros [items [H _]] p. apply (g_tags_iff _ 0) in H as [H _]. right. left. exact H. Qed.
Lemma row_ends l r : row_at_line l r -> ends InExamples l.
Proof. intros [items [H _]]. apply (table_cells_iff _ 0) in H as [H _]. do 4 right. left. exact H. Qed.
Lemma described_block p before l dl more desc cs : description_block d p dl desc cs -> next (ends p) more ->
  described d p (before ++ l :: dl ++ more) (here l) desc.
Proof.
  intros [blanks [lines [rest [-> [H1 [H2 [H3 [H4 H5]]]]]]]] H6. exists before, l, blanks, lines, (rest ++ more). split; [now rewrite <- !app_assoc|]. split; [reflexivity|]. split; [exact H1|]. split; [exact H2|]. split; [|exact H3].
  destruct rest as [|r rest]; [exact H6|]. cbn. now apply hash_ends.
Qed.
Lemma described_at p whole before l dl more desc cs loc : whole = before ++ l :: dl ++ more -> loc = here l -> description_block d p dl desc cs -> next (ends p) more -> described d p whole loc desc.
Proof. intros -> ->. apply described_block. Qed.
(** what blocks begin with *)
Definition heads {A} (P : nline -> Prop) (block : list nline -> A -> list comment -> Prop) : Prop := forall ls x cs, block ls x cs -> exists l rest, ls = l :: rest /\ P l.
Lemma tagged_head (P : nline -> Prop) tl tags cs l rest : (forall l, ender l -> P l) -> tags_block tl tags cs -> P l -> exists l' rest', tl ++ l :: rest = l' :: rest' /\ P l'.
Proof.
  intros HP [[-> _]|[l0 [ls' [t1 [t2 [-> [H1 _]]]]]]] Hl; [exists l, rest; auto|]. exists l0, (ls' ++ l :: rest). split; [reflexivity|]. apply HP. eapply tag_ends; eauto.
Qed.
Lemma scenario_heads : heads ender (scenario_block d).
Proof.
  intros ls x cs [tl [l [dl [sl [el [tags [kw [nm [desc [steps [exs [cs0 [cs1 [cs2 [cs3 [-> [H [H1 _]]]]]]]]]]]]]]]]]]. eapply tagged_head; eauto. intros p. right. right. left. exists kw, nm. exact H1.
Qed.
Lemma rule_heads : heads ender (rule_block d).
Proof.
  intros ls x cs [tl [l [dl [bl [sl [tags [kw [nm [desc [bg [scs [cs0 [cs1 [cs2 [cs3 [-> [H [H1 _]]]]]]]]]]]]]]]]]]. eapply tagged_head; eauto. intros p. right. right. right. left. exists kw, nm. exact H1.
Qed.
Lemma background_heads : heads (ends InHeader) (background_block d).
Proof.
  intros ls x cs [l [dl [sl [kw [nm [desc [steps [cs1 [cs2 [-> [H1 _]]]]]]]]]]]. exists l. eexists. split; [reflexivity|]. do 4 right. exists kw, nm. exact H1.
Qed.
Lemma examples_heads p : p = InScenario \/ p = InExamples -> heads (ends p) (examples_block d).
Proof.
  intros Hp ls x cs [tl [l [dl [rl [tags [kw [nm [desc [rows [cs0 [cs1 [cs2 [-> [H [H1 _]]]]]]]]]]]]]]]. eapply tagged_head; [intros l0 H0; apply H0 | exact H|]. destruct Hp as [-> | ->]; do 4 right; right; exists kw, nm; exact H1.
Qed.
Lemma step_heads p : p = InScenario \/ p = InBackground -> heads (ends p) (step_block d).
Proof.
  intros Hp ls x cs [l [nz [ag [kw [text [a [cs1 [cs2 [-> [H1 _]]]]]]]]]]. exists l. eexists. split; [reflexivity|]. destruct Hp as [-> | ->]; do 4 right; [left|]; exists kw, text; exact H1.
Qed.
Lemma table_heads : heads (ends InExamples) table_block.
Proof. intros ls x cs [[l [ls' [r [rs [-> [H _]]]]]] _]. exists l, ls'. split; [reflexivity|]. eapply row_ends; eauto. Qed.
(** elements and what follows them *)
Lemma next_blocks {A} (P : nline -> Prop) (block : list nline -> A -> list comment -> Prop) ls xs cs after : heads P block -> blocks block ls xs cs -> next P after -> next P (ls ++ after).
Proof. intros H B N. inversion B as [|ls1 x cs1 ls2 xs' cs2 B1 B2]; subst; [exact N|]. destruct (H _ _ _ B1) as [l [rest [-> Hl]]]. exact Hl. Qed.
Lemma next_maybe {A} (P : nline -> Prop) (block : list nline -> A -> list comment -> Prop) ls x cs after : heads P block -> maybe block ls x cs -> next P after -> next P (ls ++ after).
Proof. intros H B N. destruct x as [x|]; cbn in B; [destruct (H _ _ _ B) as [l [rest [-> Hl]]]; exact Hl | destruct B as [-> _]; exact N]. Qed.
Lemma next_impl (P Q : nline -> Prop) after : (forall l, P l -> Q l) -> next P after -> next Q after.
Proof. destruct after; cbn; auto. Qed.
Lemma next_ender p after : next ender after -> next (ends p) after.
Proof. apply next_impl. intros l H. apply H. Qed.
(** [x] is a block of [whole], followed by [P] *)
Definition placed {A} (P : nline -> Prop) (block : list nline -> A -> list comment -> Prop) (whole : list nline) (x : A) : Prop :=
  exists before ls after cs, whole = before ++ ls ++ after /\ block ls x cs /\ next P after.
Lemma placed_blocks {A} (P : nline -> Prop) (block : list nline -> A -> list comment -> Prop) ls xs cs x : heads P block -> blocks block ls xs cs -> In x xs ->
  forall whole before after, whole = before ++ ls ++ after -> next P after -> placed P block whole x.
Proof.
  intros H B. induction B as [|ls1 y cs1 ls2 ys cs2 B1 B2 IH]; intros Hx whole before after -> N; [destruct Hx|]. destruct Hx as [->|Hx].
  - exists before, ls1, (ls2 ++ after), cs1. split; [now rewrite <- app_assoc|]. split; [exact B1|]. eapply next_blocks; eauto.
  - apply (IH Hx _ (before ++ ls1) after); [|exact N]. now rewrite <- !app_assoc.
Qed.
Lemma background_described whole x : placed ender (background_block d) whole x -> described d InBackground whole (bg_loc x) (bg_desc x).
Proof.
  intros [before [ls [after [cs [-> [[l [dl [sl [kw [nm [desc [steps [cs1 [cs2 [-> [H1 [H2 [H3 [_ ->]]]]]]]]]]]]]] N]]]]]]. cbn [bg_loc bg_desc].
  eapply (described_at InBackground _ before l dl (sl ++ after)); [cbn [app]; now rewrite <- app_assoc | reflexivity | exact H2|]. eapply next_blocks; [apply step_heads; auto | exact H3|]. now apply next_ender.
Qed.
Lemma examples_described whole x : placed (ends InExamples) (examples_block d) whole x -> described d InExamples whole (ex_loc x) (ex_desc x).
Proof.
  intros [before [ls [after [cs [-> [[tl [l [dl [rl [tags [kw [nm [desc [rows [cs0 [cs1 [cs2 [-> [H0 [H1 [H2 [H3 [_ ->]]]]]]]]]]]]]]]]]] N]]]]]]. cbn [ex_loc ex_desc].
  eapply (described_at InExamples _ (before ++ tl) l dl (rl ++ after)); [rewrite <- !app_assoc; cbn [app]; now rewrite <- app_assoc | reflexivity | exact H2|]. eapply next_maybe; [apply table_heads | exact H3 | exact N].
Qed.
Lemma scenario_described whole x : placed ender (scenario_block d) whole x ->
  described d InScenario whole (sc_loc x) (sc_desc x) /\ forall e, In e (sc_examples x) -> described d InExamples whole (ex_loc e) (ex_desc e).
Proof.
  intros [before [ls [after [cs [-> [[tl [l [dl [sl [el [tags [kw [nm [desc [steps [exs [cs0 [cs1 [cs2 [cs3 [-> [H0 [H1 [H2 [H3 [H4 [_ ->]]]]]]]]]]]]]]]]]]]]]] N]]]]]]. cbn [sc_loc sc_desc sc_examples]. split.
  - eapply (described_at InScenario _ (before ++ tl) l dl (sl ++ el ++ after)); [rewrite <- !app_assoc; cbn [app]; now rewrite <- !app_assoc | reflexivity | exact H2|]. eapply next_blocks; [apply step_heads; auto | exact H3|]. eapply next_blocks; [apply examples_heads; auto | exact H4|]. now apply next_ender.
  - intros e He. apply examples_described. apply (placed_blocks (ends InExamples) (examples_block d) el exs cs3 e (examples_heads _ (or_intror eq_refl)) H4 He _ (before ++ tl ++ l :: dl ++ sl) after); [|now apply next_ender].
    rewrite <- !app_assoc. cbn [app]. now rewrite <- !app_assoc.
Qed.
Lemma maybe_placed P {A} (block : list nline -> A -> list comment -> Prop) ls x cs whole before after y : maybe block ls x cs -> In y (of_option x) -> whole = before ++ ls ++ after -> next P after -> placed P block whole y.
Proof. destruct x as [x|]; cbn; [|intros _ []]. intros B [<-|[]] -> N. exists before, ls, after, cs. auto. Qed.
Lemma rule_described whole x : placed ender (rule_block d) whole x ->
  described d InHeader whole (ru_loc x) (ru_desc x) /\ (forall b, In b (of_option (ru_background x)) -> placed ender (background_block d) whole b) /\
  forall y, In y (ru_scenarios x) -> placed ender (scenario_block d) whole y.
Proof.
  intros [before [ls [after [cs [-> [[tl [l [dl [bl [sl [tags [kw [nm [desc [bg [scs [cs0 [cs1 [cs2 [cs3 [-> [H0 [H1 [H2 [H3 [H4 [_ ->]]]]]]]]]]]]]]]]]]]]]] N]]]]]]. cbn [ru_loc ru_desc ru_scenarios ru_background].
  assert (N' : next ender (sl ++ after)) by (eapply next_blocks; [apply scenario_heads | exact H4 | exact N]). split; [|split].
  - eapply (described_at InHeader _ (before ++ tl) l dl (bl ++ sl ++ after)); [rewrite <- !app_assoc; cbn [app]; now rewrite <- !app_assoc | reflexivity | exact H2|]. eapply next_maybe; [apply background_heads | exact H3|]. now apply next_ender.
  - intros b Hb. eapply (maybe_placed _ _ bl _ _ _ (before ++ tl ++ l :: dl) (sl ++ after)); eauto. rewrite <- !app_assoc. cbn [app]. now rewrite <- !app_assoc.
  - intros y Hy. eapply (placed_blocks _ _ sl); [apply scenario_heads | exact H4 | exact Hy| |exact N]. instantiate (1 := before ++ tl ++ l :: dl ++ bl). rewrite <- !app_assoc. cbn [app]. now rewrite <- !app_assoc.
Qed.
Record descriptions (whole : list nline) (f : feature) : Prop := {
  de_feature : described d InHeader whole (fe_loc f) (fe_desc f);
  de_rules : forall x, In x (fe_rules f) -> described d InHeader whole (ru_loc x) (ru_desc x);
  de_backgrounds : forall x, In x (feature_backgrounds f) -> described d InBackground whole (bg_loc x) (bg_desc x);
  de_scenarios : forall x, In x (feature_scenarios f) -> described d InScenario whole (sc_loc x) (sc_desc x);
  de_examples : forall x, In x (feature_examples f) -> described d InExamples whole (ex_loc x) (ex_desc x) }.
Lemma feature_described name whole f before ls cs : whole = before ++ ls -> feature_block d name ls f cs -> descriptions whole f.
Proof.
  intros -> [tl [l [dl [bl [sl [rl [tags [kw [nm [desc [bg [scs [rus [cs0 [cs1 [cs2 [cs3 [cs4 [-> [H0 [H1 [H2 [H3 [H4 [H5 [_ ->]]]]]]]]]]]]]]]]]]]]]]]]]].
  set (whole := before ++ _). assert (N1 : next ender rl) by (rewrite <- (app_nil_r rl); eapply next_blocks; [apply rule_heads | exact H5 | exact I]).
  assert (N2 : next ender (sl ++ rl)) by (eapply next_blocks; [apply scenario_heads | exact H4 | exact N1]).
  assert (PR : forall x, In x rus -> placed ender (rule_block d) whole x).
  { intros x Hx. apply (placed_blocks ender (rule_block d) rl rus cs4 x rule_heads H5 Hx _ (before ++ tl ++ l :: dl ++ bl ++ sl) []); [|exact I]. unfold whole. rewrite app_nil_r, <- !app_assoc. cbn [app]. now rewrite <- !app_assoc. }
  assert (PS : forall x, In x (scs ++ flat_map ru_scenarios rus) -> placed ender (scenario_block d) whole x).
  { intros x Hx. apply in_app_or in Hx as [Hx|Hx].
    - eapply (placed_blocks _ _ sl); [apply scenario_heads | exact H4 | exact Hx | |exact N1]. instantiate (1 := before ++ tl ++ l :: dl ++ bl). unfold whole. rewrite <- !app_assoc. cbn [app]. now rewrite <- !app_assoc.
    - apply in_flat_map in Hx as [r [Hr Hx]]. now apply (rule_described whole r (PR r Hr)). }
  assert (PB : forall x, In x (of_option bg ++ flat_map (fun r => of_option (ru_background r)) rus) -> placed ender (background_block d) whole x).
  { intros x Hx. apply in_app_or in Hx as [Hx|Hx].
    - eapply (maybe_placed _ _ bl _ _ _ (before ++ tl ++ l :: dl) (sl ++ rl)); eauto. unfold whole. rewrite <- !app_assoc. cbn [app]. rewrite <- ?app_assoc; reflexivity.
    - apply in_flat_map in Hx as [r [Hr Hx]]. now apply (rule_described whole r (PR r Hr)). }
  constructor.
  - eapply (described_at InHeader _ (before ++ tl) l dl (bl ++ sl ++ rl)); [unfold whole; rewrite <- !app_assoc; reflexivity | reflexivity | exact H2|]. eapply next_maybe; [apply background_heads | exact H3|]. now apply next_ender.
  - intros x Hx. now apply rule_described, PR.
  - intros x Hx. now apply background_described, PB.
  - intros x Hx. now apply scenario_described, PS.
  - intros x Hx. unfold feature_examples in Hx. apply in_flat_map in Hx as [y [Hy Hx]]. eapply scenario_described; [apply PS; exact Hy | exact Hx].
Qed.
Lemma descriptions_no whole f : descriptions whole (no_id_feature f) -> descriptions whole f.
Proof.
  intros [H1 H2 H3 H4 H5]. rewrite backgrounds_no in H3. rewrite scenarios_no in H4. rewrite examples_no in H5. constructor.
  - exact H1.
  - intros x Hx. exact (H2 _ (in_map no_id_rule _ _ Hx)).
  - intros x Hx. exact (H3 _ (in_map _ _ _ Hx)).
  - intros x Hx. exact (H4 _ (in_map _ _ _ Hx)).
  - intros x Hx. exact (H5 _ (in_map _ _ _ Hx)).
Qed.
End Desc.
(** C47.  Every description is what stands between the title and the next element. *)
Theorem C47_descriptions : forall stop lang text doc f, supported lang -> parse_with stop false lang text = Ok doc -> gd_feature doc = Some f ->
  exists name d, for_name name = Some d /\ fe_language f = Some name /\ descriptions d (numbered_lines (split_lines text)) f.
Proof.
  intros stop lang text doc f S P F. pose proof (accepted _ _ _ _ S P) as H. unfold no_ids in H. rewrite F in H. cbn [option_map] in H.
  destruct H as [[cs [_ H]]|[[pre [fl [d [f' [c0 [c1 [E [_ [D [B H]]]]]]]]]]|[pre [h [mid [fl [nm [d [f' [c0 [c1 [c2 [E [_ [_ [D [_ [B H]]]]]]]]]]]]]]]]]]; [discriminate H| |]; injection H as H _; subst f'.
  - exists lang, d. split; [exact D|]. split; [destruct B as [tl [l [dl [bl [sl [rl [tags [kw [nm [desc [bg [scs [rus [b0 [b1 [b2 [b3 [b4 [_ [_ [_ [_ [_ [_ [_ [_ X]]]]]]]]]]]]]]]]]]]]]]]]]]; now injection X|].
    apply descriptions_no. eapply feature_described; eauto.
  - exists nm, d. split; [exact D|]. split; [destruct B as [tl [l [dl [bl [sl [rl [tags [kw [nm' [desc [bg [scs [rus [b0 [b1 [b2 [b3 [b4 [_ [_ [_ [_ [_ [_ [_ [_ X]]]]]]]]]]]]]]]]]]]]]]]]]]; now injection X|].
    apply descriptions_no. eapply (feature_described d nm _ _ (pre ++ h :: mid)); [|exact B]. rewrite E, <- app_assoc. reflexivity.
Qed.
Print Assumptions C47_descriptions.
(** a line of blanks at the end of a description is kept, empty lines are not *)
Definition c47_text : str := text_of_lines [s "Feature: f"; s ""; s "  about  "; s ""; s " | no table |"; s "  "; s ""; s "Scenario: s"; s " Given"].
Example C47_case : exists doc f, parse c47_text = Ok doc /\ gd_feature doc = Some f /\ fe_desc f = s "  about  " ++ [ch_nl; ch_nl] ++ s " | no table |" ++ [ch_nl] ++ s "  " /\ map sc_desc (fe_scenarios f) = [s " Given"].
Proof. do 2 eexists. split; [vm_compute; reflexivity|]. split; [reflexivity|]. split; vm_compute; reflexivity. Qed.
