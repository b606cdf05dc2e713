(** * Adding a scenario or a rule at the end: C65 *)
From Verif Require Import PyStr PyStrFacts Types Regex Line DialectData Matcher Ast Parser Compiler Scan LineSpec LangSpec LangFacts DocSpec PartsSpec PropLine PropParse PropDoc PropDocString PickleSpec PickleFacts PickleTotal WfDoc PropMdParse PropCompile Glob Robot RobotSpec SuiteSpec RobotFacts PropRobot WriteSpec WriteRead PropWrite EssenceSpec EssenceFacts PropEssence.
Import PickleSpec WriteSpec.

(** ** Specification *)
(** what is added: a scenario (with or without examples) or a rule *)
Inductive addition := AddScenario (x : scenario) | AddRule (x : rule_ast).
(** the lines stand for it *)
Definition addition_block (d : dialect) (ls : list nline) (a : addition) (cs : list comment) : Prop :=
  match a with AddScenario x => scenario_block d ls x cs | AddRule x => rule_block d ls x cs end.
(** the last element of a list changed *)
Fixpoint at_last {A} (g : A -> A) (l : list A) : list A :=
  match l with [] => [] | [x] => [g x] | x :: l' => x :: at_last g l' end.
(** a scenario is added to the last rule, if the feature has rules *)
Definition rule_with (x : scenario) (ru : rule_ast) : rule_ast :=
  mkRule (ru_id ru) (ru_tags ru) (ru_loc ru) (ru_keyword ru) (ru_name ru) (ru_desc ru) (ru_background ru) (ru_scenarios ru ++ [x]).
Definition feature_with (a : addition) (f : feature) : feature :=
  let scs := match a, fe_rules f with AddScenario x, [] => fe_scenarios f ++ [x] | _, _ => fe_scenarios f end in
  let rus := match a with AddScenario x => at_last (rule_with x) (fe_rules f) | AddRule x => fe_rules f ++ [x] end in
  mkFeature (fe_tags f) (fe_loc f) (fe_language f) (fe_keyword f) (fe_name f) (fe_desc f) (fe_background f) scs rus.
(** the lines that [more] adds to [text], numbered *)
Definition lines_after (text more : str) : list nline :=
  skipn (length (split_lines text)) (numbered_lines (split_lines (text ++ more))).
(** how many tests it adds: one per scenario without examples, one per row of its tables otherwise *)
Definition scenario_tests (x : scenario) : nat :=
  match sc_examples x with [] => 1 | l => list_sum (map (fun ex => match ex_header ex with Some _ => length (ex_body ex) | None => 0 end) l) end.
Definition addition_tests (a : addition) : nat :=
  match a with AddScenario x => scenario_tests x | AddRule x => list_sum (map scenario_tests (ru_scenarios x)) end.
(** the column names of its examples tables are plain words for a regular expression *)
Definition scenario_headers (x : scenario) : list str :=
  flat_map (fun ex => match ex_header ex with Some h => map cell_value (row_cells h) | None => [] end) (sc_examples x).
Definition addition_headers (a : addition) : list str :=
  match a with AddScenario x => scenario_headers x | AddRule x => flat_map scenario_headers (ru_scenarios x) end.

(** ** Lines *)
Lemma split_lines_ended t more : split_lines ((t ++ [ch_nl]) ++ more) = split_lines (t ++ [ch_nl]) ++ split_lines more.
Proof.
  induction t as [|c t IH].
  - cbn [app split_lines]. change (ch_nl =? ch_nl)%N with true. reflexivity.
  - cbn [app split_lines]. destruct (c =? ch_nl)%N; [now rewrite IH|]. rewrite IH.
    destruct (split_lines (t ++ [ch_nl])) as [|l ls] eqn:E; [|reflexivity]. pose proof (split_lines_concat (t ++ [ch_nl])) as C. rewrite E in C. now destruct t.
Qed.
Lemma combine_app {A B} : forall (a a' : list A) (b b' : list B), length a = length b -> combine (a ++ a') (b ++ b') = combine a b ++ combine a' b'.
Proof. induction a as [|x a IH]; intros a' [|y b] b' H; try discriminate H; [reflexivity|]. cbn. f_equal. apply IH. now injection H. Qed.
Lemma numbered_app ls ls' : numbered_lines (ls ++ ls') = numbered_lines ls ++ combine (seq (S (length ls)) (length ls')) ls'.
Proof. unfold numbered_lines. rewrite app_length, seq_app, combine_app by (now rewrite seq_length). reflexivity. Qed.
Lemma numbered_length ls : length (numbered_lines ls) = length ls.
Proof. unfold numbered_lines. etransitivity; [apply combine_length|]. rewrite seq_length. lia. Qed.
Lemma skipn_exact {A} n (a b : list A) : n = length a -> skipn n (a ++ b) = b.
Proof. intros ->. induction a; cbn; auto. Qed.
Definition ended (text : str) : Prop := exists t, text = t ++ [ch_nl].
Lemma lines_after_eq text more : ended text -> lines_after text more = combine (seq (S (length (split_lines text))) (length (split_lines more))) (split_lines more).
Proof. intros [t ->]. unfold lines_after. rewrite split_lines_ended, numbered_app. apply skipn_exact. now rewrite numbered_length. Qed.
Lemma lines_split text more : ended text -> numbered_lines (split_lines (text ++ more)) = numbered_lines (split_lines text) ++ lines_after text more.
Proof. intros H. rewrite lines_after_eq by exact H. destruct H as [t ->]. now rewrite split_lines_ended, numbered_app. Qed.

(** ** Blocks *)
Lemma blocks_snoc {A} (B : list nline -> A -> list comment -> Prop) L xs cs : blocks B L xs cs -> forall M y cs', B M y cs' -> blocks B (L ++ M) (xs ++ [y]) (cs ++ cs').
Proof.
  induction 1 as [|l1 x c1 l2 xs c2 H _ IH]; intros M y cs' H'.
  - pose proof (bl_cons B M y cs' [] [] [] H' (bl_nil B)) as Q. now rewrite !app_nil_r in Q.
  - rewrite <- !app_assoc. constructor; [exact H | now apply IH].
Qed.
Lemma blocks_last {A} (B : list nline -> A -> list comment -> Prop) (g : A -> A) L xs cs M cs' : blocks B L xs cs -> xs <> [] -> (forall L x c, B L x c -> B (L ++ M) (g x) (c ++ cs')) -> blocks B (L ++ M) (at_last g xs) (cs ++ cs').
Proof.
  intros H N G. revert N. induction H as [|l1 x c1 l2 xs c2 H H2 IH]; intros N; [now elim N|]. destruct xs as [|y ys].
  - inversion H2; subst. rewrite !app_nil_r. pose proof (bl_cons B _ _ _ [] [] [] (G _ _ _ H) (bl_nil B)) as Q. now rewrite !app_nil_r in Q.
  - rewrite <- !app_assoc. apply (bl_cons B l1 x c1 (l2 ++ M) (at_last g (y :: ys)) (c2 ++ cs') H). apply IH. discriminate.
Qed.
Section B.
Context (d : dialect).
Lemma rule_more L ru cs M sc cs' : scenario_block d M sc cs' -> rule_block d L ru cs -> rule_block d (L ++ M) (rule_with sc ru) (cs ++ cs').
Proof.
  intros Hm [tl [l [dl [bl [sl [tags [kw [name [desc [bg [scs [cs0 [cs1 [cs2 [cs3 [-> [H1 [H2 [H3 [H4 [H5 [-> ->]]]]]]]]]]]]]]]]]]]]]].
  exists tl, l, dl, bl, (sl ++ M), tags, kw, name, desc, bg, (scs ++ [sc]), cs0, cs1, cs2, (cs3 ++ cs'). split; [repeat (rewrite <- !app_assoc || cbn [app]); reflexivity|].
  do 4 (split; [assumption|]). split; [now apply blocks_snoc|]. split; [now rewrite !app_assoc|]. reflexivity.
Qed.
Lemma feature_more name L f cs M a cs' : addition_block d M a cs' -> feature_block d name L f cs -> feature_block d name (L ++ M) (feature_with a f) (cs ++ cs').
Proof.
  intros Hm [tl [l [dl [bl [sl [rl [tags [kw [nm [desc [bg [scs [rus [cs0 [cs1 [cs2 [cs3 [cs4 [-> [H1 [H2 [H3 [H4 [H5 [H6 [-> ->]]]]]]]]]]]]]]]]]]]]]]]]]].
  assert (E : forall x y : list nline, (tl ++ l :: dl ++ bl ++ sl ++ x) ++ y = tl ++ l :: dl ++ bl ++ sl ++ x ++ y) by (intros x y; now repeat (rewrite <- !app_assoc || cbn [app])).
  assert (K : forall x y : list comment, (cs0 ++ cs1 ++ cs2 ++ cs3 ++ x) ++ y = cs0 ++ cs1 ++ cs2 ++ cs3 ++ x ++ y) by (intros x y; now rewrite <- !app_assoc).
  rewrite E, K. destruct a as [sc|ru].
  - destruct rus as [|r0 rs].
    + inversion H6; subst. cbn [app]. exists tl, l, dl, bl, (sl ++ M), [], tags, kw, nm, desc, bg, (scs ++ [sc]), [], cs0, cs1, cs2, (cs3 ++ cs'), [].
      split; [now rewrite app_nil_r|]. do 4 (split; [assumption|]). split; [now apply blocks_snoc|]. split; [constructor|]. split; [now rewrite app_nil_r | reflexivity].
    + exists tl, l, dl, bl, sl, (rl ++ M), tags, kw, nm, desc, bg, scs, (at_last (rule_with sc) (r0 :: rs)), cs0, cs1, cs2, cs3, (cs4 ++ cs').
      split; [reflexivity|]. do 5 (split; [assumption|]). split; [apply blocks_last; [assumption | discriminate|]; intros; now apply rule_more|]. split; reflexivity.
  - exists tl, l, dl, bl, sl, (rl ++ M), tags, kw, nm, desc, bg, scs, (rus ++ [ru]), cs0, cs1, cs2, cs3, (cs4 ++ cs').
    split; [reflexivity|]. do 5 (split; [assumption|]). split; [now apply blocks_snoc|]. split; [reflexivity|]. now destruct rus.
Qed.
End B.
Lemma feature_language d name L f cs : feature_block d name L f cs -> fe_language f = Some name.
Proof. intros [tl [l [dl [bl [sl [rl [tags [kw [nm [desc [bg [scs [rus [cs0 [cs1 [cs2 [cs3 [cs4 [-> [H1 [H2 [H3 [H4 [H5 [H6 [-> ->]]]]]]]]]]]]]]]]]]]]]]]]]]. reflexivity. Qed.
Lemma stands_more lang ls f cs M a cs' name d : fe_language f = Some name -> for_name name = Some d -> stands_for lang ls (mkGdoc (Some f) cs) -> addition_block d M a cs' ->
  stands_for lang (ls ++ M) (mkGdoc (Some (feature_with a f)) (cs ++ cs')).
Proof.
  intros El D [[c [_ H]]|[Q|Q]] HM; [discriminate H| |]; right; [left|right].
  - destruct Q as [pre [fl [d' [f' [cs0 [cs1 [-> [P [D' [F E]]]]]]]]]]. injection E as <- ->. rewrite (feature_language _ _ _ _ _ F) in El. injection El as <-. rewrite D in D'. injection D' as <-.
    exists pre, (fl ++ M), d, (feature_with a f), cs0, (cs1 ++ cs'). split; [now rewrite app_assoc|]. split; [exact P|]. split; [exact D|]. split; [now apply feature_more | now rewrite app_assoc].
  - destruct Q as [pre [h [mid [fl [nm [d' [f' [cs0 [cs1 [cs2 [-> [P [L1 [L2 [L3 [F E]]]]]]]]]]]]]]]]. injection E as <- ->. rewrite (feature_language _ _ _ _ _ F) in El. injection El as ->. rewrite D in L2. injection L2 as <-.
    exists pre, h, mid, (fl ++ M), name, d, (feature_with a f), cs0, cs1, (cs2 ++ cs'). split; [repeat (rewrite <- !app_assoc || cbn [app]); reflexivity|].
    do 4 (split; [assumption|]). split; [now apply feature_more | now rewrite !app_assoc].
Qed.

(** ** C65: the document *)

(** C65.  Lines for a scenario or a rule, in the feature's language, added after the last line of a feature file, are
    read as that scenario or rule, at the end; nothing else changes. *)
Theorem C65_document : forall stop lang text more d f name dl a cs, supported lang -> ended text ->
  parse_with stop false lang text = Ok d -> gd_feature d = Some f -> fe_language f = Some name -> for_name name = Some dl ->
  addition_block dl (lines_after text more) a cs ->
  exists d', parse_with stop false lang (text ++ more) = Ok d' /\ no_ids d' = mkGdoc (Some (feature_with a (no_id_feature f))) (gd_comments d ++ cs).
Proof.
  intros stop lang text more d f name dl a cs S E P F L D H.
  apply (C04_parse_iff stop lang (text ++ more) _ S). rewrite lines_split by exact E.
  assert (A : stands_for lang (numbered_lines (split_lines text)) (no_ids d)) by (apply (C04_parse_iff stop lang text _ S); eauto).
  unfold no_ids in A. rewrite F in A. cbn [option_map] in A. eapply stands_more; [|exact D | exact A | exact H]. exact L.
Qed.
Print Assumptions C65_document.

(** ** Pickles *)
Definition then_ (r : result (list pickle * nat)) (g : nat -> result (list pickle * nat)) : result (list pickle * nat) :=
  rbind r (fun q => rbind (g (snd q)) (fun q' => Ok (fst q ++ fst q', snd q'))).
Lemma then_assoc r g h : then_ (then_ r g) h = then_ r (fun i => then_ (g i) h).
Proof.
  unfold then_. destruct r as [[ps i]|]; [|reflexivity]. cbn [rbind fst snd]. destruct (g i) as [[qs j]|]; [|reflexivity]. cbn [rbind fst snd].
  destruct (h j) as [[rs k]|]; [|reflexivity]. cbn [rbind fst snd]. now rewrite app_assoc.
Qed.
Lemma then_nil r : then_ r (fun i => Ok ([], i)) = r.
Proof. unfold then_. destruct r as [[ps i]|]; [|reflexivity]. cbn [rbind fst snd]. now rewrite app_nil_r. Qed.
Lemma then_ext r g h : (forall i, g i = h i) -> then_ r g = then_ r h.
Proof. intros H. unfold then_. destruct r as [[ps i]|]; [|reflexivity]. cbn [rbind fst snd]. now rewrite H. Qed.
Lemma seq_app_ {A} (g : A -> nat -> result (list pickle * nat)) l l' : forall i, compile_seq g (l ++ l') i = then_ (compile_seq g l i) (compile_seq g l').
Proof.
  induction l as [|a l IH]; intros i.
  - cbn [app compile_seq]. unfold then_. cbn [rbind fst snd]. destruct (compile_seq g l' i) as [[ps j]|]; reflexivity.
  - cbn [app compile_seq]. change (then_ (g a i) (compile_seq g (l ++ l')) = then_ (then_ (g a i) (compile_seq g l)) (compile_seq g l')). rewrite then_assoc. now apply then_ext.
Qed.
Lemma seq_one {A} (g : A -> nat -> result (list pickle * nat)) x i : compile_seq g [x] i = g x i.
Proof. apply (then_nil (g x i)). Qed.
Lemma compile_some d f lang i : gd_feature d = Some f -> fe_language f = Some lang ->
  compile d i = then_ (compile_seq (compile_one (fe_tags f) (bg_steps_of (fe_background f)) lang) (fe_scenarios f) i) (compile_seq (compile_rule (fe_tags f) (bg_steps_of (fe_background f)) lang) (fe_rules f)).
Proof. intros E L. unfold compile. rewrite E, L. destruct (fe_background f), (fe_scenarios f), (fe_rules f); reflexivity. Qed.
Lemma at_last_snoc {A} (g : A -> A) l x : at_last g (l ++ [x]) = l ++ [g x].
Proof. induction l as [|y l IH]; [reflexivity|]. cbn [app]. cbn [at_last]. destruct (l ++ [x]) eqn:E; [now destruct l|]. now rewrite IH. Qed.
Definition added (a : addition) (f : feature) : option rule_ast :=
  match a with AddScenario x => match rev (fe_rules f) with ru :: _ => Some (rule_with x ru) | [] => None end | AddRule ru => Some ru end.
Definition addition_scenarios (a : addition) : list scenario := match a with AddScenario x => [x] | AddRule ru => ru_scenarios ru end.
Definition compile_added (a : addition) (f : feature) (lang : str) : nat -> result (list pickle * nat) :=
  compile_seq (compile_one (fe_tags f ++ match added a f with Some ru => ru_tags ru | None => [] end)
                           (bg_steps_of (fe_background f) ++ match added a f with Some ru => bg_steps_of (ru_background ru) | None => [] end) lang) (addition_scenarios a).
Lemma compile_more d d' f a lang i : gd_feature d = Some f -> gd_feature d' = Some (feature_with a f) -> fe_language f = Some lang ->
  compile d' i = then_ (compile d i) (compile_added a f lang).
Proof.
  intros E E' L. rewrite (compile_some d f lang i E L), (compile_some d' _ lang i E' L). rewrite then_assoc. unfold compile_added. cbn [feature_with fe_tags fe_background fe_scenarios fe_rules]. destruct a as [sc|ru].
  - cbn [added addition_scenarios]. destruct (fe_rules f) as [|r0 rs] eqn:R.
    + cbn [rev at_last]. rewrite seq_app_, then_assoc, !app_nil_r. apply then_ext. intros j. etransitivity; [apply then_nil|]. unfold then_. cbn [compile_seq rbind fst snd app]. destruct (compile_one _ _ _ sc j) as [[? ?]|]; reflexivity.
    + destruct (rev (r0 :: rs)) as [|ru l] eqn:V; [apply (f_equal (@length _)) in V; rewrite rev_length in V; discriminate V|].
      assert (V' : r0 :: rs = rev l ++ [ru]) by (rewrite <- (rev_involutive (r0 :: rs)), V; reflexivity). rewrite V', at_last_snoc. apply then_ext. intros j. rewrite !seq_app_, then_assoc. apply then_ext. intros k.
      rewrite !seq_one. unfold compile_rule. cbn [rule_with ru_tags ru_background ru_scenarios]. apply seq_app_.
  - cbn [added addition_scenarios]. apply then_ext. intros j. rewrite seq_app_. apply then_ext. intros k. rewrite seq_one. reflexivity.
Qed.
(** ids do not matter for completeness *)
Lemma wf_tags l : tags_wf l -> tags_wf (map no_id_tag l).
Proof. unfold tags_wf. intros H. apply Forall_map. exact H. Qed.
Lemma wf_rows n l : rows_width n l -> rows_width n (map no_id_row l).
Proof. intros H. apply Forall_map. exact H. Qed.
Lemma wf_step x : step_wf x -> step_wf (no_id_step x).
Proof. intros [H1 H2]. split; [exact H1|]. unfold step_rectangular in *. cbn. destruct (st_arg x); cbn in *; auto. destruct H2 as [n H2]. exists n. now apply wf_rows. Qed.
Lemma wf_steps l : Forall step_wf l -> Forall step_wf (map no_id_step l).
Proof. intros H. apply Forall_map. eapply Forall_impl; [|exact H]. apply wf_step. Qed.
Lemma wf_examples x : examples_wf x -> examples_wf (no_id_examples x).
Proof.
  intros [H1 [H2 H3]]. split; [|split; [exact H2 | now apply wf_tags]]. unfold examples_rectangular in *. cbn. destruct (ex_header x); cbn; [now apply wf_rows | now rewrite H1].
Qed.
Lemma wf_background b : opt_wf background_wf b -> opt_wf background_wf (option_map no_id_background b).
Proof. destruct b; cbn; [apply wf_steps | auto]. Qed.
Lemma wf_scenario x : scenario_wf x -> scenario_wf (no_id_scenario x).
Proof.
  intros [[H1 [H2 H3]] [H4 H5]]. split; [split; [exact H1 | split; [exact H2 | now apply wf_tags]]|]. split; [now apply wf_steps|]. apply Forall_map. eapply Forall_impl; [|exact H5]. apply wf_examples.
Qed.
Lemma wf_scenarios l : Forall scenario_wf l -> Forall scenario_wf (map no_id_scenario l).
Proof. intros H. apply Forall_map. eapply Forall_impl; [|exact H]. apply wf_scenario. Qed.
Lemma wf_rule x : rule_wf x -> rule_wf (no_id_rule x).
Proof. intros [H1 [H2 H3]]. split; [now apply wf_background|]. split; [now apply wf_scenarios | now apply wf_tags]. Qed.
Lemma wf_no_ids d : doc_wf d -> doc_wf (no_ids d).
Proof.
  unfold doc_wf, no_ids. cbn. destruct (gd_feature d) as [f|]; cbn; [|auto]. intros [[H1 [H2 H3]] [H4 [H5 H6]]].
  split; [split; [exact H1 | split; [exact H2 | now apply wf_tags]]|]. split; [now apply wf_background|]. split; [now apply wf_scenarios|]. apply Forall_map. eapply Forall_impl; [|exact H6]. apply wf_rule.
Qed.

Lemma feature_with_parts a f : feature_wf (feature_with a f) -> Forall scenario_wf (addition_scenarios a) /\ Forall step_complete (bg_steps_of (fe_background f) ++ match added a f with Some ru => bg_steps_of (ru_background ru) | None => [] end).
Proof.
  intros [_ [Hb [Hs Hr]]]. cbn [feature_with fe_background fe_scenarios fe_rules] in *.
  assert (G : forall ru, rule_wf ru -> Forall step_complete (bg_steps_of (fe_background f) ++ bg_steps_of (ru_background ru))).
  { intros ru [H _]. apply Forall_app. split; now apply bg_complete. }
  destruct a as [sc|ru]; cbn [added addition_scenarios].
  - destruct (fe_rules f) as [|r0 rs] eqn:R.
    + cbn [rev]. apply Forall_app in Hs as [_ Hs]. split; [exact Hs|]. rewrite app_nil_r. now apply bg_complete.
    + destruct (rev (r0 :: rs)) as [|ru l] eqn:V; [apply (f_equal (@length _)) in V; rewrite rev_length in V; discriminate V|].
      assert (V' : r0 :: rs = rev l ++ [ru]) by (rewrite <- (rev_involutive (r0 :: rs)), V; reflexivity). rewrite V', at_last_snoc in Hr. apply Forall_app in Hr as [_ Hr]. inversion Hr as [|? ? Hr1 _]; subst.
      split; [|now apply G]. destruct Hr1 as [_ [Hr1 _]]. cbn in Hr1. now apply Forall_app in Hr1 as [_ Hr1].
  - apply Forall_app in Hr as [_ Hr]. inversion Hr as [|? ? Hr1 _]; subst. split; [|now apply G]. now destruct Hr1 as [_ [Hr1 _]].
Qed.
Lemma headers_of sc ru : Forall PickleSpec.plain (scenario_headers sc) -> Forall (fun o => Forall PickleSpec.plain (header_names o)) (scenario_origins ru sc).
Proof.
  intros H. unfold scenario_origins, scenario_headers in *. assert (G : forall l, Forall PickleSpec.plain (flat_map (fun ex => match ex_header ex with Some h => map cell_value (row_cells h) | None => [] end) l) ->
    Forall (fun o => Forall PickleSpec.plain (header_names o)) (flat_map (examples_origins ru sc) l)).
  { induction l as [|e l IH]; intros Hl; [constructor|]. cbn [flat_map] in *. apply Forall_app in Hl as [H1 H2]. apply Forall_app. split; [|now apply IH].
    unfold examples_origins. destruct (ex_header e) as [h|]; [|constructor]. apply Forall_map, Forall_forall. intros r _. exact H1. }
  destruct (sc_examples sc) as [|e es]; [repeat constructor | apply (G (e :: es)); exact H].
Qed.
Lemma added_fine a f lang i : feature_wf (feature_with a f) -> Forall PickleSpec.plain (addition_headers a) -> exists q, compile_added a f lang i = Ok q.
Proof.
  intros W H. apply feature_with_parts in W as [W1 W2]. unfold compile_added.
  match goal with |- exists q, ?r = Ok q => assert (F : fine True r); [|destruct r; [eauto | now destruct F as [F _]; elim F]] end.
  apply compile_seq_fine. intros sc j Hj. apply (one_fine True None); [exact W2 | rewrite Forall_forall in W1; auto|]. intros _. apply headers_of. 
  destruct a as [x|ru]; cbn in Hj, H; [destruct Hj as [<-|[]]; exact H|]. apply Forall_forall. intros y Hy. rewrite Forall_forall in H. apply H. apply in_flat_map. eauto.
Qed.

Lemma seq_length_ {A} (g : A -> nat -> result (list pickle * nat)) (n : A -> nat) l : (forall a i q, g a i = Ok q -> length (fst q) = n a) ->
  forall i q, compile_seq g l i = Ok q -> length (fst q) = list_sum (map n l).
Proof.
  intros H. induction l as [|a l IH]; intros i q E; cbn [compile_seq] in E; [now injection E as <-|].
  apply rbind_ok in E as [q1 [E1 E]]. apply rbind_ok in E as [q2 [E2 E]]. injection E as <-. cbn [fst]. rewrite app_length. change (length (fst q1) + length (fst q2) = n a + list_sum (map n l)). erewrite H, IH by eauto. reflexivity.
Qed.
Lemma list_sum_ones {A} (l : list A) : list_sum (map (fun _ => 1) l) = length l.
Proof. induction l as [|a l IH]; [reflexivity|]. change (1 + list_sum (map (fun _ => 1) l) = S (length l)). now rewrite IH. Qed.
Lemma one_length tags bg lang sc i q : compile_one tags bg lang sc i = Ok q -> length (fst q) = scenario_tests sc.
Proof.
  unfold compile_one, scenario_tests. intros H.
  assert (G : forall i q, compile_outline tags bg sc lang i = Ok q -> length (fst q) = list_sum (map (fun ex => match ex_header ex with Some _ => length (ex_body ex) | None => 0 end) (sc_examples sc))).
  { clear H i q. intros i q H. unfold compile_outline in H. revert H. apply seq_length_. clear i q. intros ex i q H. unfold compile_examples in H. destruct (ex_header ex) as [h|]; [|now injection H as <-].
    rewrite <- (list_sum_ones (ex_body ex)). revert H. apply seq_length_. clear i q. intros r i q H. apply rbind_ok in H as [q' [_ H]]. now injection H as <-. }
  destruct (sc_examples sc) as [|e es] eqn:E; [|apply (G i q H)]. unfold compile_scenario in H. apply rbind_ok in H as [[[ps k] n] [_ H]]. apply rbind_ok in H as [x [_ H]]. now injection H as <-.
Qed.
Lemma added_length a f lang i q : compile_added a f lang i = Ok q -> length (fst q) = addition_tests a.
Proof.
  intros H. apply (seq_length_ _ scenario_tests) in H; [|intros ? ? ?; apply one_length]. rewrite H. destruct a; cbn [addition_scenarios addition_tests]; [|reflexivity]. cbn. lia.
Qed.

(** one run of the compiler gives the pickles of another, and new ones *)
Definition with_new (new : nat) (hs : list str) (x y : result (list pickle * nat)) : Prop :=
  match x, y with
  | Ok (ps, _), Ok (ps', _) => exists qs, map pickle_essence ps' = map pickle_essence ps ++ map pickle_essence qs /\ length qs = new
  | Ok _, Err e => ~ Forall PickleSpec.plain hs
  | Err e, Err e' => e = e'
  | Err _, Ok _ => False
  end.
Lemma essence_no_ids d : essence (no_ids d) = essence d.
Proof.
  apply plain_essence. unfold no_ids. cbn. destruct (gd_feature d) as [f|]; [|reflexivity]. cbn. now rewrite plain_no_ids.
Qed.
Lemma grown_pickles d d' f a cs : doc_wf d' -> gd_feature d = Some f -> no_ids d' = mkGdoc (Some (feature_with a (no_id_feature f))) cs -> (exists l, fe_language f = Some l) ->
  forall i j, with_new (addition_tests a) (addition_headers a) (compile d i) (compile d' j).
Proof.
  intros W F E [lang L] i j. pose proof (C61_pickles d (no_ids d) i 0 (eq_sym (essence_no_ids d))) as C1. pose proof (C61_pickles d' (no_ids d') j 0 (eq_sym (essence_no_ids d'))) as C2.
  assert (F1 : gd_feature (no_ids d) = Some (no_id_feature f)) by (unfold no_ids; cbn; now rewrite F). assert (F2 : gd_feature (no_ids d') = Some (feature_with a (no_id_feature f))) by (now rewrite E).
  rewrite (compile_more (no_ids d) (no_ids d') (no_id_feature f) a lang 0 F1 F2 L) in C2. apply wf_no_ids in W. unfold doc_wf in W. rewrite F2 in W. cbn [opt_wf] in W.
  destruct (compile d i) as [[ps n]|e], (compile (no_ids d) 0) as [[ps1 n1]|e1]; try contradiction C1.
  - unfold then_ in C2. cbn [rbind fst snd] in C2. destruct (compile_added a (no_id_feature f) lang n1) as [[qs m]|e] eqn:A.
    + cbn [rbind fst snd] in C2. destruct (compile d' j) as [[ps' n']|e']; [|contradiction C2]. cbn [with_new]. exists qs. split; [rewrite C2, map_app; congruence|]. exact (added_length _ _ _ _ _ A).
    + cbn [rbind] in C2. destruct (compile d' j) as [[ps' n']|e']; [contradiction C2|]. cbn [with_new]. intros H. destruct (added_fine a (no_id_feature f) lang n1 W H) as [q Q]. congruence.
  - unfold then_ in C2. cbn [rbind] in C2. destruct (compile d' j) as [[ps' n']|e']; [contradiction C2|]. cbn [with_new]. congruence.
Qed.

(** ** C65: the pickles *)

(** C65.  The pickles of the longer text are those of the shorter one, ids aside, and then the new ones, in order; the
    compiler can only fail anew if a column name of the new tables is not a plain word. *)
Theorem C65_pickles : forall stop lang text more d f name dl a cs i j, supported lang -> ended text ->
  parse_with stop false lang text = Ok d -> gd_feature d = Some f -> fe_language f = Some name -> for_name name = Some dl ->
  addition_block dl (lines_after text more) a cs ->
  exists d', parse_with stop false lang (text ++ more) = Ok d' /\
  match compile d i, compile d' j with
  | Ok (ps, _), Ok (ps', _) => exists qs, map pickle_essence ps' = map pickle_essence ps ++ map pickle_essence qs /\ length qs = addition_tests a
  | Ok _, Err _ => ~ Forall PickleSpec.plain (addition_headers a)
  | Err e, Err e' => e = e'
  | Err _, Ok _ => False
  end.
Proof.
  intros stop lang text more d f name dl a cs i j S E P F L D H. destruct (C65_document stop lang text more d f name dl a cs S E P F L D H) as [d' [P' Q]]. exists d'. split; [exact P'|].
  apply (grown_pickles d d' f a _ (parsed_wf stop false lang (text ++ more) d' S P') F Q). eauto.
Qed.
Print Assumptions C65_pickles.

(** ** Suites *)
(** what a test needs of its origin, beside its pickle *)
Definition o_view (f : feature) (o : origin) :=
  (columns o, option_map (fun q => ex_keyword (fst (fst q))) (o_row o), sc_desc (o_scenario o), names_of (lower_tags o), map st_keyword (origin_steps f o)).
Lemma view_test f f' o o' p p' t t' pr : test_of f o p t -> test_of f' o' p' t' -> Forall2 (exact_args pr) (pk_steps p) (rt_calls t) -> Forall2 (exact_args pr) (pk_steps p') (rt_calls t') ->
  o_view f o = o_view f' o' -> pickle_essence p = pickle_essence p' -> test_shape t = test_shape t'.
Proof.
  intros [T1 [T2 [T3 [T4 _]]]] [U1 [U2 [U3 [U4 _]]]] X X' Eo Ep. unfold test_shape. unfold pickle_essence in Ep. injection Ep as P1 _ _ P4. unfold o_view in Eo.
  assert (V1 : columns o = columns o') by congruence. assert (V2 : option_map (fun q => ex_keyword (fst (fst q))) (o_row o) = option_map (fun q => ex_keyword (fst (fst q))) (o_row o')) by congruence.
  assert (V3 : sc_desc (o_scenario o) = sc_desc (o_scenario o')) by congruence. assert (V4 : names_of (lower_tags o) = names_of (lower_tags o')) by congruence.
  assert (K : map st_keyword (origin_steps f o) = map st_keyword (origin_steps f' o')) by congruence. clear Eo.
  assert (N : rt_name t = rt_name t').
  { rewrite T1, U1, P1. f_equal. rewrite V1. clear - V2. destruct (o_row o) as [[[ex h] r]|], (o_row o') as [[[ex' h'] r']|]; try discriminate V2; [|reflexivity]. cbn in V2. injection V2 as V2. now rewrite V2. }
  assert (D : rt_doc t = rt_doc t') by (now rewrite T2, U2, V3).
  assert (G : rt_tags t = rt_tags t') by (apply cons_inj; unfold test_tags in *; now rewrite T3, U3).
  rewrite N, D, G. now rewrite (same_calls _ _ _ _ _ _ T4 U4 pr X X' K P4).
Qed.
Definition calls_exact (pr : char -> bool) (p : pickle) (t : rtest) : Prop := Forall2 (exact_args pr) (pk_steps p) (rt_calls t).
Lemma view_tests f f' pr : forall os ps ts, Forall3 (test_of f) os ps ts -> forall os' ps' ts' vs qs, Forall3 (test_of f') os' ps' ts' -> Forall2 (calls_exact pr) ps ts -> Forall2 (calls_exact pr) ps' ts' ->
  map (o_view f') os' = map (o_view f) os ++ vs -> map pickle_essence ps' = map pickle_essence ps ++ qs -> exists new, map test_shape ts' = map test_shape ts ++ map test_shape new /\ length new = length qs.
Proof.
  intros os ps ts F. induction F as [|o p t os ps ts H F IH]; intros os' ps' ts' vs qs F' X X' E1 E2.
  - exists ts'. split; [reflexivity|]. cbn [map app] in E2. subst qs. rewrite map_length. clear - X'. induction X'; cbn; auto.
  - destruct F' as [|o' p' t' os' ps' ts' H' F']; [discriminate E1|]. inversion X as [|? ? ? ? X1 X2]; inversion X' as [|? ? ? ? X1' X2']; subst. cbn [map app] in E1, E2.
    assert (A1 : o_view f o = o_view f' o') by congruence. assert (A2 : map (o_view f') os' = map (o_view f) os ++ vs) by congruence.
    assert (B1 : pickle_essence p = pickle_essence p') by congruence. assert (B2 : map pickle_essence ps' = map pickle_essence ps ++ qs) by congruence.
    destruct (IH _ _ _ _ _ F' X2 X2' A2 B2) as [new [N1 N2]]. exists new. split; [|exact N2]. cbn [map app]. f_equal; [symmetry; eapply view_test; eauto | exact N1].
Qed.
Definition views (f : feature) := map (o_view f) (feature_origins f).
Lemma view_plain f o : o_view (plain f) (plain_origin o) = o_view f o.
Proof.
  unfold o_view. rewrite p_columns, p_steps, map_map. f_equal. f_equal; [|apply p_lower]. f_equal. f_equal. cbn. destruct (o_row o) as [[[ex h] r]|]; reflexivity.
Qed.
Lemma views_plain f : views (plain f) = views f.
Proof. unfold views. rewrite p_origins, map_map. apply map_ext. apply view_plain. Qed.
Lemma views_no_ids f : views (no_id_feature f) = views f.
Proof. now rewrite <- (views_plain (no_id_feature f)), plain_no_ids, views_plain. Qed.
Lemma view_rule f x ru sc : map (o_view f) (scenario_origins (Some (rule_with x ru)) sc) = map (o_view f) (scenario_origins (Some ru) sc).
Proof.
  unfold scenario_origins. assert (G : forall l, map (o_view f) (flat_map (examples_origins (Some (rule_with x ru)) sc) l) = map (o_view f) (flat_map (examples_origins (Some ru) sc) l)).
  { induction l as [|e l IH]; [reflexivity|]. cbn [flat_map]. rewrite !map_app, IH. f_equal. unfold examples_origins. destruct (ex_header e); [|reflexivity]. rewrite !map_map. reflexivity. }
  destruct (sc_examples sc) as [|e es]; [reflexivity | apply (G (e :: es))].
Qed.
Lemma view_rules f x ru l : map (o_view f) (flat_map (scenario_origins (Some (rule_with x ru))) l) = map (o_view f) (flat_map (scenario_origins (Some ru)) l).
Proof. induction l as [|e l IH]; [reflexivity|]. cbn [flat_map]. now rewrite !map_app, IH, view_rule. Qed.
Lemma views_more a f : exists vs, views (feature_with a f) = views f ++ vs.
Proof.
  unfold views, feature_origins. cbn [feature_with fe_scenarios fe_rules].
  assert (G : forall os, map (o_view (feature_with a f)) os = map (o_view f) os) by (intros os; apply map_ext; reflexivity).
  destruct a as [sc|ru].
  - destruct (fe_rules f) as [|r0 rs] eqn:R.
    + cbn [at_last flat_map]. rewrite !app_nil_r, flat_map_app, G, map_app. eauto.
    + destruct (rev (r0 :: rs)) as [|ru l] eqn:V; [apply (f_equal (@length _)) in V; rewrite rev_length in V; discriminate V|].
      assert (V' : r0 :: rs = rev l ++ [ru]) by (rewrite <- (rev_involutive (r0 :: rs)), V; reflexivity). rewrite V', at_last_snoc, !flat_map_app, G. cbn [flat_map]. rewrite !app_nil_r. cbn [rule_with ru_scenarios].
      rewrite flat_map_app, !map_app, view_rules. exists (map (o_view f) (flat_map (scenario_origins (Some (rule_with sc ru))) [sc])). rewrite <- !app_assoc. reflexivity.
  - rewrite flat_map_app, G. exists (map (o_view f) (flat_map (fun ru => flat_map (scenario_origins (Some ru)) (ru_scenarios ru)) [ru])). rewrite <- map_app, <- app_assoc. reflexivity.
Qed.

(** C65.  The suite of the longer file has the tests of the shorter one, positions aside, and then the new ones; its
    other parts are the same.  The shorter file's failures are failures of the longer one. *)
Theorem C65_suite : forall printable name dir text more x n d f lang dl a cs, is_markdown name = false -> ended text ->
  build_gherkin_model printable name text dir = Ok (RSuite x, n) ->
  read_file name text = Ok d -> gd_feature d = Some f -> fe_language f = Some lang -> for_name lang = Some dl ->
  addition_block dl (lines_after text more) a cs -> Forall PickleSpec.plain (addition_headers a) ->
  exists x' new, build_gherkin_model printable name (text ++ more) dir = Ok (RSuite x', n) /\
    map test_shape (rs_tests x') = map test_shape (rs_tests x) ++ map test_shape new /\ length new = addition_tests a /\
    rs_doc x' = rs_doc x /\ rs_library x' = rs_library x /\ rs_resources x' = rs_resources x /\ rs_metadata_tags x' = rs_metadata_tags x /\ rs_test_tags x' = rs_test_tags x.
Proof.
  intros pr name dir text more x n d f lang dl a cs M E B R F L D H Pl. pose proof (build_eq pr name text dir) as B1. pose proof (build_eq pr name (text ++ more) dir) as B2.
  rewrite R in B1. pose proof R as P. unfold read_file in P. rewrite M in P. destruct (C65_document false (s "en") text more d f lang dl a cs en_supported E P F L D H) as [d' [P' Q]].
  assert (R' : read_file name (text ++ more) = Ok d') by (unfold read_file; now rewrite M). rewrite R' in B2.
  pose proof (grown_pickles d d' f a _ (parsed_wf false false (s "en") (text ++ more) d' en_supported P') F Q (ex_intro _ _ L) 0 0) as C. rewrite F in B1.
  destruct (gd_feature d') as [f'|] eqn:F'; [|unfold no_ids in Q; rewrite F' in Q; discriminate Q].
  assert (Qf : no_id_feature f' = feature_with a (no_id_feature f)) by (unfold no_ids in Q; rewrite F' in Q; cbn [option_map] in Q; congruence).
  destruct (compile d 0) as [[ps i]|e]; [|rewrite B1 in B; discriminate B]. cbn [with_new] in C.
  destruct (compile d' 0) as [[ps' i']|e']; [|now elim C]. destruct C as [qs [C1 C2]].
  destruct B1 as [su [W1 [S1 [S2 S3]]]]. rewrite W1 in B. assert (su = x) by congruence. assert (En : fe_name f = n) by congruence. subst su. clear B W1.
  destruct B2 as [su' [W2 [S1' [S2' S3']]]].
  destruct (views_more a (no_id_feature f)) as [vs V]. rewrite <- Qf, !views_no_ids in V. unfold views in V.
  unfold origins in S2, S2'. rewrite F in S2. rewrite F' in S2'.
  destruct (view_tests f f' pr _ _ _ S2 _ _ _ vs _ S2' S3 S3' V C1) as [new [N1 N2]].
  exists su', new. assert (En' : fe_name f' = n) by (rewrite <- En; apply (f_equal fe_name) in Qf; exact Qf). split; [now rewrite W2, En'|]. split; [exact N1|]. split; [now rewrite N2, map_length|].
  destruct S1 as [A1 [A2 [A3 [A4 A5]]]], S1' as [A1' [A2' [A3' [A4' A5']]]].
  assert (De : fe_desc f' = fe_desc f) by exact (f_equal fe_desc Qf).
  assert (Tg : map tag_name (fe_tags f') = map tag_name (fe_tags f)).
  { apply (f_equal (fun x => map tag_name (fe_tags x))) in Qf. cbn in Qf. rewrite !map_map in Qf. exact Qf. }
  assert (TT : rs_test_tags su' = rs_test_tags x) by (apply cons_inj; now rewrite A4, A4').
  split; [now rewrite A1, A1', De|]. split; [congruence|]. split; [rewrite A3 in A3'; congruence|]. split; [|exact TT].
  rewrite A5, A5', TT. destruct (fe_tags f), (fe_tags f'); try discriminate Tg; reflexivity.
Qed.
Print Assumptions C65_suite.

(** ** C65: writing a scenario or rule of another file *)
(** the text of a scenario or a rule, in the language of its feature *)
Definition addition_text (d : dialect) (a : addition) : str :=
  flat_map (fun l => l ++ [ch_nl]) (match a with AddScenario x => scenario_lines d x | AddRule x => rule_lines d x end).
Definition plain_addition (a : addition) : addition :=
  match a with AddScenario x => AddScenario (plain_scenario x) | AddRule x => AddRule (plain_rule x) end.
(** it stands in a feature *)
Definition stands_in (a : addition) (f : feature) : Prop :=
  match a with AddScenario x => In x (fe_scenarios f) \/ (exists ru, In ru (fe_rules f) /\ In x (ru_scenarios ru)) | AddRule x => In x (fe_rules f) end.
Definition addition_ok (d : dialect) (a : addition) : Prop := match a with AddScenario x => scenario_ok d x | AddRule x => rule_ok d x end.
Lemma stands_ok d a f : feature_ok d f -> stands_in a f -> addition_ok d a.
Proof.
  intros [_ [_ [_ [_ [H1 H2]]]]]. rewrite Forall_forall in H1, H2. destruct a as [x|x]; cbn; [|auto]. intros [H|[ru [H3 H4]]]; [auto|]. destruct (H2 ru H3) as [_ [_ [_ [_ H5]]]]. rewrite Forall_forall in H5. auto.
Qed.
Lemma written_block name d text a : for_name name = Some d -> ended text -> addition_ok d a -> exists a', addition_block d (lines_after text (addition_text d a)) a' [] /\ plain_addition a' = plain_addition a.
Proof.
  intros D E O. rewrite lines_after_eq by exact E. unfold addition_text. change (fun l => l ++ [ch_nl]) with eol.
  assert (N : forall k ls, Forall no_nl ls -> combine (seq k (length (split_lines (flat_map eol ls)))) (split_lines (flat_map eol ls)) = number k ls).
  { intros k ls Hl. change (flat_map eol ls) with (PropLine.text_of_lines ls). rewrite (split_lines_text ls Hl). unfold number. rewrite map_length. reflexivity. }
  destruct a as [x|x]; cbn [addition_ok addition_block plain_addition] in *.
  - rewrite N by (eapply nl_scenario; eauto). destruct (w_scenario name d D (S (length (split_lines text))) x O) as [x' [H1 H2]]. exists (AddScenario x'). split; [exact H1|]. cbn. now rewrite H2.
  - rewrite N by (eapply nl_rule; eauto). destruct (w_rule name d D (S (length (split_lines text))) x O) as [x' [H1 H2]]. exists (AddRule x'). split; [exact H1|]. cbn. now rewrite H2.
Qed.
Lemma map_at_last {A} (g h : A -> A) (k : A -> A) l : (forall x, k (g x) = h (k x)) -> map k (at_last g l) = at_last h (map k l).
Proof. intros H. induction l as [|x l IH]; [reflexivity|]. cbn [at_last map]. destruct l as [|y l]; [cbn; now rewrite H|]. cbn [map] in *. now rewrite IH. Qed.
Lemma plain_with a f : plain (feature_with a f) = feature_with (plain_addition a) (plain f).
Proof.
  unfold feature_with, plain. cbn. destruct a as [x|x]; cbn; f_equal.
  - destruct (fe_rules f); cbn; [now rewrite map_app | reflexivity].
  - apply map_at_last. intros r. unfold plain_rule, rule_with. cbn. now rewrite map_app.
  - now rewrite map_app.
Qed.

(** C65.  In particular, the text of a scenario or a rule of any accepted file may be added to any accepted file in the
    same language. *)
Theorem C65_copied : forall stop lang text text2 d d2 f f2 name dl a, supported lang -> ended text ->
  parse_with stop false lang text = Ok d -> gd_feature d = Some f -> fe_language f = Some name ->
  parse_with stop false lang text2 = Ok d2 -> gd_feature d2 = Some f2 -> fe_language f2 = Some name -> for_name name = Some dl -> stands_in a f2 ->
  exists d' f', parse_with stop false lang (text ++ addition_text dl a) = Ok d' /\ gd_feature d' = Some f' /\ gd_comments d' = gd_comments d /\ plain f' = plain (feature_with a f).
Proof.
  intros stop lang text text2 d d2 f f2 name dl a S E P F L P2 F2 L2 D I. destruct (C54_returned stop lang text2 d2 f2 S P2 F2) as [nm [dl' [El [D' O]]]]. rewrite L2 in El. injection El as <-. rewrite D in D'. injection D' as <-.
  destruct (written_block name dl text a D E (stands_ok dl a f2 O I)) as [a' [B B2]].
  destruct (C65_document stop lang text (addition_text dl a) d f name dl a' [] S E P F L D B) as [d' [P' Q]].
  destruct (gd_feature d') as [f'|] eqn:F'; [|unfold no_ids in Q; rewrite F' in Q; discriminate Q].
  assert (Qf : no_id_feature f' = feature_with a' (no_id_feature f)) by (unfold no_ids in Q; rewrite F' in Q; cbn [option_map] in Q; congruence).
  exists d', f'. split; [exact P'|]. split; [exact F'|]. split; [apply (f_equal gd_comments) in Q; cbn [gd_comments no_ids] in Q; now rewrite app_nil_r in Q|].
  rewrite <- (plain_no_ids f'), Qf, !plain_with, plain_no_ids, B2. reflexivity.
Qed.
Print Assumptions C65_copied.

(** ** Concrete cases *)
(* a file with a rule, and an outline with a description, tags, a table and a doc string from another one *)
Definition c65_a : str := text_of_lines [s "# a"; s "@t"; s "Feature: f"; s "  Background:"; s "    Given b"; s "  Scenario: s"; s "    When x"; s "  Rule: r"; s "    Example: e"; s "      Then y"; s ""; s "  # end"].
Definition c65_b : str := text_of_lines [s "Feature: g"; s "  @u @v"; s "  Scenario Outline: o <x>"; s "    text"; s "    Given <x>"; s "      | a | <y> |"; s "    And z"; s "      """""""; s "      <y>"; s "      """""""; s "    Examples:"; s "      |x|y|"; s "      |1|2|"; s "      |3|4|"].
Definition the_feature (text : str) : option feature := match parse_with false false (s "en") text with Ok d => gd_feature d | Err _ => None end.
Example C65_case : exists f g sc dl, the_feature c65_a = Some f /\ the_feature c65_b = Some g /\ fe_language f = Some (s "en") /\ fe_language g = Some (s "en") /\ for_name (s "en") = Some dl /\
  fe_scenarios g = [sc] /\ stands_in (AddScenario sc) g /\ ended c65_a /\ addition_tests (AddScenario sc) = 2 /\ Forall PickleSpec.plain (addition_headers (AddScenario sc)) /\
  (exists x y, build_gherkin_model (fun _ => true) (s "a.feature") c65_a None = Ok (RSuite x, Some (s "f")) /\ build_gherkin_model (fun _ => true) (s "a.feature") (c65_a ++ addition_text dl (AddScenario sc)) None = Ok (RSuite y, Some (s "f")) /\
     map rt_name (rs_tests x) = [s "s"; s "e"] /\ map rt_name (rs_tests y) = [s "s"; s "e"; s "o 1 x = 1 y = 2"; s "o 3 x = 3 y = 4"]).
Proof.
  destruct (the_feature c65_a) as [f|] eqn:F; [|vm_compute in F; discriminate F]. destruct (the_feature c65_b) as [g|] eqn:G; [|vm_compute in G; discriminate G].
  destruct (for_name (s "en")) as [dl|] eqn:D; [|vm_compute in D; discriminate D]. vm_compute in F, G. injection F as <-. injection G as <-.
  do 4 eexists. split; [reflexivity|]. split; [reflexivity|]. split; [reflexivity|]. split; [reflexivity|]. split; [reflexivity|]. split; [reflexivity|]. split; [left; left; reflexivity|].
  split; [eexists (removelast c65_a); vm_compute; reflexivity|]. split; [reflexivity|]. vm_compute in D. injection D as <-. split.
  - repeat (constructor; [apply plain_word; vm_compute; reflexivity|]). constructor.
  - do 2 eexists. split; [vm_compute; reflexivity|]. split; [vm_compute; reflexivity|]. split; vm_compute; reflexivity.
Qed.
