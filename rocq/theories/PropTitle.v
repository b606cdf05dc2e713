(** * Other titles for the feature, a rule, a background or examples: C91 *)
From Verif Require Import PyStr PyStrFacts Types Regex Line DialectData Matcher Ast Parser Compiler Scan LineSpec LangSpec LangFacts DocSpec PartsSpec PropLine PropParse PropDoc PropDocString PickleSpec PickleFacts PickleTotal WfDoc PropMdParse PropCompile Glob Robot RobotSpec SuiteSpec RobotFacts PropRobot WriteSpec WriteRead PropWrite EssenceSpec EssenceFacts PropEssence PropAppend MiddleSpec Renumber Units PropMiddle ExampleSpec ExampleChange PropExampleRow PartSpec PartChange PropScenarioTags PropStepMore WordSpec PropReword TitleSpec PropView.
Import PickleSpec WriteSpec.

(** ** One line replaced; it may be the first *)
Definition a_line_of (a m b : str) : Prop := (a = [] \/ ended a) /\ line_count m = 1 /\ (ended (a ++ m) \/ b = []).
Lemma swap_a_line a m m' b x : a_line_of a m b -> a_line_of a m' b -> split_lines m' = [x] ->
  flat_map (swap_line (S (line_count a)) x) (numbered_lines (split_lines (a ++ m ++ b))) = numbered_lines (split_lines (a ++ m' ++ b)).
Proof.
  intros [[->|E] [O H]] [_ [O' H']] Sx; [|apply swap_lines; [split; auto | split; auto | exact Sx]]. cbn [app] in *. change (line_count []) with 0.
  assert (One : forall y, split_lines y = [] \/ exists z, split_lines y = [z] \/ exists z2 w, split_lines y = z :: z2 :: w) by (intros y; destruct (split_lines y) as [|z [|z2 w]]; [now left | right; exists z; now left | right; exists z; right; now exists z2, w]).
  destruct (One m) as [K|[y [K|[z2 [w K]]]]]; try (unfold line_count in O; rewrite K in O; discriminate O).
  assert (G : forall mm z, (ended mm \/ b = []) -> split_lines mm = [z] -> numbered_lines (split_lines (mm ++ b)) = (1, z) :: combine (seq 2 (length (split_lines b))) (split_lines b)).
  { intros mm z [L| ->] Z; [|rewrite app_nil_r, Z; reflexivity]. rewrite lines_split by exact L. rewrite lines_after_eq by exact L. rewrite Z. reflexivity. }
  rewrite (G m y H K), (G m' x H' Sx). cbn [flat_map]. rewrite (swap_here 1 x (1, y) eq_refl). cbn [app]. f_equal. 
  apply (chg_still 1 (swap_line 1 x) (swap_other 1 x)). intros I. apply in_map_iff in I as [[j z] [J I]]. cbn [fst] in J. subst j. apply in_combine_l in I. apply List.in_seq in I. lia.
Qed.

(** ** A document with its feature changed *)
Definition on_doc (h : feature -> feature) (d : gdoc) : gdoc := mkGdoc (option_map h (gd_feature d)) (gd_comments d).
Section Stands.
Context (n : nat) (lchg : nline -> list nline) (L1 : forall l, fst l <> n -> lchg l = [l]) (Q : feature -> Prop) (h : feature -> feature).
Theorem stands_feature lang ls doc f : stands_for lang ls doc -> NoDup (nums ls) -> gd_feature doc = Some f -> Q f ->
  (forall l d, fe_language f = Some l -> for_name l = Some d -> changes n lchg (feature_block d l) Q h) -> stands_for lang (flat_map lchg ls) (on_doc h doc).
Proof.
  intros [[cs [H ->]]|[[pre [fl [d [f0 [c0 [c1 [-> [H1 [H2 [H3 ->]]]]]]]]]]|[pre [hd [mid [fl [name [d [f0 [c0 [c1 [c2 [-> [H1 [H2 [H3 [H4 [H5 ->]]]]]]]]]]]]]]]]]] N F K C; [discriminate F| |]; injection F as ->.
  - assert (Lf : fe_language f = Some lang) by (destruct H3 as [? [? [? [? [? [? [? [? [? [? [? [? [? [? [? [? [? [? [_ [_ [_ [_ [_ [_ [_ [_ ->]]]]]]]]]]]]]]]]]]]]]]]]]]; reflexivity).
    destruct (C lang d Lf H2 _ _ _ H3) as [F1 [_ F3]]. assert (S : pre ++ fl = pre ++ fl ++ []) by now rewrite app_nil_r. rewrite S in N |- *.
    right. left. destruct (chg_mid n lchg L1 _ _ _ N (F1 K)) as [G Nb]. rewrite G, app_nil_r. exists pre, (flat_map lchg fl), d, (h f), c0, c1. repeat (split; [auto|]). reflexivity.
  - assert (Lf : fe_language f = Some name) by (destruct H5 as [? [? [? [? [? [? [? [? [? [? [? [? [? [? [? [? [? [? [_ [_ [_ [_ [_ [_ [_ [_ ->]]]]]]]]]]]]]]]]]]]]]]]]]]; reflexivity).
    destruct (C name d Lf H3 _ _ _ H5) as [F1 [_ F3]]. assert (S : pre ++ hd :: mid ++ fl = (pre ++ hd :: mid) ++ fl ++ []) by (rewrite app_nil_r, <- app_assoc; reflexivity). rewrite S in N |- *.
    right. right. destruct (chg_mid n lchg L1 _ _ _ N (F1 K)) as [G Nb]. rewrite G, app_nil_r. exists pre, hd, mid, (flat_map lchg fl), name, d, (h f), c0, c1, c2. split; [now rewrite <- app_assoc|]. repeat (split; [auto|]). reflexivity.
Qed.
End Stands.

(** ** The four kinds of titles *)
Section Kinds.
Context (n : nat) (x : str) (d : dialect) (kw name : str).
Notation loc := (here (n, x)).
Notation sw := (swap_line n x).
Lemma feature_title_change lang : title_line (d_feature d) x kw name -> changes n sw (feature_block d lang) (feature_title n) (retitle_feature n loc kw name).
Proof.
  intros T ls f cs [tl [l [dl [bl [sl [ul [tags [kw' [nm [desc [bg [scs [rus [c0 [c1 [c2 [c3 [c4 [-> [H0 [H1 [H2 [H3 [H4 [H5 [-> ->]]]]]]]]]]]]]]]]]]]]]]]]]].
  change (tl ++ l :: dl ++ bl ++ sl ++ ul) with (tl ++ [l] ++ dl ++ bl ++ sl ++ ul). unfold feature_title, retitle_feature. cbn [fe_loc here l_line fe_tags fe_language fe_keyword fe_name fe_desc fe_background fe_scenarios fe_rules]. split; [|split].
  - intros K. apply in_mid. left. exact K.
  - intros K. apply out_mid in K. destruct (fst l =? n) eqn:E; [|reflexivity]. apply Nat.eqb_eq in E. exfalso. apply K. left. exact E.
  - intros N K. destruct (chg_mid n _ (swap_other n x) _ _ _ N (or_introl K)) as [G _]. rewrite G. cbn [flat_map]. rewrite (swap_here n x l K), (proj2 (Nat.eqb_eq _ _) K).
    exists tl, (n, x), dl, bl, sl, ul, tags, kw, name, desc, bg, scs, rus, c0, c1, c2, c3, c4. repeat (split; [assumption || reflexivity|]). reflexivity.
Qed.
Lemma rule_title_change : title_line (d_rule d) x kw name -> changes n sw (rule_block d) (fun r => l_line (ru_loc r) = n) (retitle_rule n loc kw name).
Proof.
  intros T ls f cs [tl [l [dl [bl [sl [tags [kw' [nm [desc [bg [scs [c0 [c1 [c2 [c3 [-> [H0 [H1 [H2 [H3 [H4 [-> ->]]]]]]]]]]]]]]]]]]]]]].
  change (tl ++ l :: dl ++ bl ++ sl) with (tl ++ [l] ++ dl ++ bl ++ sl). unfold retitle_rule. cbn [ru_loc here l_line ru_id ru_tags ru_keyword ru_name ru_desc ru_background ru_scenarios]. split; [|split].
  - intros K. apply in_mid. left. exact K.
  - intros K. apply out_mid in K. destruct (fst l =? n) eqn:E; [|reflexivity]. apply Nat.eqb_eq in E. exfalso. apply K. left. exact E.
  - intros N K. destruct (chg_mid n _ (swap_other n x) _ _ _ N (or_introl K)) as [G _]. rewrite G. cbn [flat_map]. rewrite (swap_here n x l K), (proj2 (Nat.eqb_eq _ _) K).
    exists tl, (n, x), dl, bl, sl, tags, kw, name, desc, bg, scs, c0, c1, c2, c3. repeat (split; [assumption || reflexivity|]). reflexivity.
Qed.
Lemma rules_title_change lang : title_line (d_rule d) x kw name -> changes n sw (feature_block d lang) (rule_title n) (rules_retitled n loc kw name).
Proof.
  intros T ls f cs [tl [l [dl [bl [sl [ul [tags [kw' [nm [desc [bg [scs [rus [c0 [c1 [c2 [c3 [c4 [-> [H0 [H1 [H2 [H3 [H4 [H5 [-> ->]]]]]]]]]]]]]]]]]]]]]]]]]].
  assert (S : tl ++ l :: dl ++ bl ++ sl ++ ul = (tl ++ l :: dl ++ bl ++ sl) ++ ul ++ []) by (rewrite app_nil_r; repeat (rewrite <- app_assoc; cbn [app]); reflexivity). rewrite S.
  destruct (blocks_change n _ (swap_other n x) _ _ _ (rule_title_change T) _ _ _ H5) as [F1 [F2 F3]]. unfold rule_title, rules_retitled. cbn [fe_loc fe_tags fe_language fe_keyword fe_name fe_desc fe_background fe_scenarios fe_rules]. split; [|split].
  - intros K. apply in_mid, F1, K.
  - intros K. apply out_mid in K. now rewrite F2.
  - intros N K. destruct (chg_mid n _ (swap_other n x) _ _ _ N (F1 K)) as [G Nb]. rewrite G. exists tl, l, dl, bl, sl, (flat_map sw ul), tags, kw', nm, desc, bg, scs, (map (retitle_rule n loc kw name) rus), c0, c1, c2, c3, c4.
    split; [rewrite app_nil_r; repeat (rewrite <- app_assoc; cbn [app]); reflexivity|]. do 5 (split; [assumption|]). split; [now apply F3|]. split; reflexivity.
Qed.
Lemma background_title_change : title_line (d_background d) x kw name -> changes n sw (background_block d) (fun b => l_line (bg_loc b) = n) (retitle_background n loc kw name).
Proof.
  intros T ls bg cs [l [dl [sl [kw' [nm [desc [steps [c1 [c2 [-> [H1 [H2 [H3 [-> ->]]]]]]]]]]]]]].
  change (l :: dl ++ sl) with ([] ++ [l] ++ dl ++ sl). unfold retitle_background. cbn [bg_loc here l_line bg_id bg_keyword bg_name bg_desc bg_steps]. split; [|split].
  - intros K. apply in_mid. left. exact K.
  - intros K. apply out_mid in K. destruct (fst l =? n) eqn:E; [|reflexivity]. apply Nat.eqb_eq in E. exfalso. apply K. left. exact E.
  - intros N K. destruct (chg_mid n _ (swap_other n x) _ _ _ N (or_introl K)) as [G _]. rewrite G. cbn [flat_map app]. rewrite (swap_here n x l K), (proj2 (Nat.eqb_eq _ _) K).
    exists (n, x), dl, sl, kw, name, desc, steps, c1, c2. repeat (split; [assumption || reflexivity|]). reflexivity.
Qed.
Lemma examples_title_change : title_line (d_examples d) x kw name -> changes n sw (examples_block d) (fun e => l_line (ex_loc e) = n) (retitle_examples n loc kw name).
Proof.
  intros T ls ex cs [tl [l [dl [rl [tags [kw' [nm [desc [rows [c0 [c1 [c2 [-> [H0 [H1 [H2 [H3 [-> ->]]]]]]]]]]]]]]]]]].
  change (tl ++ l :: dl ++ rl) with (tl ++ [l] ++ dl ++ rl). unfold retitle_examples. cbn [ex_loc here l_line ex_id ex_tags ex_keyword ex_name ex_desc ex_header ex_body]. split; [|split].
  - intros K. apply in_mid. left. exact K.
  - intros K. apply out_mid in K. destruct (fst l =? n) eqn:E; [|reflexivity]. apply Nat.eqb_eq in E. exfalso. apply K. left. exact E.
  - intros N K. destruct (chg_mid n _ (swap_other n x) _ _ _ N (or_introl K)) as [G _]. rewrite G. cbn [flat_map]. rewrite (swap_here n x l K), (proj2 (Nat.eqb_eq _ _) K).
    exists tl, (n, x), dl, rl, tags, kw, name, desc, rows, c0, c1, c2. repeat (split; [assumption || reflexivity|]). reflexivity.
Qed.
End Kinds.
Lemma exists_flat {A B} (Q : B -> Prop) (g : A -> list B) l : Exists Q (flat_map g l) <-> Exists (fun a => Exists Q (g a)) l.
Proof. rewrite !Exists_exists. split; [intros [b [H K]]; apply in_flat_map in H as [a [H1 H2]]; exists a; split; [exact H1 | apply Exists_exists; eauto] | intros [a [H K]]; apply Exists_exists in K as [b [K1 K2]]; exists b; split; [apply in_flat_map; eauto | exact K2]]. Qed.
Lemma background_title_some n f : background_title n f -> feature_some (fun _ => False) (fun b => l_line (bg_loc b) = n) f.
Proof.
  unfold background_title, feature_backgrounds, feature_some. intros H. apply Exists_app in H as [H|H].
  - left. destruct (fe_background f) as [b|]; cbn in H; [|inversion H]. apply Exists_cons in H as [K|K]; [exact K | inversion K].
  - right. right. apply (proj1 (exists_flat _ _ _)) in H. clear - H. induction H as [r l H|r l _ IH]; [left | right; exact IH]. left. destruct (ru_background r) as [b|]; cbn in H; [|inversion H]. apply Exists_cons in H as [K|K]; [exact K | inversion K].
Qed.
Lemma examples_title_some n f : examples_title n f -> fe_some (fun e => l_line (ex_loc e) = n) f.
Proof.
  unfold examples_title, feature_examples, feature_scenarios, fe_some. intros H. apply (proj1 (exists_flat _ _ _)), Exists_app in H as [H|H]; [left; exact H|]. right. apply (proj1 (exists_flat _ _ _)) in H. exact H.
Qed.
(** the same without ids *)
Lemma exists_map {A B} (Q : B -> Prop) (g : A -> B) l : Exists (fun a => Q (g a)) l -> Exists Q (map g l).
Proof. induction 1; [left | right]; assumption. Qed.
Lemma title_if n (x : nat) : x = n -> (x =? n) = true.
Proof. apply Nat.eqb_eq. Qed.
Lemma retitled_no_ids dl n x kw name f f' : retitled dl n x kw name f f' -> retitled dl n x kw name (no_id_feature f) (no_id_feature f').
Proof.
  intros [[K [T ->]]|[[K [T ->]]|[[K [T ->]]|[K [T ->]]]]]; [left | right; left | right; right; left | right; right; right].
  - split; [exact K|]. split; [exact T|]. unfold retitle_feature. cbn [no_id_feature fe_loc]. destruct (_ =? n); reflexivity.
  - split; [|split; [exact T|]].
    + unfold rule_title in *. cbn [no_id_feature fe_rules]. apply exists_map. exact K.
    + unfold rules_retitled, no_id_feature. cbn [fe_tags fe_loc fe_language fe_keyword fe_name fe_desc fe_background fe_scenarios fe_rules]. f_equal. rewrite !map_map. apply map_ext. intros r. unfold retitle_rule. cbn [no_id_rule ru_loc]. destruct (_ =? n); reflexivity.
  - assert (Hb : forall o, option_map no_id_background (option_map (retitle_background n (mkLoc n (Some (indent_of x + 1))) kw name) o) = option_map (retitle_background n (mkLoc n (Some (indent_of x + 1))) kw name) (option_map no_id_background o)).
    { intros [b|]; [|reflexivity]. cbn [option_map]. f_equal. unfold retitle_background. cbn [no_id_background bg_loc]. destruct (_ =? n); reflexivity. }
    split; [|split; [exact T|]].
    + unfold background_title, feature_backgrounds in *. apply Exists_app. apply Exists_app in K as [K|K]; [left|right]; cbn [no_id_feature fe_background fe_rules].
      * destruct (fe_background f); [|inversion K]. apply Exists_cons in K as [K|K]; [|inversion K]. left. exact K.
      * apply (proj2 (exists_flat _ _ _)). apply (proj1 (exists_flat _ _ _)) in K. apply exists_map. eapply Exists_impl; [|exact K]. intros r Kr. cbn beta in Kr. cbn [no_id_rule ru_background]. destruct (ru_background r); [|inversion Kr]. apply Exists_cons in Kr as [Kr|Kr]; [|inversion Kr]. left. exact Kr.
    + unfold parts_feature, no_id_feature. cbn [fe_tags fe_loc fe_language fe_keyword fe_name fe_desc fe_background fe_scenarios fe_rules]. rewrite Hb, !map_id. f_equal. rewrite !map_map. apply map_ext. intros r. unfold parts_rule, no_id_rule. cbn [ru_id ru_tags ru_loc ru_keyword ru_name ru_desc ru_background ru_scenarios]. rewrite Hb, !map_id. reflexivity.
  - assert (Hs : forall l, map no_id_scenario (map (on_scenario (retitle_examples n (mkLoc n (Some (indent_of x + 1))) kw name)) l) = map (on_scenario (retitle_examples n (mkLoc n (Some (indent_of x + 1))) kw name)) (map no_id_scenario l)).
    { intros l. rewrite !map_map. apply map_ext. intros sc. unfold on_scenario, no_id_scenario. cbn [sc_id sc_tags sc_loc sc_keyword sc_name sc_desc sc_steps sc_examples]. f_equal. rewrite !map_map. apply map_ext. intros e. unfold retitle_examples. cbn [no_id_examples ex_loc]. destruct (_ =? n); reflexivity. }
    assert (He : forall l, Exists (fun sc => Exists (fun e => l_line (ex_loc e) = n) (sc_examples sc)) l -> Exists (fun sc => Exists (fun e => l_line (ex_loc e) = n) (sc_examples sc)) (map no_id_scenario l)).
    { intros l Kl. apply exists_map. eapply Exists_impl; [|exact Kl]. intros sc Ks. cbn [no_id_scenario sc_examples]. apply exists_map. exact Ks. }
    split; [|split; [exact T|]].
    + unfold examples_title, feature_examples, feature_scenarios in *. apply (proj2 (exists_flat _ _ _)), Exists_app. apply (proj1 (exists_flat _ _ _)), Exists_app in K as [K|K]; [left|right]; cbn [no_id_feature fe_scenarios fe_rules]; [now apply He|].
      apply (proj2 (exists_flat _ _ _)). apply (proj1 (exists_flat _ _ _)) in K. apply exists_map. eapply Exists_impl; [|exact K]. intros r Kr. cbn [no_id_rule ru_scenarios]. now apply He.
    + unfold on_feature, no_id_feature. cbn [fe_tags fe_loc fe_language fe_keyword fe_name fe_desc fe_background fe_scenarios fe_rules]. rewrite Hs. f_equal. rewrite !map_map. apply map_ext. intros r. unfold on_rule, no_id_rule. cbn [ru_id ru_tags ru_loc ru_keyword ru_name ru_desc ru_background ru_scenarios]. now rewrite Hs.
Qed.

(** C91.  Line [n] of a text is the title of its feature, of a rule, a background or examples.  Then with another title of that kind in its place, the text is the
    document with the place, keyword and name of that title changed. *)
Theorem C91_document : forall stop lang a m m' b d f f' l dl x kw name, supported lang -> a_line_of a m b -> a_line_of a m' b -> split_lines m' = [x] ->
  parse_with stop false lang (a ++ m ++ b) = Ok d -> gd_feature d = Some f -> fe_language f = Some l -> for_name l = Some dl ->
  retitled dl (S (line_count a)) x kw name f f' ->
  exists d', parse_with stop false lang (a ++ m' ++ b) = Ok d' /\ no_ids d' = no_ids (mkGdoc (Some f') (gd_comments d)).
Proof.
  intros stop lang a m m' b d f f' l dl x kw name S H H' Sx P F L D Rt. assert (A : stands_for lang (numbered_lines (split_lines (a ++ m ++ b))) (no_ids d)) by (apply (C04_parse_iff stop lang _ _ S); eauto).
  apply retitled_no_ids in Rt. set (n := Datatypes.S (line_count a)) in *. set (f0 := no_id_feature f) in *.
  assert (F0 : gd_feature (no_ids d) = Some f0) by (unfold no_ids; cbn [gd_feature]; now rewrite F).
  assert (Dl : forall l2 d2, fe_language f0 = Some l2 -> for_name l2 = Some d2 -> d2 = dl) by (intros l2 d2 L2 D2; unfold f0 in L2; cbn [no_id_feature fe_language] in L2; congruence).
  assert (B : stands_for lang (flat_map (swap_line n x) (numbered_lines (split_lines (a ++ m ++ b)))) (mkGdoc (Some (no_id_feature f')) (gd_comments (no_ids d)))).
  { assert (G : forall (Q : feature -> Prop) h, Q f0 -> no_id_feature f' = h f0 -> (forall l2, changes n (swap_line n x) (feature_block dl l2) Q h) -> stands_for lang (flat_map (swap_line n x) (numbered_lines (split_lines (a ++ m ++ b)))) (mkGdoc (Some (no_id_feature f')) (gd_comments (no_ids d)))).
    { intros Q h K E C. pose proof (stands_feature n _ (swap_other n x) Q h lang _ _ f0 A (numbers_nodup _) F0 K ltac:(intros l2 d2 L2 D2; rewrite (Dl l2 d2 L2 D2); apply C)) as B. unfold on_doc in B. rewrite F0 in B. cbn [option_map] in B. rewrite E. exact B. }
    destruct Rt as [[K [T E]]|[[K [T E]]|[[K [T E]]|[K [T E]]]]].
    - apply (G _ _ K E). intros l2. now apply feature_title_change.
    - apply (G _ _ K E). intros l2. now apply rules_title_change.
    - apply (G _ _ (background_title_some n _ K) E). intros l2. apply (parts_feature_change n _ (swap_other n x)); [|now apply background_title_change].
      apply no_change.
    - apply (G _ _ (examples_title_some n _ K) E). intros l2. apply (feature_change n _ (swap_other n x)). now apply examples_title_change. }
  unfold n in B. rewrite (swap_a_line a m m' b x H H' Sx) in B. apply (C04_parse_iff stop lang _ _ S) in B as [d' [P' E]]. exists d'. split; [exact P' | exact E].
Qed.
Print Assumptions C91_document.

(** ** Suites *)
Lemma kept_no_ids f : kept (no_id_feature f) = kept f.
Proof.
  assert (Ht : forall l, map kept_tag (map no_id_tag l) = map kept_tag l) by (intros l; rewrite map_map; reflexivity).
  assert (Hr : forall l, map kept_row (map no_id_row l) = map kept_row l) by (intros l; rewrite map_map; reflexivity).
  assert (Hs : forall l, map kept_step (map no_id_step l) = map kept_step l).
  { intros l. rewrite map_map. apply map_ext. intros st. unfold kept_step, no_id_step. cbn. f_equal. destruct (st_arg st); cbn; [reflexivity | now rewrite Hr | reflexivity]. }
  assert (Hb : forall o, option_map kept_background (option_map no_id_background o) = option_map kept_background o) by (intros [b|]; [|reflexivity]; unfold kept_background, no_id_background; cbn; now rewrite Hs).
  assert (Hx : forall l, map kept_scenario (map no_id_scenario l) = map kept_scenario l).
  { intros l. rewrite map_map. apply map_ext. intros sc. unfold kept_scenario, no_id_scenario. cbn [sc_tags sc_loc sc_name sc_desc sc_steps sc_examples]. rewrite Ht, Hs. f_equal. rewrite map_map. apply map_ext. intros e. unfold kept_examples, no_id_examples. cbn [ex_tags ex_keyword ex_header ex_body]. rewrite Ht, Hr. f_equal. now destruct (ex_header e). }
  unfold kept, no_id_feature. cbn [fe_tags fe_language fe_desc fe_background fe_scenarios fe_rules]. rewrite Ht, Hb, Hx. f_equal. rewrite map_map. apply map_ext. intros r. unfold kept_rule, no_id_rule. cbn [ru_tags ru_background ru_scenarios]. now rewrite Ht, Hb, Hx.
Qed.
Lemma kept_retitled dl n x kw name f f' : retitled dl n x kw name f f' -> (forall e, In e (feature_examples f) -> l_line (ex_loc e) = n -> ex_keyword e = Some kw) -> kept f' = kept f.
Proof.
  intros [[K [T ->]]|[[K [T ->]]|[[K [T ->]]|[K [T ->]]]]] He.
  - unfold retitle_feature. destruct (_ =? n); reflexivity.
  - unfold kept, rules_retitled. cbn [fe_tags fe_language fe_desc fe_background fe_scenarios fe_rules]. f_equal. rewrite map_map. apply map_ext. intros r. unfold retitle_rule. destruct (_ =? n); reflexivity.
  - assert (Hb : forall o, option_map kept_background (option_map (retitle_background n (mkLoc n (Some (indent_of x + 1))) kw name) o) = option_map kept_background o).
    { intros [b|]; [|reflexivity]. cbn [option_map]. f_equal. unfold retitle_background. destruct (_ =? n); reflexivity. }
    unfold kept, parts_feature. cbn [fe_tags fe_language fe_desc fe_background fe_scenarios fe_rules]. rewrite Hb, map_id. f_equal. rewrite map_map. apply map_ext. intros r. unfold kept_rule, parts_rule. cbn [ru_tags ru_background ru_scenarios]. now rewrite Hb, map_id.
  - assert (Hs : forall l, (forall sc, In sc l -> forall e, In e (sc_examples sc) -> l_line (ex_loc e) = n -> ex_keyword e = Some kw) -> map kept_scenario (map (on_scenario (retitle_examples n (mkLoc n (Some (indent_of x + 1))) kw name)) l) = map kept_scenario l).
    { intros l Hl. rewrite map_map. apply map_ext_in. intros sc Hsc. unfold kept_scenario, on_scenario. cbn [sc_tags sc_loc sc_name sc_desc sc_steps sc_examples]. f_equal. rewrite map_map. apply map_ext_in. intros e Hi. unfold retitle_examples. destruct (_ =? n) eqn:E; [|reflexivity]. apply Nat.eqb_eq in E. unfold kept_examples. cbn [ex_tags ex_keyword ex_header ex_body]. now rewrite (Hl sc Hsc e Hi E). }
    unfold feature_examples, feature_scenarios in He. unfold kept, on_feature. cbn [fe_tags fe_language fe_desc fe_background fe_scenarios fe_rules].
    rewrite Hs; [|intros sc Hsc e Hi; apply He; apply in_flat_map; exists sc; split; [apply in_or_app; now left | exact Hi]]. f_equal. rewrite map_map. apply map_ext_in. intros r Hr. unfold kept_rule, on_rule. cbn [ru_tags ru_background ru_scenarios]. rewrite Hs; [reflexivity|].
    intros sc Hsc e Hi. apply He. apply in_flat_map. exists sc. split; [apply in_or_app; right; apply in_flat_map; eauto | exact Hi].
Qed.

(** C91.  In a file that gives a suite line [n] is the title of the feature, of a rule, a background or examples.  With another title of that kind in its place (for
    examples, with the same keyword) the file gives exactly the same suite.  The name of the suite is the new title if it is the feature's, and otherwise as before. *)
Theorem C91_suite : forall printable name dir a m m' b x k d f f' l dl line kw new, is_markdown name = false -> a_line_of a m b -> a_line_of a m' b -> split_lines m' = [line] ->
  read_file name (a ++ m ++ b) = Ok d -> gd_feature d = Some f -> fe_language f = Some l -> for_name l = Some dl ->
  let n := S (line_count a) in retitled dl n line kw new f f' -> (forall e, In e (feature_examples f) -> l_line (ex_loc e) = n -> ex_keyword e = Some kw) ->
  build_gherkin_model printable name (a ++ m ++ b) dir = Ok (RSuite x, k) ->
  k = fe_name f /\ build_gherkin_model printable name (a ++ m' ++ b) dir = Ok (RSuite x, fe_name f').
Proof.
  intros pr name dir a m m' b x k d f f' l dl line kw new M O O' Sl R F L D n Rt He B. assert (P : parse_with false false (s "en") (a ++ m ++ b) = Ok d) by (unfold read_file in R; now rewrite M in R).
  destruct (C91_document false (s "en") a m m' b d f f' l dl line kw new en_supported O O' Sl P F L D Rt) as [d' [P' Q]]. assert (R' : read_file name (a ++ m' ++ b) = Ok d') by (unfold read_file; now rewrite M).
  pose proof (f_equal gd_feature Q) as Q2. unfold no_ids in Q2. cbn [gd_feature option_map] in Q2. destruct (gd_feature d') as [f2|] eqn:F2; [|discriminate Q2]. cbn [option_map] in Q2. assert (Q3 : no_id_feature f2 = no_id_feature f') by congruence.
  assert (E : option_map kept (gd_feature d) = option_map kept (gd_feature d')) by (rewrite F, F2; cbn [option_map]; f_equal; rewrite <- (kept_no_ids f2), Q3, kept_no_ids; symmetry; eapply kept_retitled; eauto).
  pose proof (C90_same_suite pr name name (a ++ m ++ b) (a ++ m' ++ b) dir d d' R R' E) as G. rewrite B in G. destruct (build_gherkin_model pr name (a ++ m' ++ b) dir) as [[[x'|] k']|]; try contradiction G.
  destruct G as [<- [g [g' [G1 [G2 [G3 G4]]]]]]. assert (g = f) by congruence. assert (g' = f2) by congruence. subst g g'. split; [exact G3|]. f_equal. f_equal. rewrite G4.
  change (fe_name f2) with (fe_name (no_id_feature f2)). rewrite Q3. reflexivity.
Qed.
Print Assumptions C91_suite.

(** ** Concrete cases: the titles of the feature (the first line), of a rule, of its background and of examples *)
Definition c91_lines : list str := [s "Feature: f"; s "  Scenario: s"; s "    Given a"; s "Rule: r"; s "  what"; s "  Background:"; s "    Given x"; s "  Scenario: o"; s "    When <v>"; s "    Examples:"; s "      | v |"; s "      | 1 |"].
Definition c91_text : str := text_of_lines c91_lines.
Definition c91_d : gdoc := Eval vm_compute in doc_of c91_text.
Definition c91_f : feature := match gd_feature c91_d with Some f => f | None => mkFeature [] (mkLoc 0 None) None None None [] None [] [] end.
Definition c91_a (n : nat) : str := text_of_lines (firstn (n - 1) c91_lines).
Definition c91_m (n : nat) : str := text_of_lines (firstn 1 (skipn (n - 1) c91_lines)).
Definition c91_b (n : nat) : str := text_of_lines (skipn n c91_lines).
Definition line_for (x : str) : str := x ++ [ch_nl].
Definition c91_at (n : nat) (x : str) : Prop := c91_a n ++ c91_m n ++ c91_b n = c91_text /\ a_line_of (c91_a n) (c91_m n) (c91_b n) /\ a_line_of (c91_a n) (line_for x) (c91_b n) /\ split_lines (line_for x) = [line_for x] /\ S (line_count (c91_a n)) = n.
Lemma c91_place n x : c91_a n ++ c91_m n ++ c91_b n = c91_text -> (c91_a n = [] \/ c91_a n = removelast (c91_a n) ++ [ch_nl]) -> c91_a n ++ c91_m n = removelast (c91_a n ++ c91_m n) ++ [ch_nl] -> line_count (c91_m n) = 1 -> split_lines (line_for x) = [line_for x] -> S (line_count (c91_a n)) = n -> c91_at n x.
Proof.
  intros H1 H2 H3 H4 H5 H6. split; [exact H1|]. assert (E : c91_a n = [] \/ ended (c91_a n)) by (destruct H2 as [H2|H2]; [now left | right; eexists; exact H2]). split; [split; [exact E|]; split; [exact H4|]; left; eexists; exact H3|].
  split; [|split; assumption]. split; [exact E|]. split; [unfold line_count; now rewrite H5|]. left. exists (c91_a n ++ x). unfold line_for. now rewrite app_assoc.
Qed.
Ltac place := apply c91_place; [vm_compute; reflexivity | first [left; vm_compute; reflexivity | right; vm_compute; reflexivity] | vm_compute; reflexivity | vm_compute; reflexivity | vm_compute; reflexivity | vm_compute; reflexivity].
Ltac titled_so := split; [vm_compute; tauto | eexists; vm_compute; auto].
Example C91_case_feature : c91_at 1 (s " Ability:  able ") /\ exists f', retitled c86_dl 1 (line_for (s " Ability:  able ")) (s "Ability") (s "able") c91_f f' /\ fe_name f' = Some (s "able").
Proof. split; [place|]. eexists. split; [left; split; [reflexivity|]; split; [titled_so | reflexivity] | reflexivity]. Qed.
Example C91_case_rule : c91_at 4 (s "Rule:") /\ exists f', retitled c86_dl 4 (line_for (s "Rule:")) (s "Rule") [] c91_f f' /\ f' <> c91_f /\ fe_name f' = Some (s "f").
Proof. split; [place|]. eexists. split; [right; left; split; [left; reflexivity|]; split; [titled_so | reflexivity]|]. split; [vm_compute; discriminate | reflexivity]. Qed.
Example C91_case_background : c91_at 6 (s "Background: b") /\ exists f', retitled c86_dl 6 (line_for (s "Background: b")) (s "Background") (s "b") c91_f f' /\ f' <> c91_f.
Proof. split; [place|]. eexists. split; [right; right; left; split; [left; reflexivity|]; split; [titled_so | reflexivity]|]. vm_compute; discriminate. Qed.
Example C91_case_examples : c91_at 10 (s "Examples: e") /\ exists f', retitled c86_dl 10 (line_for (s "Examples: e")) (s "Examples") (s "e") c91_f f' /\ f' <> c91_f /\ forall e, In e (feature_examples c91_f) -> ex_keyword e = Some (s "Examples").
Proof. split; [place|]. eexists. split; [right; right; right; split; [left; reflexivity|]; split; [titled_so | reflexivity]|]. split; [vm_compute; discriminate | intros e [<-|[]]; reflexivity]. Qed.
Example C91_case_suites : exists x, build_gherkin_model (fun _ => true) (s "a.feature") c91_text None = Ok (RSuite x, Some (s "f")) /\ map rt_name (rs_tests x) = [s "s"; s "o v = 1"] /\
  Forall (fun y => build_gherkin_model (fun _ => true) (s "a.feature") (c91_a (fst y) ++ line_for (snd y) ++ c91_b (fst y)) None = Ok (RSuite x, if fst y =? 1 then Some (s "able") else Some (s "f"))) [(1, s " Ability:  able "); (4, s "Rule:"); (6, s "Background: b"); (10, s "Examples: e")].
Proof. eexists. split; [vm_compute; reflexivity|]. split; [vm_compute; reflexivity|]. repeat (constructor; [vm_compute; reflexivity|]). constructor. Qed.
(** why examples must keep their keyword *)
Example C91_keyword : c88_tests (c91_a 10 ++ line_for (s "Scenarios: e") ++ c91_b 10) = [(s "s", 2, 2); (s "o", 8, 2)].
Proof. vm_compute. reflexivity. Qed.
(** C90: a document that differs in everything that does not matter *)
Definition c90_text : str := text_of_lines [s "Ability: x"; s "  Scenario Outline: s"; s "    Given a"; s " Rule: other"; s " words"; s "  Background: bb"; s "    Given x"; s "  Example: o"; s "    When <v>"; s "  Examples: ee"; s "  |v|"; s "  |1|"; s "# end"].
Example C90_case : exists d d', read_file (s "a.feature") c91_text = Ok d /\ read_file (s "b.feature") c90_text = Ok d' /\ option_map kept (gd_feature d) = option_map kept (gd_feature d') /\ no_ids d <> no_ids d'.
Proof. do 2 eexists. split; [vm_compute; reflexivity|]. split; [vm_compute; reflexivity|]. split; [vm_compute; reflexivity | vm_compute; discriminate]. Qed.
