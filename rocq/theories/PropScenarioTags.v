(** * A tag line above a scenario gives its tags to the tests of that scenario, and to no others: C85 *)
From Verif Require Import PyStr PyStrFacts Types Regex Line DialectData Matcher Ast Parser Compiler Scan LineSpec LangSpec LangFacts DocSpec PartsSpec PropLine PropParse PropDoc PropDocString PickleSpec PickleFacts PickleTotal WfDoc PropMdParse PropCompile Glob Robot RobotSpec SuiteSpec RobotFacts PropRobot WriteSpec WriteRead PropWrite EssenceSpec EssenceFacts PropEssence PropAppend MiddleSpec Renumber Units PropMiddle ExampleSpec ExampleChange PropExampleRow PartSpec PartChange.
Import PickleSpec WriteSpec.

(** ** Lines *)
Lemma before_lines a m b x : one_line_between a m b -> split_lines m = [x] -> In (S (line_count a)) (nums (numbered_lines (split_lines (a ++ b)))) ->
  flat_map (before_line (S (S (line_count a))) (S (line_count a), x)) (map (ren_line (moved_down (line_count a) 1)) (numbered_lines (split_lines (a ++ b)))) = numbered_lines (split_lines (a ++ m ++ b)).
Proof.
  intros H Sx I. destruct (between_lines a m b H) as [x' [S N]]. rewrite S in Sx. injection Sx as ->. destruct H as [E _]. rewrite N. rewrite (lines_split a b E) in *. rewrite map_app, lines_still, flat_map_app.
  rewrite (chg_still _ _ (before_other _ _)) by (intros K; rewrite numbers_of in K; apply List.in_seq in K; unfold line_count in K; lia). f_equal.
  rewrite map_app in I. apply in_app_or in I as [I|I]; [exfalso; rewrite numbers_of in I; apply List.in_seq in I; unfold line_count in I; lia|].
  rewrite (lines_after_eq a b E) in *. fold (line_count a) in *. clear N. destruct (split_lines b) as [|y l]; [destruct I|]. cbn [length seq combine map flat_map]. unfold ren_line at 1 3. cbn [fst snd].
  assert (Z : moved_down (line_count a) 1 (Datatypes.S (line_count a)) = Datatypes.S (Datatypes.S (line_count a))) by (unfold moved_down; rewrite (proj2 (Nat.ltb_lt _ _) (Nat.lt_succ_diag_r _)); lia).
  rewrite Z, before_here by reflexivity. cbn [app]. do 2 f_equal. apply (chg_still _ _ (before_other _ _)). intros K. rewrite map_map in K. apply in_map_iff in K as [q [K Hq]].
  assert (Q : In (fst q) (nums (combine (seq (Datatypes.S (Datatypes.S (line_count a))) (length l)) l))) by now apply in_map. cbn [ren_line fst] in K.
  assert (W : nums (combine (seq (Datatypes.S (Datatypes.S (line_count a))) (length l)) l) = seq (Datatypes.S (Datatypes.S (line_count a))) (length l)).
  { clear. generalize (Datatypes.S (Datatypes.S (line_count a))). induction l as [|z l IH]; intros k; [reflexivity|]. cbn [length seq combine map fst]. f_equal. apply IH. }
  rewrite W in Q. apply List.in_seq in Q. unfold moved_down in K. destruct (line_count a <? fst q) eqn:Eq; [lia|]. apply Nat.ltb_ge in Eq. lia.
Qed.
Lemma moved_nodup k l : NoDup (nums (map (ren_line (moved_down k 1)) (numbered_lines l))).
Proof.
  rewrite map_map. change (NoDup (map (fun q : nline => moved_down k 1 (fst q)) (numbered_lines l))). rewrite <- map_map, numbers_of. apply FinFun.Injective_map_NoDup; [|apply seq_NoDup].
  intros i j. unfold moved_down. destruct (k <? i) eqn:Ei, (k <? j) eqn:Ej; try apply Nat.ltb_lt in Ei; try apply Nat.ltb_lt in Ej; try apply Nat.ltb_ge in Ei; try apply Nat.ltb_ge in Ej; lia.
Qed.
Lemma moved_in k l : In (S (S k)) (nums (map (ren_line (moved_down k 1)) (numbered_lines l))) -> In (S k) (nums (numbered_lines l)).
Proof.
  rewrite map_map. intros H. apply in_map_iff in H as [q [H Hq]]. cbn [ren_line fst] in H. apply in_map_iff. exists q. split; [|exact Hq]. unfold moved_down in H. destruct (k <? fst q) eqn:E; [lia|]. apply Nat.ltb_ge in E. lia.
Qed.

(** ** Parts *)
Section SomePart.
Context (Qs Qs' : scenario -> Prop) (Qb Qb' : background -> Prop).
Lemma part_no_ids d : (forall x, Qs x -> Qs' (no_id_scenario x)) -> (forall x, Qb x -> Qb' (no_id_background x)) -> some_part Qs Qb d -> some_part Qs' Qb' (no_ids d).
Proof.
  intros H1 H2. unfold some_part. destruct d as [[f|] cs]; cbn [no_ids gd_feature option_map]; [|auto].
  assert (A : forall l, Exists Qs l -> Exists Qs' (map no_id_scenario l)) by (intros l K; apply exists_map; eapply Exists_impl; [|exact K]; auto).
  assert (B : forall o, opt_some Qb o -> opt_some Qb' (option_map no_id_background o)) by (intros [o|]; cbn; auto).
  assert (R : forall x, rule_some Qs Qb x -> rule_some Qs' Qb' (no_id_rule x)) by (intros x [K|K]; [left | right]; cbn [no_id_rule ru_background ru_scenarios]; auto).
  intros [K|[K|K]]; [left | right; left | right; right]; cbn [no_id_feature fe_background fe_scenarios fe_rules]; auto. apply exists_map. eapply Exists_impl; [|exact K]. auto.
Qed.
Lemma part_ren g d : (forall x, Qs x -> Qs' (ren_scenario g x)) -> (forall x, Qb x -> Qb' (ren_background g x)) -> some_part Qs Qb d -> some_part Qs' Qb' (ren_gdoc g d).
Proof.
  intros H1 H2. unfold some_part. destruct d as [[f|] cs]; cbn [ren_gdoc gd_feature option_map]; [|auto].
  assert (A : forall l, Exists Qs l -> Exists Qs' (map (ren_scenario g) l)) by (intros l K; apply exists_map; eapply Exists_impl; [|exact K]; auto).
  assert (B : forall o, opt_some Qb o -> opt_some Qb' (option_map (ren_background g) o)) by (intros [o|]; cbn; auto).
  assert (R : forall x, rule_some Qs Qb x -> rule_some Qs' Qb' (ren_rule g x)) by (intros x [K|K]; [left | right]; cbn [ren_rule ru_background ru_scenarios]; auto).
  intros [K|[K|K]]; [left | right; left | right; right]; cbn [ren_feature fe_background fe_scenarios fe_rules]; auto. apply exists_map. eapply Exists_impl; [|exact K]. auto.
Qed.
End SomePart.
(** C85.  Line [n] of a text is the title of a scenario.  Then with a tag line before it, the text is the document with these tags for that scenario. *)
Theorem C85_document : forall stop lang a m b d x items, supported lang -> one_line_between a m b -> split_lines m = [x] -> tags_line x items ->
  parse_with stop false lang (a ++ b) = Ok d -> let n := S (line_count a) in some_part (titled n) (fun _ => False) d ->
  exists d', parse_with stop false lang (a ++ m ++ b) = Ok d' /\
    no_ids d' = tags_added n (map (fun i => mkTag 0 (mkLoc n (Some (i_column i))) (i_text i)) items) (no_ids d).
Proof.
  intros stop lang a m b d x items S H Sx T P n K. set (k := line_count a) in *. assert (A : stands_for lang (numbered_lines (split_lines (a ++ b))) (no_ids d)) by (apply (C04_parse_iff stop lang _ _ S); eauto).
  set (tags := map (fun i => mkTag 0 (mkLoc n (Some (i_column i))) (i_text i)) items). assert (Tt : tags_at_line (n, x) tags) by (exists items; split; [exact T | reflexivity]).
  apply (n_stands (moved_down k 1)) in A.
  assert (K2 : some_part (titled (Datatypes.S n)) (fun _ => False) (ren_gdoc (moved_down k 1) (no_ids d))).
  { apply (part_ren (titled n) _ (fun _ => False)).
    - intros y Hy. unfold titled in *. cbn [ren_scenario sc_loc ren_loc l_line]. rewrite Hy. unfold moved_down, n. rewrite (proj2 (Nat.ltb_lt _ _) (Nat.lt_succ_diag_r _)). lia.
    - auto.
    - apply (part_no_ids (titled n) _ (fun _ => False)); auto. }
  destruct (stands_parts _ _ (before_other (Datatypes.S n) (n, x)) (titled (Datatypes.S n)) (more_tags (Datatypes.S n) tags) (fun _ => False) (fun b => b) _ _ _ A (moved_nodup k _) K2) as [I B].
  - intros f l dl _ _ _. split; [apply tags_change; exact Tt | apply no_change].
  - unfold n, k in B, I. rewrite (before_lines a m b x H Sx (moved_in _ _ I)) in B. apply (C04_parse_iff stop lang _ _ S) in B as [d' [P' E]]. exists d'. split; [exact P'|]. rewrite E. unfold tags_added, n. rewrite Nat.sub_succ, Nat.sub_0_r. reflexivity.
Qed.
Print Assumptions C85_document.

(** ** Origins *)
Section Fo.
Context (hf : feature -> feature) (hr : rule_ast -> rule_ast) (hs : scenario -> scenario) (P : origin -> origin)
  (Hs : forall f, fe_scenarios (hf f) = map hs (fe_scenarios f)) (Hr : forall f, fe_rules (hf f) = map hr (fe_rules f)) (Hrs : forall r, ru_scenarios (hr r) = map hs (ru_scenarios r))
  (Ho : forall ru sc, scenario_origins (option_map hr ru) (hs sc) = map P (scenario_origins ru sc)).
Lemma fo_map f : feature_origins (hf f) = map P (feature_origins f).
Proof.
  unfold feature_origins. rewrite map_app, Hs, Hr, !flat_map_map, !map_flat. f_equal; apply flat_map_ext; [intros sc; apply (Ho None)|]. intros ru. rewrite Hrs, map_flat, flat_map_map. apply flat_map_ext. intros sc. apply (Ho (Some ru)).
Qed.
End Fo.
Lemma b_fo f : feature_origins (no_id_feature f) = map b_origin (feature_origins f).
Proof. apply (fo_map no_id_feature no_id_rule no_id_scenario); try reflexivity. intros ru sc. exact (b_unit_o (ru, sc)). Qed.
Lemma g_fo g f : feature_origins (ren_feature g f) = map (g_origin g) (feature_origins f).
Proof. apply (fo_map (ren_feature g) (ren_rule g) (ren_scenario g)); try reflexivity. intros ru sc. exact (g_unit_o g (ru, sc)). Qed.
Section Parts.
Context (hs : scenario -> scenario) (hb : background -> background) (He : forall x, sc_examples (hs x) = sc_examples x).
Definition part_origin (o : origin) : origin := mkOrigin (option_map (parts_rule hs hb) (o_rule o)) (hs (o_scenario o)) (o_row o).
Lemma parts_fo f : feature_origins (parts_feature hs hb f) = map part_origin (feature_origins f).
Proof.
  apply (fo_map (parts_feature hs hb) (parts_rule hs hb) hs); try reflexivity. intros ru sc. unfold scenario_origins. rewrite He. destruct (sc_examples sc) as [|e es]; [reflexivity|]. generalize (e :: es). intros l. rewrite map_flat. apply flat_map_ext.
  intros ex. unfold examples_origins. destruct (ex_header ex) as [h|]; [|reflexivity]. now rewrite map_map.
Qed.
End Parts.
(** the origins of a document whose parts are changed are those of the document, changed *)
Lemma origins_changed hs hb g f f' : (forall x, sc_examples (hs x) = sc_examples x) -> no_id_feature f' = parts_feature hs hb (ren_feature g (no_id_feature f)) ->
  Forall2 (fun o o' => b_origin o' = part_origin hs hb (g_origin g (b_origin o))) (feature_origins f) (feature_origins f').
Proof.
  intros He E. assert (Q : map b_origin (feature_origins f') = map (fun o => part_origin hs hb (g_origin g (b_origin o))) (feature_origins f)) by (rewrite <- b_fo, E, parts_fo, g_fo, b_fo, !map_map by exact He; reflexivity).
  clear E. revert Q. generalize (feature_origins f') as l'. induction (feature_origins f) as [|o l IH]; intros [|o' l'] Q; try discriminate Q; constructor; cbn [map] in Q; [congruence | apply IH; congruence].
Qed.

(** ** The essence of a document whose parts are changed *)
Lemma essence_parts hs hb hs' hb' g d : (forall x, scenario_essence (hs' (ren_scenario g (no_id_scenario x))) = scenario_essence (hs x)) ->
  (forall x, background_essence (hb' (ren_background g (no_id_background x))) = background_essence (hb x)) -> essence (on_parts hs' hb' (ren_gdoc g (no_ids d))) = essence (on_parts hs hb d).
Proof.
  intros Hs Hb. unfold essence. destruct d as [[f|] cs]; [|reflexivity]. cbn [on_parts ren_gdoc no_ids gd_feature option_map]. f_equal. unfold feature_essence. cbn [parts_feature ren_feature no_id_feature fe_tags fe_language fe_background fe_scenarios fe_rules].
  assert (B : forall o, option_map background_essence (option_map hb' (option_map (ren_background g) (option_map no_id_background o))) = option_map background_essence (option_map hb o)) by (intros [o|]; cbn; [now rewrite Hb | reflexivity]).
  assert (S : forall l, map scenario_essence (map hs' (map (ren_scenario g) (map no_id_scenario l))) = map scenario_essence (map hs l)) by (intros l; rewrite !map_map; apply map_ext, Hs).
  rewrite g_names, b_names, B, S, !map_map. f_equal. apply map_ext. intros ru. unfold rule_essence. cbn [parts_rule ren_rule no_id_rule ru_tags ru_background ru_scenarios]. now rewrite g_names, b_names, B, S.
Qed.

(** ** C85: pickles *)
(** all but the tags *)
Definition untagged (p : pickle) : pickle := mkPickle (pk_nodes p) (pk_id p) [] (pk_name p) (pk_language p) (pk_steps p).
Definition umap (r : result (list pickle * nat)) : result (list pickle * nat) := match r with Ok (ps, n) => Ok (map untagged ps, n) | Err e => Err e end.
Lemma umap_seq {A B} (f : A -> nat -> result (list pickle * nat)) (f' : B -> nat -> result (list pickle * nat)) k l : (forall x i, umap (f' (k x) i) = umap (f x i)) -> forall i, umap (compile_seq f' (map k l) i) = umap (compile_seq f l i).
Proof.
  intros H. induction l as [|x l IH]; intros i; [reflexivity|]. cbn [map compile_seq]. specialize (H x i). destruct (f' (k x) i) as [[ps j]|e], (f x i) as [[ps0 j0]|e0]; try discriminate H; cbn [umap rbind fst snd] in *; [|congruence].
  assert (j = j0) by congruence. subst j0. assert (E : map untagged ps = map untagged ps0) by congruence. specialize (IH j). destruct (compile_seq f' (map k l) j) as [[qs i2]|e], (compile_seq f l j) as [[qs0 i3]|e0]; try discriminate IH; cbn [umap rbind fst snd] in *; [|congruence].
  rewrite !map_app. congruence.
Qed.
Section Tagged.
Context (n : nat) (tags : list tag).
Notation hs := (more_tags n tags).
Notation hb := (fun b : background => b).
Lemma tagged_ocompile f lang o i : umap (ocompile (parts_feature hs hb f) lang (part_origin hs hb o) i) = umap (ocompile f lang o i).
Proof.
  unfold ocompile. cbn [part_origin o_row o_rule o_scenario parts_feature fe_tags fe_background]. assert (B : bg_steps_of (option_map hb (fe_background f)) = bg_steps_of (fe_background f)) by (destruct (fe_background f); reflexivity).
  assert (R : rule_bg (option_map (parts_rule hs hb) (o_rule o)) = rule_bg (o_rule o)) by (destruct (o_rule o) as [ru|]; [cbn; destruct (ru_background ru); reflexivity | reflexivity]). rewrite B, R.
  destruct (o_row o) as [[[ex h] r]|].
  - unfold compile_row. cbn [more_tags sc_steps sc_name sc_id]. repeat (match goal with |- context [rbind ?x _] => destruct x as [|]; cbn [rbind fst snd umap]; [|reflexivity] end || match goal with |- context [let '(_, _) := ?p in _] => destruct p end || reflexivity).
  - unfold compile_scenario. cbn [more_tags sc_steps sc_name sc_id]. repeat (match goal with |- context [rbind ?x _] => destruct x as [|]; cbn [rbind fst snd umap]; [|reflexivity] end || match goal with |- context [let '(_, _) := ?p in _] => destruct p end || reflexivity).
Qed.
Lemma tagged_compile f lang cs cs' i : fe_language f = Some lang -> umap (compile (mkGdoc (Some (parts_feature hs hb f)) cs) i) = umap (compile (mkGdoc (Some f) cs') i).
Proof.
  intros L. rewrite (compile_origins (mkGdoc (Some (parts_feature hs hb f)) cs) (parts_feature hs hb f) lang i eq_refl L), (compile_origins (mkGdoc (Some f) cs') f lang i eq_refl L), parts_fo by reflexivity. apply umap_seq. intros; apply tagged_ocompile.
Qed.
End Tagged.

(** ** C85: suites *)
Lemma moved_title n l : 0 < n -> (moved_down (n - 1) 1 l =? S n) = (l =? n).
Proof.
  intros H. unfold moved_down. destruct (n - 1 <? l) eqn:E; [apply Nat.ltb_lt in E | apply Nat.ltb_ge in E]; destruct (l =? n) eqn:E2; [apply Nat.eqb_eq in E2 | apply Nat.eqb_neq in E2 | apply Nat.eqb_eq in E2 | apply Nat.eqb_neq in E2]; first [apply Nat.eqb_eq; lia | apply Nat.eqb_neq; lia].
Qed.
Lemma tl_cons (l : list str) : map (@tl char) (map (cons ch_at) l) = l.
Proof. rewrite map_map. cbn [tl]. apply map_id. Qed.
Section Suite.
Context (n : nat) (items : list mitem) (N : 0 < n).
Let tags := map (fun i => mkTag 0 (mkLoc n (Some (i_column i))) (i_text i)) items.
Let g := moved_down (n - 1) 1.
Definition tag_words (l : list mitem) : list str := map (fun i => @tl char (i_text i)) l.
Lemma tags_test pr f f' o o' p p' t t' : no_id_feature f' = parts_feature (more_tags (S n) tags) (fun b => b) (ren_feature g (no_id_feature f)) ->
  b_origin o' = part_origin (more_tags (S n) tags) (fun b => b) (g_origin g (b_origin o)) -> test_of f o p t -> test_of f' o' p' t' -> calls_exact pr p t -> calls_exact pr p' t' ->
  pickle_essence (untagged p) = pickle_essence (untagged p') -> test_tagged n (tag_words items) t t'.
Proof.
  intros Ef Eo T T' X X' Ep. set (sc' := o_scenario o'). set (X0 := g_origin g (b_origin o)) in *.
  set (o'' := mkOrigin (o_rule o') (mkScenario (sc_id sc') (map (ren_tag g) (sc_tags (o_scenario o))) (sc_loc sc') (sc_keyword sc') (sc_name sc') (sc_desc sc') (sc_steps sc') (sc_examples sc')) (o_row o')).
  set (p'' := mkPickle (pk_nodes p') (pk_id p') (pk_tags p) (pk_name p') (pk_language p') (pk_steps p')). set (t'' := with_tags (rt_tags t) t').
  assert (E1 : b_origin o'' = mkOrigin (option_map (parts_rule (more_tags (S n) tags) (fun b => b)) (o_rule X0)) (o_scenario X0) (o_row X0)).
  { pose proof (f_equal o_rule Eo) as R1. pose proof (f_equal o_scenario Eo) as R2. pose proof (f_equal o_row Eo) as R3. cbn [part_origin o_rule o_scenario o_row] in R1, R2, R3. cbn [b_origin o_rule o_scenario o_row] in R1, R2, R3. unfold o'', b_origin. cbn [o_rule o_scenario o_row]. rewrite R1, R3. apply (f_equal (fun z => mkOrigin _ z _)). 
    fold sc' in R2. unfold no_id_scenario. cbn [sc_tags sc_loc sc_keyword sc_name sc_desc sc_steps sc_examples]. pose proof (f_equal sc_loc R2) as A1. pose proof (f_equal sc_keyword R2) as A2. pose proof (f_equal sc_name R2) as A3. pose proof (f_equal sc_desc R2) as A4. pose proof (f_equal sc_steps R2) as A5. pose proof (f_equal sc_examples R2) as A6.
    cbn [more_tags no_id_scenario sc_tags sc_loc sc_keyword sc_name sc_desc sc_steps sc_examples] in A1, A2, A3, A4, A5, A6. rewrite A1, A2, A3, A4, A5, A6. unfold X0, g_origin, b_origin. cbn [o_scenario]. unfold ren_scenario, no_id_scenario. cbn [sc_id sc_tags sc_loc sc_keyword sc_name sc_desc sc_steps sc_examples]. rewrite !map_map. reflexivity. }
  assert (V : pview f' o'' = ren_view g (pview f o)).
  { rewrite <- (b_view f' o''), E1, Ef, <- (b_view f o), <- (g_view g (no_id_feature f)). fold X0. set (F := ren_feature g (no_id_feature f)). clearbody F X0. unfold pview, o_view, lower_tags, origin_steps, inherited_steps, columns. cbn [o_rule o_scenario o_row parts_feature fe_background].
    assert (B : background_steps (option_map (fun b => b) (fe_background F)) = background_steps (fe_background F)) by (destruct (fe_background F); reflexivity). rewrite B.
    destruct (o_rule X0) as [ru|]; [|reflexivity]. cbn [option_map parts_rule ru_tags ru_background]. assert (B2 : background_steps (option_map (fun b => b) (ru_background ru)) = background_steps (ru_background ru)) by (destruct (ru_background ru); reflexivity). rewrite B2. reflexivity. }
  assert (Gt : rt_tags t = map (@tl char) (names_of (lower_tags o))) by (destruct T as [_ [_ [G _]]]; unfold test_tags in G; unfold names_of; rewrite <- G; symmetry; apply tl_cons).
  assert (Gt' : rt_tags t' = map (@tl char) (names_of (lower_tags o'))) by (destruct T' as [_ [_ [G _]]]; unfold test_tags in G; unfold names_of; rewrite <- G; symmetry; apply tl_cons).
  assert (Lo : names_of (lower_tags o'') = names_of (lower_tags o)) by (pose proof (f_equal (fun v => snd (fst (fst (fst v)))) V) as Q; cbn in Q; exact Q).
  assert (T'' : test_of f' o'' p'' t'').
  { destruct T' as [H1 [H2 [H3 [H4 [H5 H6]]]]]. split; [exact H1|]. split; [exact H2|]. split; [|split; [exact H4|]; split; [exact H5 | exact H6]]. unfold test_tags, t''. cbn [with_tags rt_tags]. unfold names_of in Lo. rewrite Lo. destruct T as [_ [_ [G _]]]. exact G. }
  assert (Q : t'' = ren_test g t).
  { apply (test_placed g pr f f' o o'' p p'' t t'' T T'' X X' V). unfold pickle_essence in *. cbn [p'' untagged pk_name pk_language pk_tags pk_steps] in *. cbn [map] in Ep. congruence. }
  assert (Q2 : t' = with_tags (rt_tags t') (ren_test g t)) by (rewrite <- Q; unfold t''; destruct t'; reflexivity).
  (* the tags *)
  assert (Ln : names_of (lower_tags o') = match o_rule o with None => [] | Some ru => names_of (ru_tags ru) end ++
     (if rt_line t =? n then names_of (sc_tags (o_scenario o)) ++ map i_text items else names_of (sc_tags (o_scenario o))) ++ match o_row o with None => [] | Some (ex, _, _) => names_of (ex_tags ex) end).
  { rewrite <- (b_lower o'), Eo. unfold lower_tags, X0. cbn [part_origin g_origin b_origin o_rule o_scenario o_row more_tags sc_tags sc_loc ren_scenario no_id_scenario ren_loc l_line]. rewrite (moved_title n _ N). destruct T as [_ [_ [_ [_ [Tl _]]]]]. rewrite Tl. unfold names_of. rewrite !map_app. f_equal; [|f_equal].
    - destruct (o_rule o); [|reflexivity]. cbn. now rewrite !map_map.
    - destruct (l_line (sc_loc (o_scenario o)) =? n); [|now rewrite !map_map]. rewrite map_app, !map_map. unfold tags. rewrite map_map. reflexivity.
    - destruct (o_row o) as [[[ex h] r]|]; [|reflexivity]. cbn. now rewrite !map_map. }
  unfold test_tagged. fold g. assert (Lt : names_of (lower_tags o) = match o_rule o with None => [] | Some ru => names_of (ru_tags ru) end ++ names_of (sc_tags (o_scenario o)) ++ match o_row o with None => [] | Some (ex, _, _) => names_of (ex_tags ex) end).
  { unfold lower_tags, names_of. rewrite !map_app. f_equal; [destruct (o_rule o); reflexivity|]. f_equal. destruct (o_row o) as [[[ex h] r]|]; reflexivity. }
  destruct (rt_line t =? n) eqn:El.
  - exists (map (@tl char) (match o_rule o with None => [] | Some ru => names_of (ru_tags ru) end ++ names_of (sc_tags (o_scenario o)))), (map (@tl char) (match o_row o with None => [] | Some (ex, _, _) => names_of (ex_tags ex) end)).
    split; [rewrite Gt, Lt, <- map_app, <- app_assoc; reflexivity|]. rewrite Q2. f_equal. rewrite Gt', Ln. unfold tag_words. rewrite !map_app, <- !app_assoc, map_map. reflexivity.
  - rewrite Q2, Gt', Ln, <- Lt, <- Gt. destruct t; reflexivity.
Qed.
Lemma tags_tests pr f f' : no_id_feature f' = parts_feature (more_tags (S n) tags) (fun b => b) (ren_feature g (no_id_feature f)) ->
  forall os ps ts, cert pr f os ps ts -> forall os' ps' ts', cert pr f' os' ps' ts' -> Forall2 (fun o o' => b_origin o' = part_origin (more_tags (S n) tags) (fun b => b) (g_origin g (b_origin o))) os os' ->
  map (fun p => pickle_essence (untagged p)) ps = map (fun p => pickle_essence (untagged p)) ps' -> Forall2 (test_tagged n (tag_words items)) ts ts'.
Proof.
  intros Ef os ps ts [F X]. revert X. induction F as [|o p t os ps ts H F IH]; intros X os' ps' ts' [F' X'] O E.
  - inversion O; subst. inversion F'; subst. constructor.
  - inversion O as [|? o' ? os2 O1 O2]; subst. inversion F' as [|? p' t' ? ps2 ts2 H' F2]; subst. inversion X as [|? ? ? ? X1 X2]; inversion X' as [|? ? ? ? X1' X2']; subst. cbn [map] in E.
    constructor; [apply (tags_test pr f f' o o' p p' t t' Ef O1 H H' X1 X1'); congruence|]. eapply IH; [exact X2 | split; [exact F2 | exact X2'] | exact O2 | congruence].
Qed.
End Suite.

(** C85.  Line [n] of a file is the title of a scenario.  If the file is a suite, then so is the file with a tag line before line [n]: the tests of that
    scenario have these tags too, after those of the scenario; nothing else is changed, but for the lines that are moved down. *)
Theorem C85_suite : forall printable name dir a m b x k d line items, is_markdown name = false -> one_line_between a m b -> split_lines m = [line] -> tags_line line items ->
  let n := S (line_count a) in
  read_file name (a ++ b) = Ok d -> some_part (titled n) (fun _ => False) d -> build_gherkin_model printable name (a ++ b) dir = Ok (RSuite x, k) ->
  exists x', build_gherkin_model printable name (a ++ m ++ b) dir = Ok (RSuite x', k) /\ same_settings x x' /\ Forall2 (test_tagged n (tag_words items)) (rs_tests x) (rs_tests x').
Proof.
  intros pr name dir a m b x k d line items M O Sl Tl n R K B. assert (P : parse_with false false (s "en") (a ++ b) = Ok d) by (unfold read_file in R; now rewrite M in R).
  destruct (C85_document false (s "en") a m b d line items en_supported O Sl Tl P K) as [d' [P' Q]]. fold n in Q. set (tags := map _ items) in Q. set (g := moved_down (n - 1) 1).
  assert (R' : read_file name (a ++ m ++ b) = Ok d') by (unfold read_file; now rewrite M).
  destruct (gd_feature d) as [f|] eqn:F; [|unfold some_part in K; rewrite F in K; destruct K]. destruct (gd_feature d') as [f'|] eqn:F'; [|unfold tags_added, on_parts, ren_gdoc, no_ids in Q; rewrite F, F' in Q; discriminate Q].
  assert (Qf : no_id_feature f' = parts_feature (more_tags (S n) tags) (fun b => b) (ren_feature g (no_id_feature f))).
  { pose proof (f_equal gd_feature Q) as Q2. unfold no_ids, tags_added, ren_gdoc, on_parts in Q2. cbn [gd_feature] in Q2. rewrite F, F' in Q2. cbn [option_map] in Q2. fold g in Q2. congruence. }
  destruct (C54_returned false (s "en") _ d f en_supported P F) as [lang [dl [L _]]].
  assert (Ee : essence d' = essence (on_parts (more_tags n tags) (fun b => b) d)).
  { rewrite <- (essence_no_ids d'), Q. unfold tags_added. apply essence_parts.
    - intros y. unfold scenario_essence. cbn [more_tags sc_tags sc_loc sc_name sc_steps sc_examples ren_scenario no_id_scenario ren_loc l_line]. rewrite (moved_title n) by (unfold n; lia). rewrite g_steps_e, b_steps_e.
      assert (Ex : map examples_essence (map (ren_examples (moved_down (n - 1) 1)) (map no_id_examples (sc_examples y))) = map examples_essence (sc_examples y)) by (rewrite !map_map; apply map_ext; intros e; rewrite g_examples_e, b_examples_e; reflexivity).
      rewrite Ex. do 3 f_equal. destruct (l_line (sc_loc y) =? n); unfold names_of; rewrite ?map_app, !map_map; reflexivity.
    - intros y. unfold background_essence. cbn [ren_background no_id_background bg_steps]. now rewrite g_steps_e, b_steps_e. }
  pose proof (C61_pickles d' _ 0 0 Ee) as C. unfold on_parts in C. rewrite F in C. cbn [option_map] in C.
  pose proof (tagged_compile n tags f lang (gd_comments d) (gd_comments d) 0 L) as U. assert (Ed : mkGdoc (Some f) (gd_comments d) = d) by (destruct d; cbn in *; congruence). rewrite Ed in U.
  pose proof (build_eq pr name (a ++ b) dir) as B1. pose proof (build_eq pr name (a ++ m ++ b) dir) as B2. rewrite R, F in B1. rewrite R', F' in B2.
  destruct (compile d 0) as [[ps i]|er]; [|rewrite B1 in B; discriminate B]. destruct (compile (mkGdoc (Some (parts_feature (more_tags n tags) (fun b => b) f)) (gd_comments d)) 0) as [[ps0 i0]|er]; [|discriminate U]. cbn [umap] in U.
  destruct (compile d' 0) as [[ps' i']|er]; [|contradiction C]. destruct B1 as [su [W1 [S1 [S2 S3]]]]. destruct B2 as [su' [W2 [S1' [S2' S3']]]]. assert (su = x) by congruence. subst su. exists su'.
  split; [rewrite W2; rewrite W1 in B; assert (Ek : fe_name f = k) by congruence; assert (En : fe_name f' = fe_name f) by (change (fe_name f') with (fe_name (no_id_feature f')); rewrite Qf; reflexivity); rewrite En, Ek; reflexivity|]. split.
  - destruct S1 as [D1 [D2 [D3 [D4 D5]]]], S1' as [D1' [D2' [D3' [D4' D5']]]].
    assert (De : fe_desc f' = fe_desc f) by (change (fe_desc f') with (fe_desc (no_id_feature f')); rewrite Qf; reflexivity).
    assert (Tg : map tag_name (fe_tags f') = map tag_name (fe_tags f)).
    { assert (T : map tag_name (fe_tags (no_id_feature f')) = map tag_name (fe_tags f)) by (rewrite Qf; cbn; now rewrite !map_map). cbn in T. rewrite !map_map in T. exact T. }
    assert (TT : rs_test_tags su' = rs_test_tags x) by (apply cons_inj; now rewrite D4, D4').
    split; [now rewrite D1, D1', De|]. split; [congruence|]. split; [congruence|]. split; [|exact TT].
    rewrite D5, D5', TT. destruct (fe_tags f), (fe_tags f'); try discriminate Tg; reflexivity.
  - unfold origins in S2, S2'. rewrite F in S2. rewrite F' in S2'. apply (tags_tests n items ltac:(unfold n; lia) pr f f' Qf _ _ _ (Logic.conj S2 S3) _ _ _ (Logic.conj S2' S3')); [apply origins_changed; [reflexivity | exact Qf]|].
    assert (U1 : map untagged ps0 = map untagged ps) by congruence. apply (f_equal (map pickle_essence)) in U1. rewrite !map_map in U1. rewrite <- U1. clear - C. revert ps' C. induction ps0 as [|q l IH]; intros [|q' l'] C; try discriminate C; [reflexivity|]. cbn [map] in *. f_equal; [|apply IH; congruence].
    assert (E : pickle_essence q' = pickle_essence q) by congruence. unfold pickle_essence in *. cbn [untagged pk_name pk_language pk_tags pk_steps] in *. congruence.
Qed.
Print Assumptions C85_suite.

(** ** A concrete case: an outline of a rule, which has a tag already and whose examples have one *)
Definition c85_a : str := text_of_lines [s "@f"; s "Feature: f"; s "  Scenario: first"; s "    Given x"; s "  @r"; s "  Rule: r"; s "    @own"; s "    # note"].
Definition c85_m : str := text_of_lines [s "    @slow @ui  # two"].
Definition c85_b : str := text_of_lines [s "    Scenario Outline: o"; s "      Given <x>"; s "      @big"; s "      Examples:"; s "        | x |"; s "        | 1 |"; s "        | 2 |"; s "    Scenario: last"; s "      Then z"].
Definition c85_line : str := s "    @slow @ui  # two" ++ [ch_nl].
Definition c85_d : gdoc := Eval vm_compute in doc_of (c85_a ++ c85_b).
Example C85_case : one_line_between c85_a c85_m c85_b /\ split_lines c85_m = [c85_line] /\ line_count c85_a = 8 /\ tags_line c85_line [mkItem 5 (s "@slow"); mkItem 11 (s "@ui")] /\
  read_file (s "a.feature") (c85_a ++ c85_b) = Ok c85_d /\ some_part (titled 9) (fun _ => False) c85_d.
Proof.
  split; [split; [exists (removelast c85_a); vm_compute; reflexivity|]; split; [vm_compute; reflexivity|]; left; exists (removelast (c85_a ++ c85_m)); vm_compute; reflexivity|]. split; [vm_compute; reflexivity|]. split; [vm_compute; reflexivity|]. split; [|split; [vm_compute; reflexivity|]].
  - exists (s "    "), [mkRtag [] (s "slow") (s " "); mkRtag [] (s "ui") (s "  ")], (s "# two" ++ [ch_nl]). split; [reflexivity|]. split; [|vm_compute; reflexivity]. split; [repeat constructor|]. split; [discriminate|]. split.
    + repeat constructor; cbn; try discriminate; try (left; reflexivity).
    + right. split; [eexists; reflexivity|]. exists (s "@slow @ui "), ch_space. split; reflexivity.
  - right. right. left. right. left. reflexivity.
Qed.
Definition c85_tests (x : str) : list (str * list str * nat * list nat) :=
  match build_gherkin_model (fun _ => true) (s "a.feature") x None with Ok (RSuite su, _) => map (fun t => (rt_name t, rt_tags t, rt_line t, map rc_line (rt_calls t))) (rs_tests su) | _ => [] end.
Example C85_case_suites : c85_tests (c85_a ++ c85_b) =
    [(s "first", [], 3, [4]); (s "o x = 1", [s "r"; s "own"; s "big"], 9, [10]); (s "o x = 2", [s "r"; s "own"; s "big"], 9, [10]); (s "last", [s "r"], 16, [17])] /\
  c85_tests (c85_a ++ c85_m ++ c85_b) =
    [(s "first", [], 3, [4]); (s "o x = 1", [s "r"; s "own"; s "slow"; s "ui"; s "big"], 10, [11]); (s "o x = 2", [s "r"; s "own"; s "slow"; s "ui"; s "big"], 10, [11]); (s "last", [s "r"], 17, [18])].
Proof. split; vm_compute; reflexivity. Qed.
