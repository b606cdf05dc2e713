(** * Features written down as Markdown: C102 *)
From Verif Require Classify TransSpec TransFacts PropTranslate PropTwoFiles.
From Verif Require Import PyStr PyStrFacts Types Regex Line LineFacts DialectData Matcher Ast Parser Compiler LineSpec LangSpec DocSpec PartsSpec MdSpec PickleSpec PropLine PropParse PropDocString EssenceSpec EssenceFacts
  Glob Robot RobotSpec SuiteSpec RobotFacts PropRobot WriteSpec WriteRead PropWrite PropEssence PropDoc MdWriteSpec.
Import PickleSpec WriteSpec.

Section Runs.
Context (d : dialect).
Notation place := TransSpec.place.
Definition tr (p : place) (xs ys : list str) (q : place) : Prop :=
  forall ts us, TransSpec.translation d q ts us -> TransSpec.translation d p (map eol xs ++ ts) (map eol ys ++ us).
Lemma tr_nil p : tr p [] [] p. Proof. intros ts us H. exact H. Qed.
Lemma tr_one p k q x y : TransSpec.next p k = Some q -> TransSpec.stands d k (eol x) (eol y) -> tr p [x] [y] q.
Proof. intros N S ts us H. cbn [map app]. eapply TransSpec.tn_line; eauto. Qed.
Lemma tr_app p q r a b c e : tr p a b q -> tr q c e r -> tr p (a ++ c) (b ++ e) r.
Proof. intros H1 H2 ts us H. rewrite !map_app, <- !app_assoc. apply H1, H2, H. Qed.
Definition runs (P : place -> Prop) (xs ys : list str) (Q : place -> Prop) : Prop := forall p, P p -> exists q, Q q /\ tr p xs ys q.
Lemma runs_nil (P Q : place -> Prop) : (forall p, P p -> Q p) -> runs P [] [] Q.
Proof. intros H p Hp. exists p. split; [auto | apply tr_nil]. Qed.
Lemma runs_app P Q R a b c e : runs P a b Q -> runs Q c e R -> runs P (a ++ c) (b ++ e) R.
Proof. intros H1 H2 p Hp. destruct (H1 p Hp) as [q [Hq T1]]. destruct (H2 q Hq) as [r [Hr T2]]. exists r. split; [exact Hr | eapply tr_app; eauto]. Qed.
Lemma runs_cons P Q R x y c e : runs P [x] [y] Q -> runs Q c e R -> runs P (x :: c) (y :: e) R.
Proof. intros H1 H2. exact (runs_app P Q R [x] [y] c e H1 H2). Qed.
Lemma runs_weak (P P' Q Q' : place -> Prop) a b : (forall p, P' p -> P p) -> (forall q, Q q -> Q' q) -> runs P a b Q -> runs P' a b Q'.
Proof. intros H1 H2 H p Hp. destruct (H p (H1 p Hp)) as [q [Hq T]]. exists q. auto. Qed.
Lemma runs_flat {A} (P : place -> Prop) (f g : A -> list str) l : (forall x, In x l -> runs P (f x) (g x) P) -> runs P (flat_map f l) (flat_map g l) P.
Proof.
  induction l as [|x l IH]; intros H; [apply runs_nil; auto|]. cbn [flat_map]. eapply runs_app; [apply H; now left | apply IH; intros y Hy; apply H; now right].
Qed.
Definition free (p : place) : Prop := match p with TransSpec.Start | TransSpec.Doc _ => False | _ => True end.
Definition stepping (p : place) : Prop := match p with TransSpec.Ground | TransSpec.Body | TransSpec.Arg | TransSpec.Used => True | _ => False end.
Definition argued (p : place) : Prop := match p with TransSpec.Arg | TransSpec.Used => True | _ => False end.
Definition inside (p : place) : Prop := match p with TransSpec.Body | TransSpec.Arg | TransSpec.Used | TransSpec.Table | TransSpec.Tagged => True | _ => False end.
Definition at_table (p : place) : Prop := match p with TransSpec.Table => True | _ => False end.
Ltac places := intros []; cbn; tauto.

Context (name : str) (D : for_name name = Some d).
Lemma md_head k (P : place -> Prop) q level kw nm : In k (TkFeatureLine :: md_title_kinds) -> 1 <= level <= 6 -> title_ok (TransSpec.head_keywords d k) kw nm -> no_tag_in (md_title level kw nm) ->
  (forall p, P p -> TransSpec.next p (TransSpec.LHead k) = Some q) -> runs P [md_title level kw nm] [title_text kw nm] (eq q).
Proof.
  intros K L [k0 [n [-> [-> [I [T1 T2]]]]]] N H p Hp. exists q. split; [reflexivity|]. apply (tr_one p (TransSpec.LHead k)); [auto|].
  assert (E1 : eol (md_title level (Some k0) (Some n)) = [] ++ repeat ch_hash level ++ [ch_space] ++ k0 ++ s ":" ++ ([ch_space] ++ n) ++ [ch_nl]).
  { unfold eol, md_title, title_text. cbn [text_in app]. rewrite <- !app_assoc. reflexivity. }
  assert (E2 : eol (title_text (Some k0) (Some n)) = k0 ++ s ":" ++ ([ch_space] ++ n) ++ [ch_nl]) by (unfold eol, title_text; cbn [text_in app]; rewrite <- !app_assoc; reflexivity).
  unfold no_tag_in in N. change (md_title level (Some k0) (Some n) ++ [ch_nl]) with (eol (md_title level (Some k0) (Some n))) in N. rewrite E1 in N |- *. rewrite E2.
  apply TransSpec.sd_head; auto; [reflexivity | discriminate | | now right]. intros X. destruct X as [X|X]; [discriminate X | exact (T1 X)].
Qed.
Lemma md_tag_eq nm z : (s "`" ++ (ch_at :: nm) ++ s "` ") ++ z = s "`@" ++ nm ++ s "`" ++ ch_space :: z.
Proof. rewrite <- !app_assoc. reflexivity. Qed.
Lemma classic_tag_eq nm z : ((ch_at :: nm) ++ [ch_space]) ++ z = s "@" ++ nm ++ s " " ++ z.
Proof. rewrite <- !app_assoc. reflexivity. Qed.
Lemma md_tag_texts tags : tags <> [] -> Forall tag_ok tags -> Forall md_tag_ok tags -> exists l, l <> [] /\
  eol (flat_map (fun t => s "`" ++ tag_name t ++ s "` ") tags) = TransSpec.md_tags_text l /\ eol (flat_map (fun t => tag_name t ++ [ch_space]) tags) = TransSpec.classic_tags_text l /\
  (forall name gap, In (name, gap) l -> tag_name_ok name /\ name <> [] /\ ~ In ch_btick name /\ all_space gap).
Proof.
  intros H0 H M. induction H as [|t tags [nm [T1 T2]] H IH]; [contradiction|]. inversion M as [|? ? M1 M2]; subst. destruct M1 as [M1 M3]. rewrite T1 in M1, M3.
  assert (C : forall gap, all_space gap -> tag_name_ok nm /\ nm <> [] /\ ~ In ch_btick nm /\ all_space gap).
  { intros gap G. split; [exact T2|]. split; [congruence|]. split; [intros X; apply M3; now right | exact G]. }
  destruct tags as [|t2 tags].
  - exists [(nm, [ch_space; ch_nl])]. split; [discriminate|]. unfold eol, TransSpec.md_tags_text, TransSpec.classic_tags_text. cbn [flat_map fst snd]. rewrite T1, !app_nil_r. rewrite md_tag_eq, classic_tag_eq, <- ?app_assoc. split; [reflexivity|]. split; [reflexivity|]. intros n g [X|[]]. injection X as <- <-. now apply C.
  - destruct IH as [l [L1 [L2 [L3 L4]]]]; [discriminate | exact M2|]. exists ((nm, [ch_space]) :: l). split; [discriminate|]. unfold eol in *.
    change (flat_map (fun t => s "`" ++ tag_name t ++ s "` ") (t :: t2 :: tags)) with ((s "`" ++ tag_name t ++ s "` ") ++ flat_map (fun t => s "`" ++ tag_name t ++ s "` ") (t2 :: tags)).
    change (flat_map (fun t => tag_name t ++ [ch_space]) (t :: t2 :: tags)) with ((tag_name t ++ [ch_space]) ++ flat_map (fun t => tag_name t ++ [ch_space]) (t2 :: tags)).
    rewrite <- !(app_assoc _ _ [ch_nl]), L2, L3, T1, md_tag_eq, classic_tag_eq. unfold TransSpec.md_tags_text, TransSpec.classic_tags_text. cbn [flat_map fst snd]. rewrite <- !app_assoc. split; [reflexivity|]. split; [reflexivity|].
    intros n g [X|X]; [injection X as <- <-; now apply C | now apply L4].
Qed.
Lemma md_tags_run tags (P : place -> Prop) q : Forall tag_ok tags -> Forall md_tag_ok tags -> (forall p, P p -> TransSpec.next p TransSpec.LTags = Some q) ->
  runs P (md_tag_lines tags) (tags_lines tags) (fun p => P p \/ p = q).
Proof.
  intros T M N. destruct tags as [|t tags]; [apply runs_nil; auto|]. intros p Hp. exists q. split; [auto|]. destruct (md_tag_texts (t :: tags)) as [l [L1 [L2 [L3 L4]]]]; [discriminate | exact T | exact M|].
  apply (tr_one p TransSpec.LTags); [auto|]. rewrite L2, L3. apply (TransSpec.sd_tags d []); [reflexivity | exact L1 | exact L4|]. cbn [app]. rewrite <- L2. eexists _, [ch_nl]. split; [reflexivity|]. split; [|now right].
  intros X. apply in_flat_map in X as [y [Hy X]]. rewrite Forall_forall in T. destruct (T y Hy) as [nm [E Y]]. rewrite E in X. rewrite !in_app_iff in X. unfold tag_name_ok in Y. rewrite forallb_forall in Y.
  destruct X as [[X|[]]|[[X|X]|[X|[X|[]]]]]; try discriminate X. apply Y in X. discriminate X.
Qed.
Lemma step_text_head x k t : st_keyword x = Some k -> st_text x = Some t -> exists z, step_text d x = k ++ z.
Proof. intros E1 E2. unfold step_text. rewrite E1, E2. cbn [text_in]. destruct (find _ _) as [k'|]; [destruct (str_eqb k' k)|]; eexists; reflexivity. Qed.
Lemma md_rows rows : Forall row_ok rows -> Forall md_row_ok rows -> forall P : place -> Prop, (forall p, P p -> exists q, P q /\ TransSpec.next p TransSpec.LRow = Some q) -> runs P (map row_text_of rows) (map row_text_of rows) P.
Proof.
  intros R M P N. induction R as [|r rows R1 R IH]; [apply runs_nil; auto|]. inversion M as [|? ? [M1 M2] M3]; subst. cbn [map]. eapply runs_cons; [|now apply IH].
  intros p Hp. destruct (N p Hp) as [q [Hq E]]. exists q. split; [exact Hq|]. apply (tr_one p TransSpec.LRow); [exact E|].
  set (raws := map (fun c => [ch_space] ++ escape_cell (cell_value c) ++ [ch_space]) (row_cells r)).
  apply (TransSpec.sd_row d (eol (row_text_of r)) 0 [] (flat_map (fun y => y ++ [ch_pipe]) raws ++ [ch_nl]) (cells_at (0 + 1) raws)).
  - exists (row_text_of r), [ch_nl]. split; [reflexivity|]. split; [apply nl_row | now right].
  - exact M1.
  - reflexivity.
  - cbn. lia.
  - reflexivity.
  - change (eol (row_text_of r)) with ([] ++ row_text raws ++ [ch_nl]). apply table_cells_spec; [reflexivity | | discriminate].
    unfold raws. apply Forall_forall. intros x Hx. apply in_map_iff in Hx as [c [<- Hc]]. rewrite padded_cell. discriminate.
  - intros i Hi X. apply (in_map i_text) in Hi. rewrite cells_texts in Hi. unfold raws in Hi. rewrite map_map in Hi. apply in_map_iff in Hi as [c [Hc Ic]]. rewrite padded_cell in Hc. unfold row_ok in R1. rewrite Forall_forall in R1, M2.
    rewrite trim_cell_ok in Hc by (apply (R1 c Ic)). apply (M2 c Ic). now rewrite Hc.
Qed.
Lemma md_doc ds : doc_ok ds -> md_arg_ok (ADoc ds) -> tr TransSpec.Arg (doc_lines_of ds) (doc_lines_of ds) TransSpec.Used.
Proof.
  intros [sep [S1 [S2 [S3 S4]]]] M. assert (Q : exists q, sep = TransSpec.delimiter q) by (destruct S2 as [->| ->]; [now exists true | now exists false]). destruct Q as [q Q].
  assert (V : Classify.visible sep = true) by (destruct S2 as [->| ->]; reflexivity).
  assert (L : forall z, lstrip (sep ++ z) = sep ++ z) by (intros z; destruct S2 as [->| ->]; now apply drop_while_id).
  assert (Bs : forall z, TransSpec.begins (TransSpec.delimiter q) (eol (sep ++ z))) by (intros z; rewrite <- Q; exists [], (z ++ [ch_nl]); split; [reflexivity|]; unfold eol; now rewrite <- app_assoc).
  unfold doc_lines_of. rewrite S1. cbn [text_in]. apply (tr_app _ (TransSpec.Doc q) _ [_] [_]).
  - apply (tr_one _ (TransSpec.LOpen q)); [reflexivity|]. apply TransSpec.sd_open; [apply Bs|]. intros X. apply TransFacts.begins_iff in X; [|reflexivity]. unfold eol in X. rewrite <- app_assoc, L in X.
    destruct S2 as [->| ->]; [discriminate X|]. destruct (ds_media ds) as [[|c m]|] eqn:Em; [now destruct S4 | | discriminate X]. cbn [md_arg_ok] in M. rewrite Em in M. change (N.eqb 96 c && true = true) in X. rewrite andb_true_r in X. apply N.eqb_eq in X. now apply M.
  - apply (tr_app _ (TransSpec.Doc q)).
    + induction (split_on ch_nl (ds_content ds)) as [|x xs IH]; [apply tr_nil|]. cbn [map]. inversion S3; subst. apply (tr_app _ (TransSpec.Doc q) _ [_] [_]); [|apply IH; assumption].
      apply (tr_one _ (TransSpec.LText q)); [cbn; now rewrite Bool.eqb_reflx|]. apply TransSpec.sd_text; [unfold eol; intros X; now apply app_eq_nil in X as [_ X]|]. intros X. apply TransFacts.begins_iff in X; [|exact V].
      unfold eol in X. apply (proj1 (begins_eol (TransSpec.delimiter q) _ S2)) in X. now apply (escaped_safe _ x S2) in X.
    + apply (tr_one _ (TransSpec.LClose q)); [cbn; now rewrite Bool.eqb_reflx|]. apply TransSpec.sd_close. specialize (Bs []). now rewrite app_nil_r in Bs.
Qed.
Lemma md_step x : step_ok d x -> md_step_ok d x -> runs stepping (md_step_lines d x) (step_lines d x) argued.
Proof.
  intros S [M1 M2]. pose proof (nl_step name d x D S) as Nl. inversion Nl as [|? ? N1 _]; subst. destruct S as [[k [t [b [a [E1 [E2 [E3 [T [E4 F]]]]]]]]] A].
  unfold md_step_lines, step_lines. apply (runs_cons _ (eq TransSpec.Arg)).
  - intros p Hp. exists TransSpec.Arg. split; [reflexivity|]. apply (tr_one p TransSpec.LStep); [destruct p; try destruct Hp; reflexivity|]. destruct (step_text_head x k t E1 E2) as [z Ez].
    assert (K : kw_ok k = true) by (pose proof (kw_sub name d D) as [_ [_ [_ [_ [_ K]]]]]; apply K; rewrite E4; apply in_elt).
    apply (TransSpec.sd_step d _ [] 42%N [ch_space] _ k).
    + exists (md_bullet d x), [ch_nl]. split; [reflexivity|]. split; [|now right]. intros X. destruct X as [X|[X|X]]; [discriminate X | discriminate X | exact (N1 X)].
    + exact M1.
    + split; [reflexivity|]. split; [now left|]. split; [reflexivity|]. split; [|reflexivity]. unfold eol. rewrite Ez. destruct k as [|c k]; [discriminate K|]. cbn [app]. unfold kw_ok in K. apply andb_true_iff in K as [K _]. now apply negb_true_iff in K.
    + rewrite E4. apply in_elt.
    + unfold eol. rewrite Ez, <- app_assoc. apply startswith_app.
  - destruct (st_arg x) as [|tb|ds] eqn:Ea; cbn [arg_lines].
    + apply runs_nil. intros p <-. exact I.
    + destruct A as [_ [A _]]. apply (runs_weak argued _ argued); [intros p <-; exact I | auto|]. apply md_rows; [exact A | exact M2|]. intros p Hp. exists TransSpec.Used. split; [exact I|]. destruct p; try destruct Hp; reflexivity.
    + intros p <-. exists TransSpec.Used. split; [exact I|]. now apply md_doc.
Qed.
Lemma md_steps (P : place -> Prop) l : (forall p, P p -> stepping p) -> (forall p, argued p -> P p) -> Forall (step_ok d) l -> Forall (md_step_ok d) l ->
  runs P (flat_map (md_step_lines d) l) (flat_map (step_lines d) l) P.
Proof.
  intros P1 P2 F M. apply runs_flat. intros x Hx. rewrite Forall_forall in F, M. exact (runs_weak _ _ _ _ _ _ P1 P2 (md_step x (F x Hx) (M x Hx))).
Qed.
Lemma md_background x : background_ok d x -> md_background_ok d x -> runs (eq TransSpec.Top) (md_background_lines d x) (background_lines d x) free.
Proof.
  intros [T [_ F]] [De [N M]]. unfold md_background_lines, background_lines. rewrite De. cbn [description_lines app]. apply (runs_cons _ (eq TransSpec.Ground)).
  - apply (md_head TkBackgroundLine); [cbn; tauto | lia | exact T | exact N|]. intros p <-. reflexivity.
  - apply (runs_weak stepping _ stepping); [intros p <-; exact I | places|]. apply md_steps; auto. places.
Qed.
Lemma md_examples x : examples_ok d x -> md_examples_ok x -> runs inside (md_examples_lines x) (examples_lines x) inside.
Proof.
  intros [T [_ [G R]]] [De [MG [N M]]]. unfold md_examples_lines, examples_lines. rewrite De. cbn [description_lines app]. eapply runs_app; [apply (md_tags_run (ex_tags x) inside TransSpec.Tagged G MG)|].
  - intros []; cbn; tauto.
  - apply (runs_weak inside _ inside); [intros p [H| ->]; [exact H | exact I] | auto|]. apply (runs_cons _ (eq TransSpec.Table)).
    + apply (md_head TkExamplesLine); [cbn; tauto | lia | exact T | exact N|]. intros []; cbn; tauto.
    + apply (runs_weak at_table _ at_table); [intros p <-; exact I | places|]. apply md_rows.
      * destruct (ex_header x); [apply R | constructor].
      * destruct (ex_header x) as [h|]; [exact M | constructor].
      * intros p Hp. exists TransSpec.Table. split; [exact I|]. destruct p; try destruct Hp; reflexivity.
Qed.
Definition bodied (p : place) : Prop := match p with TransSpec.Body | TransSpec.Arg | TransSpec.Used => True | _ => False end.
Lemma md_scenario x : scenario_ok d x -> md_scenario_ok d x -> runs free (md_scenario_lines d x) (scenario_lines d x) free.
Proof.
  intros [T [_ [G [F X]]]] [De [MG [N [M MX]]]]. unfold md_scenario_lines, scenario_lines. rewrite De. cbn [description_lines app]. eapply runs_app; [apply (md_tags_run (sc_tags x) free TransSpec.Tagged G MG)|].
  - intros []; cbn; tauto.
  - apply (runs_weak free _ free); [intros p [H| ->]; [exact H | exact I] | auto|]. apply (runs_cons _ (eq TransSpec.Body)).
    + apply (md_head TkScenarioLine); [cbn; tauto | lia | exact T | exact N|]. intros []; cbn; tauto.
    + apply (runs_app _ bodied).
      * apply (runs_weak bodied _ bodied); [intros p <-; exact I | auto|]. apply md_steps; auto; places.
      * apply (runs_weak inside _ inside); [places | places|]. apply runs_flat. intros y Hy. rewrite Forall_forall in X, MX. now apply md_examples; [apply X | apply MX].
Qed.
Lemma md_scenarios l : Forall (scenario_ok d) l -> Forall (md_scenario_ok d) l -> runs free (flat_map (md_scenario_lines d) l) (flat_map (scenario_lines d) l) free.
Proof. intros F M. apply runs_flat. intros y Hy. rewrite Forall_forall in F, M. now apply md_scenario; [apply F | apply M]. Qed.
Lemma md_opt_background o : opt_ok (background_ok d) o -> Forall (md_background_ok d) (of_option o) -> runs (eq TransSpec.Top) (opt_lines (md_background_lines d) o) (opt_lines (background_lines d) o) free.
Proof. intros F M. destruct o as [b|]; cbn [opt_lines]; [|apply runs_nil; intros p <-; exact I]. inversion M; subst. now apply md_background. Qed.
Lemma md_rule x : rule_ok d x -> md_rule_ok d x -> runs free (md_rule_lines d x) (rule_lines d x) free.
Proof.
  intros [T [_ [G [F X]]]] [De [MG [N [M MX]]]]. unfold md_rule_lines, rule_lines. rewrite De. cbn [description_lines app]. eapply runs_app; [apply (md_tags_run (ru_tags x) free TransSpec.Tagged G MG)|].
  - intros []; cbn; tauto.
  - apply (runs_weak free _ free); [intros p [H| ->]; [exact H | exact I] | auto|]. apply (runs_cons _ (eq TransSpec.Top)).
    + apply (md_head TkRuleLine); [cbn; tauto | lia | exact T | exact N|]. intros []; cbn; tauto.
    + eapply runs_app; [now apply md_opt_background | now apply md_scenarios].
Qed.
Lemma md_feature x : feature_ok d x -> md_feature_ok d x -> runs (eq TransSpec.Start) (md_feature_lines d x) (feature_lines d x) free.
Proof.
  intros [T [_ [G [F [X R]]]]] [De [MG [N [M [MX MR]]]]]. unfold md_feature_lines, feature_lines. rewrite De. cbn [description_lines app]. eapply runs_app; [apply (md_tags_run (fe_tags x) (eq TransSpec.Start) TransSpec.Start G MG)|].
  - intros p <-. reflexivity.
  - apply (runs_weak (eq TransSpec.Start) _ free); [intros p [H| ->]; [exact H | reflexivity] | auto|]. apply (runs_cons _ (eq TransSpec.Top)).
    + apply (md_head TkFeatureLine); [cbn; tauto | lia | exact T | exact N|]. intros p <-. reflexivity.
    + eapply runs_app; [now apply md_opt_background|]. eapply runs_app; [now apply md_scenarios|]. apply runs_flat. intros y Hy. rewrite Forall_forall in R, MR. now apply md_rule; [apply R | apply MR].
Qed.
Lemma md_translation x : feature_ok d x -> md_feature_ok d x -> TransSpec.translation d TransSpec.Start (map eol (md_feature_lines d x)) (map eol (feature_lines d x)).
Proof.
  intros F M. destruct (md_feature x F M TransSpec.Start eq_refl) as [q [_ T]]. specialize (T [] [] (TransSpec.tn_end d q)). now rewrite !app_nil_r in T.
Qed.
End Runs.

(** ** Forgetting ids and places in two steps *)
Lemma u_row x : TransSpec.plain_row (plain_row x) = plain_row x.
Proof. unfold TransSpec.plain_row, plain_row. cbn. rewrite map_map. reflexivity. Qed.
Lemma r_row x : plain_row (TransSpec.plain_row x) = plain_row x.
Proof. unfold plain_row. cbn. now rewrite map_map. Qed.
Lemma p_row x : plain_row (plain_row x) = plain_row x.
Proof. unfold plain_row. cbn. now rewrite map_map. Qed.
Lemma r_step d x : plain_step (TransSpec.plain_step d x) = plain_step (TransSpec.plain_step d (plain_step x)).
Proof.
  unfold plain_step. cbn. f_equal. destruct (st_arg x) as [|t|ds]; cbn; try reflexivity. f_equal. f_equal. rewrite !map_map. apply map_ext. intros r. now rewrite u_row, r_row, p_row.
Qed.

Ltac mm := rewrite !map_map; apply map_ext; intros ?y.
Lemma r_background d x : plain_background (TransSpec.plain_background d x) = plain_background (TransSpec.plain_background d (plain_background x)).
Proof. unfold plain_background. cbn. f_equal. mm. apply r_step. Qed.
Lemma r_opt_background d o : option_map plain_background (option_map (TransSpec.plain_background d) o) = option_map plain_background (option_map (TransSpec.plain_background d) (option_map plain_background o)).
Proof. destruct o as [x|]; [|reflexivity]. cbn [option_map]. f_equal. apply r_background. Qed.
Lemma r_examples x : plain_examples (TransSpec.plain_examples x) = plain_examples (TransSpec.plain_examples (plain_examples x)).
Proof.
  unfold plain_examples. cbn. f_equal; [mm; reflexivity | | mm; now rewrite u_row, r_row, p_row]. destruct (ex_header x) as [h|]; [|reflexivity]. cbn [option_map]. f_equal. now rewrite u_row, r_row, p_row.
Qed.
Lemma r_scenario d x : plain_scenario (TransSpec.plain_scenario d x) = plain_scenario (TransSpec.plain_scenario d (plain_scenario x)).
Proof. unfold plain_scenario. cbn. f_equal; [mm; reflexivity | mm; apply r_step | mm; apply r_examples]. Qed.
Lemma r_rule d x : plain_rule (TransSpec.plain_rule d x) = plain_rule (TransSpec.plain_rule d (plain_rule x)).
Proof. unfold plain_rule. cbn. f_equal; [mm; reflexivity | apply r_opt_background | mm; apply r_scenario]. Qed.
Lemma r_feature d x : plain (TransSpec.plain_feature d x) = plain (TransSpec.plain_feature d (plain x)).
Proof. unfold plain. cbn. f_equal; [mm; reflexivity | apply r_opt_background | mm; apply r_scenario | mm; apply r_rule]. Qed.

(** ** C102 *)
Section MdNl.
Context (name : str) (d : dialect) (D : for_name name = Some d).
Lemma nl_md_title level kws keyword nm : (forall k, In k kws -> kw_ok k = true) -> title_ok kws keyword nm -> no_nl (md_title level keyword nm).
Proof.
  intros K T. unfold md_title. apply no_nl_app; [intros X; apply repeat_spec in X; discriminate X|]. apply no_nl_app; [intros [X|[]]; discriminate X | now apply (nl_title kws)].
Qed.
Lemma nl_md_tags tags : Forall tag_ok tags -> Forall no_nl (md_tag_lines tags).
Proof.
  intros H. destruct tags as [|t tags]; [constructor|]. constructor; [|constructor]. revert H. generalize (t :: tags). induction 1 as [|x l [n [E N]] _ IH]; [intros []|]. cbn [flat_map]. apply no_nl_app; [|exact IH]. rewrite E. intros X.
  apply in_app_or in X as [[X|[]]|X]; [discriminate X|]. apply in_app_or in X as [[X|X]|[X|[X|[]]]]; try discriminate X. unfold tag_name_ok in N. rewrite forallb_forall in N. apply N in X. discriminate.
Qed.
Lemma nl_md_step x : step_ok d x -> Forall no_nl (md_step_lines d x).
Proof.
  intros H. apply (nl_step name d x D) in H. inversion H as [|? ? H1 H2]; subst. constructor; [|exact H2]. unfold md_bullet. apply no_nl_app; [intros [X|[X|[]]]; discriminate X | exact H1].
Qed.
Lemma nl_md_steps l : Forall (step_ok d) l -> Forall no_nl (flat_map (md_step_lines d) l).
Proof. intros F. apply nl_flat. intros y Hy. rewrite Forall_forall in F. apply nl_md_step. auto. Qed.
Lemma nl_md_background o : opt_ok (background_ok d) o -> Forall no_nl (opt_lines (md_background_lines d) o).
Proof. intros H. destruct o as [x|]; [|constructor]. destruct H as [T [_ H]]. destruct (kw_sub name d D) as [_ [_ [_ [K _]]]]. constructor; [now apply (nl_md_title 2 _ _ _ K) | now apply nl_md_steps]. Qed.
Lemma nl_md_examples x : examples_ok d x -> Forall no_nl (md_examples_lines x).
Proof.
  intros [T [_ [Tg _]]]. destruct (kw_sub name d D) as [_ [_ [_ [_ [K _]]]]]. apply Forall_app. split; [now apply nl_md_tags|]. constructor; [now apply (nl_md_title 4 _ _ _ K) | apply nl_rows].
Qed.
Lemma nl_md_scenarios l : Forall (scenario_ok d) l -> Forall no_nl (flat_map (md_scenario_lines d) l).
Proof.
  intros F. apply nl_flat. intros x Hx. rewrite Forall_forall in F. destruct (F x Hx) as [T [_ [Tg [H1 H2]]]]. destruct (kw_sub name d D) as [_ [_ [K _]]]. apply Forall_app. split; [now apply nl_md_tags|]. constructor; [now apply (nl_md_title 3 _ _ _ K)|].
  apply Forall_app. split; [now apply nl_md_steps|]. rewrite Forall_forall in H2. apply nl_flat. intros y Hy. apply nl_md_examples. auto.
Qed.
Lemma nl_md_feature x : feature_ok d x -> Forall no_nl (md_feature_lines d x).
Proof.
  intros [T [_ [Tg [H1 [H2 H3]]]]]. destruct (kw_sub name d D) as [K [K2 _]]. apply Forall_app. split; [now apply nl_md_tags|]. constructor; [now apply (nl_md_title 1 _ _ _ K)|]. apply Forall_app. split; [now apply nl_md_background|].
  apply Forall_app. split; [now apply nl_md_scenarios|]. apply nl_flat. intros y Hy. rewrite Forall_forall in H3. destruct (H3 y Hy) as [T' [_ [Tg' [A B]]]]. apply Forall_app. split; [now apply nl_md_tags|]. constructor; [now apply (nl_md_title 2 _ _ _ K2)|].
  apply Forall_app. split; [now apply nl_md_background | now apply nl_md_scenarios].
Qed.
Lemma split_eol ls : Forall no_nl ls -> split_lines (flat_map eol ls) = map eol ls.
Proof. intros H. exact (split_lines_text ls H). Qed.
Lemma md_texts x : feature_ok d x -> md_feature_ok d x -> TransSpec.translation d TransSpec.Start (split_lines (markdown_text d x)) (split_lines (flat_map eol (feature_lines d x))).
Proof.
  intros F M. change (markdown_text d x) with (flat_map eol (md_feature_lines d x)). rewrite !split_eol; [now apply (md_translation d name D) | now apply (nl_feature name d D) | now apply nl_md_feature].
Qed.
(** what is read from the Markdown text, and a feature that says what the one written does *)
Lemma md_read stop x : fe_language x = Some name -> feature_ok d x -> md_feature_ok d x ->
  exists g f' f2, parse_with stop true name (markdown_text d x) = Ok g /\ gd_feature g = Some f' /\ gd_comments g = [] /\ TransSpec.plain_feature d f' = TransSpec.plain_feature d f2 /\ plain f2 = plain x.
Proof.
  intros El F M. assert (Hs : supported name) by (exists d; exact D). destruct (w_feature name d D 1 x El F) as [x' [X1 X2]].
  assert (St : stands_for name (numbered_lines (split_lines (flat_map eol (feature_lines d x)))) (mkGdoc (Some x') [])).
  { rewrite lines_number by now apply (nl_feature name d D). right. left. exists [], (number 1 (feature_lines d x)), d, x', [], []. split; [reflexivity|]. split; [split; constructor|]. auto. }
  apply (C04_parse_iff stop name _ _ Hs) in St as [g2 [P E]]. pose proof (PropTranslate.C68_translation stop name d _ _ D (md_texts x F M)) as C. rewrite P in C.
  destruct (parse_with stop true name (markdown_text d x)) as [g|] eqn:G; [|destruct C]. destruct g2 as [[f2|] cs2]; [|discriminate E]. unfold no_ids in E. cbn in E. injection E as E ->.
  destruct g as [[f'|] cs]; [|discriminate C]. destruct cs as [|c cs]; [|discriminate C]. pose proof (f_equal gd_feature C) as C1. unfold TransSpec.plain_document in C1. cbn [gd_feature option_map] in C1. eexists _, f', f2. split; [reflexivity|]. split; [reflexivity|]. split; [reflexivity|].
  split; [congruence|]. rewrite <- X2, <- E. symmetry. apply PropWrite.plain_no_ids.
Qed.
End MdNl.

(** C102.  A feature without descriptions (and without lines that Markdown reads otherwise) can be written down as a Markdown text; the parser reads it back,
    with the same keywords, names, tags, texts, arguments and rows, in the same order. *)
Theorem C102_written : forall stop name d f, for_name name = Some d -> fe_language f = Some name -> feature_ok d f -> md_feature_ok d f ->
  exists g f', parse_with stop true name (markdown_text d f) = Ok g /\ gd_feature g = Some f' /\ gd_comments g = [] /\ same_written d f' f.
Proof.
  intros stop name d f D El F M. destruct (md_read name d D stop f El F M) as [g [f' [f2 [P [G [C [E1 E2]]]]]]]. exists g, f'. split; [exact P|]. split; [exact G|]. split; [exact C|].
  unfold same_written. now rewrite E1, (r_feature d f2), E2, <- r_feature.
Qed.
Print Assumptions C102_written.

(** ** The suite *)
Import PropTwoFiles.
Lemma a_bg o : background_steps (option_map plain_background o) = map plain_step (background_steps o).
Proof. now destruct o. Qed.
Lemma a_scs l : flat_map sc_steps (map plain_scenario l) = map plain_step (flat_map sc_steps l).
Proof. induction l as [|x l IH]; [reflexivity|]. cbn [map flat_map]. now rewrite IH, map_app. Qed.
Lemma a_steps f : all_steps (plain f) = map plain_step (all_steps f).
Proof.
  unfold all_steps. cbn. rewrite a_bg, a_scs, !map_app. do 2 f_equal. induction (fe_rules f) as [|r l IH]; [reflexivity|]. cbn. now rewrite IH, a_bg, a_scs, !map_app.
Qed.
Lemma worded_plain f f' : plain f = plain f' -> Forall worded (all_steps f) -> Forall worded (all_steps f').
Proof.
  intros E F. assert (K : map st_keyword (all_steps f) = map st_keyword (all_steps f')).
  { pose proof (f_equal (fun x => map st_keyword (all_steps x)) E) as K. cbv beta in K. rewrite !a_steps, !map_map in K. exact K. }
  set (P := fun k => In k (map Some [s "Given "; s "When "; s "Then "; s "And "; s "But "])).
  apply (Forall_map st_keyword P). rewrite <- K. now apply (Forall_map st_keyword P).
Qed.
(** C102.  An English feature whose steps begin with words gives the same suite, apart from the lines, whether it is written down as a Markdown or as a classic file. *)
Theorem C102_same_suite : forall printable name name' dir f, is_markdown name = true -> is_markdown name' = false ->
  fe_language f = Some (s "en") -> feature_ok en f -> md_feature_ok en f -> Forall worded (all_steps f) ->
  match build_gherkin_model printable name (markdown_text en f) dir, build_gherkin_model printable name' (feature_text f) dir with
  | Ok (RSuite x, n), Ok (RSuite x', n') => suite_shape x = suite_shape x' /\ n = n'
  | Ok (RErrors l, n), Ok (RErrors l', n') => l = l' /\ n = n'
  | _, _ => False
  end.
Proof.
  intros pr name name' dir f M M' El F Mf W. assert (D : for_name (s "en") = Some en) by (vm_compute; reflexivity).
  destruct (md_read (s "en") en D false f El F Mf) as [g [f' [f2 [P [G [C [E1 E2]]]]]]].
  assert (Wr : writable f) by (exists (s "en"), en; auto). destruct (C54_written false (s "en") f (ex_intro _ en D) Wr) as [g3 [f3 [P3 [G3 [C3 E3]]]]].
  assert (W2 : Forall worded (all_steps f2)) by (apply (worded_plain f); [now symmetry | exact W]). assert (W1 : Forall worded (all_steps f')) by (apply (worded_same f2); [now symmetry | exact W2]).
  apply (C62_same_suite pr name name' _ _ dir g g3).
  - unfold read_file. now rewrite M.
  - unfold read_file. now rewrite M'.
  - rewrite G, G3. cbn [option_map]. rewrite E3, <- E2, <- (f_feature f2 W2), <- E1, (f_feature f' W1). reflexivity.
Qed.
Print Assumptions C102_same_suite.

(** ** A case *)
Definition c102_text : str := text_of_lines [s "@a @b"; s "Feature: f"; s "Background:"; s "Given x"; s "@c"; s "Scenario Outline: s <n>"; s "When y <n>"; s "```json"; s "* z"; s ""; s "```"; s "Then t"; s "| n | m |"; s "| -1 |  |"; s "Examples: e"; s "| n |"; s "| 1 |"; s "| 2 |"; s "@d"; s "Rule: r"; s "Example: o"; s "And u"].
Definition c102_d : gdoc := Eval vm_compute in match read_file (s "a.feature") c102_text with Ok d => d | _ => mkGdoc None [] end.
Definition c102_f : feature := Eval vm_compute in match gd_feature c102_d with Some f => f | _ => mkFeature [] (mkLoc 0 None) None None None [] None [] [] end.
Lemma not_separator v : existsb (fun c => negb (existsb (N.eqb c) [45; 58; 10; 13]%N)) v || match v with [] => true | _ => false end = true -> ~ separator_cell v.
Proof.
  intros H [a [n [b [e [A [N [B [E ->]]]]]]]]. destruct n as [|n]; [lia|]. apply orb_true_iff in H as [H|H].
  - apply existsb_exists in H as [c [I X]]. apply negb_true_iff in X. assert (In c [45; 58; 10; 13]%N) as Y.
    + rewrite !in_app_iff in I. destruct I as [I|[I|[I|I]]]; [destruct A as [->| ->] | apply repeat_spec in I | destruct B as [->| ->] | destruct E as [->|E]]; try (now destruct I); try (subst c; cbn; tauto); try (destruct I as [<-|[]]; cbn; tauto).
      subst e. destruct I as [<-|[]]. cbn. tauto.
    + assert (existsb (N.eqb c) [45; 58; 10; 13]%N = true) as Z by (apply existsb_exists; exists c; split; [exact Y | apply N.eqb_refl]). congruence.
  - destruct A as [->| ->]; discriminate H.
Qed.
Ltac no_tag_case := apply (PropTranslate.no_tag (_ ++ [ch_nl])); vm_compute; reflexivity.
Ltac c102_ok := repeat lazymatch goal with
  | |- _ /\ _ => split
  | |- Forall _ [] => constructor
  | |- Forall _ (_ :: _) => constructor
  | |- no_tag_in _ => no_tag_case
  | |- ~ separator_cell _ => apply not_separator; vm_compute; reflexivity
  | |- ~ In _ _ => vm_compute; intuition discriminate
  | |- _ <> _ => discriminate
  | |- _ = _ => reflexivity
  | |- True => exact I
  | |- md_tag_ok _ => unfold md_tag_ok | |- md_row_ok _ => unfold md_row_ok | |- md_step_ok _ _ => unfold md_step_ok
  | |- md_arg_ok _ => unfold md_arg_ok | |- md_background_ok _ _ => unfold md_background_ok | |- md_examples_ok _ => unfold md_examples_ok
  | |- md_scenario_ok _ _ => unfold md_scenario_ok | |- md_rule_ok _ _ => unfold md_rule_ok
  | |- _ => progress cbn
  end.
Example C102_case : is_markdown (s "a.feature.md") = true /\ is_markdown (s "b.feature") = false /\ fe_language c102_f = Some (s "en") /\ feature_ok en c102_f /\ md_feature_ok en c102_f /\ Forall worded (all_steps c102_f) /\
  markdown_text en c102_f = text_of_lines [s "`@a` `@b` "; s "# Feature: f"; s "## Background: "; s "* Given x"; s "`@c` "; s "### Scenario Outline: s <n>"; s "* When y <n>"; s "```json"; s "* z"; s ""; s "```"; s "* Then t"; s "| n | m |"; s "| -1 |  |";
    s "#### Examples: e"; s "| n |"; s "| 1 |"; s "| 2 |"; s "`@d` "; s "## Rule: r"; s "### Example: o"; s "* And u"].
Proof.
  split; [reflexivity|]. split; [reflexivity|]. split; [reflexivity|]. split; [|split; [|split; [|vm_compute; reflexivity]]].
  - assert (P : parse_with false false (s "en") c102_text = Ok c102_d) by (vm_compute; reflexivity). assert (D : for_name (s "en") = Some en) by (vm_compute; reflexivity).
    destruct (C54_returned false (s "en") c102_text _ c102_f (ex_intro _ en D) P eq_refl) as [l [d [L [Hd W]]]]. injection L as <-. change (for_name (s "en") = Some d) in Hd. rewrite D in Hd. assert (d = en) as -> by congruence. exact W.
  - unfold md_feature_ok. cbn [c102_f fe_desc fe_tags fe_keyword fe_name fe_background fe_scenarios fe_rules of_option]. c102_ok.
  - vm_compute. repeat constructor; tauto.
Qed.
