(** * A language header that names the language a text is read in anyway: C100 *)
From Verif Require PropProse.
From Verif Require Import PyStr PyStrFacts Types Regex Line DialectData Matcher Ast Parser Compiler Scan LineSpec LangSpec LangFacts DocSpec PartsSpec PropLine PropParse PropDoc PropDocString PickleSpec PickleFacts PickleTotal WfDoc PropMdParse PropCompile Glob Robot RobotSpec SuiteSpec RobotFacts PropRobot WriteSpec WriteRead PropWrite EssenceSpec EssenceFacts PropEssence PropAppend MiddleSpec Renumber Units PropMiddle ExampleSpec ExampleChange PropExampleRow PartSpec PartChange PropScenarioTags PropStepMore TitleSpec PropView LabelSpec PropLabel ArgOnlySpec PropArgOnly WordSpec PropStepMore PropReword ProseSpec ProseChange PropTitle LabelSpec LabelChange PropLabel PropLabelLine PropPlain PropProseLine DocEditSpec DocChange PropDocEdit ArgEditSpec ArgChange Classify Complete PropLang RelayFacts PropArgEdit HeaderSpec.
Import PickleSpec WriteSpec.

(** ** Lines *)
Lemma feature_number d lang ls f cs : feature_block d lang ls f cs -> In (l_line (fe_loc f)) (nums ls).
Proof.
  intros [tl [l [dl [bl [sl [ul [tags [kw [name [desc [bg [scs [rus [c0 [c1 [c2 [c3 [c4 [-> [H0 [H1 [H2 [H3 [H4 [H5 [-> ->]]]]]]]]]]]]]]]]]]]]]]]]]].
  cbn [fe_loc here l_line]. rewrite nums_app. apply in_or_app. right. now left.
Qed.
Lemma rising_before (a b : list nline) n l : rising (a ++ b) -> In n (nums b) -> In l a -> fst l < n.
Proof.
  intros R I J. apply in_split in J as [p [q ->]]. rewrite <- app_assoc in R. apply rising_r in R. cbn [app] in R. unfold rising in R. cbn [map] in R. inversion R as [|? ? R1 R2]; subst. rewrite Forall_forall in R2. apply R2. rewrite nums_app. apply in_or_app. now right.
Qed.
Lemma quiet_prefix (A B pre fl : list nline) : A ++ B = pre ++ fl -> Forall quiet A -> (exists l r, fl = l :: r /\ ~ quiet l) -> exists z, pre = A ++ z /\ B = z ++ fl.
Proof.
  revert pre. induction A as [|x A IH]; intros pre E Q L; [exists pre; auto|]. inversion Q as [|? ? Q1 Q2]; subst. destruct pre as [|y pre].
  - destruct L as [l [r [-> L]]]. cbn [app] in E. injection E as -> _. contradiction.
  - cbn [app] in E. injection E as -> E. destruct (IH pre E Q2 L) as [z [-> ->]]. exists z. auto.
Qed.
(** a header put in *)
Lemma header_in lang lang' A B h doc f : stands_for lang (A ++ B) doc -> gd_feature doc = Some f -> Forall quiet A -> rising (A ++ B) ->
  (forall l, In l (A ++ B) -> fst l < l_line (fe_loc f) -> forall name, ~ language_line (snd l) name) -> language_line (snd h) lang -> stands_for lang' (A ++ h :: B) doc.
Proof.
  intros [[cs [H ->]]|[[pre [fl [d [f0 [c0 [c1 [E [[P1 P2] [H2 [H3 ->]]]]]]]]]]|[pre [hd [mid [fl [name [d [f0 [c0 [c1 [c2 [E [[P1 P2] [H2 [H3 [H4 [H5 ->]]]]]]]]]]]]]]]]]] F Q R N L; [discriminate F| |]; injection F as ->.
  - destruct (quiet_prefix A B pre fl E Q (feature_loud _ _ _ _ _ (for_name_ok _ _ H2) H3)) as [z [-> ->]]. apply noise_all in P1 as [P1 ->]. rewrite flat_map_app. apply Forall_app in P1 as [Q1 Q2]. apply Forall_app in P2 as [N1 N2].
    right. right. exists A, h, z, fl, lang, d, f. eexists _, _, c1. split; [reflexivity|]. split; [split; [apply noise_all; split; [exact Q1 | reflexivity] | exact N1]|]. split; [exact L|]. split; [exact H2|]. split; [apply noise_all; split; [exact Q2 | reflexivity]|]. split; [exact H3|]. rewrite <- app_assoc. reflexivity.
  - exfalso. apply (N hd) with (name := name); [rewrite E; apply in_elt | | exact H2]. rewrite E in R. change (pre ++ hd :: mid ++ fl) with (pre ++ ([hd] ++ mid) ++ fl) in R. rewrite app_assoc in R. eapply rising_before; [exact R | exact (feature_number _ _ _ _ _ H5)|]. apply in_or_app. right. now left.
Qed.
(** a header taken out *)
Lemma header_out lang lang' A B h doc f : stands_for lang' (A ++ h :: B) doc -> gd_feature doc = Some f -> Forall quiet A -> rising (A ++ h :: B) ->
  (forall l, In l (A ++ B) -> fst l < l_line (fe_loc f) -> forall name, ~ language_line (snd l) name) -> (forall l, In l A -> forall name, ~ language_line (snd l) name) -> language_line (snd h) lang -> stands_for lang (A ++ B) doc.
Proof.
  intros [[cs [H ->]]|[[pre [fl [d [f0 [c0 [c1 [E [[P1 P2] [H2 [H3 ->]]]]]]]]]]|[pre [hd [mid [fl [name [d [f0 [c0 [c1 [c2 [E [[P1 P2] [H2 [H3 [H4 [H5 ->]]]]]]]]]]]]]]]]]] F Q R N Na L; [discriminate F| |]; injection F as ->.
  - exfalso. assert (Qh : quiet h) by (right; exact (language_hash _ _ L)). change (A ++ h :: B) with (A ++ [h] ++ B) in E. rewrite app_assoc in E.
    destruct (quiet_prefix (A ++ [h]) B pre fl E) as [z [-> ->]]; [apply Forall_app; auto | exact (feature_loud _ _ _ _ _ (for_name_ok _ _ H2) H3)|].
    rewrite !Forall_app in P2. destruct P2 as [[_ P2] _]. inversion P2 as [|? ? P3 _]; subst. exact (P3 _ L).
  - assert (Fa : Forall (fun l : nline => forall name, ~ language_line (snd l) name) A) by (apply Forall_forall; exact Na).
    destruct (split_first (fun l => forall name, ~ language_line (snd l) name) _ _ _ _ _ _ E Fa (fun X => X _ L) P2 (fun X => X _ H2)) as [-> [-> ->]]. pose proof (language_unique _ _ _ H2 L) as ->.
    right. left. exists (pre ++ mid), fl, d, f, (c0 ++ c1), c2. split; [apply app_assoc|]. split; [split|].
    + now apply noise_app.
    + apply Forall_app. split; [exact P2|]. apply Forall_forall. intros l I. apply N; [apply in_or_app; right; apply in_or_app; now left|]. change (pre ++ hd :: mid ++ fl) with (pre ++ ([hd] ++ mid) ++ fl) in R. rewrite app_assoc in R.
      eapply rising_before; [exact R | exact (feature_number _ _ _ _ _ H5)|]. apply in_or_app. right. now right.
    + split; [exact H3|]. split; [exact H5|]. now rewrite app_assoc.
Qed.

(** ** Texts *)
Lemma split_before a r : lines_before a -> split_lines (a ++ r) = split_lines a ++ split_lines r.
Proof. intros [->|[t ->]]; [reflexivity | apply split_lines_ended]. Qed.
Lemma split_header m lang : header_text m lang -> forall r, split_lines (m ++ r) = m :: split_lines r.
Proof. intros [x [-> [N _]]] r. rewrite <- app_assoc. cbn [app]. now apply PropProse.split_line. Qed.
Lemma moved_numbered k xs : map (ren_line (moved_down k 1)) (lines_numbered k xs) = lines_numbered (S k) xs.
Proof. unfold lines_numbered. rewrite ren_combine. f_equal. rewrite moved_seq by lia. f_equal. lia. Qed.
Lemma kept_numbered k m xs : length xs <= k -> map (ren_line (moved_down k m)) (lines_numbered 0 xs) = lines_numbered 0 xs.
Proof. intros L. unfold lines_numbered. rewrite ren_combine. f_equal. apply still_seq. lia. Qed.
Lemma plain_text a b : lines_before a -> numbered_lines (split_lines (a ++ b)) = lines_numbered 0 (split_lines a) ++ lines_numbered (line_count a) (split_lines b).
Proof. intros H. rewrite split_before by exact H. exact (numbered_app 0 _ _). Qed.
Lemma headed_text a m b lang : lines_before a -> header_text m lang -> numbered_lines (split_lines (a ++ m ++ b)) = lines_numbered 0 (split_lines a) ++ (S (line_count a), m) :: lines_numbered (S (line_count a)) (split_lines b).
Proof. intros H M. rewrite split_before, (split_header m lang M) by exact H. change (lines_numbered 0 (split_lines a ++ m :: split_lines b) = lines_numbered 0 (split_lines a) ++ lines_numbered (line_count a) (m :: split_lines b)). apply numbered_app. Qed.
Lemma notes_quiet a k : only_notes a -> Forall quiet (lines_numbered k (split_lines a)).
Proof. intros N. apply Forall_forall. intros l I. assert (J : In (snd l) (split_lines a)) by (rewrite <- (numbered_texts k (split_lines a)); now apply in_map). unfold only_notes in N. rewrite Forall_forall in N. exact (N _ J). Qed.
Lemma down_up k : forall l, k < l -> moved_up (S k) (moved_down k 1 l) = l.
Proof. intros l. apply up_down. Qed.

(** C100.  A text read in the language [lang], with no language header.  With a header that names [lang] above the feature, it is the same document whatever the
    default language, the lines below the header moved down. *)
Theorem C100_added_document : forall stop lang lang' a m b d f, supported lang -> supported lang' -> lines_before a -> only_notes a -> header_text m lang ->
  parse_with stop false lang (a ++ b) = Ok d -> gd_feature d = Some f -> no_header (a ++ b) f ->
  exists d', parse_with stop false lang' (a ++ m ++ b) = Ok d' /\ no_ids d' = ren_gdoc (moved_down (line_count a) 1) (no_ids d).
Proof.
  intros stop lang lang' a m b d f S S' La Na M P F N. assert (A : stands_for lang (numbered_lines (split_lines (a ++ b))) (no_ids d)) by (apply (C04_parse_iff stop lang _ _ S); eauto).
  set (k := line_count a). set (g := moved_down k 1). apply (n_stands g) in A. assert (G1 : forall i j, i < j -> g i < g j) by (intros i j L; unfold g, moved_down; destruct (_ <? i) eqn:E1, (_ <? j) eqn:E2; rewrite ?Nat.ltb_lt, ?Nat.ltb_ge in *; lia).
  pose proof (rising_ren g _ G1 (rising_numbered (split_lines (a ++ b)))) as Ri. rewrite (plain_text a b La), map_app in A, Ri. fold k in A, Ri.
  assert (E1 : map (ren_line g) (lines_numbered 0 (split_lines a)) = lines_numbered 0 (split_lines a)) by (apply kept_numbered; apply le_n).
  assert (E2 : map (ren_line g) (lines_numbered k (split_lines b)) = lines_numbered (Datatypes.S k) (split_lines b)) by apply moved_numbered. rewrite E1, E2 in A, Ri.
  assert (F1 : gd_feature (ren_gdoc g (no_ids d)) = Some (ren_feature g (no_id_feature f))) by (unfold no_ids, ren_gdoc; cbn [gd_feature]; now rewrite F).
  assert (B : stands_for lang' (lines_numbered 0 (split_lines a) ++ (Datatypes.S k, m) :: lines_numbered (Datatypes.S k) (split_lines b)) (ren_gdoc g (no_ids d))).
  { apply (header_in lang lang' _ _ (Datatypes.S k, m) _ _ A F1); [now apply notes_quiet | exact Ri | | destruct M as [x [_ [_ M]]]; exact M].
    intros l I Lt. rewrite <- E1, <- E2, <- map_app in I. apply in_map_iff in I as [[i y] [<- I]]. cbn [ren_line fst snd] in Lt |- *. unfold k in I; rewrite <- (plain_text a b La) in I. apply (N i y I).
    - cbn [ren_feature no_id_feature fe_loc ren_loc l_line] in Lt. destruct (Nat.lt_ge_cases i (l_line (fe_loc f))) as [Q|Q]; [exact Q|]. exfalso. destruct (Nat.eq_dec (l_line (fe_loc f)) i) as [Eq|Ne]; [rewrite Eq in Lt; lia|]. assert (g (l_line (fe_loc f)) < g i) by (apply G1; lia). lia.
    - intros ->. change (In (0, y) (lines_numbered 0 (split_lines (a ++ b)))) in I. apply numbered_in in I. cbn [fst] in I. lia. }
  unfold k in B. rewrite <- (headed_text a m b lang La M) in B. apply (C04_parse_iff stop lang' _ _ S') in B as [d' [P' Q]]. exists d'. auto.
Qed.
Print Assumptions C100_added_document.
(** C100.  The other way round: without the only language header, and read in the language the header names, the text is the same document. *)
Theorem C100_removed_document : forall stop lang lang' a m b d f, supported lang -> supported lang' -> lines_before a -> only_notes a -> header_text m lang ->
  (forall x name, In x (split_lines a) -> ~ language_line x name) ->
  parse_with stop false lang' (a ++ m ++ b) = Ok d -> gd_feature d = Some f -> no_header_but (S (line_count a)) (a ++ m ++ b) f ->
  exists d', parse_with stop false lang (a ++ b) = Ok d' /\ no_ids d' = ren_gdoc (moved_up (S (line_count a))) (no_ids d).
Proof.
  intros stop lang lang' a m b d f S S' La Na M Nh P F N. assert (A : stands_for lang' (numbered_lines (split_lines (a ++ m ++ b))) (no_ids d)) by (apply (C04_parse_iff stop lang' _ _ S'); eauto).
  set (k := line_count a) in *. pose proof (rising_numbered (split_lines (a ++ m ++ b))) as Ri. rewrite (headed_text a m b lang La M) in A, Ri. fold k in A, Ri.
  assert (F1 : gd_feature (no_ids d) = Some (no_id_feature f)) by (unfold no_ids; cbn [gd_feature]; now rewrite F).
  assert (B : stands_for lang (lines_numbered 0 (split_lines a) ++ lines_numbered (Datatypes.S k) (split_lines b)) (no_ids d)).
  { apply (header_out lang lang' _ _ (Datatypes.S k, m) _ _ A F1); [now apply notes_quiet | exact Ri | | | destruct M as [x [_ [_ M]]]; exact M].
    - intros [i y] I Lt. cbn [fst snd] in Lt |- *. apply (N i y); [|exact Lt|].
      + rewrite (headed_text a m b lang La M). fold k. apply in_app_or in I as [I|I]; apply in_or_app; [now left | right; now right].
      + intros ->. apply in_app_or in I as [I|I]; apply numbered_in in I; cbn [fst] in I; [unfold k, line_count in I|]; lia.
    - intros l I name. apply Nh. rewrite <- (numbered_texts 0 (split_lines a)). now apply in_map. }
  apply (n_stands (moved_up (Datatypes.S k))) in B. rewrite map_app in B.
  assert (E1 : map (ren_line (moved_up (Datatypes.S k))) (lines_numbered 0 (split_lines a)) = lines_numbered 0 (split_lines a)).
  { apply ren_still. intros l I. apply numbered_in in I. unfold moved_up. rewrite (proj2 (Nat.ltb_ge _ _)); [reflexivity|]. fold (line_count a) in I. fold k in I. lia. }
  assert (E2 : map (ren_line (moved_up (Datatypes.S k))) (lines_numbered (Datatypes.S k) (split_lines b)) = lines_numbered k (split_lines b)).
  { rewrite <- moved_numbered, map_map. transitivity (map (fun l : nline => l) (lines_numbered k (split_lines b))); [|apply map_id]. apply map_ext_in. intros [i x] I. apply numbered_in in I. unfold ren_line. cbn [fst snd] in I |- *. f_equal. apply down_up. lia. }
  rewrite E1, E2 in B. unfold k in B. rewrite <- (plain_text a b La) in B. apply (C04_parse_iff stop lang _ _ S) in B as [d' [P' Q]]. exists d'. auto.
Qed.
Print Assumptions C100_removed_document.

(** ** Suites *)
Lemma moved_suite pr g name name' text text' dir d d' f f' x k : read_file name text = Ok d -> read_file name' text' = Ok d' -> gd_feature d = Some f -> gd_feature d' = Some f' ->
  no_id_feature f' = ren_feature g (no_id_feature f) -> build_gherkin_model pr name text dir = Ok (RSuite x, k) ->
  exists x', build_gherkin_model pr name' text' dir = Ok (RSuite x', k) /\ same_settings x x' /\ rs_tests x' = map (ren_test g) (rs_tests x).
Proof.
  intros R R' F F' E W.
  assert (Ep : same_but_prose g f f') by (unfold same_but_prose; rewrite <- (kept_no_ids (proseless f')), <- d_no_id, E, ren_no_ids, d_no_id, kept_no_ids; reflexivity).
  assert (Et : same_but_tags g f f') by (unfold same_but_tags; rewrite <- (kept_no_ids (tagless f')), <- tagless_b, E, ren_no_ids, tagless_b, kept_no_ids; reflexivity).
  pose proof (C95_docs_only pr g name name' text text' dir d d' f f' R R' F F' Ep) as P. pose proof (C93_tags_only pr g name name' text text' dir d d' f f' R R' F F' Et) as T. rewrite W in P, T.
  destruct (build_gherkin_model pr name' text' dir) as [[[x'|l] k']|e]; [|contradiction|contradiction]. destruct P as [[P1 [P2 [P3 [P4 P5]]]] [Pk [Pk' _]]]. destruct T as [[T1 [_ [_ T4]]] _].
  assert (En : fe_name f' = fe_name f) by (change (fe_name f') with (fe_name (no_id_feature f')); rewrite E; reflexivity).
  exists x'. split; [congruence|]. split; [unfold same_settings; auto|]. clear - P5 T4. revert T4. induction P5 as [|t t' ts ts' H P5 IH]; intros T4; [reflexivity|]. inversion T4 as [|? ? ? ? H2 T4']; subst. cbn [map]. f_equal; [|now apply IH].
  rewrite H2. assert (Q : rt_tags t' = rt_tags (ren_test g t)) by (rewrite H; reflexivity). rewrite Q. unfold with_tags. destruct t; reflexivity.
Qed.
(** the feature of a document with new numbers *)
Lemma moved_feature g d d' f : no_ids d' = ren_gdoc g (no_ids d) -> gd_feature d = Some f -> exists f', gd_feature d' = Some f' /\ no_id_feature f' = ren_feature g (no_id_feature f).
Proof.
  intros Q F. apply (f_equal gd_feature) in Q. unfold no_ids, ren_gdoc in Q. cbn [gd_feature] in Q. rewrite F in Q. cbn [option_map] in Q. destruct (gd_feature d') as [f'|]; [|discriminate Q]. cbn [option_map] in Q. exists f'. split; [reflexivity | congruence].
Qed.
(** C100.  A file without a language header that gives a suite.  With the header [language: en] above the feature, it gives the same suite, the tests moved down. *)
Theorem C100_added : forall printable name dir a m b d f x k, is_markdown name = false -> lines_before a -> only_notes a -> header_text m (s "en") ->
  read_file name (a ++ b) = Ok d -> gd_feature d = Some f -> no_header (a ++ b) f -> build_gherkin_model printable name (a ++ b) dir = Ok (RSuite x, k) ->
  exists x', build_gherkin_model printable name (a ++ m ++ b) dir = Ok (RSuite x', k) /\ same_settings x x' /\ rs_tests x' = map (ren_test (moved_down (line_count a) 1)) (rs_tests x).
Proof.
  intros pr name dir a m b d f x k M La Na H R F N W. assert (P : parse_with false false (s "en") (a ++ b) = Ok d) by (unfold read_file in R; now rewrite M in R).
  destruct (C100_added_document false (s "en") (s "en") a m b d f en_supported en_supported La Na H P F N) as [d' [P' Q]]. assert (R' : read_file name (a ++ m ++ b) = Ok d') by (unfold read_file; now rewrite M).
  destruct (moved_feature _ _ _ _ Q F) as [f' [F' E]]. exact (moved_suite pr _ name name _ _ dir d d' f f' x k R R' F F' E W).
Qed.
Print Assumptions C100_added.
(** C100.  Without the header, the same, the tests moved up. *)
Theorem C100_removed : forall printable name dir a m b d f x k, is_markdown name = false -> lines_before a -> only_notes a -> header_text m (s "en") -> (forall y other, In y (split_lines a) -> ~ language_line y other) ->
  read_file name (a ++ m ++ b) = Ok d -> gd_feature d = Some f -> no_header_but (S (line_count a)) (a ++ m ++ b) f -> build_gherkin_model printable name (a ++ m ++ b) dir = Ok (RSuite x, k) ->
  exists x', build_gherkin_model printable name (a ++ b) dir = Ok (RSuite x', k) /\ same_settings x x' /\ rs_tests x' = map (ren_test (moved_up (S (line_count a)))) (rs_tests x).
Proof.
  intros pr name dir a m b d f x k M La Na H Nh R F N W. assert (P : parse_with false false (s "en") (a ++ m ++ b) = Ok d) by (unfold read_file in R; now rewrite M in R).
  destruct (C100_removed_document false (s "en") (s "en") a m b d f en_supported en_supported La Na H Nh P F N) as [d' [P' Q]]. assert (R' : read_file name (a ++ b) = Ok d') by (unfold read_file; now rewrite M).
  destruct (moved_feature _ _ _ _ Q F) as [f' [F' E]]. exact (moved_suite pr _ name name _ _ dir d d' f f' x k R R' F F' E W).
Qed.
Print Assumptions C100_removed.

(** ** A concrete case: after a comment and a blank line, above a tagged feature with a comment that only looks like a header inside *)
Definition c100_a : str := text_of_lines [s "# note"; []].
Definition c100_m : str := text_of_lines [s "  #language : en "].
Definition c100_b : str := text_of_lines [s "# more"; s "@t"; s "Feature: f"; s "  # language: de"; s "  Scenario: one"; s "    Given a"].
Definition c100_d : gdoc := Eval vm_compute in match read_file (s "a.feature") (c100_a ++ c100_b) with Ok d => d | _ => mkGdoc None [] end.
Definition c100_d' : gdoc := Eval vm_compute in match read_file (s "a.feature") (c100_a ++ c100_m ++ c100_b) with Ok d => d | _ => mkGdoc None [] end.
Definition feature_of (d : gdoc) : feature := match gd_feature d with Some f => f | _ => mkFeature [] (mkLoc 0 None) None None None [] None [] [] end.
Example C100_case : lines_before c100_a /\ only_notes c100_a /\ header_text c100_m (s "en") /\ (forall y other, In y (split_lines c100_a) -> ~ language_line y other) /\ line_count c100_a = 2 /\
  read_file (s "a.feature") (c100_a ++ c100_b) = Ok c100_d /\ gd_feature c100_d = Some (feature_of c100_d) /\ no_header (c100_a ++ c100_b) (feature_of c100_d) /\
  read_file (s "a.feature") (c100_a ++ c100_m ++ c100_b) = Ok c100_d' /\ gd_feature c100_d' = Some (feature_of c100_d') /\ no_header_but 3 (c100_a ++ c100_m ++ c100_b) (feature_of c100_d').
Proof.
  assert (NL : forall x, re_match LANGUAGE_RE (lstrip x) = None -> forall name, ~ language_line x name) by (intros x H; pose proof (language_re x) as R; now rewrite H in R).
  split; [right; exists (s "# note" ++ [ch_nl]); reflexivity|]. split; [constructor; [right; reflexivity | constructor; [left; reflexivity | constructor]]|]. split; [|split; [|split; [|split; [|split; [|split; [|split; [|split]]]]]]]; try (vm_compute; reflexivity).
  - exists (s "  #language : en "). split; [reflexivity|]. split; [intros I; vm_compute in I; repeat (destruct I as [I|I]; [discriminate I|]); exact I|]. exists (s "  "), [], (s " "), (s " "), (s " " ++ [ch_nl]). repeat split. discriminate.
  - intros y other [<-|[<-|[]]]; apply NL; vm_compute; reflexivity.
  - intros i y I L _. vm_compute in L. vm_compute in I. repeat (destruct I as [I|I]; [injection I as <- <-; try lia; apply NL; vm_compute; reflexivity|]). destruct I.
  - intros i y I L Ne. vm_compute in L. vm_compute in I. repeat (destruct I as [I|I]; [injection I as <- <-; try lia; apply NL; vm_compute; reflexivity|]). destruct I.
Qed.
Definition c100_tests (text : str) : list (str * list str * nat * list nat) :=
  match build_gherkin_model (fun _ => true) (s "a.feature") text None with Ok (RSuite su, _) => map (fun t => (rt_name t, rt_tags t, rt_line t, map rc_line (rt_calls t))) (rs_tests su) | _ => [] end.
Example C100_case_suites : c100_tests (c100_a ++ c100_b) = [(s "one", [], 7, [8])] /\ c100_tests (c100_a ++ c100_m ++ c100_b) = [(s "one", [], 8, [9])].
Proof. split; vm_compute; reflexivity. Qed.
