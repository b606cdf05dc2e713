(** * Laying out a text anew: C63 *)
From Coq Require Import Sorting.Sorted.
From Verif Require Import PyStr PyStrFacts Types Regex Line DialectData Matcher Ast Parser Classify Scan Grammar LineSpec LangSpec LangFacts Complete DocSpec LineIff CommentSpec PropLine PropParse PropDoc PropLang PropComments WriteSpec WriteRead PropWrite Compiler Robot PropRobot RobotFacts EssenceSpec PropEssence RelaySpec RelayFacts RelayDoc.

Lemma alike_sym x x' : alike x x' -> alike x' x.
Proof. intros [->|[E N]]; [now left|]. right. split; [now symmetry|]. intros sep S B. apply (N sep S). unfold begins in *. now rewrite <- E. Qed.
Lemma spare_nolang ls : Forall spare ls -> Forall (fun l : nline => forall name, ~ language_line (snd l) name) ls.
Proof.
  apply Forall_impl. intros l [E|[_ H]]; [|exact H]. intros name L. apply empty_blank in E. apply (blank_not_comment l E). exact (language_hash _ _ L).
Qed.
Lemma r_preamble own ls cs ls' : preamble ls cs -> relaid own ls ls' -> exists cs', preamble ls' cs'.
Proof.
  intros [N F] H. destruct (r_noise own _ _ _ N H) as [cs' N']. exists cs'. split; [exact N'|]. clear N N' cs cs'. revert F.
  induction H as [gap gap' G G'|m m' ls ls' M H IH|gap gap' m m' ls ls' G G' Om M H IH]; intros F.
  - now apply spare_nolang.
  - inversion F as [|? ? F1 F2]; subst. constructor; [now rewrite M | auto].
  - apply Forall_app in F as [_ F]. inversion F as [|? ? F1 F2]; subst. apply Forall_app. split; [now apply spare_nolang|]. constructor; [|auto].
    intros name L. apply (F1 name). eapply alike_language; [apply alike_sym; exact M | exact L].
Qed.
Lemma order_nodup ls : in_order ls -> NoDup (map fst ls).
Proof.
  induction 1 as [|l ls H IH F]; cbn [map]; constructor; [|exact IH]. intros X. apply in_map_iff in X as [y [E Hy]]. rewrite Forall_forall in F. specialize (F y Hy). lia.
Qed.
Lemma header_first pre h rest cs name x : preamble pre cs -> language_line (snd h) name -> header (pre ++ h :: rest) x -> x = h.
Proof.
  intros [_ F] L [p [r [c [nm [E [[_ P2] X]]]]]]. destruct (split_first (fun l : nline => forall name, ~ language_line (snd l) name) _ _ _ _ _ _ E F) as [_ [-> _]]; auto; [intros Y; exact (Y _ L) | intros Y; exact (Y _ X)].
Qed.
Lemma no_header pre d nm fl f cs cs0 x : dialect_ok d = true -> preamble pre cs0 -> feature_block d nm fl f cs -> ~ header (pre ++ fl) x.
Proof.
  intros D [N F] B [p [r [c [name [E [[P1 _] X]]]]]]. destruct (feature_loud _ _ _ _ _ D B) as [l0 [rest [-> Q]]]. apply noise_quiet in P1.
  assert (Qx : quiet x) by (right; exact (language_hash _ _ X)).
  assert (G : forall pre p : list nline, pre ++ l0 :: rest = p ++ x :: r -> Forall quiet p -> Forall (fun l : nline => forall name, ~ language_line (snd l) name) pre -> False).
  { clear -Q Qx X. induction pre as [|y pre IH]; intros [|z p] E Fp Fl; cbn in E; injection E as E1 E2; subst.
    - contradiction.
    - inversion Fp; contradiction.
    - inversion Fl as [|? ? Fl1 _]; subst. exact (Fl1 _ X).
    - inversion Fp; inversion Fl; subst. eapply (IH p); eauto. }
  exact (G pre p E P1 F).
Qed.
Lemma starts_step x : step_starts (no_id_step x) = step_starts x.
Proof. unfold step_starts. destruct x as [i l k kt te a]. destruct a; cbn; try reflexivity. unfold step_starts, row_starts. cbn. f_equal. rewrite map_map. reflexivity. Qed.
Lemma flat_ids {A} (st : A -> list nat) (g : A -> A) l : (forall x, st (g x) = st x) -> flat_map st (map g l) = flat_map st l.
Proof. intros H. induction l as [|x l IH]; [reflexivity|]. cbn. now rewrite H, IH. Qed.
Lemma opt_ids {A} (st : A -> list nat) (g : A -> A) o : (forall x, st (g x) = st x) -> opt_starts st (option_map g o) = opt_starts st o.
Proof. intros H. destruct o; [apply H | reflexivity]. Qed.
Lemma starts_tags l : tag_starts (map no_id_tag l) = tag_starts l.
Proof. unfold tag_starts. rewrite map_map. reflexivity. Qed.
Lemma starts_rows l : row_starts (map no_id_row l) = row_starts l.
Proof. unfold row_starts. rewrite map_map. reflexivity. Qed.
Lemma starts_background x : background_starts (no_id_background x) = background_starts x.
Proof. unfold background_starts. cbn. f_equal. apply flat_ids, starts_step. Qed.
Lemma starts_examples x : examples_starts (no_id_examples x) = examples_starts x.
Proof. unfold examples_starts. cbn. rewrite starts_tags. f_equal. f_equal. destruct (ex_header x); cbn; [f_equal|]; apply starts_rows. Qed.
Lemma starts_scenario x : scenario_starts (no_id_scenario x) = scenario_starts x.
Proof. unfold scenario_starts. cbn. rewrite starts_tags, (flat_ids _ _ _ starts_step), (flat_ids _ _ _ starts_examples). reflexivity. Qed.
Lemma starts_rule x : rule_starts (no_id_rule x) = rule_starts x.
Proof. unfold rule_starts. cbn. rewrite starts_tags, (opt_ids _ _ _ starts_background), (flat_ids _ _ _ starts_scenario). reflexivity. Qed.
Lemma starts_feature x : feature_starts (no_id_feature x) = feature_starts x.
Proof. unfold feature_starts. cbn. rewrite starts_tags, (opt_ids _ _ _ starts_background), (flat_ids _ _ _ starts_scenario), (flat_ids _ _ _ starts_rule). reflexivity. Qed.

Lemma relaid_stands lang lines lines' f cs : in_order lines -> stands_for lang lines (mkGdoc (Some f) cs) -> relaid (own_line f lines) lines lines' ->
  exists f' cs', stands_for lang lines' (mkGdoc (Some f') cs') /\ plain f' = plain f.
Proof.
  intros Ho St H. apply order_nodup in Ho. destruct St as [[c [_ E]]|[[pre [fl [d [f0 [c0 [c1 [-> [P [D [B E]]]]]]]]]]|[pre [h [mid [fl [nm [d [f0 [c0 [c1 [c2 [-> [P [L [D [N1 [B E]]]]]]]]]]]]]]]]]]; [discriminate E| |].
  - assert (f0 = f) as -> by congruence. pose proof (for_name_ok _ _ D) as Dk. set (own := own_line f (pre ++ fl)) in *.
    assert (Lh : loudhead fl) by (now apply (feature_head d Dk lang) in B).
    destruct (rest_split own pre fl lines' Lh H) as [pre' [fl' [-> [R1 R2]]]]. destruct (r_preamble own _ _ _ P R1) as [c0' P'].
    assert (F : fair own fl (feature_starts f)).
    { rewrite map_app in Ho. destruct (nodup_parts _ _ Ho) as [_ Nd]. split; [exact Nd|]. intros l Hl [O|O]; [exact O|]. exfalso. exact (no_header _ _ _ _ _ _ _ _ Dk P B O). }
    destruct (r_feature own d Dk lang _ _ _ _ B F R2) as [f' [c1' [B' E']]]. exists f', (c0' ++ c1'). split; [|exact E']. right. left. exists pre', fl', d, f', c0', c1'. auto.
  - assert (f0 = f) as -> by congruence. pose proof (for_name_ok _ _ D) as Dk. set (own := own_line f (pre ++ h :: mid ++ fl)) in *.
    assert (Lh : loudhead fl) by (now apply (feature_head d Dk nm) in B).
    assert (Sh : ~ spare h) by (intros [X|[_ X]]; [apply empty_blank in X; apply (blank_not_comment h X); exact (language_hash _ _ L) | exact (X _ L)]).
    destruct (split_at own pre h (mid ++ fl) lines' Sh H) as [pre' [h' [r' [-> [R1 [A R]]]]]].
    destruct (rest_split own mid fl r' Lh R) as [mid' [fl' [-> [R2 R3]]]]. destruct (r_preamble own _ _ _ P R1) as [c0' P']. destruct (r_noise own _ _ _ N1 R2) as [c1' N1'].
    assert (F : fair own fl (feature_starts f)).
    { rewrite map_app in Ho. cbn [map] in Ho. rewrite map_app in Ho. destruct (nodup_parts _ _ Ho) as [_ Nd]. inversion Nd as [|? ? Nd1 Nd2]; subst. destruct (nodup_parts _ _ Nd2) as [_ Nd3].
      split; [exact Nd3|]. intros l Hl [O|O]; [exact O|]. exfalso. pose proof (header_first _ _ _ _ _ _ P L O) as ->. apply Nd1, in_or_app. right. now apply in_map. }
    destruct (r_feature own d Dk nm _ _ _ _ B F R3) as [f' [c2' [B' E']]]. exists f', (c0' ++ c1' ++ c2'). split; [|exact E']. right. right.
    exists pre', h', mid', fl', nm, d, f', c0', c1', c2'. split; [reflexivity|]. split; [exact P'|]. split; [eapply alike_language; eauto|]. auto.
Qed.

(** C63.  A text that differs from an accepted one only in the empty lines and comments before its elements and at
    its end, and in the indentation of the lines on which elements begin, is accepted, and its feature is the same
    (ids and places aside). *)
Theorem C63_same_feature : forall stop lang text text' d f, supported lang ->
  parse_with stop false lang text = Ok d -> gd_feature d = Some f -> same_layout f text text' ->
  exists d' f', parse_with stop false lang text' = Ok d' /\ gd_feature d' = Some f' /\ plain f' = plain f.
Proof.
  intros stop lang text text' [o cs] f H P F L. cbn in F. subst o.
  assert (S : stands_for lang (numbered_lines (split_lines text)) (mkGdoc (Some (no_id_feature f)) cs)) by (apply (C04_parse_iff stop lang text _ H); eexists; split; [exact P | reflexivity]).
  unfold same_layout, own_line in L. rewrite <- starts_feature in L. destruct (relaid_stands _ _ _ _ _ (numbered_in_order _) S L) as [f1 [cs1 [S' E]]].
  apply (C04_parse_iff stop lang text' _ H) in S' as [[[f'|] cs'] [P' Q]]; [|discriminate Q]. exists (mkGdoc (Some f') cs'), f'. split; [exact P'|]. split; [reflexivity|].
  assert (Q' : no_id_feature f' = f1) by (unfold no_ids in Q; cbn [gd_feature option_map gd_comments] in Q; congruence). rewrite <- (plain_no_ids f'), Q', E. apply plain_no_ids.
Qed.
Print Assumptions C63_same_feature.

(** C63.  So a file laid out anew gives the same suite. *)
Theorem C63_same_suite : forall printable name content content' dir x n d f, is_markdown name = false ->
  build_gherkin_model printable name content dir = Ok (RSuite x, n) -> read_file name content = Ok d -> gd_feature d = Some f -> same_layout f content content' ->
  exists x', build_gherkin_model printable name content' dir = Ok (RSuite x', n) /\ suite_shape x' = suite_shape x.
Proof.
  intros pr name content content' dir x n d f M H E F L. pose proof E as P. unfold read_file in P. rewrite M in P.
  destruct (C63_same_feature false (s "en") content content' d f en_supported P F L) as [d' [f' [P' [F' Q]]]].
  assert (E' : read_file name content' = Ok d') by (unfold read_file; now rewrite M).
  assert (G : option_map plain (gd_feature d) = option_map plain (gd_feature d')) by (rewrite F, F'; cbn; now rewrite Q).
  pose proof (C62_same_suite pr name name content content' dir d d' E E' G) as S. rewrite H in S.
  destruct (build_gherkin_model pr name content' dir) as [[[x'|] n']|] eqn:W; try contradiction S. destruct S as [S1 ->]. exists x'. split; [reflexivity | now symmetry].
Qed.
Print Assumptions C63_same_suite.

(** to show a new layout of a concrete text: its next element has [n] spare lines before it, in the new layout [m] *)
Lemma element (own : nline -> Prop) n m (ls ls' : list nline) l l' : nth_error ls n = Some l -> nth_error ls' m = Some l' -> Forall spare (firstn n ls) -> Forall spare (firstn m ls') -> own l -> alike (snd l) (snd l') ->
  relaid own (skipn (S n) ls) (skipn (S m) ls') -> relaid own ls ls'.
Proof.
  intros E E' G G' O A H. rewrite <- (firstn_skipn n ls), <- (firstn_skipn m ls').
  assert (X : skipn n ls = l :: skipn (S n) ls) by (clear -E; revert ls E; induction n as [|n IH]; intros [|y ls] E; cbn in E |- *; try discriminate E; [congruence | now apply IH]).
  assert (X' : skipn m ls' = l' :: skipn (S m) ls') by (clear -E'; revert ls' E'; induction m as [|m IH]; intros [|y ls] E; cbn in E |- *; try discriminate E; [congruence | now apply IH]).
  rewrite X, X'. now apply re_own.
Qed.
Lemma spare_case (l : nline) : without_eol (snd l) = [] \/ (startswith [ch_hash] (lstrip (snd l)) = true /\ exec LANGUAGE_RE (rinit (snd l)) = []) -> spare l.
Proof. intros [H|[H1 H2]]; [now left|]. right. split; [exact H1|]. intros name L. apply language_exists in L. now apply L. Qed.
(* a feature in Haitian (the header may move), tags, a description, a table, a doc string with content that looks like a comment *)
Definition c63_a : str := text_of_lines
  [s "# language: ht"; s "@a @b"; s "Fonksyonalite: f"; s "  what"; s ""; s "  it is"; s "  Senaryo: s"; s "    Sipoze x"; s "      | 1 |"; s "      | 2 |"; s "    Le y"; s "    ```"; s "      # text"; s ""; s "    ```"].
Definition c63_b : str := text_of_lines
  [s ""; s "# about"; s "  # language: ht"; s "#"; s "      @a @b"; s "# no description"; s ""; s "Fonksyonalite: f"; s "  what"; s ""; s "  it is"; s ""; s "# here"; s "Senaryo: s"; s "# there"; s "Sipoze x"; s "| 1 |"; s "# row"; s ""; s "         | 2 |"; s " # step"; s "Le y"; s ""; s "    ```"; s "      # text"; s ""; s "    ```"; s "# end"; s ""].

Ltac spares := repeat (apply Forall_cons; [apply spare_case; first [left; vm_compute; reflexivity | right; split; vm_compute; reflexivity]|]); apply Forall_nil.
Ltac elem n m := eapply (element _ n m); [reflexivity | reflexivity | cbv [firstn]; spares | cbv [firstn]; spares | left; vm_compute; tauto
  | right; split; [vm_compute; reflexivity | intros sep [-> | ->] B; vm_compute in B; discriminate B] | cbv [skipn]].
Example C63_case : exists d f, parse_with false false (s "en") c63_a = Ok d /\ gd_feature d = Some f /\ same_layout f c63_a c63_b /\ c63_a <> c63_b.
Proof.
  do 2 eexists. split; [vm_compute; reflexivity|]. split; [reflexivity|]. split; [|vm_compute; discriminate].
  unfold same_layout. match goal with |- relaid (own_line ?f ?ls) ?ls ?ls' => set (own := own_line f ls); let x := eval vm_compute in ls in let y := eval vm_compute in ls' in change (relaid own x y) end.
  eapply (element own 0 2); [reflexivity | reflexivity | cbv [firstn]; spares | cbv [firstn]; spares | | right; split; [vm_compute; reflexivity | intros sep [-> | ->] B; vm_compute in B; discriminate B] | cbv [skipn]].
  { right. exists [], (skipn 1 (numbered_lines (split_lines c63_a))), [], (s "ht"). split; [vm_compute; reflexivity|]. split; [split; constructor|].
    exists [], (s " "), [], (s " "), [ch_nl]. split; [vm_compute; reflexivity|]. repeat split; discriminate. }
  elem 0 1. elem 0 2. do 3 (apply re_same; [reflexivity|]). elem 0 2. elem 0 1. elem 0 0. elem 0 2. elem 0 1.
  eapply (element own 0 1); [reflexivity | reflexivity | cbv [firstn]; spares | cbv [firstn]; spares | left; vm_compute; tauto | now left | cbv [skipn]].
  do 3 (apply re_same; [reflexivity|]). apply re_end; spares.
Qed.
