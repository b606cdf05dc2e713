(** * The order of the lines in Markdown: C43 *)
From Coq Require Import Sorting.Sorted.
From Verif Require Import PyStr PyStrFacts Types Regex Line DialectData Matcher Ast ParserTable Parser Classify Table Scan Grammar Deriv Cert Cst LineSpec StepFacts MdSpec MdFacts MdRun MdTree AnyRun WeakTree PropLine PropMarkdown PropMdParse MdFirst.

Lemma title_decides kws l : kws_ok kws = true -> one_line (g_text l) ->
  f_title md_header kws [ch_colon] l = Ok false <-> (forall k n c, ~ header_line kws (g_text l) k n c).
Proof.
  intros K O. pose proof (header_match kws TkRuleLine en_matcher (g_text l) (g_number l) (mkTok l 0 None None None [] None None 0%Z None) K O ltac:(now destruct l)) as M.
  unfold f_title. unfold md_match_title in M. cbn [t_line] in M. destruct (re_search _ _) as [[? ?]|].
  - destruct M as [_ [k [n [c [M _]]]]]. split; [discriminate|]. intros H. now apply H in M.
  - destruct M as [_ [_ M]]. now split.
Qed.
Lemma title_ok kws l : exists b, f_title md_header kws [ch_colon] l = Ok b.
Proof. unfold f_title. eauto. Qed.

Section Order.
Context (lines : list str) (Hl : lines_ok lines) (Ho : Forall one_line lines).
Context (nm : str) (d : dialect) (Hd : for_name nm = Some d) (D : str) (HD : In D delims).
Context (H_delim : Forall (delim_ok D) lines).
Context (H_tag : Forall (fun x => has_md_tag x -> forall k n c, ~ header_line (d_scenario d ++ d_scenarioOutline d ++ d_examples d) x k n c) lines).
Notation tb := (list token).
Definition la_kind (k : tok) : Prop := k = TkScenarioLine \/ k = TkExamplesLine.
Definition f_la (k : tok) : gline -> result bool := match k with TkScenarioLine => f_scenario d | _ => f_title md_header (d_examples d) [ch_colon] end.
Definition f_skip : gline -> result bool := f_or (f_or (f_empty d D) f_comment) f_tag.
Lemma kws_fine : kws_ok (d_scenario d) = true /\ kws_ok (d_scenarioOutline d) = true /\ kws_ok (d_examples d) = true.
Proof.
  pose proof (for_name_in _ _ Hd) as Hi. pose proof title_kws_ok as T. rewrite forallb_forall in T. specialize (T _ Hi). cbn [snd] in T. unfold title_kws in T. cbn [forallb] in T. rewrite !andb_true_iff in T. tauto.
Qed.
Definition no_header (x : str) : Prop := forall k n c, ~ header_line (d_scenario d ++ d_scenarioOutline d ++ d_examples d) x k n c.
Lemma no_header_la k l : one_line (g_text l) -> la_kind k -> no_header (g_text l) -> f_la k l = Ok false.
Proof.
  intros O Hk H. destruct kws_fine as [K1 [K2 K3]].
  assert (S1 : forall kws, incl kws (d_scenario d ++ d_scenarioOutline d ++ d_examples d) -> forall k n c, ~ header_line kws (g_text l) k n c).
  { intros kws I kw n c X. apply (H kw n c). eapply header_sub; eassumption. }
  destruct Hk as [-> | ->]; cbn [f_la]; unfold f_scenario, f_or.
  - rewrite (proj2 (title_decides _ _ K1 O)); [apply title_decides; auto|]; apply S1; intros a Ha; rewrite !in_app_iff; auto.
  - apply title_decides; auto. apply S1. intros a Ha; rewrite !in_app_iff; auto.
Qed.
Lemma header_hash kws x k n c : header_line kws x k n c -> exists y, lstrip x = ch_hash :: y.
Proof.
  intros [ind h c' k' rest e A B _ _ _ _ G]. destruct (header_text kws x ind h c' k' rest e A B G) as [-> _]. destruct h; [lia|]. cbn. eauto.
Qed.
Lemma skip_not_la k l : one_line (g_text l) -> (g_text l = [] \/ In (g_text l) lines) -> la_kind k -> f_skip l = Ok true -> f_la k l = Ok false.
Proof.
  intros O Hin Hk S. unfold f_skip, f_or in S.
  assert (Hblank : g_is_empty l = true -> f_la k l = Ok false).
  { intros E. apply no_header_la; auto. intros kw n c X. apply header_hash in X as [y X]. unfold g_is_empty, g_trimmed in E. rewrite X in E. discriminate E. }
  destruct (f_empty d D l) as [[|]|] eqn:E; [| |discriminate S].
  - unfold f_empty in E. destruct (f_any d D l) as [m|] eqn:A; [|discriminate E]. injection E as E. apply orb_true_iff in E as [E|E]; [|now apply Hblank].
    destruct m; [discriminate E|]. unfold f_any, f_or in A.
    destruct (f_tag l) as [[|]|]; try discriminate A. destruct (title_ok (d_background d) l) as [b1 B1]. destruct (title_ok (d_examples d) l) as [b2 B2]. rewrite B1, B2 in A.
    destruct (f_scenario d l) as [[|]|] eqn:Sc; try discriminate A.
    destruct b1; [discriminate A|]. destruct b2; [discriminate A|]. destruct Hk as [-> | ->]; cbn [f_la]; [exact Sc | exact B2].
  - destruct (f_comment l) as [[|]|] eqn:C; [| |discriminate S].
    + apply no_header_la; auto. intros kw n c X. apply header_hash in X as [y X]. unfold f_comment, g_startswith, g_trimmed in C. rewrite X in C. cbn in C. discriminate C.
    + apply no_header_la; auto. unfold f_tag in S. injection S as S. apply tag_in_iff in S. change (get_line_text l (-1)) with (lstrip (g_text l)) in S. apply (proj1 (has_tag_lstrip _)) in S.
      destruct Hin as [Hin|Hin]; [rewrite Hin in S; destruct S as [p [v [q [_ [_ X]]]]]; destruct p; discriminate X|]. rewrite Forall_forall in H_tag. exact (H_tag _ Hin S).
Qed.
Definition good (ms : mstate) : Prop := md_ready ms /\ ms_dialect ms = d /\ sep_in D ms.
Definition goodf (ms : mstate) : Prop := good ms /\ ms_feature ms = true.
Lemma line_delim t : of_line lines t -> delim_ok D (g_text (t_line t)).
Proof.
  intros [n [_ [E _]]]. rewrite E. cbn [g_text]. destruct (nth_in_or_default n lines []) as [H|H]; [rewrite Forall_forall in H_delim; now apply H_delim|].
  rewrite H. intros e X. discriminate X.
Qed.
Lemma line_in t : of_line lines t -> g_text (t_line t) = [] \/ In (g_text (t_line t)) lines.
Proof. intros [n [_ [E _]]]. rewrite E. cbn [g_text]. destruct (nth_in_or_default n lines []); auto. Qed.
Lemma line_one t : of_line lines t -> one_line (g_text (t_line t)).
Proof. intros [n [_ [E _]]]. rewrite E. apply nth_one, Ho. Qed.
Lemma calm_good ms t : goodf ms -> of_line lines t -> calm d D ms (t_line t).
Proof. intros [[_ [A B]] C] H. repeat split; auto. now apply line_delim. Qed.

(** one question of the parser *)
Lemma one_match k t (c : ctx tb) : good (c_ms c) -> of_line lines t ->
  match match_tok k t c with
  | (Ok (b, t'), c') => of_line lines t' /\ t_line t' = t_line t /\ t_loc_line t' = t_loc_line t /\
      (exists ms', c' = set_ms c ms' /\ good ms' /\ (ms_feature (c_ms c) = true -> ms_feature ms' = true) /\ (b = true -> k = TkFeatureLine -> ms_feature ms' = true) /\
         (b = true -> if t_eof t then k = TkEOF else k <> TkEOF)) /\
      (t_eof t = false -> forall f, agrees d D (md_match k) f -> ms_feature (c_ms c) = true -> f (t_line t) = Ok b) /\
      (t_eof t = true -> k <> TkEOF -> b = false /\ t' = t)
  | (Err _, c') => c_b c' = c_b c
  end.
Proof.
  intros [Hr [Hdd Hs]] Ht. unfold match_tok. destruct (negb (tok_eqb k TkEOF) && t_eof t) eqn:Te.
  - repeat split; auto.
    + exists (c_ms c). split; [now destruct c|]. split; [repeat split; auto; apply Hr|]. repeat split; auto; discriminate.
    + intros E. rewrite E, andb_false_r in Te. discriminate Te.
  - assert (Hk : k = TkEOF \/ t_eof t = false). { apply andb_false_iff in Te as [E|E]; [left|now right]. destruct k; try discriminate E. reflexivity. }
    pose proof (md_step lines Ho k (c_ms c) t Hr Ht Hk) as M. unfold do_match in *. rewrite (proj1 Hr) in *.
    pose proof (kept_match k (c_ms c) t) as [K1 K2 K3 K4 K5 K6 K7].
    assert (Hf : out (md_match k (c_ms c) t) = Ok true -> k = TkFeatureLine -> ms_feature (ms_of (md_match k (c_ms c) t)) = true).
    { intros E ->. cbn [md_match] in *. unfold md_match_FeatureLine in *. destruct (ms_feature (c_ms c)); [discriminate E|]. destruct (md_match_title _ _ _ _ _ _) as [[[[|]|] m] t0]; reflexivity. }
    assert (Ha : forall f, agrees d D (md_match k) f -> ms_feature (c_ms c) = true -> f (t_line t) = out (md_match k (c_ms c) t)).
    { intros f A F. destruct (A (c_ms c) t) as [A1 _]; [|now symmetry]. apply calm_good; [|exact Ht]. split; [repeat split; auto; apply Hr | exact F]. }
    pose proof (errors_match k (c_ms c) t) as Er. destruct (md_match k (c_ms c) t) as [[r ms'] t']. cbn [ms_of t_of out fst snd] in *. destruct M as [M1 [M2 [M3 M4]]].
    assert (G : good ms'). { split; [exact M1|]. split; [congruence|]. apply K7; auto. now apply line_delim. }
    destruct r as [b|e].
    + cbn [rbind]. unfold handle_external. destruct (c_stop (set_ms c ms')) eqn:St; cbn [rbind].
      all: split; [exact M2|]; split; [exact M3|]; split; [exact K2|]; split; [|split].
      all: try (exists ms'; repeat split; auto; try apply G; [intros -> E; now apply Hf | intros ->; destruct M4 as [_ [_ [_ [_ [W1 [W2 _]]]]]]; unfold t_eof in *; rewrite M3 in *; destruct (negb (g_bool (t_line t))); [destruct W1; congruence | intros ->; now specialize (W2 eq_refl)]]).
      all: try (intros _ f A F; now apply Ha).
      all: intros E Nk; destruct Hk as [Hk|Hk]; congruence.
    + cbn [rbind]. unfold handle_external.
      destruct (Er e eq_refl) as [-> _]. now destruct (c_stop (set_ms c ms')).
Qed.

(** ** The queue *)
Definition skippable (t : token) : Prop := t_eof t = false /\ f_skip (t_line t) = Ok true.
Definition seqd (n : nat) (l : list token) : Prop := forall i t, nth_error l i = Some t -> of_line lines t /\ t_loc_line t = S (n + i).
Record lined (n : nat) (c : ctx tb) : Prop := mkLined {
  ln_lines : c_lines c = skipn (n + length (c_queue c)) lines;
  ln_no : c_lineno c = n + length (c_queue c);
  ln_q : seqd n (c_queue c);
  ln_skip : Forall skippable (removelast (c_queue c)) }.
Lemma skip_tl (l : list str) : forall n, tl (skipn n l) = skipn (S n) l.
Proof. induction l as [|a l IH]; intros n; [now destruct n|]. destruct n; [reflexivity|]. exact (IH n). Qed.
Lemma skip_hd (l : list str) : forall n, hd [] (skipn n l) = nth n l [].
Proof. induction l as [|a l IH]; intros n; [now destruct n|]. destruct n; [reflexivity|]. exact (IH n). Qed.
Lemma eof_none n t : of_line lines t -> t_loc_line t = S n -> t_eof t = false -> n < length lines.
Proof.
  intros [m [H1 [H2 H3]]] E Te. assert (m = n) by lia. subst m. destruct (Nat.eq_dec n (length lines)) as [->|]; [|lia].
  unfold t_eof in Te. rewrite H2, nth_overflow in Te by lia. discriminate Te.
Qed.
Lemma match_skip t (c : ctx tb) : goodf (c_ms c) -> of_line lines t ->
  match match_any [TkEmpty; TkComment; TkTagLine] t c with
  | (Ok (b, t'), c') => of_line lines t' /\ t_line t' = t_line t /\ t_loc_line t' = t_loc_line t /\ (exists ms', c' = set_ms c ms' /\ goodf ms') /\
      (t_eof t = false -> f_skip (t_line t) = Ok b) /\ (t_eof t = true -> b = false)
  | (Err _, c') => c_b c' = c_b c
  end.
Proof.
  intros [G F] Ht. cbn [match_any].
  pose proof (one_match TkEmpty t c G Ht) as M1. destruct (match_tok TkEmpty t c) as [[[b1 t1]|] c1]; [|exact M1].
  destruct M1 as [A1 [A2 [A3 [[m1 [-> [G1 [F1 _]]]] [Q1 R1]]]]]. specialize (F1 F). fold (t_eof t) in *.
  assert (E1 : t_eof t = false -> f_empty d D (t_line t) = Ok b1) by (intros E; exact (Q1 E _ (agrees_empty d D HD) F)).
  destruct b1.
  { repeat split; auto; [exists m1; repeat split; auto; apply G1| |]. - intros E. unfold f_skip, f_or. rewrite E1 by exact E. reflexivity. - intros E. now apply R1. }
  assert (T1 : t_eof t1 = t_eof t) by (unfold t_eof; now rewrite A2).
  pose proof (one_match TkComment t1 (set_ms c m1) G1 A1) as M2. destruct (match_tok TkComment t1 (set_ms c m1)) as [[[b2 t2]|] c2]; [|exact M2].
  destruct M2 as [B1 [B2 [B3 [[m2 [-> [G2 [F2 _]]]] [Q2 R2]]]]]. specialize (F2 F1).
  assert (E2 : t_eof t = false -> f_comment (t_line t) = Ok b2) by (intros E; rewrite <- T1 in E; rewrite <- A2; exact (Q2 E _ (agrees_comment d D HD) F1)).
  destruct b2.
  { repeat split; auto; try congruence; [exists m2; split; [reflexivity|]; repeat split; auto; apply G2| |].
    - intros E. unfold f_skip, f_or. rewrite E1, E2 by exact E. reflexivity. - intros E. rewrite <- T1 in E. now apply R2. }
  assert (T2 : t_eof t2 = t_eof t) by (unfold t_eof; rewrite B2; exact T1).
  pose proof (one_match TkTagLine t2 (set_ms (set_ms c m1) m2) G2 B1) as M3. destruct (match_tok TkTagLine t2 (set_ms (set_ms c m1) m2)) as [[[b3 t3]|] c3]; [|exact M3].
  destruct M3 as [C1 [C2 [C3 [[m3 [-> [G3 [F3 _]]]] [Q3 R3]]]]]. specialize (F3 F2).
  assert (E3 : t_eof t = false -> f_tag (t_line t) = Ok b3) by (intros E; rewrite <- T2 in E; rewrite <- A2, <- B2; exact (Q3 E _ (agrees_tag d D HD) F2)).
  destruct b3; (split; [exact C1|]; split; [congruence|]; split; [congruence|]; split; [exists m3; split; [reflexivity | split; assumption]|]; split; intros E).
  - unfold f_skip, f_or. rewrite E1, E2, E3 by exact E. reflexivity.
  - rewrite <- T2 in E. now apply R3.
  - unfold f_skip, f_or. rewrite E1, E2, E3 by exact E. reflexivity.
  - reflexivity.
Qed.
Lemma la_agrees k : la_kind k -> agrees d D (md_match k) (f_la k).
Proof. intros [-> | ->]; [apply agrees_scenario; exact HD | apply (agrees_title d D HD md_header d_examples [ch_colon] TkExamplesLine)]. Qed.
Lemma seqd_snoc n l t : seqd n l -> of_line lines t -> t_loc_line t = S (n + length l) -> seqd n (l ++ [t]).
Proof.
  intros H A B i t0 E. destruct (Nat.lt_ge_cases i (length l)) as [L|L]; [rewrite nth_error_app1 in E by exact L; now apply H|].
  rewrite nth_error_app2 in E by exact L. destruct (i - length l) as [|j] eqn:Ei; [|destruct j; discriminate E]. injection E as <-. split; [exact A|]. rewrite B. f_equal. lia.
Qed.
Lemma seqd_app n l r : seqd n (l ++ r) <-> seqd n l /\ seqd (n + length l) r.
Proof.
  split.
  - intros H. split; intros i t E.
    + apply H. rewrite nth_error_app1; [exact E|]. apply nth_error_Some. congruence.
    + replace (n + length l + i) with (n + (length l + i)) by lia. apply H. rewrite nth_error_app2 by lia. now replace (length l + i - length l) with i by lia.
  - intros [A B] i t E. destruct (Nat.lt_ge_cases i (length l)) as [L|L]; [rewrite nth_error_app1 in E by exact L; now apply A|].
    rewrite nth_error_app2 in E by exact L. destruct (B _ _ E) as [B1 B2]. split; [exact B1|]. rewrite B2. f_equal. lia.
Qed.
Lemma la_ok k : la_kind k -> forall fuel acc (c : ctx tb) n, goodf (c_ms c) -> seqd n acc -> Forall skippable acc -> lined (n + length acc) c ->
  (c_queue c = [] -> n + length acc <= length lines) ->
  match lookahead_go k fuel acc c with
  | (Ok _, c') => goodf (c_ms c') /\ lined n c' /\ c_b c' = c_b c /\ c_errors c' = c_errors c /\ c_stop c' = c_stop c /\ c_queue c' <> []
  | (Err _, c') => c_b c' = c_b c
  end.
Proof.
  intros Hk. induction fuel as [|fuel IH]; intros acc c n G Sa Ka [L1 L2 L3 L4] Hq; [reflexivity|]. cbn [lookahead_go].
  assert (Rd : exists t c1, read_token c = (t, c1) /\ c_ms c1 = c_ms c /\ c_b c1 = c_b c /\ c_errors c1 = c_errors c /\ c_stop c1 = c_stop c /\ of_line lines t /\ t_loc_line t = S (n + length acc) /\ lined (n + S (length acc)) c1 /\
    (c_queue c1 <> [] -> skippable t)).
  { unfold read_token. destruct (c_queue c) as [|t qs] eqn:Eq.
    - eexists _, _. split; [reflexivity|]. repeat (split; [reflexivity|]). specialize (Hq eq_refl). cbn [length] in L1, L2. rewrite Nat.add_0_r in L1, L2.
      split; [|split; [|split; [|intros X; now destruct X]]].
      + rewrite L1, skip_hd, L2. exists (n + length acc). repeat split. exact Hq.
      + cbn. now rewrite L2.
      + constructor; cbn [c_lines c_lineno c_queue length removelast]; [rewrite L1, skip_tl; f_equal; lia | lia | intros [|i] t0 E; discriminate E | constructor].
    - eexists _, _. split; [reflexivity|]. repeat (split; [reflexivity|]). cbn [length] in L1, L2. destruct (L3 0 t eq_refl) as [O1 O2].
      split; [exact O1|]. split; [rewrite O2; f_equal; lia|]. split.
      + constructor; cbn [c_lines c_lineno c_queue set_queue]; [rewrite L1; f_equal; lia | rewrite L2; lia | |].
        * intros i t0 E. destruct (L3 (S i) t0 E) as [P1 P2]. split; [exact P1|]. rewrite P2. f_equal. lia.
        * destruct qs; [constructor|]. now inversion L4.
      + cbn. intros Nq. destruct qs; [congruence|]. now inversion L4. }
  destruct Rd as [t [c1 [-> [Rm [Rb [Re [Rs [O1 [O2 [L Sk]]]]]]]]]]. rewrite <- Rm in G. pose proof G as [Gg Gf].
  pose proof (one_match k t c1 Gg O1) as M1. destruct (match_tok k t c1) as [[[b1 t1]|] c2]; [|congruence].
  destruct M1 as [A1 [A2 [A3 [[m1 [-> [G1 [F1 [_ Eb]]]]] [Q1 R1]]]]]. specialize (F1 Gf).
  assert (Kf : t_eof t = false -> f_la k (t_line t) = Ok b1) by (intros E; apply (Q1 E _ (la_agrees k Hk) Gf)).
  assert (Ke : t_eof t = true -> b1 = false) by (intros E; apply R1; [exact E | destruct Hk as [-> | ->]; discriminate]).
  assert (Put : forall t' m', of_line lines t' -> t_loc_line t' = t_loc_line t -> goodf m' -> c_queue c1 = [] ->
    let c' := set_queue (set_ms c1 m') (c_queue (set_ms c1 m') ++ acc ++ [t']) in
    goodf (c_ms c') /\ lined n c' /\ c_b c' = c_b c /\ c_errors c' = c_errors c /\ c_stop c' = c_stop c /\ c_queue c' <> []).
  { intros t' m' P1 P2 P3 P4. cbn [c_ms c_b c_errors c_stop c_queue set_queue set_ms]. rewrite P4. cbn [app]. destruct L as [L5 L6 _ _]. rewrite P4 in L5, L6. cbn [length] in L5, L6.
    split; [exact P3|]. split; [|repeat split; auto; now destruct acc]. constructor; cbn [c_lines c_lineno c_queue set_queue set_ms]; rewrite ?app_length; cbn [length].
    - rewrite L5. f_equal. lia.
    - rewrite L6. lia.
    - apply seqd_snoc; auto. now rewrite P2.
    - now rewrite removelast_last. }
  destruct b1.
  { apply Put; auto; [split; auto|]. destruct (c_queue c1) as [|u us] eqn:Eq; [reflexivity|]. destruct (Sk ltac:(discriminate)) as [S1 S2].
    pose proof (skip_not_la k (t_line t) (line_one t O1) (line_in t O1) Hk S2) as Z. rewrite (Kf S1) in Z. discriminate Z. }
  assert (T1 : t_eof t1 = t_eof t) by (unfold t_eof; now rewrite A2).
  pose proof (match_skip t1 (set_ms c1 m1) (Logic.conj G1 F1) A1) as M2. destruct (match_any _ t1 (set_ms c1 m1)) as [[[b2 t2]|] c3]; [|cbn in M2; congruence].
  destruct M2 as [B1 [B2 [B3 [[m2 [-> G2]] [Q2 R2]]]]]. rewrite T1, A2 in *. destruct b2.
  - assert (Te : t_eof t = false). { destruct (t_eof t); [now specialize (R2 eq_refl) | reflexivity]. }
    specialize (IH (acc ++ [t2]) (set_ms (set_ms c1 m1) m2) n G2).
    assert (La : n + length (acc ++ [t2]) = n + S (length acc)) by (rewrite app_length; cbn; lia). rewrite La in IH.
    specialize (IH ltac:(apply seqd_snoc; auto; congruence)).
    specialize (IH ltac:(apply Forall_app; split; [exact Ka|]; constructor; [|constructor]; split; [unfold t_eof; rewrite B2, ?A2; exact Te | rewrite B2; try rewrite A2; auto])).
    specialize (IH ltac:(destruct L; constructor; assumption)).
    specialize (IH ltac:(intros _; pose proof (eof_none _ _ O1 O2 Te); lia)).
    destruct (lookahead_go k fuel (acc ++ [t2]) (set_ms (set_ms c1 m1) m2)) as [[r|] c4]; cbn in IH |- *; [|congruence].
    destruct IH as [I1 [I2 [I3 [I4 [I5 I6]]]]]. split; [exact I1|]. split; [exact I2|]. repeat split; congruence.
  - apply (Put t2 m2); auto; [congruence|]. destruct (c_queue c1) as [|u us] eqn:Eq; [reflexivity|]. destruct (Sk ltac:(discriminate)) as [S1 S2]. rewrite (Q2 S1) in S2. discriminate S2.
Qed.

(** ** The transitions *)
Lemma fmt_acts t acts : forall (c : ctx tb), do_acts fmt_builder t acts c = (Ok tt, set_b c (c_b c ++ map (fun _ => t) (builds acts))).
Proof.
  induction acts as [|a acts IH]; intros c; cbn [do_acts].
  - cbn. rewrite app_nil_r. now destruct c.
  - assert (E : do_act fmt_builder t a c = (Ok tt, set_b c (c_b c ++ map (fun _ => t) (builds [a])))).
    { unfold do_act, handle_external. destruct c as [? ? ? ? ? ? st]. destruct a; cbn; rewrite ?app_nil_r; now destruct st. }
    rewrite E, IH. destruct c. cbn. f_equal. unfold set_b. cbn. f_equal. rewrite <- app_assoc. f_equal. rewrite <- map_app. f_equal. unfold builds. now destruct a.
Qed.
Lemma lined_eq n (c c' : ctx tb) : c_lines c' = c_lines c -> c_lineno c' = c_lineno c -> c_queue c' = c_queue c -> lined n c -> lined n c'.
Proof. intros A B C [L1 L2 L3 L4]. constructor; rewrite ?A, ?B, ?C; assumption. Qed.
Lemma try_ok st q : ptable q = Some st -> forall trs, incl trs (st_trans st) -> forall t (c : ctx tb) n, good (c_ms c) -> (ms_feature (c_ms c) = true \/ Forall (fun tr => tr_la tr = None) trs) ->
  of_line lines t -> t_loc_line t = S n -> lined (S n) c -> (c_queue c = [] -> t_eof t = false -> S n <= length lines) ->
  match try_trans fmt_builder trs t c with
  | (Ok (Some q', t'), c') => (exists tr, In tr trs /\ q' = tr_next tr /\ (ms_feature (c_ms c') = true \/ (tr_tok tr <> TkFeatureLine /\ (tr_tok tr = TkEOF -> t_eof t = true)))) /\
      good (c_ms c') /\ lined (S n) c' /\ (ms_feature (c_ms c) = true -> ms_feature (c_ms c') = true) /\ c_errors c' = c_errors c /\ (exists t1, c_b c' = c_b c ++ [t1] /\ t_loc_line t1 = S n)
  | (Ok (None, t'), c') => good (c_ms c') /\ lined (S n) c' /\ (ms_feature (c_ms c) = true -> ms_feature (c_ms c') = true) /\ c_errors c' = c_errors c /\ c_b c' = c_b c
  | (Err _, c') => c_b c' = c_b c
  end.
Proof.
  intros Hq. induction trs as [|tr trs IH]; intros Hi t c n G F Ht Hn L Hb; cbn [try_trans]; [auto|].
  pose proof (one_match (tr_tok tr) t c G Ht) as M. destruct (match_tok (tr_tok tr) t c) as [[[b t1]|] c1]; [|exact M].
  destruct M as [A1 [A2 [A3 [[m1 [-> [G1 [F1 [F2 Eb]]]]] [Q1 R1]]]]].
  assert (L1 : lined (S n) (set_ms c m1)) by (apply (lined_eq _ c); auto).
  assert (T1 : t_eof t1 = t_eof t) by (unfold t_eof; now rewrite A2).
  destruct b.
  - specialize (F2 eq_refl). specialize (Eb eq_refl).
    assert (La : match do_lookahead (tr_la tr) (set_ms c m1) with
      | (Ok _, c2) => good (c_ms c2) /\ (ms_feature m1 = true -> ms_feature (c_ms c2) = true) /\ lined (S n) c2 /\ c_b c2 = c_b c /\ c_errors c2 = c_errors c /\ (c_queue c2 = [] -> t_eof t = false -> S n <= length lines)
      | (Err _, c2) => c_b c2 = c_b c end).
    { unfold do_lookahead. destruct (tr_la tr) as [la|] eqn:El; [|split; [exact G1|]; split; [auto|]; split; [exact L1|]; split; [reflexivity|]; split; [reflexivity|]; exact Hb].
      assert (Fl : ms_feature (c_ms c) = true) by (destruct F as [F|F]; [exact F | inversion F; congruence]).
      assert (Te : t_eof t = false).
      { destruct (t_eof t); [|reflexivity]. exfalso. assert (C : all_states (fun _ st => forallb (fun tr => match tr_la tr, tr_tok tr with Some _, TkEOF => false | _, _ => true end) (st_trans st)) = true) by (vm_compute; reflexivity).
        pose proof (all_states_spec _ C q st Hq) as C2. cbn beta in C2. rewrite forallb_forall in C2. specialize (C2 tr (Hi tr (or_introl eq_refl))). now rewrite El, Eb in C2. }
      pose proof (la_ok (la_tok la) ltac:(destruct la; [now left | now right]) (S (length (c_queue (set_ms c m1)) + length (c_lines (set_ms c m1)))) [] (set_ms c m1) (S n) (Logic.conj G1 (F1 Fl))) as P.
      specialize (P ltac:(intros [|i] t0 E; discriminate E) ltac:(constructor)). cbn [length] in P. rewrite Nat.add_0_r in P. specialize (P L1 ltac:(intros E; apply Hb; auto)).
      destruct (lookahead_go _ _ _ _) as [[r|] c2]; [|exact P]. destruct P as [[P1 P2] [P3 [P4 [P5 [P6 P7]]]]]. split; [exact P1|]. split; [intros _; exact P2|]. split; [exact P3|]. split; [exact P4|]. split; [exact P5|]. intros X; contradiction. }
    destruct (do_lookahead (tr_la tr) (set_ms c m1)) as [[r|] c2]; [|exact La]. destruct La as [La1 [La2 [La3 [La4 [La5 La6]]]]]. destruct r.
    + rewrite fmt_acts. cbn [c_ms c_errors c_b set_b]. split.
      * exists tr. split; [now left|]. split; [reflexivity|]. destruct (ms_feature (c_ms c2)) eqn:E2; [now left|]. right. split; [intros E; specialize (La2 (F2 E)); congruence|].
        intros E. destruct (t_eof t); [reflexivity | contradiction].
      * split; [exact La1|]. split; [apply (lined_eq _ c2); auto|]. split; [auto|]. split; [exact La5|]. exists t1.
        rewrite (order_builds q st tr Hq (Hi tr (or_introl eq_refl))). rewrite La4. split; [reflexivity | congruence].
    + specialize (IH ltac:(intros a Ha; apply Hi; now right) t1 c2 n La1).
      specialize (IH ltac:(destruct F as [F|F]; [left; auto | right; now inversion F]) A1 ltac:(congruence) La3 ltac:(rewrite T1; exact La6)).
      destruct (try_trans fmt_builder trs t1 c2) as [[[[q'|] t']|] c']; rewrite La4, ?La5, ?T1 in IH.
      * destruct IH as [[tr' [I1 I2]] [I3 [I4 [I5 [I6 I7]]]]]. split; [exists tr'; split; [now right | exact I2]|]. repeat (split; [auto|]). exact I7.
      * destruct IH as [I3 [I4 [I5 [I6 I7]]]]. repeat (split; [auto|]). exact I7.
      * exact IH.
  - specialize (IH ltac:(intros a Ha; apply Hi; now right) t1 (set_ms c m1) n G1).
    specialize (IH ltac:(destruct F as [F|F]; [left; auto | right; now inversion F]) A1 ltac:(congruence) L1 ltac:(rewrite T1; exact Hb)).
    destruct (try_trans fmt_builder trs t1 (set_ms c m1)) as [[[[q'|] t']|] c']; rewrite ?T1 in IH; cbn [c_b c_errors c_ms set_ms] in IH.
    + destruct IH as [[tr' [I1 I2]] [I3 [I4 [I5 [I6 I7]]]]]. split; [exists tr'; split; [now right | exact I2]|]. repeat (split; [auto|]). exact I7.
    + destruct IH as [I3 [I4 [I5 [I6 I7]]]]. repeat (split; [auto|]). exact I7.
    + exact IH.
Qed.

(** ** The run *)
Definition early (q : nat) : bool := match q with 0 | 1 | 2 => true | _ => false end.
Lemma early_trans q st tr : ptable q = Some st -> early q = true -> In tr (st_trans st) -> tr_la tr = None /\ (tr_tok tr = TkFeatureLine \/ tr_tok tr = TkEOF \/ early (tr_next tr) = true).
Proof.
  intros Hq He Hi. assert (C : all_states (fun q st => negb (early q) || forallb (fun tr => match tr_la tr with None => true | _ => false end && (tok_eqb (tr_tok tr) TkFeatureLine || tok_eqb (tr_tok tr) TkEOF || early (tr_next tr))) (st_trans st)) = true) by (vm_compute; reflexivity).
  pose proof (all_states_spec _ C q st Hq) as C2. cbn beta in C2. rewrite He in C2. cbn [negb orb] in C2. rewrite forallb_forall in C2. specialize (C2 tr Hi). apply andb_true_iff in C2 as [C3 C4].
  split; [now destruct (tr_la tr)|]. rewrite !orb_true_iff in C4. destruct C4 as [[C4|C4]|C4]; [left|right; left|now right; right]; destruct (tr_tok tr); try discriminate C4; reflexivity.
Qed.
Lemma self_state q st : ptable q = Some st -> st_self st = q.
Proof.
  intros Hq. assert (C : all_states (fun q st => Nat.eqb (st_self st) q) = true) by (vm_compute; reflexivity). now apply Nat.eqb_eq, (all_states_spec _ C q st).
Qed.
Definition built (n : nat) (c : ctx tb) : Prop :=
  StronglySorted lt (map t_loc_line (c_b c)) /\ Forall (fun i => i <= n) (map t_loc_line (c_b c)) /\ (c_errors c = [] -> map t_loc_line (c_b c) = seq 1 n).
Lemma sorted_snoc l x : StronglySorted lt l -> Forall (fun i => i < x) l -> StronglySorted lt (l ++ [x]).
Proof.
  induction 1 as [|a l S IH F]; intros H; cbn; [repeat constructor|]. inversion H; subst. constructor; [now apply IH|]. apply Forall_app. split; [exact F | now repeat constructor].
Qed.
Lemma built_snoc n (c c' : ctx tb) t : built n c -> c_b c' = c_b c ++ [t] -> t_loc_line t = S n -> c_errors c' = c_errors c -> built (S n) c'.
Proof.
  intros [B1 [B2 B3]] E Et Ee. unfold built. rewrite E, map_app, Ee. cbn [map]. rewrite Et. split; [|split].
  - apply sorted_snoc; [exact B1|]. eapply Forall_impl; [|exact B2]. cbn. intros; lia.
  - apply Forall_app. split; [eapply Forall_impl; [|exact B2]; cbn; intros; lia | repeat constructor; lia].
  - intros X. rewrite (B3 X). now rewrite seq_S.
Qed.
Lemma add_error_b e (c : ctx tb) : c_b (snd (add_error e c)) = c_b c /\ lined = lined.
Proof. unfold add_error. destruct (existsb _ _); [auto|]. destruct (Nat.ltb _ _); auto. Qed.
Definition final (r : result unit * ctx tb) : Prop :=
  StronglySorted lt (map t_loc_line (c_b (snd r))) /\ (forall u, fst r = Ok u -> c_errors (snd r) = [] -> map t_loc_line (c_b (snd r)) = seq 1 (S (length lines))).
Lemma loop_ok fuel : forall q (c : ctx tb) n, good (c_ms c) -> (ms_feature (c_ms c) = true \/ early q = true) -> lined n c -> n <= length lines -> built n c ->
  final (parse_loop fmt_builder fuel q c).
Proof.
  induction fuel as [|fuel IH]; intros q c n G F L Hn B; [split; [apply B | discriminate]|]. cbn [parse_loop].
  assert (Rd : exists t c1, read_token c = (t, c1) /\ c_ms c1 = c_ms c /\ c_b c1 = c_b c /\ c_errors c1 = c_errors c /\ of_line lines t /\ t_loc_line t = S n /\ lined (S n) c1 /\ (t_eof t = false -> n < length lines)).
  { destruct L as [L1 L2 L3 L4]. unfold read_token. destruct (c_queue c) as [|t qs] eqn:Eq.
    - cbn [length] in L1, L2. rewrite Nat.add_0_r in L1, L2. eexists _, _. split; [reflexivity|]. repeat (split; [reflexivity|]).
      assert (O : of_line lines (new_token (hd [] (c_lines c)) (S (c_lineno c)))) by (rewrite L1, skip_hd, L2; exists n; repeat split; exact Hn).
      split; [exact O|]. assert (O2 : t_loc_line (new_token (hd [] (c_lines c)) (S (c_lineno c))) = S n) by (cbn; now rewrite L2). split; [exact O2|]. split; [|intros Te; eapply eof_none; eassumption].
      constructor; cbn [Parser.c_lines Parser.c_lineno Parser.c_queue length removelast]; [rewrite L1, skip_tl; f_equal; lia | lia | intros [|i] t0 E; discriminate E | constructor].
    - cbn [length] in L1, L2. eexists _, _. split; [reflexivity|]. repeat (split; [reflexivity|]). destruct (L3 0 t eq_refl) as [O1 O2]. rewrite Nat.add_0_r in O2. split; [exact O1|]. split; [exact O2|].
      split; [|intros Te; eapply eof_none; eassumption]. constructor; cbn [Parser.c_lines Parser.c_lineno Parser.c_queue set_queue]; [rewrite L1; f_equal; lia | rewrite L2; lia | |].
      + intros i t0 E. destruct (L3 (S i) t0 E) as [P1 P2]. split; [exact P1|]. rewrite P2. f_equal. lia.
      + destruct qs; [constructor|]. now inversion L4. }
  destruct Rd as [t [c1 [-> [Rm [Rb [Re [O1 [O2 [L1 Ll]]]]]]]]]. rewrite <- Rm in G, F. assert (B1 : built n c1) by (unfold built; rewrite Rb, Re; exact B).
  unfold match_token. destruct (ptable q) as [st|] eqn:Hq; [|split; [apply B1 | discriminate]].
  pose proof (try_ok st q Hq (st_trans st) (incl_refl _) t c1 n G) as T.
  specialize (T ltac:(destruct F as [F|F]; [now left | right; apply Forall_forall; intros tr Hi; now apply (early_trans q st tr Hq F)]) O1 O2 L1 ltac:(intros _ Te; specialize (Ll Te); lia)).
  destruct (try_trans fmt_builder (st_trans st) t c1) as [[[[q'|] t']|e] c2].
  - destruct T as [[tr [I1 [-> I2]]] [G2 [L2 [F2 [E2 [t1 [T1 T2]]]]]]]. pose proof (built_snoc n c1 c2 t1 B1 T1 T2 E2) as B2.
    destruct (t_eof t) eqn:Te.
    + split; [apply B2|]. intros u _ X. cbn [snd] in *. replace (length lines) with n; [apply B2; exact X|].
      destruct O1 as [m [M1 [M2 M3]]]. assert (m = n) by lia. subst m. unfold t_eof in Te. rewrite M2 in Te. destruct (Nat.eq_dec n (length lines)) as [|Ne]; [assumption|]. exfalso.
      assert (Hlt : n < length lines) by lia. pose proof (line_ne lines Hl n Hlt) as Hx. unfold g_bool in Te. cbn [g_text] in Te. now destruct (nth n lines []).
    + apply (IH _ c2 (S n) G2); [|exact L2|specialize (Ll eq_refl); lia|exact B2].
      destruct F as [F|F]; [left; auto|]. destruct I2 as [I2|[I2 I3]]; [now left|]. right. destruct (early_trans q st tr Hq F I1) as [_ [E|[E|E]]]; [contradiction|specialize (I3 E); discriminate I3|exact E].
  - destruct T as [G2 [L2 [F2 [E2 T1]]]].
    assert (B2 : forall c', c_b c' = c_b c2 -> c_errors c' <> [] -> built (S n) c').
    { intros c' X Y. unfold built. rewrite X, T1. split; [apply B1|]. split; [|contradiction]. eapply Forall_impl; [|apply B1]. cbn. intros; lia. }
    destruct (c_stop c2); [split; [cbn [snd]; rewrite T1; apply B1 | discriminate]|]. unfold add_error.
    destruct (existsb _ _) eqn:Ex; [|destruct (Nat.ltb _ _)].
    + assert (Ne : c_errors c2 <> []) by (intros X; rewrite X in Ex; discriminate Ex). destruct (t_eof t) eqn:Te; [split; [now apply B2 | intros u _ X; contradiction]|].
      rewrite (self_state q st Hq). apply (IH q c2 (S n) G2); [destruct F; [left|right]; auto|exact L2|specialize (Ll eq_refl); lia|now apply B2].
    + split; [cbn [snd]; cbn; rewrite T1; apply B1 | discriminate].
    + assert (Ne : c_errors c2 ++ [settled (unexpected t' (st_expected st))] <> []) by (now destruct (c_errors c2)).
      destruct (t_eof t) eqn:Te; [split; [now apply (B2 (set_errors c2 (c_errors c2 ++ [settled (unexpected t' (st_expected st))]))) | intros u _ X; contradiction]|].
      rewrite (self_state q st Hq). apply (IH q (set_errors c2 (c_errors c2 ++ [settled (unexpected t' (st_expected st))])) (S n)); [exact G2|destruct F; [left|right]; auto|now apply (lined_eq _ c2)|specialize (Ll eq_refl); lia|now apply B2].
  - split; [cbn [snd]; rewrite T; apply B1 | discriminate].
Qed.
End Order.
