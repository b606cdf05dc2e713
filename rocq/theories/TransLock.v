(** * Two runs of the parser side by side, in both notations (for C68) *)
From Verif Require Import PyStr PyStrFacts Types Regex Line DialectData Matcher Ast ParserTable Parser TransSpec Flat TransFacts TransBoth.

(** ** The builder *)
Section Lock.
Context (lang : str) (d : dialect) (Hd : for_name lang = Some d).
Local Notation RM := (RM lang d).
Local Notation RT := (RT d).
Implicit Types c : ctx astb.

Definition filed_all (l : list node) : Prop := Forall (fun n => filed_subs (n_subs n)) l.
Record RB (b b' : astb) : Prop := mkRB {
  rb_stack : map (flat_node d) (ab_stack b) = map (flat_node d) (ab_stack b');
  rb_comments : map plain_comment (ab_comments b) = map plain_comment (ab_comments b');
  rb_ids : ab_ids b = ab_ids b';
  rb_filed : filed_all (ab_stack b); rb_filed' : filed_all (ab_stack b') }.

(** the outcomes: related, or both raised, or one of them is a TypeError *)
Definition lr {A S} (P : A -> S -> A -> S -> Prop) (x y : result A * S) : Prop :=
  match x, y with
  | (Ok a, c), (Ok a', c') => P a c a' c'
  | (Err _, _), (Err _, _) => True
  | (Err e, _), (Ok _, _) | (Ok _, _), (Err e, _) => e = ETypeError
  end.

Lemma flat_add n k i : flat_node d (n_add n k i) = n_add (flat_node d n) k (flat_item d i).
Proof. unfold flat_node, n_add, flat_subs. cbn [n_rule n_subs]. now rewrite map_app. Qed.
Lemma filed_add n k i : filed_subs (n_subs n) -> filed (k, i) -> filed_item i -> filed_subs (n_subs (n_add n k i)).
Proof. intros H F1 F2. unfold n_add, filed_subs. cbn [n_subs]. apply Forall_app. split; [exact H|]. repeat constructor; assumption. Qed.
Lemma transform_filed n comments id i id' : filed_subs (n_subs n) -> transform_node n comments id = (Ok i, id') -> filed_item i /\ forall t, i <> ITok t.
Proof.
  intros F E. assert (D : (exists r subs, i = INode r subs) \/ (forall t, i <> ITok t) /\ (forall r subs, i <> INode r subs)).
  { destruct i; try (right; split; intros; discriminate); [exfalso | left; eauto].
    revert E. unfold transform_node. destruct (n_rule n); repeat (match goal with |- context [match ?x with _ => _ end] => destruct x end); try discriminate. }
  destruct D as [[r [subs ->]] | [D1 D2]]; [|split; [destruct i; try exact I; now destruct (D2 r subs) | exact D1]].
  split; [|intros; discriminate]. assert (X : r = n_rule n /\ subs = n_subs n).
  { revert E. unfold transform_node. destruct (n_rule n); repeat (match goal with |- context [match ?x with _ => _ end] => destruct x end); intros E; try discriminate E; injection E; intros; subst; split; reflexivity. }
  destruct X as [-> ->]. now apply filed_node.
Qed.
Definition mated (k : tok) (t t' : token) : Prop := flat_tok d t = flat_tok d t' /\ t_mtype t = Some k /\ t_mtype t' = Some k.
Definition act_of (t : token) (a : act) (b : astb) : result unit * astb :=
  match a with AStart r => ab_start_rule r b | AEnd r => ab_end_rule r b | ABuild => ab_build t b end.
Lemma build_rel k t t' b b' : mated k t t' -> RB b b' -> lr (fun _ x _ y => RB x y) (ab_build t b) (ab_build t' b').
Proof.
  intros [M1 [M2 M3]] [S C I F F']. unfold ab_build. rewrite M2, M3.
  assert (L : t_loc_line t = t_loc_line t') by (apply (f_equal t_loc_line) in M1; exact M1).
  assert (N : forall n n', flat_node d n = flat_node d n' -> forall st st', map (flat_node d) st = map (flat_node d) st' -> filed_all (n :: st) -> filed_all (n' :: st') ->
    RB (mkAb (n_add n (KTok k) (ITok t) :: st) (ab_comments b) (ab_ids b)) (mkAb (n_add n' (KTok k) (ITok t') :: st') (ab_comments b') (ab_ids b'))).
  { intros n n' E st st' Es Fn Fn'. inversion Fn as [|? ? G1 G2]. inversion Fn' as [|? ? G1' G2']. subst. constructor; cbn [ab_stack ab_comments ab_ids]; auto.
    - cbn [map]. rewrite !flat_add, E, Es. cbn [flat_item]. now rewrite M1.
    - constructor; [|exact G2]. apply filed_add; [exact G1 | | exact Logic.I]. intros t0 E0. injection E0 as <-. exact M2.
    - constructor; [|exact G2']. apply filed_add; [exact G1' | | exact Logic.I]. intros t0 E0. injection E0 as <-. exact M3. }
  destruct (tok_eqb k TkComment) eqn:K.
  - destruct k; try discriminate K. cbn [lr]. constructor; cbn [ab_stack ab_comments ab_ids]; auto. rewrite !map_app, C. unfold plain_comment, t_location, line_only. cbn. now rewrite L.
  - destruct (ab_stack b) as [|n st], (ab_stack b') as [|n' st']; try discriminate S.
    + destruct k; try discriminate K; exact Logic.I.
    + cbn [map] in S. injection S as S1 S2 S3. assert (E : flat_node d n = flat_node d n') by (unfold flat_node; congruence).
      specialize (N n n' E st st' S3 F F'). destruct k; try discriminate K; exact N.
Qed.
Lemma end_rel r b b' : RB b b' -> lr (fun _ x _ y => RB x y) (ab_end_rule r b) (ab_end_rule r b').
Proof.
  intros [S C I F F']. unfold ab_end_rule.
  destruct (ab_stack b) as [|n [|p st]], (ab_stack b') as [|n' [|p' st']]; try discriminate S; try exact Logic.I.
  cbn [map] in S. assert (En : flat_node d n = flat_node d n') by congruence. assert (Ep : flat_node d p = flat_node d p') by congruence. assert (Es : map (flat_node d) st = map (flat_node d) st') by congruence. clear S.
  inversion F as [|? ? G1 G2]. inversion F' as [|? ? G1' G2']. inversion G2 as [|? ? G3 G4]. inversion G2' as [|? ? G3' G4']. subst.
  destruct (transform_flat d n (ab_comments b) (ab_ids b) G1) as [A1 A2]. destruct (transform_flat d n' (ab_comments b') (ab_ids b') G1') as [B1 B2].
  rewrite <- En, <- C, <- I in B1, B2.
  pose proof (transform_filed n (ab_comments b) (ab_ids b)) as T. pose proof (transform_filed n' (ab_comments b') (ab_ids b')) as T'. rewrite <- I in *.
  destruct (transform_node n (ab_comments b) (ab_ids b)) as [r1 i1], (transform_node n' (ab_comments b') (ab_ids b)) as [r2 i2].
  destruct (transform_node (flat_node d n) (map plain_comment (ab_comments b)) (ab_ids b)) as [rf jf]. cbn [fst snd] in *.
  destruct r1 as [x|e1], r2 as [x'|e2]; cbn [lr]; try exact Logic.I.
  - destruct rf as [y|]; [|contradiction]. cbn [agree] in A1, B1. destruct (T x i1 G1 eq_refl) as [T1 T2]. destruct (T' x' i2 G1' eq_refl) as [T1' T2'].
    assert (Er : n_rule n = n_rule n') by (apply (f_equal n_rule) in En; exact En). constructor; cbn [ab_stack ab_comments ab_ids]; auto.
    + cbn [map]. rewrite !flat_add, Ep, Es, Er. do 2 f_equal. congruence.
    + rewrite <- (A2 ltac:(discriminate)), <- (B2 ltac:(discriminate)). reflexivity.
    + constructor; [|exact G4]. apply filed_add; [exact G3 | | exact T1]. intros t0 E0. now destruct (T2 t0).
    + constructor; [|exact G4']. apply filed_add; [exact G3' | | exact T1']. intros t0 E0. now destruct (T2' t0).
  - destruct rf; [|contradiction]. destruct e2; try reflexivity; contradiction.
  - destruct rf; [|contradiction]. destruct e1; try reflexivity; contradiction.
Qed.
Lemma act_rel k t t' a b b' : mated k t t' -> RB b b' -> lr (fun _ x _ y => RB x y) (act_of t a b) (act_of t' a b').
Proof.
  intros M R. destruct a as [r|r|]; cbn [act_of]; [|now apply end_rel | now apply (build_rel k)].
  destruct R as [S C I F F']. cbn. constructor; cbn [ab_stack ab_comments ab_ids]; auto.
  - cbn [map]. now rewrite S.
  - constructor; [constructor | exact F].
  - constructor; [constructor | exact F'].
Qed.

(** ** The parser *)
Inductive F3 {A B C} (R : A -> B -> C -> Prop) : list A -> list B -> list C -> Prop :=
| F3_nil : F3 R [] [] []
| F3_cons x y z lx ly lz : R x y z -> F3 R lx ly lz -> F3 R (x :: lx) (y :: ly) (z :: lz).
Lemma F3_app {A B C} (R : A -> B -> C -> Prop) x1 y1 z1 x2 y2 z2 : F3 R x1 y1 z1 -> F3 R x2 y2 z2 -> F3 R (x1 ++ x2) (y1 ++ y2) (z1 ++ z2).
Proof. induction 1; intros H2; [exact H2|]. cbn [app]. constructor; auto. Qed.
Lemma F3_len {A B C} (R : A -> B -> C -> Prop) x y z : F3 R x y z -> length y = length x /\ length z = length x.
Proof. induction 1 as [|? ? ? ? ? ? ? ? [IH1 IH2]]; cbn; [auto|]. now rewrite IH1, IH2. Qed.

Record sim (σ : phase) (qk : list (option kind)) (lk : list kind) c c' : Prop := mkSim {
  sm_queue : F3 RT qk (c_queue c) (c_queue c');
  sm_lines : F3 (stands d) lk (c_lines c) (c_lines c');
  sm_no : c_lineno c = c_lineno c';
  sm_ms : RM σ (c_ms c) (c_ms c');
  sm_b : RB (c_b c) (c_b c');
  sm_stop : c_stop c = true; sm_stop' : c_stop c' = true;
  sm_err : c_errors c = []; sm_err' : c_errors c' = [] }.
Definition pop (qk : list (option kind)) (lk : list kind) : option kind * list (option kind) * list kind :=
  match qk, lk with
  | κ :: q, _ => (κ, q, lk)
  | [], κ :: l => (Some κ, [], l)
  | [], [] => (None, [], [])
  end.
Lemma read_sim σ qk lk c c' : sim σ qk lk c c' ->
  let '(κ, q, l) := pop qk lk in
  RT κ (fst (read_token c)) (fst (read_token c')) /\ sim σ q l (snd (read_token c)) (snd (read_token c')).
Proof.
  intros [Q L N M B S S' Er Er']. unfold read_token. destruct Q as [|κ t t' qk q q' Rt Q].
  - destruct L as [|κ x y lk l l' Rx L]; cbn [pop hd tl fst snd].
    + split; [split; [cbn; now rewrite N | split; reflexivity]|]. constructor; cbn; auto; constructor.
    + split; [split; [cbn; now rewrite N | exact Rx]|]. constructor; cbn; auto; constructor.
  - cbn [pop fst snd]. split; [exact Rt|]. constructor; cbn; auto.
Qed.
Definition hito (κ : option kind) (k : tok) : bool := match κ with Some κ => hit κ k | None => tok_eqb k TkEOF end.
Definition aftero (σ : phase) (κ : option kind) : phase := match κ with Some κ => after σ κ | None => σ end.
Definition allowedo (σ : phase) (κ : option kind) (k : tok) : bool := match κ with Some κ => allowed σ κ k | None => true end.
Lemma match_sim σ qk lk κ k t t' c c' : allowedo σ κ k = true -> RT κ t t' -> sim σ qk lk c c' ->
  exists t1 t1' c1 c1', match_tok k t c = (Ok (hito κ k, t1), c1) /\ match_tok k t' c' = (Ok (hito κ k, t1'), c1') /\ RT κ t1 t1' /\
    sim (if hito κ k then aftero σ κ else σ) qk lk c1 c1' /\ (hito κ k = true -> mated k t1 t1').
Proof.
  intros A H [Q L N M B S S' Er Er']. unfold match_tok. destruct κ as [κ|]; cbn [hito aftero allowedo] in *.
  - pose proof H as [Hl H2]. destruct (stands_ne lang d Hd _ _ _ H2) as [N1 N2].
    assert (E1 : t_eof t = false) by (unfold t_eof, g_bool; destruct (g_text (t_line t)); [contradiction | reflexivity]).
    assert (E2 : t_eof t' = false) by (unfold t_eof, g_bool; destruct (g_text (t_line t')); [contradiction | reflexivity]).
    rewrite E1, E2, andb_false_r.
    destruct (match_pair lang d Hd σ κ k (c_ms c) (c_ms c') t t' A M H) as [ms1 [ms1' [t1 [t1' [P1 [P2 [P3 [P4 [P5 P6]]]]]]]]]. rewrite P1, P2.
    unfold handle_external, rbind. cbn [set_ms c_stop]. rewrite S, S'.
    exists t1, t1', (set_ms c ms1), (set_ms c' ms1'). split; [reflexivity|]. split; [reflexivity|]. split; [eapply RT_same; eauto|]. split; [constructor; auto | exact P6].
  - destruct H as [Hl [X Y]]. assert (E1 : t_eof t = true) by (unfold t_eof, g_bool; now rewrite X). assert (E2 : t_eof t' = true) by (unfold t_eof, g_bool; now rewrite Y).
    rewrite E1, E2, andb_true_r. destruct (tok_eqb k TkEOF) eqn:K; cbn [negb].
    + assert (k = TkEOF) by (destruct k; try discriminate K; reflexivity). subst k.
      assert (D : forall ms t, t_eof t = true -> do_match TkEOF ms t = (Ok true, ms, set_matched ms t (Some TkEOF) None None None None [])).
      { intros ms t0 E. unfold do_match. destruct (ms_md ms); cbn [md_match classic_match]; unfold match_EOF; rewrite E; reflexivity. }
      rewrite (D _ _ E1), (D _ _ E2). unfold handle_external, rbind. cbn [set_ms c_stop]. rewrite S, S'.
      eexists _, _, _, _. split; [reflexivity|]. split; [reflexivity|]. split; [split; [exact Hl | split; assumption]|].
      split; [constructor; auto|]. intros _. split; [|split; reflexivity]. unfold flat_tok. cbn. rewrite Hl, (rm_name _ _ _ _ _ M), (rm_name' _ _ _ _ _ M). reflexivity.
    + exists t, t', c, c'. split; [reflexivity|]. split; [reflexivity|]. split; [split; [exact Hl | split; assumption]|]. split; [constructor; auto | discriminate].
Qed.
Lemma act_sim σ qk lk k t t' a c c' : mated k t t' -> sim σ qk lk c c' ->
  lr (fun _ c1 _ c1' => sim σ qk lk c1 c1') (do_act ast_builder t a c) (do_act ast_builder t' a c').
Proof.
  intros M [Q L N Ms B S S' Er Er']. unfold do_act. pose proof (act_rel k t t' a _ _ M B) as R.
  change (match a with AStart r0 => bd_start ast_builder r0 (c_b c) | AEnd r1 => bd_end ast_builder r1 (c_b c) | ABuild => bd_build ast_builder t (c_b c) end) with (act_of t a (c_b c)).
  change (match a with AStart r0 => bd_start ast_builder r0 (c_b c') | AEnd r1 => bd_end ast_builder r1 (c_b c') | ABuild => bd_build ast_builder t' (c_b c') end) with (act_of t' a (c_b c')).
  destruct (act_of t a (c_b c)) as [r b], (act_of t' a (c_b c')) as [r' b']. unfold handle_external. cbn [set_b c_stop]. rewrite S, S'.
  destruct r, r'; cbn [lr] in *; auto. constructor; auto.
Qed.
Lemma acts_sim σ qk lk k t t' l : mated k t t' -> forall c c', sim σ qk lk c c' ->
  lr (fun _ c1 _ c1' => sim σ qk lk c1 c1') (do_acts ast_builder t l c) (do_acts ast_builder t' l c').
Proof.
  intros M. induction l as [|a l IH]; intros c c' H; [exact H|]. cbn [do_acts]. pose proof (act_sim σ qk lk k t t' a c c' M H) as R.
  destruct (do_act ast_builder t a c) as [[u|e] c1], (do_act ast_builder t' a c') as [[u'|e'] c1']; cbn [lr] in R; [now apply IH | | | exact Logic.I].
  - subst e'. destruct (do_acts ast_builder t l c1) as [[|]]; cbn; auto.
  - subst e. destruct (do_acts ast_builder t' l c1') as [[|]]; cbn; auto.
Qed.

(** *** Looking ahead *)
Fixpoint lay (p : place) (l : list (option kind)) : Prop :=
  match l with
  | [] => True
  | None :: l => l = []
  | Some κ :: l => match next p κ with Some p' => lay p' l | None => False end
  end.
Definition skip (κ : option kind) : bool := match κ with Some (LBlank | LRule_of_dashes | LTags) => true | _ => false end.
(** what looking ahead leaves in the queue *)
Inductive qok : list (option kind) -> Prop :=
| qok_nil : qok []
| qok_last κ : skip κ = false -> qok [κ]
| qok_skip κ l : skip κ = true -> l <> [] -> qok l -> qok (κ :: l).
Lemma qok_tail κ l : qok (κ :: l) -> qok l.
Proof. inversion 1; subst; [constructor | assumption]. Qed.
Lemma qok_stop κ l : qok (κ :: l) -> skip κ = false -> l = [].
Proof. inversion 1; subst; [reflexivity | congruence]. Qed.
Lemma qok_app ak κ : forallb skip ak = true -> skip κ = false -> qok (ak ++ [κ]).
Proof.
  intros H K. induction ak as [|a ak IH]; cbn [app]; [now constructor|]. cbn [forallb] in H. apply andb_true_iff in H as [H1 H2]. constructor; [exact H1 | | now apply IH].
  intros F. apply app_eq_nil in F as [_ F]. discriminate F.
Qed.
Lemma lay_eof p l : lay p l -> (forall x, In x l -> x <> None) -> lay p (l ++ [None]).
Proof.
  revert p. induction l as [|κ l IH]; intros p H N; [reflexivity|]. cbn [app lay] in *. destruct κ as [κ|]; [|now destruct (N None (or_introl eq_refl))].
  destruct (next p κ); [|contradiction]. apply IH; [exact H|]. intros x Hx. apply N. now right.
Qed.
Lemma skip_some x ak : forallb skip ak = true -> In x ak -> x <> None.
Proof. intros H I E. subst x. rewrite forallb_forall in H. specialize (H _ I). discriminate H. Qed.
Lemma tagged_head κ : (exists l, lay Tagged (Some κ :: l)) -> body_kind κ = true /\ (forall l, skip (Some κ) = true -> lay Tagged (Some κ :: l) -> lay Tagged l).
Proof. intros [l H]. cbn [lay] in H. destruct κ as [| | |k| | | | |]; try destruct k; cbn in *; try contradiction; split; auto; discriminate. Qed.
Lemma look_sim k fuel : k = TkScenarioLine \/ k = TkExamplesLine -> forall ak acc acc' qk lk c c', sim PBody qk lk c c' -> F3 RT ak acc acc' -> forallb skip ak = true -> qok qk ->
  lay Tagged (qk ++ map Some lk) ->
  lr (fun b c1 b' c1' => b = b' /\ exists qk1 lk1, sim PBody qk1 lk1 c1 c1' /\ qok qk1 /\ forall p, lay p (ak ++ qk ++ map Some lk) -> lay p (qk1 ++ map Some lk1))
    (lookahead_go k fuel acc c) (lookahead_go k fuel acc' c').
Proof.
  intros Hk. induction fuel as [|f IH]; intros ak acc acc' qk lk c c' H Ha Hs Hq Hl; [exact Logic.I|]. cbn [lookahead_go].
  pose proof (read_sim _ _ _ _ _ H) as R. destruct (pop qk lk) as [[κ q] l] eqn:P. destruct R as [Rt R].
  destruct (read_token c) as [t c1], (read_token c') as [t' c1']. cbn [fst snd] in Rt, R.
  assert (Q : qok q /\ (skip κ = false -> q = [])).
  { destruct qk as [|κ0 qk]; [destruct lk; cbn [pop] in P; injection P; intros; subst; split; auto; constructor|]. cbn [pop] in P. injection P; intros; subst. split; [eapply qok_tail; eauto | intros; eapply qok_stop; eauto]. }
  destruct Q as [Q1 Q2].
  assert (LK : (exists k0, κ = Some k0 /\ qk ++ map Some lk = Some k0 :: q ++ map Some l) \/ (κ = None /\ q = [] /\ l = [] /\ (qk ++ map Some lk = [] \/ qk ++ map Some lk = [None]))).
  { destruct qk as [|κ0 qk].
    - destruct lk as [|k0 lk]; cbn [pop] in P; injection P; intros; subst; [right; auto | left; eexists; split; reflexivity].
    - cbn [pop] in P. injection P; intros; subst. destruct κ as [k0|]; [left; eexists; split; reflexivity|]. right. cbn [app lay] in Hl. apply app_eq_nil in Hl as [-> Hl]. destruct l; [|discriminate Hl]. auto. }
  assert (BK : forall kk, match kk with TkFeatureLine | TkLanguage | TkOther => false | _ => true end = true -> allowedo PBody κ kk = true).
  { intros kk E. destruct LK as [[k0 [-> LK]] | [-> _]]; [|reflexivity]. rewrite LK in Hl. destruct (tagged_head k0) as [B _]; [eauto|].
    cbn [allowedo]. destruct k0; try discriminate B; cbn [allowed]; rewrite ?B; rewrite E; reflexivity. }
  assert (SK : forall kk, kk = TkEmpty \/ kk = TkComment \/ kk = TkTagLine -> hito κ kk = true -> skip κ = true).
  { intros kk Hkk E. destruct LK as [[k0 [-> LK]] | [-> _]]; [|destruct Hkk as [-> | [-> | ->]]; discriminate E]. rewrite LK in Hl. destruct (tagged_head k0) as [B _]; [eauto|]. cbn [hito] in E. unfold hit in E.
    destruct k0 as [| | |k1| | | | |]; try reflexivity; destruct Hkk as [-> | [-> | ->]]; try discriminate E; destruct k1; discriminate. }
  assert (AE : aftero PBody κ = PBody). { destruct LK as [[k0 [-> LK]] | [-> _]]; [|reflexivity]. rewrite LK in Hl. destruct (tagged_head k0) as [B _]; [eauto|]. cbn [aftero]. destruct k0 as [| | |k1| | | | |]; try destruct k1; try reflexivity; discriminate B. }
  assert (FIN : skip κ = false -> forall (b : bool) t2 t2' c2 c2', RT κ t2 t2' -> sim PBody q l c2 c2' ->
    b = b /\ exists qk1 lk1, sim PBody qk1 lk1 (set_queue c2 (c_queue c2 ++ acc ++ [t2])) (set_queue c2' (c_queue c2' ++ acc' ++ [t2'])) /\ qok qk1 /\ forall p, lay p (ak ++ qk ++ map Some lk) -> lay p (qk1 ++ map Some lk1)).
  { intros Sk b t2 t2' c2 c2' Rt2 [S1 S2 S3 S4 S5 S6 S7 S8 S9]. split; [reflexivity|]. specialize (Q2 Sk). subst q. inversion S1 as [E1 E2 E3|]. exists (ak ++ [κ]), l. split; [|split].
    - constructor; cbn [set_queue c_queue c_lines c_lineno c_ms c_b c_stop app]; auto. apply F3_app; [exact Ha|]. constructor; [exact Rt2 | constructor].
    - now apply qok_app.
    - intros p Lp. destruct LK as [[k0 [-> LK]] | [-> [_ [-> LK]]]]; [rewrite LK in Lp; now rewrite <- app_assoc|]. cbn [map]. rewrite app_nil_r.
      destruct LK as [LK | LK]; rewrite LK in Lp; [|exact Lp]. rewrite app_nil_r in Lp. apply lay_eof; [exact Lp|]. intros x Hx. eapply skip_some; eauto. }
  destruct (match_sim PBody q l κ k t t' c1 c1' (BK k ltac:(destruct Hk as [-> | ->]; reflexivity)) Rt R) as [t1 [t1' [c2 [c2' [E1 [E2 [Rt1 [S1 _]]]]]]]]. rewrite E1, E2. rewrite AE in S1.
  destruct (hito κ k) eqn:Hh.
  - cbn [lr]. apply FIN; auto. destruct κ as [k0|]; [|reflexivity]. cbn [hito] in Hh. unfold hit in Hh. destruct k0; try reflexivity; destruct Hk as [-> | ->]; discriminate Hh.
  - cbn [match_any].
    destruct (match_sim PBody q l κ TkEmpty t1 t1' c2 c2' (BK TkEmpty eq_refl) Rt1 S1) as [t3 [t3' [c3 [c3' [F1 [F2 [Rt3 [S3 _]]]]]]]]. rewrite F1, F2. rewrite AE in S3.
    destruct (match_sim PBody q l κ TkComment t3 t3' c3 c3' (BK TkComment eq_refl) Rt3 ltac:(destruct (hito κ TkEmpty); exact S3)) as [t4 [t4' [c4 [c4' [G1 [G2 [Rt4 [S4 _]]]]]]]]. rewrite AE in S4.
    destruct (match_sim PBody q l κ TkTagLine t4 t4' c4 c4' (BK TkTagLine eq_refl) Rt4 ltac:(destruct (hito κ TkComment); exact S4)) as [t5 [t5' [c5 [c5' [K1 [K2 [Rt5 [S5 _]]]]]]]]. rewrite AE in S5.
    assert (GO : skip κ = true -> forall t2 t2' c2 c2', RT κ t2 t2' -> sim PBody q l c2 c2' ->
      lr (fun b c1 b' c1' => b = b' /\ exists qk1 lk1, sim PBody qk1 lk1 c1 c1' /\ qok qk1 /\ forall p, lay p (ak ++ qk ++ map Some lk) -> lay p (qk1 ++ map Some lk1))
        (lookahead_go k f (acc ++ [t2]) c2) (lookahead_go k f (acc' ++ [t2']) c2')).
    { intros Sk t2 t2' d2 d2' Rt2 Sm. destruct LK as [[k0 [-> LK]] | [-> _]]; [|discriminate Sk]. rewrite LK in Hl |- *. destruct (tagged_head k0) as [_ B]; [eauto|].
      pose proof (IH (ak ++ [Some k0]) (acc ++ [t2]) (acc' ++ [t2']) q l d2 d2' Sm) as X.
      replace (ak ++ Some k0 :: q ++ map Some l) with ((ak ++ [Some k0]) ++ q ++ map Some l) by (rewrite <- app_assoc; reflexivity). apply X; auto.
      - apply F3_app; [exact Ha|]. constructor; [exact Rt2 | constructor].
      - rewrite forallb_app, Hs. cbn [forallb]. now rewrite Sk. }
    destruct (hito κ TkEmpty) eqn:H1; [apply GO; auto; apply (SK TkEmpty); auto|].
    rewrite G1, G2. destruct (hito κ TkComment) eqn:H2; [apply GO; auto; apply (SK TkComment); auto|].
    rewrite K1, K2. destruct (hito κ TkTagLine) eqn:H3; [apply GO; auto; apply (SK TkTagLine); auto|].
    cbn [lr]. apply FIN; auto. destruct κ as [[]|]; try reflexivity; discriminate.
Qed.
Lemma do_look_sim la qk lk c c' : sim PBody qk lk c c' -> qok qk -> lay Tagged (qk ++ map Some lk) ->
  lr (fun b c1 b' c1' => b = b' /\ exists qk1 lk1, sim PBody qk1 lk1 c1 c1' /\ qok qk1 /\ forall p, lay p (qk ++ map Some lk) -> lay p (qk1 ++ map Some lk1))
    (do_lookahead (Some la) c) (do_lookahead (Some la) c').
Proof.
  intros H Q L. cbn [do_lookahead]. pose proof H as [H1 H2 _ _ _ _ _ _ _]. destruct (F3_len _ _ _ _ H1) as [-> ->]. destruct (F3_len _ _ _ _ H2) as [-> ->].
  apply (look_sim (la_tok la) _ ltac:(destruct la; auto) [] [] [] qk lk c c'); auto. constructor.
Qed.
End Lock.
