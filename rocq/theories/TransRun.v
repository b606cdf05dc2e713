(** * The parse of both texts (for C68) *)
From Verif Require Import PyStr PyStrFacts Types Regex Line DialectData Matcher Ast ParserTable Parser TransSpec Flat TransFacts TransBoth TransLock.

(** the states of the parser at each place *)
Definition at_place (p : place) : list nat :=
  match p with
  | Start => [0; 2]
  | Top => [3; 5; 23; 25]
  | Ground => [6; 8; 26; 28]
  | Body => [12; 14; 32; 34]
  | Arg => [9; 15; 29; 35]
  | Used => [10; 16; 30; 36; 44; 46; 48; 50]
  | Table => [18; 20; 21; 38; 40; 41]
  | Tagged => [11; 17; 22; 31; 37]
  | Doc _ => [43; 45; 47; 49]
  end.
Definition phase_of (p : place) : phase := match p with Start => PStart | Doc q => PDoc q | _ => PBody end.
Fixpoint fine (σ : phase) (κ : kind) (p' : place) (trs : list trans) : bool :=
  match trs with
  | [] => true
  | tr :: rest =>
      allowed σ κ (tr_tok tr) &&
      (if hit κ (tr_tok tr)
       then existsb (Nat.eqb (tr_next tr)) (at_place p') &&
            match tr_la tr with None => true | Some _ => match p', σ, κ with Tagged, PBody, LTags => fine σ κ p' rest | _, _, _ => false end end
       else fine σ κ p' rest)
  end.
Definition fine_end (trs : list trans) : bool := forallb (fun tr => negb (tok_eqb (tr_tok tr) TkEOF) || match tr_la tr with None => true | _ => false end) trs.
Definition all_tok : list tok := [TkEOF; TkEmpty; TkComment; TkTagLine; TkFeatureLine; TkRuleLine; TkBackgroundLine; TkScenarioLine; TkExamplesLine; TkStepLine; TkDocStringSeparator; TkTableRow; TkLanguage; TkOther].
Definition all_kinds : list kind := [LBlank; LRule_of_dashes; LTags; LStep; LRow; LOpen true; LOpen false; LText true; LText false; LClose true; LClose false] ++ map LHead all_tok.
Definition all_places : list place := [Start; Top; Ground; Body; Arg; Used; Table; Tagged; Doc true; Doc false].
Lemma kinds_all κ : In κ all_kinds.
Proof. destruct κ as [| | |k| | |[]|[]|[]]; try destruct k; vm_compute; tauto. Qed.
Lemma places_all p : In p all_places.
Proof. destruct p as [| | | | | | | |[]]; vm_compute; tauto. Qed.
Definition check : bool :=
  forallb (fun p => forallb (fun q => match ptable q with
    | None => false
    | Some st => fine_end (st_trans st) && forallb (fun κ => match next p κ with None => true | Some p' => fine (phase_of p) κ p' (st_trans st) end) all_kinds
    end) (at_place p)) all_places.
Lemma check_ok : check = true. Proof. vm_compute. reflexivity. Qed.
Lemma table_fine p q : In q (at_place p) -> exists st, ptable q = Some st /\ fine_end (st_trans st) = true /\ forall κ p', next p κ = Some p' -> fine (phase_of p) κ p' (st_trans st) = true.
Proof.
  intros Hq. pose proof check_ok as C. unfold check in C. rewrite forallb_forall in C. specialize (C p (places_all p)). rewrite forallb_forall in C. specialize (C q Hq).
  destruct (ptable q) as [st|]; [|discriminate C]. apply andb_true_iff in C as [C1 C2]. exists st. split; [reflexivity|]. split; [exact C1|]. intros κ p' N.
  rewrite forallb_forall in C2. specialize (C2 κ (kinds_all κ)). now rewrite N in C2.
Qed.
Lemma phase_next p κ p' : next p κ = Some p' -> after (phase_of p) κ = phase_of p'.
Proof.
  destruct p as [| | | | | | | |[]], κ as [| | |k| | |[]|[]|[]]; try destruct k; cbn; intros H; try discriminate H; injection H as <-; reflexivity.
Qed.

Section Run.
Context (lang : str) (d : dialect) (Hd : for_name lang = Some d).
Local Notation sim := (sim lang d).
Local Notation RT := (RT d).
Implicit Types c : ctx astb.

Definition goes (p' : place) (o : option nat * token) c1 (o' : option nat * token) c1' : Prop :=
  fst o = fst o' /\ match fst o with
  | None => True
  | Some n => In n (at_place p') /\ exists qk lk, sim (phase_of p') qk lk c1 c1' /\ qok qk /\ lay p' (qk ++ map Some lk)
  end.
Lemma sim_stop σ qk lk c c' : sim σ qk lk c c' -> c_stop c = true /\ c_stop c' = true.
Proof. intros []. auto. Qed.
Lemma trans_sim p κ p' trs : next p κ = Some p' -> forall qk lk t t' c c', fine (phase_of p) κ p' trs = true -> RT (Some κ) t t' -> sim (phase_of p) qk lk c c' -> qok qk -> lay p' (qk ++ map Some lk) ->
  lr (fun o c1 o' c1' => goes p' o c1 o' c1' /\ c_stop c1 = true /\ c_stop c1' = true) (try_trans ast_builder trs t c) (try_trans ast_builder trs t' c').
Proof.
  intros Np. induction trs as [|tr trs IH]; intros qk lk t t' c c' F Rt Sm Q L.
  - cbn. split; [split; [reflexivity | exact Logic.I]|]. eapply sim_stop; eauto.
  - cbn [try_trans]. cbn [fine] in F. apply andb_true_iff in F as [A F].
    destruct (match_sim lang d Hd (phase_of p) qk lk (Some κ) (tr_tok tr) t t' c c' A Rt Sm) as [t1 [t1' [c1 [c1' [E1 [E2 [Rt1 [Sm1 Mt]]]]]]]]. rewrite E1, E2. cbn [hito aftero] in *.
    destruct (hit κ (tr_tok tr)) eqn:H; [|now apply (IH qk lk)]. rewrite (phase_next _ _ _ Np) in Sm1. apply andb_true_iff in F as [N F].
    assert (N2 : In (tr_next tr) (at_place p')). { apply existsb_exists in N as [n [N1 N2]]. apply Nat.eqb_eq in N2. now subst. }
    assert (ACT : forall qk lk c2 c2', sim (phase_of p') qk lk c2 c2' -> qok qk -> lay p' (qk ++ map Some lk) ->
      lr (fun o c1 o' c1' => goes p' o c1 o' c1' /\ c_stop c1 = true /\ c_stop c1' = true)
        (match do_acts ast_builder t1 (tr_acts tr) c2 with (Err e, c3) => (Err e, c3) | (Ok _, c3) => (Ok (Some (tr_next tr), t1), c3) end)
        (match do_acts ast_builder t1' (tr_acts tr) c2' with (Err e, c3) => (Err e, c3) | (Ok _, c3) => (Ok (Some (tr_next tr), t1'), c3) end)).
    { intros qk2 lk2 c2 c2' Sm2 Q2 L2. pose proof (acts_sim lang d _ _ _ _ t1 t1' (tr_acts tr) (Mt eq_refl) c2 c2' Sm2) as R.
      destruct (do_acts ast_builder t1 (tr_acts tr) c2) as [[u|e] c3], (do_acts ast_builder t1' (tr_acts tr) c2') as [[u'|e'] c3']; cbn [lr] in *; auto.
      split; [|eapply sim_stop; eauto]. split; [reflexivity|]. cbn [fst]. split; [exact N2|]. exists qk2, lk2. auto. }
    destruct (tr_la tr) as [la|].
    + destruct p'; try discriminate F. destruct (phase_of p) eqn:PH; try discriminate F. destruct κ; try discriminate F. cbn [phase_of] in *.
      pose proof (do_look_sim lang d Hd la qk lk c1 c1' Sm1 Q L) as R.
      destruct (do_lookahead (Some la) c1) as [[b|e] c2], (do_lookahead (Some la) c1') as [[b'|e'] c2']; cbn [lr] in R; [| | |exact Logic.I].
      * destruct R as [<- [qk1 [lk1 [S3 [Q3 L3]]]]]. destruct b; [now apply (ACT qk1 lk1); auto|]. apply (IH qk1 lk1); auto.
      * subst e'. destruct b; [destruct (do_acts ast_builder t1 (tr_acts tr) c2) as [[|] ?]; cbn; auto|]. destruct (try_trans ast_builder trs t1 c2) as [[|] ?]; cbn; auto.
      * subst e. destruct b'; [destruct (do_acts ast_builder t1' (tr_acts tr) c2') as [[|] ?]; cbn; auto|]. destruct (try_trans ast_builder trs t1' c2') as [[|] ?]; cbn; auto.
    + cbn [do_lookahead]. now apply (ACT qk lk).
Qed.
Definition fin (_ : unit) c1 (_ : unit) c1' : Prop := c_stop c1 = true /\ c_stop c1' = true /\ c_errors c1 = [] /\ c_errors c1' = [] /\ RB d (c_b c1) (c_b c1').
Lemma sim_fin σ qk lk c c' : sim σ qk lk c c' -> fin tt c tt c'.
Proof. intros []. repeat split; auto; apply sm_b. Qed.
Lemma end_sim trs : fine_end trs = true -> forall σ qk lk t t' c c', RT None t t' -> sim σ qk lk c c' ->
  lr (fun o c1 o' c1' => fst o = fst o' /\ fin tt c1 tt c1') (try_trans ast_builder trs t c) (try_trans ast_builder trs t' c').
Proof.
  induction trs as [|tr trs IH]; intros F σ qk lk t t' c c' Rt Sm.
  - cbn. split; [reflexivity|]. eapply sim_fin; eauto.
  - cbn [try_trans]. unfold fine_end in F. cbn [forallb] in F. apply andb_true_iff in F as [A F].
    destruct (match_sim lang d Hd σ qk lk None (tr_tok tr) t t' c c' eq_refl Rt Sm) as [t1 [t1' [c1 [c1' [E1 [E2 [Rt1 [Sm1 Mt]]]]]]]]. rewrite E1, E2. cbn [hito aftero] in *.
    destruct (tok_eqb (tr_tok tr) TkEOF); [|now apply (IH F σ qk lk)]. destruct (tr_la tr); [discriminate A|]. cbn [do_lookahead].
    pose proof (acts_sim lang d _ _ _ _ t1 t1' (tr_acts tr) (Mt eq_refl) c1 c1' Sm1) as R.
    destruct (do_acts ast_builder t1 (tr_acts tr) c1) as [[u|e] c3], (do_acts ast_builder t1' (tr_acts tr) c1') as [[u'|e'] c3']; cbn [lr] in *; auto.
    split; [reflexivity | eapply sim_fin; eauto].
Qed.
Lemma loop_sim fuel : forall p q qk lk c c', In q (at_place p) -> sim (phase_of p) qk lk c c' -> qok qk -> lay p (qk ++ map Some lk) ->
  lr fin (parse_loop ast_builder fuel q c) (parse_loop ast_builder fuel q c').
Proof.
  induction fuel as [|f IH]; intros p q qk lk c c' Hq Sm Q L; [exact Logic.I|]. cbn [parse_loop].
  pose proof (read_sim lang d _ _ _ _ _ Sm) as R. destruct (pop qk lk) as [[κ q1] l1] eqn:P. destruct R as [Rt R].
  destruct (read_token c) as [t c1], (read_token c') as [t' c1']. cbn [fst snd] in Rt, R. unfold match_token. destruct (table_fine p q Hq) as [st [-> [FE FK]]].
  destruct κ as [κ|].
  - assert (LK : qk ++ map Some lk = Some κ :: q1 ++ map Some l1 /\ qok q1).
    { destruct qk as [|κ0 qk]; [destruct lk as [|k0 lk]; cbn [pop] in P; injection P; intros; subst; try discriminate; split; [reflexivity | constructor]|]. cbn [pop] in P. injection P; intros; subst. split; [reflexivity | eapply qok_tail; eauto]. }
    destruct LK as [LK Q1]. rewrite LK in L. cbn [lay] in L. destruct (next p κ) as [p'|] eqn:N; [|contradiction].
    pose proof (trans_sim p κ p' (st_trans st) N q1 l1 t t' c1 c1' (FK _ _ N) Rt R Q1 L) as X.
    pose proof Rt as [_ H2]. destruct (stands_ne lang d Hd _ _ _ H2) as [N1 N2].
    assert (E1 : t_eof t = false) by (unfold t_eof, g_bool; destruct (g_text (t_line t)); [contradiction | reflexivity]).
    assert (E2 : t_eof t' = false) by (unfold t_eof, g_bool; destruct (g_text (t_line t')); [contradiction | reflexivity]).
    rewrite E1, E2.
    assert (ANY : forall A B (x : result A * B), lr (A := A) (S := B) (fun _ _ _ _ => False) x x -> True) by auto. clear ANY.
    destruct (try_trans ast_builder (st_trans st) t c1) as [[[o t1]|e] c2], (try_trans ast_builder (st_trans st) t' c1') as [[[o' t1']|e'] c2']; cbn [lr] in X; [| | |exact Logic.I].
    + destruct X as [[X1 X2] [S1 S2]]. cbn [fst] in X1, X2. subst o'. destruct o as [n|].
      * destruct X2 as [Hn [qk2 [lk2 [Sm2 [Q2 L2]]]]]. now apply (IH p' n qk2 lk2).
      * rewrite S1, S2. exact Logic.I.
    + subst e'. destruct o as [n|]; [destruct (parse_loop ast_builder f n c2) as [[|] ?]; cbn; auto|]. destruct (c_stop c2); [cbn; auto|]. destruct (add_error _ c2) as [[|] c3]; [|cbn; auto]. destruct (parse_loop ast_builder f (st_self st) c3) as [[|] ?]; cbn; auto.
    + subst e. destruct o' as [n|]; [destruct (parse_loop ast_builder f n c2') as [[|] ?]; cbn; auto|]. destruct (c_stop c2'); [cbn; auto|]. destruct (add_error _ c2') as [[|] c3]; [|cbn; auto]. destruct (parse_loop ast_builder f (st_self st) c3) as [[|] ?]; cbn; auto.
  - pose proof (end_sim (st_trans st) FE _ _ _ t t' c1 c1' Rt R) as X. pose proof Rt as [_ [H1 H2]].
    assert (E1 : t_eof t = true) by (unfold t_eof, g_bool; now rewrite H1). assert (E2 : t_eof t' = true) by (unfold t_eof, g_bool; now rewrite H2). rewrite E1, E2.
    destruct (try_trans ast_builder (st_trans st) t c1) as [[[o t1]|e] c2], (try_trans ast_builder (st_trans st) t' c1') as [[[o' t1']|e'] c2']; cbn [lr] in X; [| | |exact Logic.I].
    + destruct X as [X1 X2]. cbn [fst] in X1. subst o'. destruct o as [n|]; [exact X2|]. destruct X2 as [S1 [S2 _]]. rewrite S1, S2. exact Logic.I.
    + subst e'. destruct o as [n|]; [cbn; auto|]. destruct (c_stop c2); [cbn; auto|]. destruct (add_error _ c2) as [[|] c3]; cbn; auto.
    + subst e. destruct o' as [n|]; [cbn; auto|]. destruct (c_stop c2'); [cbn; auto|]. destruct (add_error _ c2') as [[|] c3]; cbn; auto.
Qed.
Lemma act_fin t a c c' : fin tt c tt c' -> a <> ABuild -> lr fin (do_act ast_builder t a c) (do_act ast_builder t a c').
Proof.
  intros [S [S' [Er [Er' B]]]] Na. unfold do_act.
  assert (R : lr (fun _ x _ y => RB d x y) (act_of t a (c_b c)) (act_of t a (c_b c'))).
  { destruct a as [r|r|]; [|now apply end_rel | contradiction]. destruct B as [B1 B2 B3 B4 B5]. cbn. constructor; cbn [ab_stack ab_comments ab_ids]; auto.
    - cbn [map]. now rewrite B1.
    - constructor; [constructor | exact B4].
    - constructor; [constructor | exact B5]. }
  change (match a with AStart r0 => bd_start ast_builder r0 (c_b c) | AEnd r1 => bd_end ast_builder r1 (c_b c) | ABuild => bd_build ast_builder t (c_b c) end) with (act_of t a (c_b c)).
  change (match a with AStart r0 => bd_start ast_builder r0 (c_b c') | AEnd r1 => bd_end ast_builder r1 (c_b c') | ABuild => bd_build ast_builder t (c_b c') end) with (act_of t a (c_b c')).
  destruct (act_of t a (c_b c)) as [r b], (act_of t a (c_b c')) as [r' b']. unfold handle_external. cbn [set_b c_stop]. rewrite S, S'.
  destruct r, r'; cbn [lr] in *; auto. now split.
Qed.

Lemma lay_of xs ys p : translation d p xs ys -> exists lk, F3 (stands d) lk xs ys /\ lay p (map Some lk).
Proof.
  induction 1 as [p|p k p' x xs y ys N S T [lk [IH1 IH2]]].
  - exists []. split; [constructor | exact Logic.I].
  - exists (k :: lk). split; [now constructor|]. cbn [map lay]. now rewrite N.
Qed.
Lemma result_rel b b' : RB d b b' -> match ab_get_result b, ab_get_result b' with Ok g, Ok g' => plain_document d g = plain_document d g' | Err _, Err _ => True | _, _ => False end.
Proof.
  intros [S _ _ _ _]. unfold ab_get_result. destruct (ab_stack b) as [|n st], (ab_stack b') as [|n' st']; try discriminate S; [exact Logic.I|].
  cbn [map] in S. assert (E : flat_node d n = flat_node d n') by congruence. pose proof (flat_single d n (KRule RGherkinDocument)) as A. pose proof (flat_single d n' (KRule RGherkinDocument)) as A'. rewrite E, A' in A.
  destruct (get_single n (KRule RGherkinDocument)) as [i|], (get_single n' (KRule RGherkinDocument)) as [i'|]; try discriminate A; [|exact Logic.I]. cbn [option_map] in A. injection A as A.
  destruct i, i'; try discriminate A; try exact Logic.I. cbn [flat_item] in A. symmetry. exact (f_equal (fun i => match i with IGdoc g => g | _ => mkGdoc None [] end) A).
Qed.
Theorem parse_both text text' : translation d Start (split_lines text) (split_lines text') ->
  match parse_with true true lang text, parse_with true false lang text' with
  | Ok g, Ok g' => plain_document d g = plain_document d g'
  | Err _, Err _ => True
  | Err e, Ok _ | Ok _, Err e => e = ETypeError
  end.
Proof.
  intros T. destruct (lay_of _ _ _ T) as [lk [FL L]]. unfold parse_with.
  assert (M : forall md, new_matcher md lang = Ok (mkMs md lang lang d 0 None false)).
  { intros md. unfold new_matcher. rewrite Hd. unfold ms_reset. cbn. assert (R : str_eqb lang lang = true) by now apply str_eqb_spec. now rewrite R. }
  rewrite !M. cbn [rbind]. unfold parse_lines, parse_b.
  assert (R : forall md, ms_reset (mkMs md lang lang d 0 None false) = Ok (mkMs md lang lang d 0 None false)).
  { intros md. unfold ms_reset. cbn. assert (R : str_eqb lang lang = true) by now apply str_eqb_spec. now rewrite R. }
  rewrite !R. set (c := init_ctx true (ab_reset 0) (mkMs true lang lang d 0 None false) (split_lines text)). set (c' := init_ctx true (ab_reset 0) (mkMs false lang lang d 0 None false) (split_lines text')).
  destruct (F3_len _ _ _ _ FL) as [-> ->].
  assert (B0 : RB d (mkAb (mkNode RGherkinDocument [] :: [mkNode RNone []]) [] 0) (mkAb (mkNode RGherkinDocument [] :: [mkNode RNone []]) [] 0)).
  { constructor; try reflexivity; repeat constructor. }
  change (do_act ast_builder (new_token [] 0) (AStart RGherkinDocument) c) with (Ok tt, set_b c (mkAb (mkNode RGherkinDocument [] :: [mkNode RNone []]) [] 0)).
  change (do_act ast_builder (new_token [] 0) (AStart RGherkinDocument) c') with (Ok tt, set_b c' (mkAb (mkNode RGherkinDocument [] :: [mkNode RNone []]) [] 0)). cbv beta iota.
  assert (Sm : sim PStart [] lk (set_b c (mkAb (mkNode RGherkinDocument [] :: [mkNode RNone []]) [] 0)) (set_b c' (mkAb (mkNode RGherkinDocument [] :: [mkNode RNone []]) [] 0))).
  { constructor; cbn; auto; [constructor | constructor; reflexivity]. }
  pose proof (loop_sim (S (length lk)) Start 0 [] lk _ _ ltac:(now left) Sm ltac:(constructor) L) as X.
  destruct (parse_loop ast_builder (S (length lk)) 0 (set_b c _)) as [[u|e] c1], (parse_loop ast_builder (S (length lk)) 0 (set_b c' _)) as [[u'|e'] c1']; cbn [lr] in X; [| | |exact Logic.I].
  - destruct u, u'. pose proof (act_fin (new_token [] 0) (AEnd RGherkinDocument) c1 c1' X ltac:(discriminate)) as Y.
    destruct (do_act ast_builder _ _ c1) as [[v|e] c2], (do_act ast_builder _ _ c1') as [[v'|e'] c2']; cbn [lr] in Y; [| | |exact Logic.I].
    + destruct Y as [_ [_ [-> [-> B]]]]. cbn [rbind fst]. pose proof (result_rel _ _ B) as Z. destruct (ab_get_result (c_b c2)), (ab_get_result (c_b c2')); try contradiction; auto.
    + subst e'. destruct (c_errors c2); cbn; [destruct (ab_get_result (c_b c2))|]; auto.
    + subst e. destruct (c_errors c2'); cbn; [destruct (ab_get_result (c_b c2'))|]; auto.
  - subst e'. cbn [rbind fst]. destruct (do_act ast_builder _ _ c1) as [[v|e] c2]; [|cbn; auto]. destruct (c_errors c2); cbn; [destruct (ab_get_result (c_b c2))|]; auto.
  - subst e. cbn [rbind fst]. destruct (do_act ast_builder _ _ c1') as [[v|e] c2]; [|cbn; auto]. destruct (c_errors c2); cbn; [destruct (ab_get_result (c_b c2))|]; auto.
Qed.
End Run.
