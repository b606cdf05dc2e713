(** * Successful runs and their trees *)
From Verif Require Import PyStr PyStrFacts Types Regex Line DialectData Matcher Ast ParserTable Parser Classify Table Scan Grammar Deriv Cert LineSpec StepFacts Cst Report Eval LangSpec LangFacts Complete DocSpec Erase Den LineIff Means.

(** ** Lines before the feature are not language headers with unknown names *)
Lemma choose_noerr trs ms n x rest : forall tr t ms', choose trs ms n x rest = ([], CTrans tr t ms') ->
  exists before after, trs = before ++ tr :: after /\ lexm (tr_tok tr) ms n x = (Ok true, ms', t) /\ Forall (fun u => forall e, fst (fst (lexm (tr_tok u) ms n x)) <> Err e) before.
Proof.
  induction trs as [|tr0 trs IH]; intros tr t ms'; cbn [choose]; [discriminate|].
  destruct (lexm (tr_tok tr0) ms n x) as [[[[]|e] m] t0] eqn:L.
  - assert (K : choose trs ms n x rest = ([], CTrans tr t ms') -> exists before after, tr0 :: trs = before ++ tr :: after /\ lexm (tr_tok tr) ms n x = (Ok true, ms', t) /\ Forall (fun u => forall e, fst (fst (lexm (tr_tok u) ms n x)) <> Err e) before).
    { intros H. destruct (IH _ _ _ H) as [b [a [-> [H1 H2]]]]. exists (tr0 :: b), a. split; [reflexivity|]. split; [exact H1|]. constructor; [rewrite L; discriminate | exact H2]. }
    assert (Z : ([], CTrans tr0 t0 m) = (@nil perr, CTrans tr t ms') -> exists before after, tr0 :: trs = before ++ tr :: after /\ lexm (tr_tok tr) ms n x = (Ok true, ms', t) /\ Forall (fun u => forall e, fst (fst (lexm (tr_tok u) ms n x)) <> Err e) before).
    { intros H. injection H as <- <- <-. exists [], trs. split; [reflexivity|]. split; [exact L | constructor]. }
    destruct (tr_la tr0) as [l|]; [|exact Z]. destruct (la (la_tok l) ms rest) as [[]|e]; [exact Z | exact K | discriminate].
  - intros H. destruct (IH _ _ _ H) as [b [a [-> [H1 H2]]]]. exists (tr0 :: b), a. split; [reflexivity|]. split; [exact H1|]. constructor; [rewrite L; discriminate | exact H2].
  - destruct e; try discriminate. destruct (choose trs ms n x rest) as [es c]. discriminate.
Qed.
Lemma state0_order b tr a : st_trans state_0 = b ++ tr :: a -> tr_tok tr = TkComment -> exists u, In u b /\ tr_tok u = TkLanguage.
Proof.
  intros H K. unfold state_0 in H; cbn [st_trans] in H.
  destruct b as [|u1 b]; [injection H as <- _; discriminate K|]. cbn [app] in H. injection H as <- H.
  destruct b as [|u2 b]; [injection H as <- _; discriminate K|]. cbn [app] in H. injection H as <- H.
  eexists. split; [right; left; reflexivity | reflexivity].
Qed.
Lemma state0_acts tr : In tr (st_trans state_0) -> (tr_acts tr = [ABuild] /\ (tr_next tr = 0 \/ tr_tok tr = TkEOF)) \/ exists r acts, tr_acts tr = AStart r :: acts.
Proof. cbn. intros H. repeat (destruct H as [<-|H]; [first [left; split; [reflexivity | first [left; reflexivity | right; reflexivity]] | right; eexists _, _; reflexivity]|]). destruct H. Qed.
Lemma step0 ms n x rest evs r : scan_step 0 ms n x rest = (evs, r) -> clean evs -> 
  (exists e, evs = [] /\ r = Err e) \/ exists tr t ms', evs = [EvAct (mkLeaf ms n x t) (tr_acts tr)] /\ r = Ok (tr_next tr, ms') /\ In tr (st_trans state_0) /\ lexm (tr_tok tr) ms n x = (Ok true, ms', t) /\ lang_ok (mkLeaf ms n x t).
Proof.
  unfold scan_step. change (ptable 0) with (Some state_0). destruct (choose (st_trans state_0) ms n x rest) as [es c] eqn:C. intros H Cl.
  rewrite C in H. destruct c as [tr t ms'| |e].
  - assert (es = [] /\ evs = [EvAct (mkLeaf ms n x t) (tr_acts tr)] /\ r = Ok (tr_next tr, ms')) as [-> [-> ->]].
    { destruct es as [|e es]; cbn [map app] in H; injection H as <- <-; [auto|]. exfalso. apply (Cl e). now left. }
    right. exists tr, t, ms'. destruct (choose_noerr _ _ _ _ _ _ _ _ C) as [b [a [E [L F]]]]. split; [reflexivity|]. split; [reflexivity|]. split; [rewrite E; apply in_elt|]. split; [exact L|].
    intros K. unfold lkind, tok_kind in K. cbn [lf_t] in K. rewrite (lexm_kind _ _ _ _ _ _ L) in K. destruct (state0_order _ _ _ E K) as [u [U1 U2]]. rewrite Forall_forall in F. specialize (F u U1). now rewrite U2 in F.
  - exfalso. injection H as <- _. eapply Cl. apply in_elt.
  - left. exists e. destruct es as [|e0 es]; cbn [map app] in H; injection H as <- <-; [auto|]. exfalso. apply (Cl e0). now left.
Qed.
Lemma scan_langs lines : forall ms n evs r, scan 0 ms n lines = (evs, r) -> clean evs -> lines_ok lines -> Forall lang_ok (heads (ev_marks evs)).
Proof.
  induction lines as [|x rest IH]; intros ms n evs r; cbn [scan].
  - destruct (scan_step 0 ms (S n) [] []) as [ev1 r1] eqn:E. intros H Cl _. assert (ev1 = evs) by (destruct r1; now injection H as <-). subst ev1.
    destruct (step0 _ _ _ _ _ _ E Cl) as [[e [-> _]]|[tr [t [ms' [-> [_ [I [L La]]]]]]]]; [constructor|].
    destruct (state0_acts tr I) as [[A _]|[r0 [acts A]]]; rewrite A; cbn; [|constructor]. constructor; [exact La | constructor].
  - destruct (scan_step 0 ms (S n) x rest) as [ev1 r1] eqn:E. intros H Cl Hl. inversion Hl as [|? ? Hx Hl']; subst.
    destruct r1 as [[q' ms']|e].
    + destruct (scan q' ms' (S n) rest) as [ev2 r2] eqn:E2. injection H as <- <-. apply clean_app in Cl as [C1 C2].
      destruct (step0 _ _ _ _ _ _ E C1) as [[e [_ Er]]|[tr [t [m1 [-> [Er [I [L La]]]]]]]]; [discriminate|]. injection Er as -> ->. rewrite ev_marks_app.
      destruct (state0_acts tr I) as [[A Z]|[r0 [acts A]]]; unfold ev_marks at 1; cbn [flat_map]; rewrite A; cbn [map ev_mark app heads]; [|constructor].
      destruct Z as [Z|Z]; [|rewrite Z in L; apply lexm_eof_nil in L; contradiction]. constructor; [exact La|]. rewrite Z in E2. eapply IH; eauto.
    + injection H as <- <-. destruct (step0 _ _ _ _ _ _ E Cl) as [[e' [-> _]]|[tr [t [m1 [_ [Er _]]]]]]; [constructor | discriminate].
Qed.
Lemma heads_langs l : matches (prod RGherkinDocument) (lsyms l) -> Forall lang_ok (heads (walks l)) -> langs_ok l.
Proof.
  intros M H a Ha. cbn [prod gseq] in M. apply cat_inv in M as [u [v [E [M1 M2]]]]. unfold lsyms, syms in E. apply map_eq_app in E as [l1 [l2 [-> [<- <-]]]].
  assert (Q : exists ls, l1 = map Leaf ls).
  { clear -M1. remember (map (root_sym lkind) l1) as w eqn:Ew. unfold noise in M1. remember (GStar (GAlt (T TkEmpty) (T TkComment))) as g eqn:Eg. revert l1 Ew. induction M1; try discriminate Eg; injection Eg as ->; intros l1 Ew.
    - destruct l1; [exists []; reflexivity | discriminate Ew].
    - assert (Q : exists k, u = [ST k]) by (apply alt_inv in M1_1 as [X|X]; apply sym_inv in X; eauto). destruct Q as [k Q]. subst u. destruct l1 as [|[b|r l'] l1]; try discriminate Ew. cbn in Ew. injection Ew as _ Ew.
      destruct (IHM1_2 eq_refl _ Ew) as [ls ->]. exists (b :: ls). reflexivity. }
  destruct Q as [ls ->]. apply in_app_or in Ha as [Ha|Ha].
  - apply in_map_iff in Ha as [b [Eb Hb]]. injection Eb as ->. rewrite walks_app in H. assert (In a (heads (walks (map Leaf ls) ++ walks l2))).
    { clear -Hb. induction ls as [|c ls IH]; [destruct Hb|]. cbn. destruct Hb as [-> | Hb]; [now left | right; now apply IH]. }
    rewrite Forall_forall in H. now apply H.
  - intros K. exfalso. change (map (root_sym lkind) l2) with (lsyms l2) in M2. apply cat_inv in M2 as [u [v [E [M2 M3]]]]. apply sym_inv in M3. subst v.
    assert (In (ST TkComment) (lsyms l2)) by (apply in_map_iff; exists (Leaf a); split; [cbn; now rewrite K | exact Ha]). rewrite E in H0. apply in_app_or in H0 as [H0|[H0|[]]]; [|discriminate].
    apply alt_inv in M2 as [M2|M2]; [apply sym_inv in M2; subst u; destruct H0 as [H0|[]]; discriminate | apply eps_inv in M2; subst u; destruct H0].
Qed.

(** ** A successful run *)
Lemma raw_clean {B} (bd : builder B) evs : forall b u b', raw_evs bd evs b = ([], Ok u, b') -> clean evs.
Proof.
  induction evs as [|[e|a acts] evs IH]; intros b u b' H; cbn [raw_evs] in H; [intros e []| |].
  - destruct (raw_evs bd evs b) as [[es r] b2]. discriminate.
  - destruct (raw_acts bd (lf_t a) acts b) as [[es [v|x]] b1]; [|discriminate]. destruct (raw_evs bd evs b1) as [[es' r] b2] eqn:E. injection H as H1 H2 H3. apply app_eq_nil in H1 as [-> ->]. subst.
    intros e [F|F]; [discriminate|]. exact (IH _ _ _ E e F).
Qed.
Lemma outcome_ok {A} stop es r (f : unit -> result A) d : rbind (outcome stop es r) f = Ok d -> es = [] /\ exists u, r = Ok u.
Proof.
  unfold outcome. destruct stop.
  - destruct es; [|discriminate]. destruct r as [u|]; [eauto | discriminate].
  - destruct (feed es []) as [full errs] eqn:Fe. destruct full; [discriminate|]. destruct errs as [|e errs]; [|destruct r; discriminate].
    assert (es = []) by (destruct (feed_inv (fun _ => True) (fun _ x => x) _ _ _ _ Fe) as [_ [_ [_ [_ [A5 _]]]]]; [unfold distinct_msgs; cbn; constructor | cbn; lia | constructor | apply Forall_forall; auto | auto]).
    destruct r as [u|]; [eauto | discriminate].
Qed.
Lemma outcome_nil stop r : outcome stop [] r = r.
Proof. unfold outcome. destruct stop; reflexivity. Qed.
Theorem parse_ok_tree stop ids ms ms0 lines d : ms_reset ms = Ok ms0 -> matcher_ok ms0 -> ms_sep ms0 = None -> lines_ok lines ->
  fst (parse_lines stop ids ms lines) = Ok d <-> exists l subs ids', doc_tree ms0 lines l /\ langs_ok l /\ evals l ids = (subs, [], ids') /\ d = mkGdoc (feature_in subs) (comments_of (yields l)).
Proof.
  intros Hr Hm Hs Hl. split.
  - intros H. destruct (run_doc ms0 lines ids Hm Hs Hl) as [es [b' [R [_ _]]]].
    pose proof (parse_b_outcome ast_builder ast_no_composite stop (ab_reset ids) ms ms0 lines es (Ok tt) b' Hr (matcher_good _ Hm) Hl R) as [O1 O2]. cbv zeta in O1.
    pose proof H as H'. unfold parse_lines in H'. destruct (parse_b ast_builder stop (ab_reset ids) ms lines) as [rr c] eqn:Ep. cbn [fst snd] in *. rewrite O1 in H'.
    assert (Q : es = [] /\ exists u, snd (scan 0 ms0 0 lines) = Ok u).
    { destruct (outcome stop es (snd (scan 0 ms0 0 lines))) as [u|e] eqn:Eo; [|discriminate H']. apply (outcome_ok stop es _ (fun _ => Ok tt) tt). now rewrite Eo. }
    destruct Q as [-> [u Eu]]. destruct (scan 0 ms0 0 lines) as [evs r] eqn:Es. cbn [snd] in Eu. subst r.
    pose proof (raw_clean _ _ _ _ _ R) as Cl. unfold doc_evs in Cl. cbn [fst snd] in Cl. assert (Cl' : clean evs).
    { intros e He. apply (Cl e). right. apply in_or_app. now left. }
    assert (Inv : st_inv 0 ms0 [(RGherkinDocument, [])]).
    { exists [(RGherkinDocument, prod RGherkinDocument)]. split; [reflexivity|]. split.
      - cbn [sinv]. split; [reflexivity|]. split; [reflexivity|]. split; [apply leaves_ok_nil|]. split; [constructor | exact I].
      - split; [exact Hm|]. rewrite Hs. split; reflexivity. }
    destruct (scan_sound lines 0 ms0 0 [(RGherkinDocument, [])] evs _ Hl ltac:(discriminate) Inv Es) as [Lo [cs' [q' [ms' [Run [_ Fin]]]]]].
    destruct Fin as [[e Fin]|[[l [-> O]] Ch]]; [now apply Cl' in Fin|].
    assert (Dt : doc_tree ms0 lines l).
    { split; [exact O|]. pose proof (crun_yield _ _ _ (fun _ _ => True) Run) as Y. rewrite cyield_cons in Y. cbn in Y. rewrite Y; [exact Ch|]. eapply Forall_impl; [|exact Lo]. intros a [m [_ M]]. exists m. auto. }
    assert (Lg : langs_ok l).
    { apply heads_langs; [now inversion O|]. pose proof (crun_walk _ _ _ Run) as W. rewrite !cwalk_cons in W. cbn in W. injection W as ->. eapply scan_langs; eauto. }
    destruct (evals l ids) as [[subs es] ids'] eqn:Ev. destruct (parse_lines_tree stop ids ms ms0 lines l subs es ids' Hr Hm Hs Hl Dt Lg Ev) as [P _]. rewrite H in P. symmetry in P.
    destruct (outcome_ok _ _ _ _ _ P) as [-> _]. exists l, subs, ids'. rewrite outcome_nil in P. injection P as <-. auto.
  - intros [l [subs [ids' [Dt [Lg [Ev ->]]]]]]. destruct (parse_lines_tree stop ids ms ms0 lines l subs [] ids' Hr Hm Hs Hl Dt Lg Ev) as [P _]. rewrite P, outcome_nil. reflexivity.
Qed.

(** ** Without ids *)
Fixpoint mentions (x : sym) (g : gx) : bool :=
  match g with GVoid | GEps => false | GSym y => sym_eqb y x | GCat a b | GAlt a b => mentions x a || mentions x b | GStar a => mentions x a end.
Lemma mentions_ok x g w : matches g w -> In x w -> mentions x g = true.
Proof.
  induction 1 as [|y|a b u v H1 IH1 H2 IH2|a b u H IH|a b u H IH|a|a u v H1 IH1 H2 IH2]; intros Hin; cbn [mentions].
  - destruct Hin.
  - destruct Hin as [->|[]]. now apply sym_eqb_spec.
  - apply orb_true_iff. apply in_app_or in Hin as [Hin|Hin]; auto.
  - apply orb_true_iff. auto.
  - apply orb_true_iff. auto.
  - destruct Hin.
  - apply in_app_or in Hin as [Hin|Hin]; auto.
Qed.
Lemma ok_no_doc t : forall p, ok_tree p t -> (forall l, t <> Node RGherkinDocument l) -> no_doc t.
Proof.
  induction t as [a|r l IH] using tree_ind'; intros p O Hn; [exact I|]. apply no_doc_node. split; [intros ->; now apply (Hn l)|]. inversion O as [|? ? M L F]; subst.
  rewrite Forall_forall in *. intros t Ht. eapply (IH t Ht r (F t Ht)). intros l' ->.
  assert (Q : mentions (SR RGherkinDocument) (prod r) = true) by (eapply mentions_ok; [exact M|]; apply in_map_iff; exists (Node RGherkinDocument l'); auto).
  destruct r; vm_compute in Q; discriminate Q.
Qed.
Lemma doc_no_doc l : ok_tree RNone (Node RGherkinDocument l) -> Forall no_doc l.
Proof.
  intros O. inversion O as [|? ? M L F]; subst. rewrite Forall_forall in *. intros t Ht. eapply ok_no_doc; [exact (F t Ht)|]. intros l' ->.
  assert (Q : mentions (SR RGherkinDocument) (prod RGherkinDocument) = true) by (eapply mentions_ok; [exact M|]; apply in_map_iff; exists (Node RGherkinDocument l'); auto). discriminate Q.
Qed.
Lemma feature_no subs : feature_in (no_id_subs subs) = option_map no_id_feature (feature_in subs).
Proof. unfold feature_in. rewrite gs_no. destruct (get_single _ _) as [[]|]; reflexivity. Qed.

(** ** Lines and leaves *)
Definition lines_from (n : nat) (lines : list str) : list nline := combine (seq (S n) (length lines)) lines.
Lemma lchain_seg lines : forall ms n ls, lchain ms n lines ls <-> exists ms' ls0 t, seg ms (lines_from n lines) ls0 ms' /\ ls = ls0 ++ [mkLeaf ms' (S (n + length lines)) [] t] /\
  (exists m, lexm TkEOF ms' (S (n + length lines)) [] = (Ok true, m, t)).
Proof.
  induction lines as [|x rest IH]; intros ms n ls.
  - split.
    + intros H. apply lchain_nil in H as [t [ms' [L ->]]]. exists ms, [], t. cbn [length]. rewrite Nat.add_0_r. split; [constructor|]. split; [reflexivity|]. eauto.
    + intros [ms' [ls0 [t [H [-> [m L]]]]]]. inversion H; subst. cbn [length app] in *. rewrite Nat.add_0_r in *. econstructor. exact L.
  - change (lines_from n (x :: rest)) with ((S n, x) :: lines_from (S n) rest). replace (n + length (x :: rest)) with (S n + length rest) by (cbn; lia). split.
    + intros H. apply lchain_cons in H as [t [ms' [k [ls' [Hx [L [Ch ->]]]]]]]. apply IH in Ch as [ms2 [ls0 [t2 [Sg [-> E]]]]]. exists ms2, (mkLeaf ms (S n) x t :: ls0), t2. split; [|split; [reflexivity | exact E]].
      econstructor; [exact Hx | | exact Sg]. assert (K : tok_kind t = k) by (unfold tok_kind; now rewrite (lexm_kind _ _ _ _ _ _ L)). rewrite K. exact L.
    + intros [ms2 [ls0 [t2 [Sg [-> E]]]]]. inversion Sg as [|? n0 x0 t ms1 nls ls m2 Hx L Sg']; subst. cbn [app]. econstructor; [exact Hx | exact L|]. apply IH. eauto 8.
Qed.
Lemma lines_from_nonempty n lines : lines_ok lines -> nonempty (lines_from n lines).
Proof. intros H. revert n. induction H as [|x rest Hx H IH]; intros n; [constructor|]. constructor; [exact Hx | apply IH]. Qed.
