(** * The compiler: lemmas *)
From Verif Require Import PyStr PyStrFacts Types Regex RegexFacts Line Ast IdSpec Compiler PickleSpec.

(** ** literal substitution *)
Lemma template_reescape v : template_literal (reescape v) = Ok v.
Proof.
  induction v as [|c v IH]; [reflexivity|]. unfold reescape in *. cbn [flat_map]. destruct (c =? ch_bslash)%N eqn:E.
  - apply N.eqb_eq in E as ->. cbn. now rewrite IH.
  - cbn [app template_literal]. rewrite E, IH. reflexivity.
Qed.
Definition magic (c : char) : bool := existsb (N.eqb c) (s "\.^$*+?[|()").
Fixpoint litb (x : str) : bool :=
  match x with
  | [] => true
  | c :: x' => negb (magic c) && (if (c =? 123)%N then match x' with d :: _ => negb (is_digit d || (d =? ch_comma)%N) | [] => true end else true) && litb x'
  end.
Lemma metachar_false c : ~ metachar c -> magic c = false.
Proof.
  intros H. unfold magic. destruct (existsb (N.eqb c) _) eqn:E; [|reflexivity]. apply existsb_exists in E as [d [Hd E]]. apply N.eqb_eq in E as ->. now destruct H.
Qed.
Lemma special_cases c : magic c = false ->
  (c =? ch_bslash)%N = false /\ (c =? 46)%N = false /\ (c =? 94)%N = false /\ (c =? 36)%N = false /\ (c =? 42)%N = false /\
  (c =? 43)%N = false /\ (c =? 63)%N = false /\ (c =? 91)%N = false /\ (c =? ch_pipe)%N = false /\ (c =? 40)%N = false /\ (c =? 41)%N = false.
Proof.
  unfold magic. intros H. rewrite <- not_true_iff_false, existsb_exists in H.
  repeat split; apply not_true_iff_false; intros E; apply N.eqb_eq in E as ->; apply H; eexists; (split; [|apply N.eqb_refl]); cbn; tauto.
Qed.
Lemma digit_in d : is_digit d || (d =? ch_comma)%N = true -> In d (s "0123456789,").
Proof.
  unfold is_digit, ch_comma. intros H. apply orb_true_iff in H as [H|H]; [|apply N.eqb_eq in H as ->; cbn; tauto].
  apply andb_true_iff in H as [H1 H2]. apply N.leb_le in H1, H2.
  assert (d = 48 \/ d = 49 \/ d = 50 \/ d = 51 \/ d = 52 \/ d = 53 \/ d = 54 \/ d = 55 \/ d = 56 \/ d = 57)%N by lia. cbn. intuition.
Qed.
Lemma litb_spec x : (forall c, In c x -> ~ metachar c) -> ~ repetition x -> litb x = true.
Proof.
  induction x as [|c x IH]; intros M R; [reflexivity|]. cbn [litb]. rewrite (metachar_false c) by (apply M; now left). cbn [negb andb].
  rewrite IH; [rewrite andb_true_r | intros d Hd; apply M; now right | intros [a [d [b [E Hd]]]]; apply R; exists (c :: a), d, b; now rewrite E].
  destruct (c =? 123)%N eqn:E; [|reflexivity]. apply N.eqb_eq in E as ->. destruct x as [|d x]; [reflexivity|].
  destruct (is_digit d || (d =? ch_comma)%N) eqn:Ed; [|reflexivity]. exfalso. apply R. exists [], d, x. split; [reflexivity | now apply digit_in].
Qed.
(** a decidable sufficient condition *)
Lemma plain_word h : existsb (fun c => existsb (N.eqb c) (s "\.^$*+?[|(){")) h = false -> plain h.
Proof.
  intros H. rewrite <- not_true_iff_false, existsb_exists in H. assert (G : forall c, In c h -> ~ In c (s "\.^$*+?[|(){")).
  { intros c Hc Hm. apply H. exists c. split; [exact Hc|]. apply existsb_exists. exists c. split; [exact Hm | apply N.eqb_refl]. }
  split.
  - intros c Hc M. apply (G c Hc). cbn in M |- *. tauto.
  - intros [a [c [b [E _]]]]. apply (G 123%N); [rewrite E; apply in_app_iff; right; now left | cbn; tauto].
Qed.
Lemma p_quant_lit a x : litb x = true -> p_quant a x = Ok (a, x).
Proof.
  destruct x as [|c x]; [reflexivity|]. intros H. cbn [litb] in H. apply andb_true_iff in H as [H _]. apply andb_true_iff in H as [H1 H2]. apply negb_true_iff in H1.
  apply special_cases in H1 as [A1 [A2 [A3 [A4 [A5 [A6 [A7 A8]]]]]]].
  cbn [p_quant]. rewrite A5, A6, A7. cbn [orb]. rewrite andb_false_r. destruct (c =? 123)%N; [|reflexivity]. destruct x as [|d x]; [reflexivity|]. apply negb_true_iff in H2. cbn [p_braces]. now rewrite H2.
Qed.
Lemma p_cat_lit ml ds x : litb x = true -> forall f, length x < f -> p_cat ml ds f x = Ok (RLit x, []).
Proof.
  induction x as [|c x IH]; intros H f Hf; (destruct f as [|f]; [cbn in Hf; lia|]); [reflexivity|].
  cbn [litb] in H. apply andb_true_iff in H as [H H3]. apply andb_true_iff in H as [H1 H2]. apply negb_true_iff in H1.
  assert (B : (c =? 123)%N && p_braces x = false).
  { destruct (c =? 123)%N; [|reflexivity]. destruct x as [|d x]; [reflexivity|]. apply negb_true_iff in H2. exact H2. }
  cbn [p_cat]. apply special_cases in H1 as [A1 [A2 [A3 [A4 [A5 [A6 [A7 [A8 [A9 [A10 A11]]]]]]]]]].
  rewrite A9, A11, A1, A2, A3, A4, A5, A6, A7, A8, A10, B. cbn [orb rbind fst snd]. rewrite p_quant_lit by assumption. cbn [rbind fst snd].
  rewrite IH by (assumption || (cbn in Hf; lia)). reflexivity.
Qed.
Lemma re_parse_lit x : litb x = true -> re_parse x = Ok (RLit x).
Proof.
  intros H. unfold re_parse. destruct (startswith (s "(?ms)") x) eqn:E.
  - apply startswith_spec in E as [z ->]. discriminate.
  - unfold re_parse_flags. replace (2 * length x + 2) with (S (2 * length x + 1)) by lia. cbn [p_alt].
    rewrite p_cat_lit by (auto; lia). reflexivity.
Qed.
Lemma exec_lit p st : exec (RLit p) st = if startswith p (r_rest st) then [mkR (match p with [] => r_prev st | _ => Some (last p 0%N) end) (skipn (length p) (r_rest st)) (r_caps st)] else [].
Proof.
  revert st. induction p as [|c p IH]; intros [pr x cs]; [reflexivity|]. cbn [RLit exec r_rest].
  unfold step1. cbn [r_rest]. destruct x as [|d x]; [reflexivity|]. cbn [startswith]. 
  assert (CS : forall d, cset_has false [CChar c] d = (d =? c)%N) by (intros e; unfold cset_has; cbn [existsb citem_has]; now rewrite orb_false_r, xorb_false_l). unfold RChar. cbn [exec]. unfold step1. cbn [r_rest]. rewrite CS.
  rewrite (N.eqb_sym d c). destruct (c =? d)%N eqn:E; cbn [andb]; [|reflexivity]. cbn [flat_map r_caps]. rewrite app_nil_r, IH. cbn [r_rest r_prev r_caps length skipn].
  destruct (startswith p x); [|reflexivity]. apply N.eqb_eq in E as ->. destruct p; reflexivity.
Qed.
Lemma startswith_len p x : startswith p x = true -> length p <= length x.
Proof. intros H. apply startswith_spec in H as [z ->]. rewrite app_length. lia. Qed.
Lemma sub_lit p new : p <> [] -> forall x prev skip, sub_go (RLit p) new prev skip x = replace_go p new skip x.
Proof.
  intros Hp. induction x as [|c x IH]; intros prev skip.
  - cbn [sub_go replace_go]. unfold first_match. rewrite exec_lit. cbn [r_rest]. destruct p; [easy|]. reflexivity.
  - cbn [sub_go replace_go]. destruct skip as [|k]; [|apply IH]. unfold first_match. rewrite !exec_lit. cbn [r_rest].
    destruct (startswith p (c :: x)) eqn:E; [|cbn; now rewrite IH]. cbn [find r_rest].
    apply startswith_len in E. rewrite skipn_length.
    replace (length (c :: x) - (length (c :: x) - length p)) with (length p) by lia. destruct p as [|a p]; [easy|]. cbn [length]. rewrite Nat.sub_succ, Nat.sub_0_r, IH. reflexivity.
Qed.
Lemma replace_go_skip p new k : forall x, replace_go p new k x = replace_go p new 0 (skipn k x).
Proof. induction k as [|k IH]; intros x; [reflexivity|]. destruct x as [|c x]; [reflexivity|]. cbn [replace_go skipn]. apply IH. Qed.
Lemma replace_replaced p new : p <> [] -> forall x, replaced p new x (replace p new x).
Proof.
  intros Hp x. unfold replace. remember (length x) as n eqn:En. assert (L : length x <= n) by lia. clear En. revert x L.
  induction n as [|n IH]; intros x L; (destruct x as [|c x]; [constructor|]); [cbn in L; lia|]. cbn [replace_go].
  destruct (startswith p (c :: x)) eqn:E.
  - rewrite replace_go_skip. apply startswith_spec in E as [z Ez]. rewrite Ez. destruct p as [|a p]; [easy|]. injection Ez as <- ->. cbn [length]. rewrite Nat.sub_succ, Nat.sub_0_r.
    rewrite skipn_app, Nat.sub_diag, skipn_all. cbn [app skipn]. apply (rp_hit (c :: p)). apply IH. cbn in L. rewrite app_length in L. lia.
  - constructor; [|apply IH; cbn in L; lia]. intros [z Hz]. rewrite <- not_true_iff_false in E. apply E. apply startswith_spec. eauto.
Qed.
Lemma replaced_fun p new x y y' : p <> [] -> replaced p new x y -> replaced p new x y' -> y = y'.
Proof.
  intros Hp H. revert y'. induction H as [|x y H IH|c x y N H IH]; intros y' H'.
  - inversion H' as [E|x y0 H0 E|]; subst; [reflexivity|]. apply app_eq_nil in E as [E _]. contradiction.
  - inversion H' as [E|x' y0 H0 E|c x' y0 N H0 E]; subst.
    + symmetry in E. apply app_eq_nil in E as [E _]. contradiction.
    + apply app_inv_head in E as ->. f_equal. auto.
    + destruct N. rewrite E. now exists x.
  - inversion H' as [E|x' y0 H0 E|? x' y0 N0 H0 E]; subst.
    + destruct N. now exists x'.
    + f_equal. auto.
Qed.
Lemma subst_plain h v x : plain h -> subst_one h v x = Ok (replace (placeholder h) v x).
Proof.
  intros H. unfold subst_one. assert (P : re_parse (s "<" ++ h ++ s ">") = Ok (RLit (placeholder h))).
  { apply re_parse_lit. apply litb_spec.
    - intros c Hc. apply in_app_iff in Hc as [Hc|Hc]; [|apply in_app_iff in Hc as [Hc|Hc]; [now apply H|]].
      + cbn in Hc. destruct Hc as [<-|[]]. intros M. vm_compute in M. intuition discriminate.
      + cbn in Hc. destruct Hc as [<-|[]]. intros M. vm_compute in M. intuition discriminate.
    - intros [a [c [b [E Hc]]]]. destruct a as [|a0 a]; [discriminate|]. injection E as _ E. apply (proj2 H).
      assert (E' : @app char h [62%N] = @app char (a ++ [123%N]) (c :: b)) by (rewrite <- app_assoc; exact E). clear E.
      destruct (@exists_last _ (c :: b) ltac:(discriminate)) as [b' [z Ez]]. rewrite Ez in E'. rewrite app_assoc in E'. apply app_inj_tail in E' as [E' <-].
      destruct b' as [|c' b']; [injection Ez as -> ->; vm_compute in Hc; intuition discriminate|]. injection Ez as -> _. exists a, c', b'. rewrite <- app_assoc in E'. now split. }
  etransitivity; [apply (f_equal (fun z => rbind z _) P)|]. cbn [rbind]. rewrite template_reescape. cbn [rbind].
  unfold re_sub. rewrite sub_lit by discriminate. reflexivity.
Qed.
Lemma interpolate_filled vars vals x y : Forall plain (map cell_value vars) -> interpolate x vars vals = Ok y ->
  filled (combine (map cell_value vars) (map cell_value vals)) x y.
Proof.
  revert vals x. induction vars as [|v vars IH]; intros vals x P H; [injection H as <-; constructor|].
  destruct vals as [|w vals]; [discriminate|]. cbn [interpolate] in H. inversion P as [|? ? P1 P2]; subst. rewrite subst_plain in H by assumption. cbn [rbind] in H.
  cbn [map combine]. econstructor; [apply replace_replaced; discriminate | auto].
Qed.
Lemma interpolate_total vars vals x : Forall plain (map cell_value vars) -> length vars <= length vals -> exists y, interpolate x vars vals = Ok y.
Proof.
  revert vals x. induction vars as [|v vars IH]; intros vals x P L; [eexists; reflexivity|].
  destruct vals as [|w vals]; [cbn in L; lia|]. cbn [interpolate]. inversion P as [|? ? P1 P2]; subst. rewrite subst_plain by assumption. cbn [rbind]. apply IH; [assumption | cbn in L; lia].
Qed.

(** ** pickles *)
Lemma rbind_ok {A B} (r : result A) (f : A -> result B) b : rbind r f = Ok b -> exists a, r = Ok a /\ f a = Ok b.
Proof. destruct r; cbn; [eauto | discriminate]. Qed.
Ltac inv_ok := repeat match goal with
  | H : rbind _ _ = Ok _ |- _ => let a := fresh "a" in let H1 := fresh "H" in apply rbind_ok in H as [a [H1 H]]
  | H : Ok _ = Ok _ |- _ => injection H as H; subst
  | H : (let '(_, _) := ?q in _) = Ok _ |- _ => destruct q
  end.
Lemma get_key_ok {A} k (o : option A) a : get_key k o = Ok a -> o = Some a.
Proof. destruct o; cbn; [congruence | discriminate]. Qed.

Definition cols_of (vars vals : list cell) := combine (map cell_value vars) (map cell_value vals).
(** what [pickle_step] makes of a step, with [interpolate] *)
Inductive arg_rel (vars vals : list cell) : steparg -> option parg -> Prop :=
| ar_none : arg_rel vars vals ANone None
| ar_table t rows : Forall2 (fun r vs => Forall2 (fun c v => interpolate (cell_value c) vars vals = Ok v) (row_cells r) vs) (dt_rows t) rows ->
    arg_rel vars vals (ATable t) (Some (PTable rows))
| ar_doc d c m : interpolate (ds_content d) vars vals = Ok c ->
    match ds_media d, m with None, None => True | Some x, Some y => interpolate x vars vals = Ok y | _, _ => False end ->
    arg_rel vars vals (ADoc d) (Some (PDoc c m)).
Definition step_rel (vars vals : list cell) (st : step) (p : pstep) : Prop :=
  (exists x, st_text st = Some x /\ interpolate x vars vals = Ok (ps_text p)) /\ arg_rel vars vals (st_arg st) (ps_arg p).
Lemma map_result_ok {A B} (f : A -> result B) l bs : map_result f l = Ok bs -> Forall2 (fun a b => f a = Ok b) l bs.
Proof. revert bs. induction l as [|a l IH]; intros bs H; cbn in H; inv_ok; constructor; auto. Qed.
Lemma map_result_total {A B} (f : A -> result B) l : Forall (fun a => exists b, f a = Ok b) l -> exists bs, map_result f l = Ok bs.
Proof. induction 1 as [|a l [b Hb] Hl [bs IH]]; [eexists; reflexivity|]. cbn. rewrite Hb. cbn. rewrite IH. cbn. eauto. Qed.
Lemma Forall2_imp {A B} (P Q : A -> B -> Prop) l l' : (forall a b, P a b -> Q a b) -> Forall2 P l l' -> Forall2 Q l l'.
Proof. intros H. induction 1; constructor; auto. Qed.
Lemma pickle_step_ok st nodes kt vars vals id p : pickle_step st nodes kt vars vals id = Ok p ->
  ps_nodes p = nodes /\ ps_id p = id /\ ps_type p = kt /\ step_rel vars vals st p.
Proof.
  unfold pickle_step. intros H. inv_ok. cbn. repeat split; auto; unfold step_rel; cbn.
  - exists a. split; [now apply get_key_ok in H0 | assumption].
  - unfold create_pickle_arguments in H2. destruct (st_arg st) as [|t|d]; [injection H2 as <-; constructor| |].
    + apply rbind_ok in H2 as [rows [H3 H2]]. injection H2 as <-. constructor. apply map_result_ok in H3. eapply Forall2_imp; [|exact H3]. intros r vs Hr. now apply map_result_ok.
    + apply rbind_ok in H2 as [c [Hc H2]]. destruct (ds_media d) as [m|] eqn:Em.
      * inv_ok. constructor; [assumption|]. now rewrite Em.
      * injection H2 as <-. constructor; [assumption|]. now rewrite Em.
Qed.
(** the loop over the steps *)
Fixpoint types_from (last : option ktype) (kts : list (option ktype)) : list (option ktype) :=
  match kts with
  | [] => []
  | k :: kts' => let t := match k with Some KtConjunction => last | _ => k end in t :: types_from t kts'
  end.
Fixpoint last_type (last : option ktype) (kts : list (option ktype)) : option ktype :=
  match kts with [] => last | k :: kts' => last_type (match k with Some KtConjunction => last | _ => k end) kts' end.
Lemma pickle_steps_ok steps extra vars vals : forall last id ps last' id', pickle_steps steps extra vars vals last id = Ok (ps, last', id') ->
  Forall2 (step_rel vars vals) steps ps /\ map ps_nodes ps = map (fun st => st_id st :: extra) steps /\
  map ps_id ps = seq id (length steps) /\ id' = id + length steps /\ map ps_type ps = types_from last (map st_ktype steps) /\
  last' = last_type last (map st_ktype steps).
Proof.
  induction steps as [|st steps IH]; intros last id ps last' id' H; cbn [pickle_steps] in H.
  - injection H as <- <- <-. cbn. repeat split; auto; lia.
  - apply rbind_ok in H as [lt [H0 H]]. apply rbind_ok in H as [p [H1 H]]. apply rbind_ok in H as [[[qs lt'] i'] [H2 H]]. injection H as <- <- <-.
    apply IH in H2 as [A1 [A2 [A3 [A4 [A5 A6]]]]]. apply pickle_step_ok in H1 as [B1 [B2 [B3 B4]]].
    unfold next_type in H0. apply rbind_ok in H0 as [kt [H1 H0]]. injection H0 as <-. apply get_key_ok in H1. cbn. rewrite H1, A2, A3, A5, A6, B1, B2, B3.
    repeat split; auto; lia || (destruct kt; reflexivity).
Qed.
Lemma types_from_app last a b : types_from last (a ++ b) = types_from last a ++ types_from (last_type last a) b.
Proof. revert last. induction a as [|k a IH]; intros last; [reflexivity|]. cbn. now rewrite IH. Qed.
Lemma types_from_length kts : forall last, length (types_from last kts) = length kts.
Proof. induction kts; intros; cbn; auto. Qed.
Lemma conj_dec (k : option ktype) : conj k \/ ~ conj k.
Proof. unfold conj. destruct k as [[]|]; (left; reflexivity) || (right; discriminate). Qed.
Lemma types_from_spec kts : forall dflt i ty, nth_error (types_from dflt kts) i = Some ty -> step_type dflt kts i ty.
Proof.
  induction kts as [|k kts IH]; intros dflt i ty H; [destruct i; discriminate|]. cbn [types_from] in H. destruct i as [|i].
  - cbn in H. injection H as <-. exists k. split; [reflexivity|]. destruct (conj_dec k) as [C|C].
    + right. right. split; [assumption|]. split; [intros m km Hm; lia|]. rewrite C. reflexivity.
    + left. split; [assumption|]. destruct k as [[]|]; try reflexivity. now destruct C.
  - cbn in H. apply IH in H as [k' [E H]]. exists k'. split; [exact E|]. destruct H as [H|[[C [j [kj [Hj [Ej [Nj [-> B]]]]]]]|[C [B ->]]]].
    + now left.
    + right. left. split; [assumption|]. exists (S j), kj. repeat split; auto; [lia|]. intros m km Hm Em. destruct m as [|m]; [lia|]. apply (B m km); [lia | exact Em].
    + right. destruct (conj_dec k) as [Ck|Ck].
      * right. split; [assumption|]. split; [|now rewrite Ck]. intros m km Hm Em. destruct m as [|m]; [cbn in Em; congruence|]. apply (B m km); [lia | exact Em].
      * left. split; [assumption|]. exists 0, k. repeat split; auto; [lia| |].
        -- destruct k as [[]|]; try reflexivity. now destruct Ck.
        -- intros m km Hm Em. destruct m as [|m]; [lia|]. apply (B m km); [lia | exact Em].
Qed.

Definition vars_of (o : origin) : list cell := match o_row o with None => [] | Some (_, h, _) => row_cells h end.
Definition vals_of (o : origin) : list cell := match o_row o with None => [] | Some (_, _, r) => row_cells r end.
Definition init_type (o : origin) : option ktype := match o_row o with None => Some KtUnknown | Some _ => None end.
Record pickle_rel (f : feature) (o : origin) (p : pickle) : Prop := {
  pr_nodes : pk_nodes p = origin_nodes o;
  pr_tags : pk_tags p = map (fun t => mkPt (tag_id t) (tag_name t)) (origin_tags f o);
  pr_lang : fe_language f = Some (pk_language p);
  pr_name : exists n, sc_name (o_scenario o) = Some n /\ interpolate n (vars_of o) (vals_of o) = Ok (pk_name p);
  pr_snodes : map ps_nodes (pk_steps p) = step_nodes f o;
  pr_types : map ps_type (pk_steps p) = types_from (init_type o) (map st_ktype (origin_steps f o));
  pr_steps : exists p1 p2, pk_steps p = p1 ++ p2 /\ Forall2 (step_rel [] []) (inherited_steps f o) p1 /\
               Forall2 (step_rel (vars_of o) (vals_of o)) (sc_steps (o_scenario o)) p2 }.
Definition block (id : nat) (ps : list pickle) (id' : nat) : Prop := id <= id' /\ flat_map pickle_ids ps = seq id (id' - id).
Lemma block_nil id : block id [] id.
Proof. split; [lia|]. now rewrite Nat.sub_diag. Qed.
Lemma block_app a p b q c : block a p b -> block b q c -> block a (p ++ q) c.
Proof.
  intros [H1 E1] [H2 E2]. split; [lia|]. rewrite flat_map_app, E1, E2. replace (c - a) with ((b - a) + (c - b)) by lia. rewrite seq_app. do 2 f_equal. lia.
Qed.
Definition made (f : feature) (os : list origin) (id : nat) (q : list pickle * nat) : Prop :=
  Forall2 (pickle_rel f) os (fst q) /\ block id (fst q) (snd q).
Lemma compile_seq_made {A} f (g : A -> nat -> result (list pickle * nat)) (og : A -> list origin) l :
  (forall a id q, In a l -> g a id = Ok q -> made f (og a) id q) ->
  forall id q, compile_seq g l id = Ok q -> made f (flat_map og l) id q.
Proof.
  induction l as [|a l IH]; intros H id q E; cbn [compile_seq] in E; inv_ok.
  - split; [constructor | apply block_nil].
  - apply (H a id a0 (or_introl eq_refl)) in H0 as [A1 A2]. apply IH in H1 as [B1 B2]; [|intros; eapply H; eauto; now right].
    split; cbn [fst snd]; [now apply Forall2_app | eapply block_app; eauto].
Qed.

Section Feature.
Context (f : feature) (language : str) (HL : fe_language f = Some language).
Definition itags (ru : option rule_ast) := fe_tags f ++ match ru with None => [] | Some ru => ru_tags ru end.
Definition ibg (ru : option rule_ast) := background_steps (fe_background f) ++ match ru with None => [] | Some ru => background_steps (ru_background ru) end.
Lemma scenario_made ru sc id q : compile_scenario (itags ru) (ibg ru) sc language id = Ok q -> made f [mkOrigin ru sc None] id q.
Proof.
  unfold compile_scenario. intros H. apply rbind_ok in H as [[[ps lt] id1] [H1 H]]. inv_ok. apply get_key_ok in H0.
  set (o := mkOrigin ru sc None).
  assert (A : Forall2 (step_rel [] []) (origin_steps f o) ps /\ map ps_nodes ps = step_nodes f o /\ map ps_id ps = seq id (id1 - id) /\ id <= id1 /\
    map ps_type ps = types_from (Some KtUnknown) (map st_ktype (origin_steps f o))).
  { unfold origin_steps, step_nodes, inherited_steps. cbn [o_scenario o_row o_rule o]. destruct (sc_steps sc) as [|st sts] eqn:Es.
    - injection H1 as <- <- <-. cbn. rewrite Nat.sub_diag. repeat split; auto; constructor.
    - rewrite <- Es in *. apply pickle_steps_ok in H1 as [A1 [A2 [A3 [A4 [A5 _]]]]]. rewrite map_app in A2. fold (ibg ru). subst id1. repeat split; auto; [|lia].
      rewrite A3. f_equal. lia. }
  destruct A as [A1 [A2 [A3 [A4 A5]]]]. split; cbn [fst snd].
  - constructor; [|constructor]. constructor; cbn; auto.
    + f_equal. unfold origin_tags, itags. cbn. now rewrite app_nil_r, <- app_assoc.
    + eauto.
    + unfold origin_steps in A1. apply Forall2_app_inv_l in A1 as [p1 [p2 [B1 [B2 ->]]]]. exists p1, p2. auto.
  - split; [lia|]. cbn [flat_map]. rewrite app_nil_r. unfold pickle_ids. cbn [pk_steps pk_id]. rewrite A3. replace (S id1 - id) with ((id1 - id) + 1) by lia. rewrite seq_app. do 2 f_equal. cbn. f_equal. lia.
Qed.
Lemma row_made ru sc ex h r id q : compile_row (itags ru) (ibg ru) sc ex (row_cells h) language r id = Ok q ->
  made f [mkOrigin ru sc (Some (ex, h, r))] id ([fst q], snd q).
Proof.
  unfold compile_row. intros H. apply rbind_ok in H as [[[ps1 lt] id1] [H1 H]]. apply rbind_ok in H as [[[ps2 lt2] id2] [H2 H]]. inv_ok. apply get_key_ok in H0.
  set (o := mkOrigin ru sc (Some (ex, h, r))). apply pickle_steps_ok in H2 as [B1 [B2 [B3 [B4 [B5 _]]]]].
  assert (A : Forall2 (step_rel [] []) (inherited_steps f o) ps1 /\ map ps_nodes ps1 = map (fun st => [st_id st]) (inherited_steps f o) /\ map ps_id ps1 = seq id (id1 - id) /\ id <= id1 /\
    map ps_type ps1 = types_from None (map st_ktype (inherited_steps f o)) /\ lt = last_type None (map st_ktype (inherited_steps f o))).
  { unfold inherited_steps. cbn [o_scenario o_row o_rule o]. destruct (sc_steps sc) as [|st sts] eqn:Es.
    - injection H1 as <- <- <-. cbn. rewrite Nat.sub_diag. repeat split; auto; constructor.
    - apply pickle_steps_ok in H1 as [A1 [A2 [A3 [A4 [A5 A6]]]]]. fold (ibg ru). subst id1. repeat split; auto; [|lia].
      rewrite A3. f_equal. lia. }
  destruct A as [A1 [A2 [A3 [A4 [A5 A6]]]]]. split; cbn [fst snd].
  - constructor; [|constructor]. constructor; cbn; auto.
    + f_equal. unfold origin_tags, itags. cbn. now rewrite <- app_assoc.
    + eauto.
    + unfold step_nodes. cbn. now rewrite map_app, A2, B2.
    + unfold origin_steps. rewrite !map_app, types_from_app, A5, B5, A6. reflexivity.
    + exists ps1, ps2. auto.
  - split; [lia|]. cbn [flat_map]. rewrite app_nil_r. unfold pickle_ids. cbn [pk_steps pk_id]. rewrite map_app, A3, B3.
    replace (S id2 - id) with ((id1 - id) + length (sc_steps sc) + 1) by lia. rewrite !seq_app. subst id2. f_equal; [f_equal; f_equal; lia|]. cbn. f_equal. lia.
Qed.
Lemma one_made ru sc id q : compile_one (itags ru) (ibg ru) language sc id = Ok q -> made f (scenario_origins ru sc) id q.
Proof.
  unfold compile_one, scenario_origins. intros H. destruct (sc_examples sc) as [|e es] eqn:Ee; [now apply scenario_made|]. rewrite <- Ee in *.
  unfold compile_outline in H. revert H. apply compile_seq_made. clear id q. intros ex id q _ H. unfold compile_examples in H. unfold examples_origins.
  destruct (ex_header ex) as [h|]; [|injection H as <-; split; [constructor | apply block_nil]].
  replace (map (fun r : row => mkOrigin ru sc (Some (ex, h, r))) (ex_body ex)) with (flat_map (fun r : row => [mkOrigin ru sc (Some (ex, h, r))]) (ex_body ex))
    by (clear; induction (ex_body ex); cbn; congruence).
  revert H. apply compile_seq_made. clear id q. intros r id q _ H. apply rbind_ok in H as [q' [H1 H]]. injection H as <-. now apply row_made.
Qed.
End Feature.
Lemma compile_made d id q : compile d id = Ok q ->
  match gd_feature d with None => q = ([], id) | Some f => made f (feature_origins f) id q end.
Proof.
  unfold compile. destruct (gd_feature d) as [f|]; [|congruence]. intros H.
  assert (G : (feature_origins f = [] /\ q = ([], id)) \/ rbind (get_key (s "language") (fe_language f)) (fun language =>
            let bg := bg_steps_of (fe_background f) in
            rbind (compile_seq (compile_one (fe_tags f) bg language) (fe_scenarios f) id) (fun q1 =>
              rbind (compile_seq (compile_rule (fe_tags f) bg language) (fe_rules f) (snd q1)) (fun q2 =>
                Ok (fst q1 ++ fst q2, snd q2)))) = Ok q).
  { unfold feature_origins. destruct (fe_background f); [now right|]. destruct (fe_scenarios f); [|now right]. destruct (fe_rules f); [|now right]. left. split; [reflexivity | congruence]. }
  clear H. destruct G as [[-> ->]|G]; [split; [constructor | apply block_nil]|]. inv_ok. apply get_key_ok in H. cbv zeta in G. inv_ok.
  assert (A1 : made f (flat_map (scenario_origins None) (fe_scenarios f)) id a0).
  { revert H0. apply compile_seq_made. intros sc i q _ E. apply (one_made f a H None sc i q). unfold itags, ibg. rewrite !app_nil_r. exact E. }
  assert (A2 : made f (flat_map (fun ru => flat_map (scenario_origins (Some ru)) (ru_scenarios ru)) (fe_rules f)) (snd a0) a1).
  { revert H1. apply compile_seq_made. intros ru i q _ E. unfold compile_rule in E. revert E. apply compile_seq_made. clear i q. intros sc i q _ E.
    apply (one_made f a H (Some ru) sc i q E). }
  destruct A1 as [A1 A1'], A2 as [A2 A2']. split; cbn [fst snd]; [now apply Forall2_app | eapply block_app; eauto].
Qed.
