(** * compile on the documents of the parser: which exceptions are possible *)
From Verif Require Import PyStr PyStrFacts Types Regex RegexFacts Line Ast IdSpec Compiler PickleSpec PickleFacts.

(** the two answers of the model of [re.compile] for a pattern it rejects *)
Definition re_exn (e : exn) : Prop := e = EReError \/ e = EUnmodelled.
(** [r] is a value, or (unless everything is plain) an error of [re] *)
Definition fine {A} (plain_ : Prop) (r : result A) : Prop :=
  match r with Ok _ => True | Err e => ~ plain_ /\ re_exn e end.
Definition rfine {A} (r : result A) : Prop := match r with Ok _ => True | Err e => re_exn e end.
Lemma rfine_bind {A B} (r : result A) (f : A -> result B) : rfine r -> (forall a, rfine (f a)) -> rfine (rbind r f).
Proof. intros H H'. destruct r; [apply H' | exact H]. Qed.
Lemma re1 : re_exn EReError. Proof. now left. Qed.
Lemma re2 : re_exn EUnmodelled. Proof. now right. Qed.
Ltac rf := first [exact I | exact re1 | exact re2 | apply rfine_bind; [|intros] | match goal with
  | |- rfine (if ?b then _ else _) => destruct b
  | |- rfine (match ?x with [] => _ | _ :: _ => _ end) => destruct x
  | |- rfine (match ?x with Ok _ => _ | Err _ => _ end) => let E := fresh in destruct x eqn:E
  | |- rfine (match ?x with (_, _) => _ end) => destruct x
  | |- rfine (match ?x with CChar _ => _ | CRange _ _ => _ | CSpace => _ | CNonSpace => _ end) => destruct x
  end].
Lemma p_escape_rf c : rfine (p_escape c).
Proof. unfold p_escape. repeat rf. Qed.
Lemma p_class_rf fuel : forall first x, rfine (p_class fuel first x).
Proof.
  induction fuel as [|f IH]; intros first x; [exact re2|]. cbn [p_class]. destruct x as [|c x]; [exact re1|]. destruct ((c =? 93)%N && negb first); [exact I|].
  match goal with |- rfine (match ?r with Ok _ => _ | Err _ => _ end) => assert (R : rfine r); [|destruct r as [[i x2]|e]; [|exact R]] end.
  { repeat (rf || apply p_escape_rf). }
  repeat (rf || apply IH).
Qed.
Lemma p_quant_rf a x : rfine (p_quant a x).
Proof. unfold p_quant. cbv zeta. repeat rf. Qed.
Lemma p_alt_rf ml ds f : forall x, rfine (p_alt ml ds f x) /\ rfine (p_cat ml ds f x).
Proof.
  induction f as [|f IH]; intros x; [split; exact re2|]. split.
  - cbn [p_alt]. repeat (rf || apply IH).
  - cbn [p_cat]. repeat (rf || apply IH || apply p_escape_rf || apply p_class_rf || apply p_quant_rf).
Qed.
Lemma re_parse_rf x : rfine (re_parse x).
Proof. unfold re_parse, re_parse_flags. repeat (rf || apply p_alt_rf). Qed.
Lemma subst_one_rf h v x : rfine (subst_one h v x).
Proof. unfold subst_one. apply rfine_bind; [apply re_parse_rf|]. intros r. now rewrite template_reescape. Qed.

Section Fine.
Context (P : Prop).
Lemma fine_bind {A B} (r : result A) (f : A -> result B) : fine P r -> (forall a, r = Ok a -> fine P (f a)) -> fine P (rbind r f).
Proof. intros H H'. destruct r; [now apply H' | exact H]. Qed.
Lemma interpolate_fine vars vals x : (P -> Forall plain (map cell_value vars)) -> length vars <= length vals -> fine P (interpolate x vars vals).
Proof.
  revert vals x. induction vars as [|v vars IH]; intros vals x H L; [exact I|]. destruct vals as [|w vals]; [cbn in L; lia|]. cbn [interpolate].
  apply fine_bind; [|intros; apply IH; [intros p; specialize (H p); now inversion H | cbn in L; lia]].
  pose proof (subst_one_rf (cell_value v) (cell_value w) x) as R. destruct (subst_one _ _ _) as [y|e] eqn:E; [exact I|]. split; [|exact R].
  intros p. specialize (H p). inversion H as [|? ? H1 H2]; subst. rewrite subst_plain in E by assumption. discriminate.
Qed.
Lemma map_result_fine {A B} (f : A -> result B) l : (forall a, In a l -> fine P (f a)) -> fine P (map_result f l).
Proof.
  induction l as [|a l IH]; intros H; [exact I|]. cbn. apply fine_bind; [apply H; now left|]. intros b _. apply fine_bind; [apply IH; intros; apply H; now right|]. intros; exact I.
Qed.
Lemma pickle_step_fine st nodes kt vars vals id : step_complete st -> (P -> Forall plain (map cell_value vars)) -> length vars <= length vals ->
  fine P (pickle_step st nodes kt vars vals id).
Proof.
  intros [_ [[x Hx] _]] H L. unfold pickle_step. rewrite Hx. cbn [get_key rbind]. apply fine_bind; [now apply interpolate_fine|]. intros y _.
  apply fine_bind; [|intros; exact I]. unfold create_pickle_arguments. destruct (st_arg st) as [|t|d]; [exact I| |].
  - apply fine_bind; [|intros; exact I]. apply map_result_fine. intros r _. apply map_result_fine. intros c _. now apply interpolate_fine.
  - apply fine_bind; [now apply interpolate_fine|]. intros c _. destruct (ds_media d); [|exact I]. apply fine_bind; [now apply interpolate_fine|]. intros; exact I.
Qed.
Lemma pickle_steps_fine steps extra vars vals : Forall step_complete steps -> (P -> Forall plain (map cell_value vars)) -> length vars <= length vals ->
  forall last id, fine P (pickle_steps steps extra vars vals last id).
Proof.
  intros HS H L. induction HS as [|st steps H1 H2 IH]; intros last id; [exact I|]. cbn [pickle_steps]. apply fine_bind.
  - unfold next_type. destruct H1 as [[k Hk] _]. rewrite Hk. exact I.
  - intros k _. apply fine_bind; [now apply pickle_step_fine|]. intros p _. apply fine_bind; [apply IH|]. intros [[? ?] ?] _. exact I.
Qed.
Lemma compile_seq_fine {A} (g : A -> nat -> result (list pickle * nat)) l : (forall a id, In a l -> fine P (g a id)) -> forall id, fine P (compile_seq g l id).
Proof.
  induction l as [|a l IH]; intros H id; [exact I|]. cbn. apply fine_bind; [apply H; now left|]. intros q _. apply fine_bind; [apply IH; intros; apply H; now right|]. intros; exact I.
Qed.
Lemma complete_of l : Forall step_wf l -> Forall step_complete l.
Proof. apply Forall_impl. now intros st [H _]. Qed.
Lemma one_fine ru tags bg lang sc id : Forall step_complete bg -> scenario_wf sc ->
  (P -> Forall (fun o => Forall plain (header_names o)) (scenario_origins ru sc)) -> fine P (compile_one tags bg lang sc id).
Proof.
  intros Hb [[[n Hn] _] [Hs He]] HP. apply complete_of in Hs. unfold compile_one. unfold scenario_origins in HP.
  assert (Zero : forall st extra last i, Forall step_complete st -> fine P (pickle_steps st extra [] [] last i)) by (intros; apply pickle_steps_fine; auto; constructor).
  destruct (sc_examples sc) as [|e es] eqn:Ee.
  - unfold compile_scenario. apply fine_bind.
    + destruct (sc_steps sc) eqn:Es; [exact I|]. rewrite <- Es in *. apply Zero. apply Forall_app. auto.
    + intros [[? ?] ?] _. rewrite Hn. exact I.
  - rewrite <- Ee in *. unfold compile_outline. apply compile_seq_fine. intros ex i Hex. unfold compile_examples. rewrite Forall_forall in He. specialize (He ex Hex). destruct He as [He _]. unfold examples_rectangular in He.
    destruct (ex_header ex) as [h|] eqn:Eh; [|exact I]. apply compile_seq_fine. intros r j Hr.
    assert (PL : P -> Forall plain (map cell_value (row_cells h))).
    { intros p. specialize (HP p). rewrite Forall_forall in HP. specialize (HP (mkOrigin ru sc (Some (ex, h, r)))). cbn in HP. apply HP.
      apply in_flat_map. exists ex. split; [exact Hex|]. unfold examples_origins. rewrite Eh. apply in_map_iff. eauto. }
    assert (LE : length (row_cells h) <= length (row_cells r)) by (unfold rows_width in He; rewrite Forall_forall in He; rewrite (He r Hr); lia).
    apply fine_bind; [|intros; exact I]. unfold compile_row. apply fine_bind.
    + destruct (sc_steps sc); [exact I|]. now apply Zero.
    + intros [[? ?] ?] _. apply fine_bind; [now apply pickle_steps_fine|]. intros [[? ?] ?] _. rewrite Hn. cbn [get_key rbind].
      apply fine_bind; [now apply interpolate_fine|]. intros; exact I.
Qed.
End Fine.
Lemma bg_complete b : opt_wf background_wf b -> Forall step_complete (bg_steps_of b).
Proof. destruct b; cbn; [apply complete_of | constructor]. Qed.
Theorem compile_fine d id : doc_wf d -> fine (plain_headers d) (compile d id).
Proof.
  unfold doc_wf, plain_headers, origins, compile. destruct (gd_feature d) as [f|]; [|intros; exact I]. intros [[[l Hl] _] [Hb [Hs Hr]]].
  match goal with |- fine ?Q _ => assert (G : fine Q (rbind (get_key (s "language") (fe_language f)) (fun language =>
            let bg := bg_steps_of (fe_background f) in
            rbind (compile_seq (compile_one (fe_tags f) bg language) (fe_scenarios f) id) (fun q1 =>
              rbind (compile_seq (compile_rule (fe_tags f) bg language) (fe_rules f) (snd q1)) (fun q2 =>
                Ok (fst q1 ++ fst q2, snd q2)))))); [|destruct (fe_background f); [exact G|]; destruct (fe_scenarios f); [|exact G]; destruct (fe_rules f); [exact I | exact G]] end.
  rewrite Hl. cbn [get_key rbind]. cbv zeta. apply bg_complete in Hb. unfold feature_origins. apply fine_bind.
  - apply compile_seq_fine. intros sc i Hi. apply (one_fine _ None); [assumption | rewrite Forall_forall in Hs; auto|]. intros p. apply Forall_app in p as [p _].
    rewrite Forall_forall in *. intros o Ho. apply p. apply in_flat_map. eauto.
  - intros q _. apply fine_bind; [|intros; exact I]. apply compile_seq_fine. intros ru i Hi. unfold compile_rule. rewrite Forall_forall in Hr. destruct (Hr ru Hi) as [Hrb [Hrs _]].
    apply bg_complete in Hrb. apply compile_seq_fine. intros sc j Hj. apply (one_fine _ (Some ru)); [now apply Forall_app | rewrite Forall_forall in Hrs; auto|]. intros p.
    apply Forall_app in p as [_ p]. rewrite Forall_forall in *. intros o Ho. apply p. apply in_flat_map. exists ru. split; [exact Hi|]. apply in_flat_map. eauto.
Qed.
