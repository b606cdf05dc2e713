(** * compile depends on the essence of a document only *)
From Verif Require Import PyStr PyStrFacts Types Regex Line Ast Compiler EssenceSpec.

Definition step_bare (q : pstep) := (ps_type q, ps_text q, ps_arg q).
Lemma interpolate_values v1 : forall v2 w1 w2 name, map cell_value v1 = map cell_value v2 -> map cell_value w1 = map cell_value w2 -> interpolate name v1 w1 = interpolate name v2 w2.
Proof.
  induction v1 as [|a v1 IH]; intros [|b v2] w1 w2 name Ev Ew; try discriminate Ev; [reflexivity|]. cbn [map] in Ev. injection Ev as Ea Ev.
  destruct w1 as [|c w1], w2 as [|d w2]; try discriminate Ew; [reflexivity|]. cbn [map] in Ew. injection Ew as Ec Ew. cbn [interpolate]. rewrite Ea, Ec.
  destruct (subst_one _ _ name); [|reflexivity]. cbn [rbind]. now apply IH.
Qed.
Lemma map_result_same {A B} (f : A -> result B) (g : A -> result B) l l' :
  Forall2 (fun a b => f a = g b) l l' -> map_result f l = map_result g l'.
Proof. intros H. induction H as [|a b l l' E H IH]; [reflexivity|]. cbn [map_result]. now rewrite E, IH. Qed.
Lemma Forall2_impl {A B} (P Q : A -> B -> Prop) l l' : (forall a b, P a b -> Q a b) -> Forall2 P l l' -> Forall2 Q l l'.
Proof. induction 2; auto. Qed.
Lemma map_eq_forall2 {A B} (f : A -> B) l : forall l', map f l = map f l' -> Forall2 (fun a b => f a = f b) l l'.
Proof. induction l as [|a l IH]; intros [|b l'] E; try discriminate E; [constructor|]. cbn in E. injection E as E1 E2. constructor; auto. Qed.
Section Same.
Context (v1 v2 w1 w2 : list cell) (Ev : map cell_value v1 = map cell_value v2) (Ew : map cell_value w1 = map cell_value w2).
Lemma arguments_same x y : argument_essence (st_arg x) = argument_essence (st_arg y) -> create_pickle_arguments x v1 w1 = create_pickle_arguments y v2 w2.
Proof.
  unfold create_pickle_arguments. intros E. destruct (st_arg x) as [|t|d], (st_arg y) as [|t'|d']; cbn [argument_essence] in E; try discriminate E; [reflexivity| |].
  - injection E as E. apply map_eq_forall2 in E. rewrite (map_result_same _ (fun r => map_result (fun c => interpolate (cell_value c) v2 w2) (row_cells r)) _ (dt_rows t')); [reflexivity|].
    eapply Forall2_impl; [|exact E]. cbn beta. intros r r' Er. unfold values_of in Er. apply map_eq_forall2 in Er. apply map_result_same.
    eapply Forall2_impl; [|exact Er]. cbn beta. intros c c' Ec. rewrite Ec. now apply interpolate_values.
  - injection E as E1 E2. rewrite E1, E2. rewrite (interpolate_values v1 v2 w1 w2 _ Ev Ew). destruct (interpolate _ v2 w2); [|reflexivity]. cbn [rbind].
    destruct (ds_media d'); [|reflexivity]. now rewrite (interpolate_values v1 v2 w1 w2 _ Ev Ew).
Qed.
(** the same pickle steps, ids aside *)
Definition same_steps (x y : result (list pstep * option ktype * nat)) : Prop :=
  match x, y with
  | Ok (ps, k, _), Ok (ps', k', _) => map step_bare ps = map step_bare ps' /\ k = k'
  | Err e, Err e' => e = e'
  | _, _ => False
  end.
Lemma steps_same xs : forall ys e1 e2 last i j, map step_essence xs = map step_essence ys -> same_steps (pickle_steps xs e1 v1 w1 last i) (pickle_steps ys e2 v2 w2 last j).
Proof.
  induction xs as [|x xs IH]; intros [|y ys] e1 e2 last i j E; try discriminate E; [split; reflexivity|]. cbn [map] in E. injection E as E1 E2 E3 E. cbn [pickle_steps].
  unfold next_type. rewrite E1. destruct (get_key (s "keywordType") (st_ktype y)) as [kt|]; [|reflexivity]. cbn [rbind].
  unfold pickle_step. rewrite E2. destruct (get_key (s "text") (st_text y)) as [tx|]; [|reflexivity]. cbn [rbind].
  rewrite (interpolate_values v1 v2 w1 w2 _ Ev Ew). destruct (interpolate tx v2 w2) as [tx'|]; [|reflexivity]. cbn [rbind].
  rewrite (arguments_same x y E3). destruct (create_pickle_arguments y v2 w2) as [a|]; [|reflexivity]. cbn [rbind].
  set (last' := match kt with KtConjunction => last | _ => Some kt end). specialize (IH ys e1 e2 last' (S i) (S j) E).
  destruct (pickle_steps xs e1 v1 w1 last' (S i)) as [[[ps k] n]|], (pickle_steps ys e2 v2 w2 last' (S j)) as [[[ps' k'] n']|]; cbn [rbind same_steps] in *; try contradiction; [|exact IH].
  destruct IH as [IH ->]. split; [|reflexivity]. cbn [map]. unfold step_bare at 1 3. cbn [ps_type ps_text ps_arg]. now rewrite IH.
Qed.
End Same.

Definition same_pickles (x y : result (list pickle * nat)) : Prop :=
  match x, y with
  | Ok (ps, _), Ok (ps', _) => map pickle_essence ps = map pickle_essence ps'
  | Err e, Err e' => e = e'
  | _, _ => False
  end.
Lemma tag_names tags tags' : names_of tags = names_of tags' -> map pt_name (pickle_tags tags) = map pt_name (pickle_tags tags').
Proof. unfold pickle_tags. rewrite !map_map. cbn. auto. Qed.
Lemma names_app a b a' b' : names_of a = names_of a' -> names_of b = names_of b' -> names_of (a ++ b) = names_of (a' ++ b').
Proof. unfold names_of. rewrite !map_app. congruence. Qed.
Lemma steps_app a b a' b' : map step_essence a = map step_essence a' -> map step_essence b = map step_essence b' -> map step_essence (a ++ b) = map step_essence (a' ++ b').
Proof. rewrite !map_app. congruence. Qed.
Lemma seq_same {A} (f g : A -> nat -> result (list pickle * nat)) l l' : Forall2 (fun a b => forall i j, same_pickles (f a i) (g b j)) l l' ->
  forall i j, same_pickles (compile_seq f l i) (compile_seq g l' j).
Proof.
  induction 1 as [|a b l l' H _ IH]; intros i j; [reflexivity|]. cbn [compile_seq]. specialize (H i j).
  destruct (f a i) as [[ps n]|], (g b j) as [[ps' n']|]; cbn [same_pickles rbind] in *; try contradiction; [|exact H]. cbn [snd fst].
  specialize (IH n n'). destruct (compile_seq f l n) as [[qs m]|], (compile_seq g l' n') as [[qs' m']|]; cbn [same_pickles rbind fst snd] in *; try contradiction; [|exact IH].
  rewrite !map_app. congruence.
Qed.
Section One.
Context (ta tb : list tag) (ba bb : list step) (lang : str) (Et : names_of ta = names_of tb) (Eb : map step_essence ba = map step_essence bb).
Lemma nil_same {A B} (f : A -> B) l l' : map f l = map f l' -> match l with [] => true | _ => false end = match l' with [] => true | _ => false end.
Proof. now destruct l, l'. Qed.
Lemma scenario_same x y : scenario_essence x = scenario_essence y -> forall i j, same_pickles (compile_scenario ta ba x lang i) (compile_scenario tb bb y lang j).
Proof.
  intros E i j. unfold scenario_essence in E. injection E as E1 E2 E3 E4. unfold compile_scenario.
  assert (S : same_steps (match sc_steps x with [] => Ok ([], Some KtUnknown, i) | _ => pickle_steps (ba ++ sc_steps x) [] [] [] (Some KtUnknown) i end)
                         (match sc_steps y with [] => Ok ([], Some KtUnknown, j) | _ => pickle_steps (bb ++ sc_steps y) [] [] [] (Some KtUnknown) j end)).
  { pose proof (steps_same [] [] [] [] eq_refl eq_refl (ba ++ sc_steps x) (bb ++ sc_steps y) [] [] (Some KtUnknown) i j (steps_app _ _ _ _ Eb E3)) as S.
    destruct (sc_steps x), (sc_steps y); try discriminate E3; [split; reflexivity | exact S]. }
  destruct (match sc_steps x with [] => Ok ([], Some KtUnknown, i) | _ => _ end) as [[[ps k] n]|], (match sc_steps y with [] => Ok ([], Some KtUnknown, j) | _ => _ end) as [[[ps' k'] n']|];
    cbn [same_steps rbind] in *; try contradiction; [|exact S]. destruct S as [S _]. rewrite E2. destruct (get_key (s "name") (sc_name y)); [|reflexivity].
  cbn [rbind same_pickles map]. unfold pickle_essence. cbn. f_equal. f_equal; [f_equal; apply tag_names, names_app; assumption | exact S].
Qed.
Lemma row_same x y ea eb va vb r r' : scenario_essence x = scenario_essence y -> names_of (ex_tags ea) = names_of (ex_tags eb) -> map cell_value va = map cell_value vb -> values_of r = values_of r' ->
  forall i j, same_pickles (rbind (compile_row ta ba x ea va lang r i) (fun q => Ok ([fst q], snd q))) (rbind (compile_row tb bb y eb vb lang r' j) (fun q => Ok ([fst q], snd q))).
Proof.
  intros E Ee Ev Er i j. unfold scenario_essence in E. injection E as E1 E2 E3 E4. unfold compile_row.
  assert (S : same_steps (match sc_steps x with [] => Ok ([], None, i) | _ => pickle_steps ba [] [] [] None i end) (match sc_steps y with [] => Ok ([], None, j) | _ => pickle_steps bb [] [] [] None j end)).
  { pose proof (steps_same [] [] [] [] eq_refl eq_refl ba bb [] [] None i j Eb) as S. destruct (sc_steps x), (sc_steps y); try discriminate E3; [split; reflexivity | exact S]. }
  destruct (match sc_steps x with [] => Ok ([], None, i) | _ => _ end) as [[[ps k] n]|], (match sc_steps y with [] => Ok ([], None, j) | _ => _ end) as [[[ps' k'] n']|];
    cbn [same_steps rbind] in *; try contradiction; [|exact S]. destruct S as [S <-].
  pose proof (steps_same va vb (row_cells r) (row_cells r') Ev Er (sc_steps x) (sc_steps y) [row_id r] [row_id r'] k n n' E3) as S2.
  destruct (pickle_steps (sc_steps x) _ _ _ _ _) as [[[qs k2] m]|], (pickle_steps (sc_steps y) _ _ _ _ _) as [[[qs' k2'] m']|]; cbn [same_steps rbind] in *; try contradiction; [|exact S2].
  destruct S2 as [S2 _]. rewrite E2. destruct (get_key (s "name") (sc_name y)) as [nm|]; [|reflexivity]. cbn [rbind]. rewrite (interpolate_values va vb (row_cells r) (row_cells r') nm Ev Er).
  destruct (interpolate nm vb (row_cells r')); [|reflexivity]. cbn [rbind same_pickles fst snd map]. unfold pickle_essence. cbn. f_equal. f_equal; [f_equal; apply tag_names, names_app; [assumption | now apply names_app]|].
  change (map step_bare (ps ++ qs) = map step_bare (ps' ++ qs')). rewrite !map_app. congruence.
Qed.
Lemma one_same x y : scenario_essence x = scenario_essence y -> forall i j, same_pickles (compile_one ta ba lang x i) (compile_one tb bb lang y j).
Proof.
  intros E i j. pose proof E as E'. unfold scenario_essence in E'. injection E' as E1 E2 E3 E4. unfold compile_one.
  assert (O : same_pickles (compile_outline ta ba x lang i) (compile_outline tb bb y lang j)).
  { unfold compile_outline. apply seq_same. apply map_eq_forall2 in E4. eapply Forall2_impl; [|exact E4]. cbn beta. intros ea eb Ee i' j'. unfold examples_essence in Ee. injection Ee as F1 F2 F3.
    unfold compile_examples. destruct (ex_header ea) as [h|], (ex_header eb) as [h'|]; try discriminate F2; [|reflexivity]. cbn in F2. injection F2 as F2.
    apply seq_same. apply map_eq_forall2 in F3. eapply Forall2_impl; [|exact F3]. cbn beta. intros r r' Er i2 j2. now apply row_same. }
  pose proof (scenario_same x y E i j) as Sc. destruct (sc_examples x), (sc_examples y); try discriminate E4; assumption.
Qed.
Lemma ones_same l l' : map scenario_essence l = map scenario_essence l' -> forall i j, same_pickles (compile_seq (compile_one ta ba lang) l i) (compile_seq (compile_one tb bb lang) l' j).
Proof. intros E. apply map_eq_forall2 in E. apply seq_same. eapply Forall2_impl; [|exact E]. cbn beta. intros x y. apply one_same. Qed.
End One.
Lemma background_steps b b' : option_map background_essence b = option_map background_essence b' -> map step_essence (bg_steps_of b) = map step_essence (bg_steps_of b').
Proof. destruct b, b'; cbn; try discriminate; [|reflexivity]. intros E. now injection E. Qed.
Theorem compile_essence d d' : essence d = essence d' -> forall i j, same_pickles (compile d i) (compile d' j).
Proof.
  unfold essence, compile. destruct (gd_feature d) as [f|], (gd_feature d') as [f'|]; cbn; try discriminate; [|reflexivity]. intros E i j. injection E as E1 E2 E3 E4 E5.
  pose proof (background_steps _ _ E3) as Eb.
  assert (G : same_pickles
    (rbind (get_key (s "language") (fe_language f)) (fun language => let bg := bg_steps_of (fe_background f) in
       rbind (compile_seq (compile_one (fe_tags f) bg language) (fe_scenarios f) i) (fun q1 =>
       rbind (compile_seq (compile_rule (fe_tags f) bg language) (fe_rules f) (snd q1)) (fun q2 => Ok (fst q1 ++ fst q2, snd q2)))))
    (rbind (get_key (s "language") (fe_language f')) (fun language => let bg := bg_steps_of (fe_background f') in
       rbind (compile_seq (compile_one (fe_tags f') bg language) (fe_scenarios f') j) (fun q1 =>
       rbind (compile_seq (compile_rule (fe_tags f') bg language) (fe_rules f') (snd q1)) (fun q2 => Ok (fst q1 ++ fst q2, snd q2)))))).
  { rewrite E2. destruct (get_key (s "language") (fe_language f')) as [lang|]; [|reflexivity]. cbn [rbind]. cbv zeta.
    pose proof (ones_same _ _ _ _ lang E1 Eb _ _ E4 i j) as S1.
    destruct (compile_seq _ (fe_scenarios f) i) as [[ps n]|], (compile_seq _ (fe_scenarios f') j) as [[ps' n']|]; cbn [same_pickles rbind] in *; try contradiction; [|exact S1]. cbn [snd fst].
    assert (S2 : same_pickles (compile_seq (compile_rule (fe_tags f) (bg_steps_of (fe_background f)) lang) (fe_rules f) n) (compile_seq (compile_rule (fe_tags f') (bg_steps_of (fe_background f')) lang) (fe_rules f') n')).
    { apply seq_same. apply map_eq_forall2 in E5. eapply Forall2_impl; [|exact E5]. cbn beta. intros ru ru' Er i' j'. unfold rule_essence in Er. injection Er as R1 R2 R3. unfold compile_rule.
      apply ones_same; [now apply names_app | apply steps_app; [exact Eb | now apply background_steps] | exact R3]. }
    destruct (compile_seq _ (fe_rules f) n) as [[qs m]|], (compile_seq _ (fe_rules f') n') as [[qs' m']|]; cbn [same_pickles rbind] in *; try contradiction; [|exact S2]. cbn [snd fst]. rewrite !map_app. congruence. }
  destruct (fe_background f), (fe_background f'); try discriminate E3; [exact G|]. destruct (fe_scenarios f), (fe_scenarios f'); try discriminate E4; [|exact G].
  destruct (fe_rules f), (fe_rules f'); try discriminate E5; [reflexivity | exact G].
Qed.
