From Verif Require Import PyStr PyStrFacts Types Regex Line DialectData Matcher Classify Table Scan LineSpec.
Local Open Scope N_scope.

Fixpoint nodupb (l : list str) : bool :=
  match l with [] => true | a :: l' => negb (str_mem a l') && nodupb l' end.
Lemma occurrences_once k l t : nodupb l = true -> occurrences k l t = if str_mem k l then [t] else [].
Proof.
  unfold occurrences. induction l as [|a l IH]; [reflexivity|]. cbn [nodupb filter]. intros [H1 H2]%andb_true_iff.
  specialize (IH H2). unfold str_mem in *. cbn [existsb]. destruct (str_eqb k a) eqn:E; cbn [orb]; [|exact IH].
  apply str_eqb_spec in E. subst a. cbn [map]. apply negb_true_iff in H1. rewrite H1 in IH. now rewrite IH.
Qed.
Definition lists_ok (d : dialect) : bool :=
  nodupb (d_given d) && nodupb (d_when d) && nodupb (d_then d) && nodupb (d_and d) && nodupb (d_but d).
Lemma all_lists_ok : forallb (fun p => lists_ok (snd p)) DIALECTS = true.
Proof. vm_compute. reflexivity. Qed.
Lemma for_name_in name d : for_name name = Some d -> In (name, d) DIALECTS.
Proof.
  unfold for_name. destruct (find _ DIALECTS) as [[n d']|] eqn:E; [|discriminate].
  intros H; injection H as <-. apply find_some in E as [E1 E2]. cbn in E2. apply str_eqb_spec in E2. now subst.
Qed.
Lemma ktype_spec name d k : for_name name = Some d -> classic_ktype d k = step_type d k.
Proof.
  intros H. apply for_name_in in H. pose proof all_lists_ok as A. rewrite forallb_forall in A. specialize (A _ H). cbn in A.
  unfold lists_ok in A. repeat (apply andb_true_iff in A as [A ?]).
  unfold classic_ktype, keyword_types, step_type.
  assert (O : occurrences k (d_and d ++ d_but d) KtConjunction = occurrences k (d_and d) KtConjunction ++ occurrences k (d_but d) KtConjunction).
  { unfold occurrences. now rewrite filter_app, map_app. }
  rewrite O, !occurrences_once by assumption.
  destruct (str_mem k (d_given d)), (str_mem k (d_when d)), (str_mem k (d_then d)), (str_mem k (d_and d)), (str_mem k (d_but d)); reflexivity.
Qed.

Lemma crlf_space c : is_space c = false -> is_crlf c = false.
Proof.
  intros H. unfold is_crlf. destruct (c =? ch_cr) eqn:E; [apply N.eqb_eq in E; subst; discriminate H|].
  destruct (c =? ch_nl) eqn:F; [apply N.eqb_eq in F; subst; discriminate H|]. reflexivity.
Qed.
Lemma rstrip_crlf_strip x : rstrip_crlf (strip x) = strip x.
Proof.
  unfold strip, rstrip_crlf, rstrip.
  destruct (rstrip_by is_space (lstrip x)) as [|a z] eqn:E; [reflexivity|].
  destruct (@exists_last _ (a :: z)) as [r [b Eb]]; [discriminate|]. rewrite Eb in *.
  apply rstrip_by_id. apply crlf_space. now apply rstrip_by_last in E.
Qed.

Lemma find_split {A} (f : A -> bool) l a : find f l = Some a ->
  exists l1 l2, l = l1 ++ a :: l2 /\ f a = true /\ Forall (fun b => f b = false) l1.
Proof.
  induction l as [|b l IH]; [discriminate|]. cbn [find]. destruct (f b) eqn:E; intros H.
  - injection H as <-. exists [], l. auto.
  - destruct (IH H) as [l1 [l2 [-> [H1 H2]]]]. exists (b :: l1), l2. auto.
Qed.

Lemma do_match_step ms x n : ms_md ms = false ->
  do_match TkStepLine ms (new_token x n) = c_match_StepLine ms (new_token x n).
Proof. intros H. unfold do_match. now rewrite H. Qed.

Lemma step_recognised ms x n : classic_state ms ->
  (forall ms' t, do_match TkStepLine ms (new_token x n) = (Ok true, ms', t) ->
     exists before k after,
       all_step_keywords (ms_dialect ms) = before ++ k :: after /\
       startswith k (lstrip x) = true /\ Forall (fun k' => startswith k' (lstrip x) = false) before /\
       t_keyword t = Some k /\ t_ktype t = Some (step_type (ms_dialect ms) k) /\
       t_text t = Some (strip (skipn (length k) (lstrip x)))) /\
  (fst (fst (do_match TkStepLine ms (new_token x n))) = Ok true <->
     exists k, In k (all_step_keywords (ms_dialect ms)) /\ startswith k (lstrip x) = true).
Proof.
  intros [Hm Hd]. rewrite do_match_step by exact Hm. unfold c_match_StepLine.
  change (find (g_startswith (t_line (new_token x n))) (step_keywords (ms_dialect ms)))
    with (find (fun p => startswith p (lstrip x)) (all_step_keywords (ms_dialect ms))).
  destruct (find _ (all_step_keywords _)) as [k|] eqn:E.
  - pose proof (find_split _ _ _ E) as [l1 [l2 [H1 [H2 H3]]]]. split.
    + intros ms' t H. injection H as <- <-. exists l1, k, l2. repeat split; auto.
      * cbn. f_equal. now apply (ktype_spec (ms_name ms)).
      * cbn. f_equal. unfold get_rest_trimmed. apply rstrip_crlf_strip.
    + split; [|easy]. intros _. exists k. split; [|exact H2]. rewrite H1. apply in_or_app. right. now left.
  - split; [intros ms' t H; discriminate H|]. split; [discriminate|]. intros [k [H1 H2]].
    pose proof (find_none _ _ E k H1) as F. cbn in F. congruence.
Qed.

(** ** C13 *)
Lemma find_sub {A} (p q : A -> bool) l k :
  (forall a, q a = true -> p a = true) -> find p l = Some k -> q k = true -> find q l = Some k.
Proof.
  intros Hpq. induction l as [|a l IH]; [discriminate|]. cbn [find]. destruct (p a) eqn:E; intros H Hk.
  - injection H as ->. now rewrite Hk.
  - destruct (q a) eqn:F; [apply Hpq in F; congruence|]. auto.
Qed.
Definition shadow_mem (name k : str) : bool := existsb (fun p => str_eqb name (fst p) && str_eqb k (snd p)) shadowed.
Definition check_keywords (p : str * dialect) : bool :=
  forallb (fun k => match find (fun k' => startswith k' k) (all_step_keywords (snd p)) with
                    | Some k' => if shadow_mem (fst p) k then negb (str_eqb k' k) else str_eqb k' k
                    | None => false end) (all_step_keywords (snd p)).
Lemma keywords_ok : forallb check_keywords DIALECTS = true.
Proof. vm_compute. reflexivity. Qed.

Lemma shadow_mem_spec name k : shadow_mem name k = true <-> In (name, k) shadowed.
Proof.
  unfold shadow_mem. rewrite existsb_exists. split.
  - intros [[a b] [H1 H2]]. cbn in H2. apply andb_true_iff in H2 as [H2 H3].
    apply str_eqb_spec in H2, H3. now subst.
  - intros H. exists (name, k). split; [exact H|]. cbn. now rewrite !str_eqb_refl.
Qed.

Lemma keyword_usable ms k x n : classic_state ms ->
  In k (all_step_keywords (ms_dialect ms)) -> ~ In (ms_name ms, k) shadowed ->
  startswith k (lstrip x) = true ->
  (forall k', In k' (all_step_keywords (ms_dialect ms)) -> startswith k' (lstrip x) = true -> (length k' <= length k)%nat) ->
  exists t, do_match TkStepLine ms (new_token x n) = (Ok true, ms, t) /\ t_keyword t = Some k.
Proof.
  intros [Hm Hd] Hin Hs Hx Hlong. rewrite do_match_step by exact Hm. unfold c_match_StepLine.
  change (find (g_startswith (t_line (new_token x n))) (step_keywords (ms_dialect ms)))
    with (find (fun p => startswith p (lstrip x)) (all_step_keywords (ms_dialect ms))).
  apply for_name_in in Hd. pose proof keywords_ok as A. rewrite forallb_forall in A. specialize (A _ Hd).
  unfold check_keywords in A. cbn [fst snd] in A. rewrite forallb_forall in A. specialize (A k Hin).
  destruct (find (fun p => startswith p (lstrip x)) (all_step_keywords (ms_dialect ms))) as [k1|] eqn:E.
  2:{ pose proof (find_none _ _ E k Hin) as F. cbn in F. congruence. }
  eexists. split; [reflexivity|]. cbn. f_equal.
  pose proof (find_some _ _ E) as [I1 I2]. cbn in I2.
  assert (P : startswith k1 k = true).
  { destruct (startswith_both _ _ _ I2 Hx) as [|P]; [assumption|].
    pose proof (Hlong k1 I1 I2) as L. apply startswith_spec in P as [y ->]. rewrite app_length in L.
    destruct y; [rewrite app_nil_r; apply startswith_refl | cbn in L; lia]. }
  rewrite (find_sub _ (fun k' => startswith k' k) _ _ (fun a Ha => startswith_trans _ _ _ Ha Hx) E P) in A.
  destruct (shadow_mem (ms_name ms) k) eqn:F; [apply shadow_mem_spec in F; contradiction|].
  now apply str_eqb_spec.
Qed.
Lemma keyword_shadowed ms k x n : classic_state ms ->
  In k (all_step_keywords (ms_dialect ms)) -> In (ms_name ms, k) shadowed ->
  startswith k (lstrip x) = true ->
  exists t k', do_match TkStepLine ms (new_token x n) = (Ok true, ms, t) /\ t_keyword t = Some k' /\ k' <> k.
Proof.
  intros [Hm Hd] Hin Hs Hx. rewrite do_match_step by exact Hm. unfold c_match_StepLine.
  change (find (g_startswith (t_line (new_token x n))) (step_keywords (ms_dialect ms)))
    with (find (fun p => startswith p (lstrip x)) (all_step_keywords (ms_dialect ms))).
  apply for_name_in in Hd. pose proof keywords_ok as A. rewrite forallb_forall in A. specialize (A _ Hd).
  unfold check_keywords in A. cbn [fst snd] in A. rewrite forallb_forall in A. specialize (A k Hin).
  destruct (find (fun p => startswith p (lstrip x)) (all_step_keywords (ms_dialect ms))) as [k1|] eqn:E.
  2:{ pose proof (find_none _ _ E k Hin) as F. cbn in F. congruence. }
  eexists _, k1. split; [reflexivity|]. split; [reflexivity|]. intros ->.
  rewrite (find_sub _ (fun k' => startswith k' k) _ _ (fun a Ha => startswith_trans _ _ _ Ha Hx) E (startswith_refl k)) in A.
  apply shadow_mem_spec in Hs. rewrite Hs, str_eqb_refl in A. discriminate A.
Qed.

(** ** C14 *)
Lemma claims_class ms x k : classic_state ms -> ms_sep ms = None -> x <> [] -> In k line_kinds ->
  claims ms x k = true -> cls ms x = k.
Proof.
  intros [Hm Hd] Hs Hx Hk H. assert (Hg : good ms) by (split; [exact Hm | eapply for_name_ok; eauto]).
  destruct (tok_eqb (cls ms x) k) eqn:E; [now apply tok_eqb_spec|].
  assert (Hne : cls ms x <> k) by (intros F; rewrite F, tok_eqb_refl in E; discriminate).
  unfold claims, do_match in H. rewrite Hm in H.
  destruct (plain k) eqn:P.
  - rewrite (classic_false ms Hg k (new_token x 1) x 1 P eq_refl Hne) in H. discriminate H.
  - destruct k; try discriminate P; try (cbn in Hk; intuition discriminate).
    (* doc string separator *)
    cbn [classic_match] in H. unfold c_match_DocStringSeparator in H. rewrite Hs in H.
    pose proof (has_false (ms_dialect ms) (proj2 Hg) TkDocStringSeparator (lstrip x) Hne) as F.
    unfold has in F. cbn [starts existsb] in F. apply orb_false_iff in F as [F1 F2]. apply orb_false_iff in F2 as [F2 _].
    unfold match_separator at 1 in H. unfold g_startswith, g_trimmed in H. cbn [t_line new_token g_text] in H. rewrite F1 in H. cbn [negb m_or] in H.
    unfold match_separator in H. unfold g_startswith, g_trimmed in H. cbn [t_line new_token g_text] in H. rewrite F2 in H. discriminate H.
Qed.
Lemma kinds_exclusive ms x k1 k2 : classic_state ms -> ms_sep ms = None -> x <> [] ->
  In k1 line_kinds -> In k2 line_kinds -> claims ms x k1 = true -> claims ms x k2 = true -> k1 = k2.
Proof.
  intros Hm Hs Hx H1 H2 C1 C2.
  rewrite <- (claims_class ms x k1 Hm Hs Hx H1 C1). exact (claims_class ms x k2 Hm Hs Hx H2 C2).
Qed.
Lemma order_irrelevant ms x l1 l2 : classic_state ms -> ms_sep ms = None -> x <> [] ->
  incl l1 line_kinds -> (forall k, In k l1 <-> In k l2) ->
  find (claims ms x) l1 = find (claims ms x) l2.
Proof.
  intros Hm Hs Hx Hi Heq.
  destruct (find (claims ms x) l1) as [k1|] eqn:E1.
  - apply find_some in E1 as [I1 C1]. destruct (find (claims ms x) l2) as [k2|] eqn:E2.
    + apply find_some in E2 as [I2 C2]. f_equal. eapply kinds_exclusive; eauto. apply Hi, Heq, I2.
    + pose proof (find_none _ _ E2 k1 (proj1 (Heq k1) I1)). congruence.
  - destruct (find (claims ms x) l2) as [k2|] eqn:E2; [|reflexivity].
    apply find_some in E2 as [I2 C2]. pose proof (find_none _ _ E1 k2 (proj2 (Heq k2) I2)). congruence.
Qed.
