(** * C55: doc strings and data tables as Robot Framework variables *)
From Verif Require Import PyStr PyStrFacts Types Compiler Robot RobotSpec EscapeFacts ReprFacts RobotFacts VarSpec VarFacts.
Local Open Scope N_scope.

Lemma call_args_repr printable a : call_args printable (Some a) = [s "&{{" ++ escape printable (arg_repr printable a) ++ s "}}"].
Proof. destruct a; reflexivity. Qed.
Lemma arg_repr_valid printable a : valid_arg a -> valid_str (arg_repr printable a).
Proof.
  intros V. replace (arg_repr printable a) with (pv_repr printable (arg_value a)).
  - apply pv_repr_valid, arg_value_valid, V.
  - destruct a; symmetry; [apply repr_datatable_value | apply repr_docstring_value].
Qed.
Lemma arg_repr_plain printable a : str_mem (arg_repr printable a) control_words = false.
Proof. destruct a; reflexivity. Qed.

(** The whole argument is one variable, and no other variable is inside, exactly if the braces in the
    user's texts close what they open and no text has an identifier before an opening brace. *)
Theorem C55_exactly_partial : forall printable a arg, valid_arg a -> call_args printable (Some a) = [arg] ->
  ((exists body, one_variable arg body) <-> braces 2 (arg_braces a) = Some 2%nat) /\
  (forall body, arg = s "&{" ++ body ++ s "}" ->
     (rf_variable_in false body = true <-> exists t, In t (arg_texts a) /\ looks_like_variable t)).
Proof.
  intros printable a arg V E. rewrite call_args_repr in E. injection E as <-.
  destruct (escape_seen printable _ (arg_repr_valid printable a V) (arg_repr_plain printable a)) as (y & Sy & Vy).
  set (e := escape printable (arg_repr printable a)) in *.
  assert (B : s "&{{" ++ e ++ s "}}" = s "&{" ++ (s "{" ++ e ++ s "}") ++ s "}").
  { change (s "&{{") with (s "&{" ++ s "{"). change (s "}}") with (s "}" ++ s "}"). now rewrite !app_assoc. }
  assert (U : forall body, s "&{{" ++ e ++ s "}}" = s "&{" ++ body ++ s "}" -> body = s "{" ++ e ++ s "}").
  { intros body H. rewrite B in H. apply app_inv_head in H. now apply app_inv_tail in H. }
  split.
  - transitivity (ends 1 (s "{" ++ y ++ s "}}") = Some []).
    + replace (s "{" ++ y ++ s "}}") with (visible ((s "{" ++ e ++ s "}") ++ s "}")).
      2:{ rewrite <- !app_assoc. change (s "{" ++ e ++ s "}" ++ s "}") with (123 :: e ++ s "}}"). cbn [visible]. change (123 =? ch_bslash) with false. cbv iota. now rewrite Vy. }
      rewrite rf_end_visible. split.
      * intros (body & H & R). apply U in H. subst body. now rewrite R.
      * intros H. exists (s "{" ++ e ++ s "}"). split; [exact B|]. destruct (rf_end 1 false _) as [r|]; [|discriminate H].
        injection H as H. apply visible_nil in H. now subst.
    + rewrite ends_iff, (spell_braces _ _ Sy), arg_repr_braces. reflexivity.
  - intros body H. apply U in H. subst body. rewrite <- rf_variable_visible.
    change (s "{" ++ e ++ s "}") with (123 :: e ++ s "}"). cbn [visible]. change (123 =? ch_bslash) with false. cbv iota. rewrite Vy.
    change (var_in (123 :: y ++ visible (s "}"))) with (var_in (y ++ s "}")). rewrite (spell_var _ _ _ Sy) by reflexivity.
    change (var_in (s "}")) with false. rewrite orb_false_r. rewrite <- (app_nil_r (arg_repr printable a)), arg_repr_var. cbn [var_in]. rewrite orb_false_r.
    rewrite existsb_exists. split; intros (t & I & H); exists t; (split; [exact I|]); now apply var_in_iff.
Qed.
Print Assumptions C55_exactly_partial.

(** In particular: texts that are balanced, each for itself, and that do not look like variables. *)
Lemma braces_more x : forall d k n, braces (S d) x = Some k -> braces (n + S d) x = Some (n + k)%nat.
Proof.
  induction x as [|c x IH]; intros d k n H; [injection H as <-; reflexivity|]. cbn [braces] in *.
  destruct (c =? ch_open). { rewrite plus_n_Sm. now apply IH. }
  destruct (c =? ch_close); [|now apply IH]. destruct d as [|d]; [discriminate|].
  rewrite <- !plus_n_Sm. specialize (IH d k n H). now rewrite <- plus_n_Sm in IH.
Qed.
Lemma balanced_any x d : balanced x -> braces (S d) x = Some (S d).
Proof. intros H. pose proof (braces_more x 0 1 d H) as K. now rewrite Nat.add_comm in K. Qed.
Lemma balanced_wrap x : (forall d, braces (S d) x = Some (S d)) -> forall d, braces (S d) (s "{" ++ x ++ s "}") = Some (S d).
Proof.
  intros H d. change (braces (S d) (s "{" ++ x ++ s "}")) with (braces (S (S d)) (x ++ s "}")). rewrite braces_app, H. reflexivity.
Qed.
Lemma balanced_flat {A} (f : A -> str) l : (forall a, In a l -> forall d, braces (S d) (f a) = Some (S d)) -> forall d, braces (S d) (flat_map f l) = Some (S d).
Proof.
  intros H. induction l as [|a l IH]; intros d; [reflexivity|]. cbn [flat_map]. rewrite braces_app, H by now left. apply IH. intros; apply H; now right.
Qed.
Theorem C55_balanced_partial : forall printable a arg, valid_arg a -> call_args printable (Some a) = [arg] ->
  (forall t, In t (arg_texts a) -> balanced t /\ ~ looks_like_variable t) ->
  exists body, one_variable arg body /\ rf_variable_in false body = false.
Proof.
  intros printable a arg V E H. destruct (C55_exactly_partial printable a arg V E) as [H1 H2].
  destruct (proj2 H1) as [body B].
  - destruct a as [rows|content media]; cbn [arg_braces arg_texts] in *; [|rewrite (app_assoc content)]; apply (balanced_wrap _) with (d := 1%nat).
    + apply balanced_flat. intros row Ir. apply balanced_wrap, balanced_flat. intros v Iv. apply balanced_wrap. intros d. apply balanced_any, H, in_concat. eauto.
    + intros d. rewrite braces_app, (balanced_any content) by (apply H; now left). destruct media as [m|]; [|reflexivity].
      apply balanced_any, H. right. now left.
  - exists body. split; [exact B|]. destruct (rf_variable_in false body) eqn:N; [|reflexivity].
    apply (H2 body (proj1 B)) in N as (t & I & L). now destruct (H t I) as [_ K].
Qed.
Print Assumptions C55_balanced_partial.
(** a JSON text in a doc string *)
Example C55_case : balanced (s "{""a"": {""b"": [1, 2]}, ""c"": ""\\""}") /\ ~ looks_like_variable (s "{""a"": {""b"": [1, 2]}, ""c"": ""\\""}") /\
  exists arg, call_args (fun _ => true) (Some (PDoc (s "{""a"": {""b"": [1, 2]}, ""c"": ""\\""}") None)) = [arg] /\ rf_end 1 false (skipn 2 arg) = Some [].
Proof.
  split; [reflexivity|]. split. { intros H. apply var_in_iff in H. discriminate H. }
  eexists. split; [reflexivity|]. vm_compute. reflexivity.
Qed.

(** Not true of every text: a smiley with a brace, and a text that mentions a variable. *)
Theorem C55_refuted : forall printable, exists a1 a2 arg1 arg2, valid_arg a1 /\ valid_arg a2 /\
  call_args printable (Some a1) = [arg1] /\ call_args printable (Some a2) = [arg2] /\
  ~ (exists body, one_variable arg1 body) /\
  exists body, one_variable arg2 body /\ rf_variable_in false body = true.
Proof.
  intros printable. exists (PDoc (s ":-}") None), (PTable [[s "${x}"]]). do 2 eexists.
  assert (V1 : valid_arg (PDoc (s ":-}") None)). { split; [|exact I]. repeat constructor. }
  assert (V2 : valid_arg (PTable [[s "${x}"]])). { repeat constructor. }
  do 2 (split; [assumption|]). do 2 (split; [reflexivity|]).
  destruct (C55_exactly_partial printable _ _ V1 eq_refl) as [H1 _].
  destruct (C55_exactly_partial printable _ _ V2 eq_refl) as [H2 H3]. split.
  - intros H. apply H1 in H. discriminate H.
  - destruct (proj2 H2 eq_refl) as [body B]. exists body. split; [exact B|]. apply (H3 body (proj1 B)).
    exists (s "${x}"). split; [now left|]. apply var_in_iff. reflexivity.
Qed.
Print Assumptions C55_refuted.
