(** * Braces and identifiers in repr and escape (no modelled code here) *)
From Verif Require Import PyStr PyStrFacts Types Compiler Robot RobotSpec EscapeFacts ReprFacts VarSpec.
Local Open Scope N_scope.

Definition special (c : char) : bool := (c =? ch_open) || (c =? ch_close) || is_identifier c.
Lemma special_iff c : special c = true <-> c = 123 \/ c = 125 \/ c = 36 \/ c = 64 \/ c = 38 \/ c = 37 \/ c = 42.
Proof.
  unfold special, is_identifier, identifiers, ch_open, ch_close.
  change (s "$@&%*") with [36; 64; 38; 37; 42]. cbn [existsb].
  rewrite !orb_true_iff, !N.eqb_eq. intuition congruence.
Qed.
Lemma not_special c : special c = false <-> c <> ch_open /\ c <> ch_close /\ is_identifier c = false.
Proof. unfold special. rewrite !orb_false_iff, !N.eqb_neq. tauto. Qed.

(** how one character may be written so that braces and identifiers stay what they are *)
Definition unit_ok (c : char) (u : str) : Prop :=
  if special c then u = [c] else u <> [] /\ Forall (fun d => special d = false) u.
Inductive spell : str -> str -> Prop :=
| SpNil : spell [] []
| SpCons c u x y : unit_ok c u -> spell x y -> spell (c :: x) (u ++ y).
Lemma spell_app x1 y1 x2 y2 : spell x1 y1 -> spell x2 y2 -> spell (x1 ++ x2) (y1 ++ y2).
Proof. induction 1; intros H2; [exact H2|]. cbn [app]. rewrite <- app_assoc. constructor; auto. Qed.

(** ** braces *)
Lemma braces_app d x y : braces d (x ++ y) = match braces d x with Some e => braces e y | None => None end.
Proof.
  revert d; induction x as [|c x IH]; intros d; [reflexivity|]. cbn [app braces].
  destruct (c =? ch_open); [apply IH|]. destruct (c =? ch_close); [|apply IH].
  destruct d as [|[|d]]; [reflexivity..|]. apply IH.
Qed.
Lemma braces_none d u y : Forall (fun c => special c = false) u -> braces d (u ++ y) = braces d y.
Proof.
  induction 1 as [|c u H F IH]; [reflexivity|]. cbn [app braces]. apply not_special in H as (A & B & _).
  apply N.eqb_neq in A, B. now rewrite A, B.
Qed.
Lemma spell_braces x y : spell x y -> forall d, braces d y = braces d x.
Proof.
  induction 1 as [|c u x y U S IH]; intros d; [reflexivity|]. unfold unit_ok in U. destruct (special c) eqn:E.
  - subst u. cbn [app braces]. destruct (c =? ch_open); [apply IH|]. destruct (c =? ch_close); [|apply IH].
    destruct d as [|[|d]]; [reflexivity..|]. apply IH.
  - destruct U as [_ U]. rewrite braces_none by exact U. rewrite IH. symmetry.
    apply (braces_none d [c] x). now constructor.
Qed.

(** ** variables *)
Fixpoint var_in (x : str) : bool :=
  match x with
  | [] => false
  | c :: x' => (is_identifier c && match x' with d :: _ => d =? ch_open | [] => false end) || var_in x'
  end.
Lemma var_in_iff x : var_in x = true <-> looks_like_variable x.
Proof.
  unfold looks_like_variable. induction x as [|c x IH]; cbn [var_in].
  - split; [discriminate|]. intros ([|] & c0 & r & E & _); discriminate E.
  - rewrite orb_true_iff, andb_true_iff, IH. split.
    + intros [[I O]|(p & d & r & -> & I)].
      * destruct x as [|d x]; [discriminate O|]. apply N.eqb_eq in O. subst d. exists [], c, x. split; [reflexivity|].
        unfold is_identifier in I. apply existsb_exists in I as (e & I & E). apply N.eqb_eq in E. now subst.
      * now exists (c :: p), d, r.
    + intros ([|e p] & d & r & E & I).
      * injection E as -> ->. left. split; [|reflexivity]. unfold is_identifier. apply existsb_exists. exists d. split; [exact I | apply N.eqb_refl].
      * injection E as -> ->. right. now exists p, d, r.
Qed.
Definition opens (x : str) : bool := match x with d :: _ => d =? ch_open | [] => false end.
Lemma var_in_none u y : Forall (fun c => special c = false) u -> var_in (u ++ y) = var_in y.
Proof. induction 1 as [|c u H F IH]; [reflexivity|]. cbn [app var_in]. apply not_special in H as (_ & _ & H). now rewrite H. Qed.
Lemma spell_opens x y r : spell x y -> opens r = false -> opens (y ++ r) = opens x.
Proof.
  intros [|c u x' y' U S] O; [exact O|]. unfold unit_ok in U. destruct (special c) eqn:E; [subst u; reflexivity|].
  destruct U as [N U]. destruct U as [|d u D U]; [congruence|]. cbn [app opens]. apply not_special in D as (D & _), E as (E & _).
  apply N.eqb_neq in D, E. congruence.
Qed.
Lemma spell_var x y r : spell x y -> opens r = false -> var_in (y ++ r) = var_in x || var_in r.
Proof.
  intros S O. induction S as [|c u x y U S IH]; [reflexivity|]. unfold unit_ok in U. rewrite <- app_assoc.
  destruct (special c) eqn:E.
  - subst u. cbn [app var_in]. rewrite IH. change (match y ++ r with d :: _ => d =? ch_open | [] => false end) with (opens (y ++ r)).
    rewrite (spell_opens x y r S O). unfold opens. now rewrite orb_assoc.
  - destruct U as [_ U]. rewrite var_in_none by exact U. rewrite IH. cbn [var_in]. apply not_special in E as (_ & _ & E). now rewrite E.
Qed.
Lemma var_in_app x y : opens y = false -> var_in (x ++ y) = var_in x || var_in y.
Proof.
  intros O. induction x as [|c x IH]; [reflexivity|]. cbn [app var_in]. rewrite IH, orb_assoc. f_equal. f_equal.
  destruct x as [|d x]; [|reflexivity]. cbn [app]. change (is_identifier c && opens y = is_identifier c && false). now rewrite O.
Qed.

(** ** repr *)
Lemma hexy_special c : hexy c -> special c = false.
Proof. intros H. destruct (special c) eqn:E; [|reflexivity]. apply special_iff in E. unfold hexy in H. lia. Qed.
Lemma hex_special k n : Forall (fun d => special d = false) (hex k n).
Proof. eapply Forall_impl; [|apply hex_hexy]. apply hexy_special. Qed.
Local Opaque hex.
Lemma repr_char_ok printable q c : is_quote q -> unit_ok c (repr_char printable q c).
Proof.
  intros Q. unfold unit_ok. destruct (special c) eqn:E.
  - apply special_iff in E. destruct Q as [-> | ->]; destruct E as [-> | [-> | [-> | [-> | [-> | [-> | ->]]]]]]; reflexivity.
  - unfold repr_char.
    repeat match goal with |- context [if ?b then _ else _] => destruct b end;
      (split; [discriminate|]);
      try (apply (Forall_app (fun d => special d = false) (s "\x") (hex 2 c)); split; [repeat constructor|apply hex_special]);
      try (apply (Forall_app (fun d => special d = false) (s "\u") (hex 4 c)); split; [repeat constructor|apply hex_special]);
      try (apply (Forall_app (fun d => special d = false) (s "\U") (hex 8 c)); split; [repeat constructor|apply hex_special]);
      repeat constructor; exact E.
Qed.
Lemma repr_body_spell printable q x : is_quote q -> spell x (flat_map (repr_char printable q) x).
Proof. intros Q. induction x as [|c x IH]; [constructor|]. cbn [flat_map]. constructor; [now apply repr_char_ok|exact IH]. Qed.
Lemma quote_special q : is_quote q -> special q = false.
Proof. intros [-> | ->]; reflexivity. Qed.
Lemma repr_str_braces printable d x r : braces d (repr_str printable x ++ r) = match braces d x with Some e => braces e r | None => None end.
Proof.
  unfold repr_str, repr_body. set (q := repr_quote x). assert (Q : is_quote q) by apply repr_quote_is_quote.
  pose proof (quote_special q Q) as QS. rewrite <- app_assoc, braces_none by now constructor.
  rewrite <- app_assoc, braces_app, (spell_braces x _ (repr_body_spell printable q x Q)). destruct (braces d x); [|reflexivity].
  apply braces_none. now constructor.
Qed.
Lemma repr_str_var printable x r : var_in (repr_str printable x ++ r) = var_in x || var_in r.
Proof.
  unfold repr_str, repr_body. set (q := repr_quote x). assert (Q : is_quote q) by apply repr_quote_is_quote.
  pose proof (quote_special q Q) as QS. rewrite <- app_assoc, var_in_none by now constructor. rewrite <- app_assoc.
  assert (O : opens ([q] ++ r) = false). { cbn [app opens]. apply not_special in QS as (QS & _). now apply N.eqb_neq. }
  rewrite (spell_var x _ _ (repr_body_spell printable q x Q) O). f_equal. apply (var_in_none [q] r). now constructor.
Qed.
Lemma repr_str_opens printable x r : opens (repr_str printable x ++ r) = false.
Proof. unfold repr_str. cbn [app opens]. destruct (repr_quote_is_quote x) as [-> | ->]; reflexivity. Qed.

(** the arguments *)
Definition arg_repr printable (a : parg) : str :=
  match a with PDoc content media => repr_docstring printable content media | PTable rows => repr_datatable printable rows end.
Ltac lit t := rewrite (braces_none _ t) by (repeat constructor).
Lemma join_braces {A} (sep : str) (f g : A -> str) l : Forall (fun c => special c = false) sep ->
  (forall a d, braces d (f a) = braces d (g a)) -> forall d, braces d (join sep (map f l)) = braces d (flat_map g l).
Proof.
  intros HS H. induction l as [|a l IH]; intros d; [reflexivity|]. cbn [map flat_map]. destruct l as [|b l].
  - cbn [map join flat_map]. now rewrite app_nil_r, H.
  - change (join sep (f a :: map f (b :: l))) with (f a ++ sep ++ join sep (map f (b :: l))).
    rewrite (braces_app d (f a)), (braces_app d (g a)), H. destruct (braces d (g a)); [|reflexivity]. rewrite <- IH. now apply braces_none.
Qed.
Lemma braces_cons_same d c x y : (forall e, braces e x = braces e y) -> braces d (c :: x) = braces d (c :: y).
Proof.
  intros H. cbn [braces]. destruct (c =? ch_open); [apply H|]. destruct (c =? ch_close); [|apply H].
  destruct d as [|[|d]]; [reflexivity..|]. apply H.
Qed.
Lemma cell_braces printable v d : braces d (s "{'value': " ++ repr_str printable v ++ s "}") = braces d (s "{" ++ v ++ s "}").
Proof.
  change (s "{'value': " ++ repr_str printable v ++ s "}") with (ch_open :: s "'value': " ++ repr_str printable v ++ s "}").
  apply braces_cons_same. intros e. lit (s "'value': "). rewrite repr_str_braces. now rewrite braces_app.
Qed.
Lemma row_braces printable cells d : braces d (repr_row printable cells) = braces d (s "{" ++ flat_map (fun v => s "{" ++ v ++ s "}") cells ++ s "}").
Proof.
  unfold repr_row.
  match goal with |- braces _ (_ ++ ?j ++ _) = _ => change (braces d (ch_open :: s "'cells': [" ++ j ++ s "]}") = braces d (ch_open :: flat_map (fun v => s "{" ++ v ++ s "}") cells ++ s "}")) end.
  apply braces_cons_same. intros e. lit (s "'cells': ["). rewrite !braces_app.
  rewrite (join_braces (s ", ") _ (fun v => s "{" ++ v ++ s "}")); [reflexivity | repeat constructor | intros; apply cell_braces].
Qed.
Lemma docstring_braces printable content media d : braces d (repr_docstring printable content media) = braces d (arg_braces (PDoc content media)).
Proof.
  unfold repr_docstring. cbn [arg_braces].
  match goal with |- braces _ (_ ++ ?j ++ ?k ++ _) = _ => change (braces d (ch_open :: s "'content': " ++ j ++ k ++ s "}") =
    braces d (ch_open :: content ++ match media with Some m => m | None => [] end ++ s "}")) end.
  apply braces_cons_same. intros e. lit (s "'content': "). rewrite repr_str_braces, braces_app.
  destruct (braces e content) as [k|]; [|reflexivity]. destruct media as [m|]; [|reflexivity].
  rewrite <- app_assoc. lit (s ", 'mediaType': "). rewrite repr_str_braces. now rewrite braces_app.
Qed.
Lemma datatable_braces printable rows d : braces d (repr_datatable printable rows) = braces d (arg_braces (PTable rows)).
Proof.
  unfold repr_datatable. cbn [arg_braces].
  match goal with |- braces _ (_ ++ ?j ++ _) = braces _ (_ ++ ?k ++ _) => change (braces d (ch_open :: s "'rows': [" ++ j ++ s "]}") = braces d (ch_open :: k ++ s "}")) end.
  apply braces_cons_same. intros e. lit (s "'rows': ["). rewrite !braces_app.
  rewrite (join_braces (s ", ") _ (fun row => s "{" ++ flat_map (fun v => s "{" ++ v ++ s "}") row ++ s "}")); [reflexivity | repeat constructor | intros; apply row_braces].
Qed.
Lemma arg_repr_braces printable a d : braces d (arg_repr printable a) = braces d (arg_braces a).
Proof. destruct a; [apply datatable_braces | apply docstring_braces]. Qed.

Lemma var_in_lit t r : var_in t = false -> opens r = false -> var_in (t ++ r) = var_in r.
Proof. intros H O. now rewrite var_in_app, H. Qed.
Lemma var_in_lit' t c r : var_in (t ++ [c]) = false -> is_identifier c = false -> var_in ((t ++ [c]) ++ r) = var_in r.
Proof.
  intros H I. induction t as [|e t IH].
  - cbn [app var_in]. now rewrite I.
  - cbn [app var_in] in *. apply orb_false_iff in H as [H1 H2]. specialize (IH H2). rewrite IH.
    destruct (t ++ [c]) eqn:E; [destruct t; discriminate E|]. cbn [app]. now rewrite H1.
Qed.
Lemma join_var {A} (f : A -> str) (g : A -> bool) l :
  (forall a r, var_in (f a ++ r) = g a || var_in r) -> forall r, var_in (join (s ", ") (map f l) ++ r) = existsb g l || var_in r.
Proof.
  intros H. induction l as [|a l IH]; intros r; [reflexivity|]. cbn [map existsb]. destruct l as [|b l].
  - cbn [map join existsb]. now rewrite H, orb_false_r.
  - change (join (s ", ") (f a :: map f (b :: l))) with (f a ++ s ", " ++ join (s ", ") (map f (b :: l))).
    rewrite <- !app_assoc, H. change (s ", ") with (s "," ++ [ch_space]) at 1. rewrite var_in_lit' by reflexivity. rewrite IH. apply orb_assoc.
Qed.
Lemma lit_end r : var_in (s "}" ++ r) = var_in r. Proof. reflexivity. Qed.
Lemma cell_var printable v r : var_in ((s "{'value': " ++ repr_str printable v ++ s "}") ++ r) = var_in v || var_in r.
Proof.
  rewrite <- !app_assoc. change (s "{'value': ") with (s "{'value':" ++ [ch_space]). rewrite var_in_lit' by reflexivity.
  rewrite repr_str_var. reflexivity.
Qed.
Lemma row_var printable cells r : var_in (repr_row printable cells ++ r) = existsb var_in cells || var_in r.
Proof.
  unfold repr_row. rewrite <- !app_assoc. change (s "{'cells': [") with (s "{'cells': " ++ [91]). rewrite var_in_lit' by reflexivity.
  rewrite (join_var _ var_in) by (intros; apply cell_var). reflexivity.
Qed.
Lemma arg_repr_var printable a r : var_in (arg_repr printable a ++ r) = existsb var_in (arg_texts a) || var_in r.
Proof.
  destruct a as [rows|content media]; cbn [arg_repr arg_texts].
  - unfold repr_datatable. rewrite <- !app_assoc. change (s "{'rows': [") with (s "{'rows': " ++ [91]). rewrite var_in_lit' by reflexivity.
    rewrite (join_var _ (existsb var_in)) by (intros; apply row_var). change (var_in (s "]}" ++ r)) with (var_in r). f_equal.
    induction rows as [|row rows IH]; [reflexivity|]. cbn [existsb concat]. now rewrite existsb_app, IH.
  - unfold repr_docstring. rewrite <- !app_assoc. change (s "{'content': ") with (s "{'content':" ++ [ch_space]). rewrite var_in_lit' by reflexivity.
    rewrite repr_str_var. cbn [existsb]. rewrite <- orb_assoc. f_equal. destruct media as [m|]; [|reflexivity].
    rewrite <- !app_assoc. change (s ", 'mediaType': ") with (s ", 'mediaType':" ++ [ch_space]). rewrite var_in_lit' by reflexivity.
    rewrite repr_str_var. cbn [existsb]. now rewrite orb_false_r.
Qed.

(** ** What Robot Framework sees of an escaped text *)
Fixpoint visible (x : str) : str :=
  match x with
  | [] => []
  | c :: x' => if c =? ch_bslash then match x' with [] => [ch_bslash] | _ :: x'' => ch_bslash :: visible x'' end else c :: visible x'
  end.
Lemma str_ind2 (P : str -> Prop) : P [] -> (forall c, P [c]) -> (forall c d x, P x -> P (d :: x) -> P (c :: d :: x)) -> forall x, P x.
Proof.
  intros H0 H1 H2. enough (forall x, P x /\ forall c, P (c :: x)) as A by (intros x; apply A).
  induction x as [|d x [IH1 IH2]]; split; auto. Qed.
Lemma visible_nil x : visible x = [] -> x = [].
Proof. destruct x as [|c [|d x]]; [reflexivity|..]; cbn [visible]; destruct (c =? ch_bslash); discriminate. Qed.
Fixpoint ends (depth : nat) (x : str) : option str :=
  match x with
  | [] => None
  | c :: x' =>
      if c =? ch_open then ends (S depth) x'
      else if c =? ch_close then match depth with S (S d) => ends (S d) x' | _ => Some x' end
      else ends depth x'
  end.
Lemma rf_end_visible x : forall d, ends d (visible x) = option_map visible (rf_end d false x).
Proof.
  induction x as [|c|c e x IH1 IH2] using str_ind2; intros d.
  - reflexivity.
  - cbn [visible rf_end]. destruct (N.eqb_spec c ch_bslash) as [->|N]; [reflexivity|]. cbn [ends].
    destruct (c =? ch_open); [reflexivity|]. destruct (c =? ch_close); [|reflexivity]. destruct d as [|[|d]]; reflexivity.
  - change (visible (c :: e :: x)) with (if c =? ch_bslash then ch_bslash :: visible x else c :: visible (e :: x)).
    cbn [rf_end]. destruct (N.eqb_spec c ch_bslash) as [->|N].
    + change (ends d (ch_bslash :: visible x)) with (ends d (visible x)). apply IH1.
    + change (ends d (c :: visible (e :: x))) with (if c =? ch_open then ends (S d) (visible (e :: x))
        else if c =? ch_close then match d with S (S d') => ends (S d') (visible (e :: x)) | _ => Some (visible (e :: x)) end else ends d (visible (e :: x))).
      destruct (c =? ch_open); [apply IH2|]. destruct (c =? ch_close); [|apply IH2]. destruct d as [|[|d]]; [reflexivity..|]. apply IH2.
Qed.
Lemma rf_variable_visible x : var_in (visible x) = rf_variable_in false x.
Proof.
  induction x as [|c|c e x IH1 IH2] using str_ind2.
  - reflexivity.
  - cbn [visible rf_variable_in]. destruct (N.eqb_spec c ch_bslash) as [->|N]; [reflexivity|]. reflexivity.
  - change (visible (c :: e :: x)) with (if c =? ch_bslash then ch_bslash :: visible x else c :: visible (e :: x)).
    cbn [rf_variable_in]. destruct (N.eqb_spec c ch_bslash) as [->|N].
    + cbn [var_in]. exact IH1.
    + cbn [var_in]. rewrite IH2. f_equal. f_equal. cbn [visible]. destruct (N.eqb_spec e ch_bslash) as [->|]; [|reflexivity].
      destruct x; reflexivity.
Qed.
Lemma ends_braces d x r : ends d (x ++ r) = match braces d x with Some e => ends e r | None => ends d (x ++ r) end.
Proof.
  destruct (braces d x) as [k|] eqn:E; [|reflexivity]. revert d E; induction x as [|c x IH]; intros d E; [cbn in *; congruence|].
  cbn [app ends braces] in *. destruct (c =? ch_open); [auto|]. destruct (c =? ch_close); [|auto]. destruct d as [|[|d]]; try discriminate. auto.
Qed.
Lemma ends_too_early d x r : braces d x = None -> exists y, ends d (x ++ r) = Some (y ++ r).
Proof.
  revert d; induction x as [|c x IH]; intros d E; [discriminate E|].
  cbn [app ends braces] in *. destruct (c =? ch_open); [auto|]. destruct (c =? ch_close); [|auto]. destruct d as [|[|d]]; eauto.
Qed.
Lemma braces_pos d x k : braces (S d) x = Some k -> exists k', k = S k'.
Proof.
  revert d; induction x as [|c x IH]; intros d E; [injection E as <-; eauto|]. cbn [braces] in E.
  destruct (c =? ch_open); [eauto|]. destruct (c =? ch_close); [|eauto]. destruct d as [|d]; [discriminate|eauto].
Qed.
(** the closing braces are found at the very end exactly if the text between them closes what it opens *)
Lemma ends_iff y : ends 1 (s "{" ++ y ++ s "}}") = Some [] <-> braces 2 y = Some 2%nat.
Proof.
  change (ends 1 (s "{" ++ y ++ s "}}")) with (ends 2 (y ++ s "}}")). destruct (braces 2 y) as [k|] eqn:E.
  - rewrite ends_braces, E. destruct (braces_pos _ _ _ E) as [k' ->]. destruct k' as [|[|k']].
    + split; discriminate.
    + split; reflexivity.
    + split; intros H; [destruct k'|]; discriminate H.
  - destruct (ends_too_early 2 y (s "}}") E) as [z ->]. split; [|discriminate]. intros H. injection H as H. destruct z; discriminate H.
Qed.

Definition seen (x e : str) : Prop := exists y, spell x y /\ forall z, visible (e ++ z) = y ++ visible z.
Lemma visible_plain u z : Forall (fun c => c <> ch_bslash) u -> visible (u ++ z) = u ++ visible z.
Proof. induction 1 as [|c u H F IH]; [reflexivity|]. cbn [app visible]. apply N.eqb_neq in H. now rewrite H, IH. Qed.
Lemma repr_char_special printable q c : is_quote q -> special c = true -> repr_char printable q c = [c].
Proof. intros Q H. pose proof (repr_char_ok printable q c Q) as U. unfold unit_ok in U. now rewrite H in U. Qed.
Lemma units_seen printable q b x : is_quote q -> valid_str x ->
  seen x (escape_spaces b (flat_map (unit_of printable q) x)).
Proof.
  intros Q V; revert b; induction V as [|c x Hc V IH]; intros b.
  - exists []. split; [constructor|]. reflexivity.
  - cbn [flat_map]. destruct (unit_of_shape printable q c Q Hc) as [E B E1 N1 N2 N3|E1 E|t E T NS EC]; rewrite E.
    + cbn [app escape_spaces]. destruct (is_space c) eqn:SP.
      * destruct (IH true) as (y & Sy & Vy). assert (special c = false) as SC.
        { destruct (special c) eqn:SC; [|reflexivity]. apply special_iff in SC.
          destruct SC as [-> | [-> | [-> | [-> | [-> | [-> | ->]]]]]]; discriminate SP. }
        destruct b.
        -- exists ([ch_bslash] ++ y). split.
           ++ constructor; [|exact Sy]. unfold unit_ok. rewrite SC. split; [discriminate|]. repeat constructor.
           ++ intros z. cbn [app visible]. rewrite N.eqb_refl. now rewrite Vy.
        -- exists ([c] ++ y). split.
           ++ constructor; [|exact Sy]. unfold unit_ok. rewrite SC. split; [discriminate|]. now repeat constructor.
           ++ intros z. cbn [app visible]. apply N.eqb_neq in B. now rewrite B, Vy.
      * destruct (IH false) as (y & Sy & Vy). exists ([c] ++ y). split.
        -- constructor; [|exact Sy]. unfold unit_ok. destruct (special c) eqn:SC; [reflexivity|]. split; [discriminate|]. now repeat constructor.
        -- intros z. cbn [app visible]. apply N.eqb_neq in B. now rewrite B, Vy.
    + subst c. destruct (IH false) as (y & Sy & Vy). exists ([ch_bslash] ++ y). split.
      * constructor; [|exact Sy]. cbn. split; [discriminate|]. repeat constructor.
      * intros z. cbn [app escape_spaces]. change (is_space ch_bslash) with false. change (is_space ch_eq) with false. cbn [app visible].
        rewrite N.eqb_refl. now rewrite Vy.
    + assert (SC : special c = false).
      { destruct (special c) eqn:SC; [|reflexivity]. pose proof (repr_char_special printable q c Q SC) as R.
        unfold unit_of in E. rewrite R in E. cbn [flat_map] in E. unfold eq_char in E. destruct (ch_eq =? c) eqn:EQ.
        - apply N.eqb_eq in EQ. subst c. discriminate SC.
        - cbn in E. injection E as -> _. discriminate SC. }
      assert (SF : space_free (ch_bslash :: t)).
      { constructor; [reflexivity|]. eapply Forall_impl; [|exact NS]. intros ? []; assumption. }
      rewrite escape_spaces_free by exact SF. destruct (IH false) as (y & Sy & Vy).
      destruct t as [|e t]; [congruence|].
      assert (K : Forall hexy t).
      { rewrite E in EC. inversion EC; subst; try constructor; apply hex_hexy. }
      exists ((ch_bslash :: t) ++ y). split.
      * constructor; [|exact Sy]. unfold unit_ok. rewrite SC. split; [discriminate|]. constructor; [reflexivity|].
        eapply Forall_impl; [|exact K]. apply hexy_special.
      * intros z. rewrite <- app_assoc. cbn [app visible]. rewrite N.eqb_refl. f_equal.
        rewrite visible_plain; [now rewrite Vy, app_assoc|].
        eapply Forall_impl; [|exact K]. intros a Ha. unfold hexy, ch_bslash in *. lia.
Qed.
Lemma escape_seen printable x : valid_str x -> str_mem x control_words = false -> seen x (escape printable x).
Proof. intros V M. rewrite escape_units, M. apply units_seen; [apply repr_quote_is_quote|exact V]. Qed.
