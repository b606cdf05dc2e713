(** * Facts about repr and escape (no modelled code here) *)
From Verif Require Import PyStr PyStrFacts Types Compiler Robot RobotSpec.
Local Open Scope N_scope.

Lemma hex_length k n : length (hex k n) = k.
Proof. revert n; induction k; intros; cbn [hex]; [reflexivity|]. rewrite app_length, IHk; cbn; lia. Qed.

Lemma hex_value_digit n : n < 16 -> hex_value (hex_digit n) = Some n.
Proof.
  intros H. unfold hex_digit, hex_value.
  destruct (N.ltb_spec n 10).
  - destruct (N.leb_spec 48 (48 + n)); [|lia]. destruct (N.leb_spec (48 + n) 57); [|lia]. cbn [andb]. f_equal; lia.
  - destruct (N.leb_spec 48 (87 + n)); [|lia]. destruct (N.leb_spec (87 + n) 57); [lia|]. cbn [andb].
    destruct (N.leb_spec 97 (87 + n)); [|lia]. destruct (N.leb_spec (87 + n) 102); [|lia]. cbn [andb]. f_equal; lia.
Qed.

Lemma hex_number_app j k acc x y :
  length x = j -> hex_number (j + k) acc (x ++ y) = match hex_number j acc x with Some v => hex_number k v y | None => None end.
Proof.
  revert acc x; induction j; intros acc x H.
  - destruct x; [reflexivity|discriminate].
  - destruct x as [|c x]; [discriminate|]. cbn [Nat.add app hex_number].
    destruct (hex_value c); [|reflexivity]. apply IHj. cbn in H; lia.
Qed.

Lemma hex_number_hex k n acc : n < 16 ^ N.of_nat k -> hex_number k acc (hex k n) = Some (acc * 16 ^ N.of_nat k + n).
Proof.
  revert n acc; induction k; intros n acc H.
  - cbn in *. f_equal. lia.
  - assert (E : N.of_nat (S k) = N.succ (N.of_nat k)) by lia. rewrite E, N.pow_succ_r' in H |- *.
    change (S k) with (1 + k)%nat. rewrite (Nat.add_comm 1 k). rewrite Nat.add_comm.
    change (1 + k)%nat with (S k). cbn [hex]. replace (S k) with (k + 1)%nat by lia.
    rewrite hex_number_app by apply hex_length.
    rewrite IHk by (apply N.div_lt_upper_bound; lia).
    cbn [hex_number]. rewrite hex_value_digit by (apply N.mod_lt; lia). f_equal.
    pose proof (N.div_mod n 16). lia.
Qed.

Lemma hex_number_hex_app k n r : n < 16 ^ N.of_nat k -> hex_number k 0 (hex k n ++ r) = Some n.
Proof.
  intros H. rewrite <- (Nat.add_0_r k) at 1. rewrite hex_number_app by apply hex_length.
  rewrite hex_number_hex by assumption. cbn [hex_number]. reflexivity || (f_equal; lia).
Qed.

Lemma unescape_skip x y : rf_unescape_go (length x) (x ++ y) = rf_unescape_go 0 y.
Proof. induction x; [reflexivity|]. cbn [length app rf_unescape_go]. exact IHx. Qed.

(** ** The shapes a character can take *)
Definition hexy (c : char) : Prop := (48 <= c /\ c <= 57) \/ (97 <= c /\ c <= 102).
Lemma hex_hexy k n : Forall hexy (hex k n).
Proof.
  revert n; induction k; intros; cbn [hex]; [constructor|].
  apply Forall_app; split; [apply IHk|]. constructor; [|constructor].
  unfold hex_digit, hexy. pose proof (N.mod_lt n 16 ltac:(lia)) as M.
  destruct (N.ltb_spec (n mod 16) 10); lia.
Qed.

Local Opaque hex.
(** [escaped c e]: [e] is an escape sequence for [c] *)
Inductive escaped (q c : char) : str -> Prop :=
| EscPlain : c <> ch_bslash -> c <> q -> c <> ch_nl -> c <> ch_tab -> c <> ch_cr -> escaped q c [c]
| EscSelf : c = q \/ c = ch_bslash -> escaped q c [ch_bslash; c]
| EscTab : c = ch_tab -> escaped q c [ch_bslash; 116]
| EscNl : c = ch_nl -> escaped q c [ch_bslash; 110]
| EscCr : c = ch_cr -> escaped q c [ch_bslash; 114]
| EscX : c < 256 -> escaped q c (ch_bslash :: 120 :: hex 2 c)
| EscU : c < 65536 -> escaped q c (ch_bslash :: 117 :: hex 4 c)
| EscUU : c < 1114112 -> escaped q c (ch_bslash :: 85 :: hex 8 c).

Lemma repr_char_escaped printable q c : c < 1114112 -> escaped q c (repr_char printable q c).
Proof.
  intros H. unfold repr_char.
  destruct (N.eqb_spec c q); [apply EscSelf; auto|].
  destruct (N.eqb_spec c ch_bslash); [apply EscSelf; auto|]. cbn [orb].
  destruct (N.eqb_spec c ch_tab); [apply EscTab; auto|].
  destruct (N.eqb_spec c ch_nl); [apply EscNl; auto|].
  destruct (N.eqb_spec c ch_cr); [apply EscCr; auto|].
  destruct ((c <? 32) || (c =? 127)) eqn:E.
  { apply EscX. apply orb_true_iff in E as [E|E]; [apply N.ltb_lt in E|apply N.eqb_eq in E]; lia. }
  destruct (c <? 127); [apply EscPlain; auto|].
  destruct (printable c); [apply EscPlain; auto|].
  destruct (N.ltb_spec c 256); [apply EscX; auto|].
  destruct (N.ltb_spec c 65536); [apply EscU; auto|]. apply EscUU; auto.
Qed.

Lemma hex_seq k n r : exists h, hex k n = h /\ length h = k /\ (n < 16 ^ N.of_nat k -> hex_number k 0 (h ++ r) = Some n).
Proof. exists (hex k n). split; [reflexivity|]. split; [apply hex_length|apply hex_number_hex_app]. Qed.
Lemma pow16_2 : 16 ^ N.of_nat 2 = 256. Proof. reflexivity. Qed.
Lemma pow16_4 : 16 ^ N.of_nat 4 = 65536. Proof. reflexivity. Qed.
Lemma pow16_8 : 16 ^ N.of_nat 8 = 4294967296. Proof. reflexivity. Qed.

Definition is_quote (q : char) := q = ch_apos \/ q = ch_quote.

Lemma escaped_unescape q c e r :
  is_quote q -> escaped q c e -> rf_unescape_go 0 (e ++ r) = c :: rf_unescape_go 0 r.
Proof.
  intros Q H; destruct H.
  - cbn [app rf_unescape_go]. apply N.eqb_neq in H. rewrite H. reflexivity.
  - destruct H as [->| ->]; [destruct Q as [-> | ->]|]; reflexivity.
  - subst; reflexivity.
  - subst; reflexivity.
  - subst; reflexivity.
  - destruct (hex_seq 2 c r) as (h & -> & L & E). cbn [app rf_unescape_go]. rewrite E by (rewrite pow16_2; lia).
    destruct h as [|a1 [|a2 [|]]]; try discriminate L. reflexivity.
  - destruct (hex_seq 4 c r) as (h & -> & L & E). cbn [app rf_unescape_go]. rewrite E by (rewrite pow16_4; lia).
    destruct h as [|a1 [|a2 [|a3 [|a4 [|]]]]]; try discriminate L. reflexivity.
  - destruct (hex_seq 8 c r) as (h & -> & L & E). cbn [app rf_unescape_go]. rewrite E by (rewrite pow16_8; lia).
    destruct h as [|a1 [|a2 [|a3 [|a4 [|a5 [|a6 [|a7 [|a8 [|]]]]]]]]]; try discriminate L. reflexivity.
Qed.

Lemma replace_eq_char x : replace [ch_eq] [ch_bslash; ch_eq] x =
  flat_map (fun c => if ch_eq =? c then [ch_bslash; ch_eq] else [c]) x.
Proof.
  unfold replace. induction x as [|c x IH]; [reflexivity|].
  cbn [replace_go startswith flat_map]. rewrite andb_true_r.
  destruct (ch_eq =? c); cbn [app length Nat.sub replace_go]; rewrite ?IH; reflexivity.
Qed.
Definition eq_char (c : char) : str := if ch_eq =? c then [ch_bslash; ch_eq] else [c].

Lemma not_contains_eq x : contains [ch_eq] x = false -> flat_map eq_char x = x.
Proof.
  induction x as [|c x IH]; [reflexivity|]. cbn [contains startswith flat_map].
  rewrite andb_true_r. intros H. apply orb_false_iff in H as [E H].
  unfold eq_char at 1. rewrite E. cbn [app]. f_equal; auto.
Qed.
Lemma escape_eqs y :
  (if contains [ch_eq] y then replace [ch_eq] [ch_bslash; ch_eq] y else y) = flat_map eq_char y.
Proof.
  destruct (contains [ch_eq] y) eqn:E; [apply replace_eq_char|]. symmetry; apply not_contains_eq, E.
Qed.

(** ** units: what escape makes of one character *)
Definition no_eq_space (e : str) := Forall (fun c => c <> ch_eq /\ is_space c = false) e.
Definition space_free (e : str) := Forall (fun c => is_space c = false) e.

Lemma hexy_facts c : hexy c -> c <> ch_eq /\ is_space c = false.
Proof.
  unfold hexy. intros H. split; [unfold ch_eq; lia|]. unfold is_space.
  repeat match goal with |- context [?a <=? ?b] => destruct (N.leb_spec a b); try lia end;
  repeat match goal with |- context [?a =? ?b] => destruct (N.eqb_spec a b); try lia end; reflexivity.
Qed.
Lemma hex_no_eq_space k n : no_eq_space (hex k n).
Proof. eapply Forall_impl; [|apply hex_hexy]. intros; apply hexy_facts; assumption. Qed.

(** a character after repr and the escaping of = *)
Definition unit_of printable q c := flat_map eq_char (repr_char printable q c).

Lemma eq_char_id e : Forall (fun c => c <> ch_eq) e -> flat_map eq_char e = e.
Proof.
  induction 1; [reflexivity|]. cbn [flat_map]. rewrite IHForall. unfold eq_char.
  destruct (N.eqb_spec ch_eq x); [congruence|reflexivity].
Qed.

Lemma no_eq_space_id e : no_eq_space e -> flat_map eq_char e = e.
Proof. intros H. apply eq_char_id. eapply Forall_impl; [|exact H]. intros ? []; assumption. Qed.

Lemma escaped_shape q c e : is_quote q -> escaped q c e ->
  (e = [c] /\ c <> ch_bslash /\ c <> ch_nl /\ c <> ch_tab /\ c <> ch_cr) \/
  exists t, e = ch_bslash :: t /\ t <> [] /\ no_eq_space t.
Proof.
  intros Q H; destruct H; [left; tauto|..]; right.
  - exists [c]. split; [reflexivity|split;[discriminate|]]. constructor; [|constructor].
    destruct H as [->| ->]; [destruct Q as [-> | ->]|]; split; (discriminate || reflexivity).
  - exists [116]. split; [reflexivity|split;[discriminate|]]. constructor; [|constructor]. split; (discriminate || reflexivity).
  - exists [110]. split; [reflexivity|split;[discriminate|]]. constructor; [|constructor]. split; (discriminate || reflexivity).
  - exists [114]. split; [reflexivity|split;[discriminate|]]. constructor; [|constructor]. split; (discriminate || reflexivity).
  - exists (120 :: hex 2 c). split; [reflexivity|split;[discriminate|]]. constructor; [split; (discriminate || reflexivity)|apply hex_no_eq_space].
  - exists (117 :: hex 4 c). split; [reflexivity|split;[discriminate|]]. constructor; [split; (discriminate || reflexivity)|apply hex_no_eq_space].
  - exists (85 :: hex 8 c). split; [reflexivity|split;[discriminate|]]. constructor; [split; (discriminate || reflexivity)|apply hex_no_eq_space].
Qed.

Inductive unit_shape (q c : char) (u : str) : Prop :=
| UPlain : u = [c] -> c <> ch_bslash -> c <> ch_eq -> c <> ch_nl -> c <> ch_tab -> c <> ch_cr -> unit_shape q c u
| UEq : c = ch_eq -> u = [ch_bslash; ch_eq] -> unit_shape q c u
| UEsc t : u = ch_bslash :: t -> t <> [] -> no_eq_space t -> escaped q c u -> unit_shape q c u.

Lemma unit_of_shape printable q c : is_quote q -> c < 1114112 -> unit_shape q c (unit_of printable q c).
Proof.
  intros Q H. pose proof (repr_char_escaped printable q c H) as E.
  destruct (escaped_shape q c _ Q E) as [(R & B & N1 & N2 & N3)|(t & R & T & NS)].
  - unfold unit_of. rewrite R. cbn [flat_map]. rewrite app_nil_r. unfold eq_char.
    destruct (N.eqb_spec ch_eq c) as [<-|Ne]; [apply UEq; reflexivity|apply UPlain; auto].
  - eapply UEsc with (t := t); auto.
    + unfold unit_of. rewrite R. apply no_eq_space_id. constructor; [split; (discriminate||reflexivity)|exact NS].
    + unfold unit_of. rewrite R, no_eq_space_id; [rewrite <- R; exact E|].
      constructor; [split; (discriminate||reflexivity)|exact NS].
Qed.

Lemma flat_map_flat_map {A B C} (f : B -> list C) (g : A -> list B) l :
  flat_map f (flat_map g l) = flat_map (fun a => flat_map f (g a)) l.
Proof. induction l; [reflexivity|]. cbn [flat_map]. rewrite flat_map_app, IHl. reflexivity. Qed.

Lemma escape_units printable x :
  escape printable x = if str_mem x control_words then ch_bslash :: x
                       else escape_spaces false (flat_map (unit_of printable (repr_quote x)) x).
Proof.
  unfold escape. destruct (str_mem x control_words); [reflexivity|].
  cbv zeta. rewrite escape_eqs. unfold repr_body. f_equal.
  exact (flat_map_flat_map eq_char (repr_char printable (repr_quote x)) x).
Qed.

Lemma repr_quote_is_quote x : is_quote (repr_quote x).
Proof. unfold repr_quote, is_quote. destruct (_ && _); auto. Qed.

Lemma escape_spaces_free b e r : space_free e ->
  escape_spaces b (e ++ r) = e ++ escape_spaces (match e with [] => b | _ => false end) r.
Proof.
  intros H; revert b; induction H; intros b; [reflexivity|]. cbn [app escape_spaces].
  rewrite H. f_equal. rewrite IHForall. destruct l; reflexivity.
Qed.

Lemma space_not_escape c : is_space c = true ->
  c <> ch_bslash /\ c <> ch_n /\ c <> 114 /\ c <> 116 /\ c <> 120 /\ c <> 117 /\ c <> 85 /\ c <> ch_eq.
Proof. intros H. repeat split; intros ->; discriminate. Qed.

Lemma is_space_bslash : is_space ch_bslash = false. Proof. reflexivity. Qed.
Lemma is_space_eq : is_space ch_eq = false. Proof. reflexivity. Qed.

(** one unit after the escaping of blanks *)
Lemma unit_step q c u b r : is_quote q -> unit_shape q c u ->
  exists u', escape_spaces b (u ++ r) = u' ++ escape_spaces (is_space c && match u with [_] => true | _ => false end) r /\
    (forall z, rf_unescape_go 0 (u' ++ z) = c :: rf_unescape_go 0 z) /\
    (forall z, bare_eq false (u' ++ z) = bare_eq false z) /\
    Forall (fun d => d <> ch_nl /\ d <> ch_tab /\ d <> ch_cr) u' /\
    match u' with
    | [d] => d = c /\ (is_space c = true -> b = false) /\ u = [c]
    | d :: t => d = ch_bslash /\ t <> [] /\ double_blank t = false /\ is_space (last t 0) = is_space c && match u with [_] => true | _ => false end
    | [] => False
    end.
Proof.
  intros Q [-> B E1 N1 N2 N3| -> ->|t -> T NS EC].
  - cbn [app escape_spaces]. rewrite andb_true_r. destruct (is_space c) eqn:SP.
    + destruct (space_not_escape c SP) as (A1 & A2 & A3 & A4 & A5 & A6 & A7 & A8). destruct b.
      * exists [ch_bslash; c]. split; [reflexivity|].
        apply N.eqb_neq in A1, A2, A3, A4, A5, A6, A7.
        split. { intros z. cbn [app rf_unescape_go]. rewrite N.eqb_refl, A1, A2, A3, A4, A5, A6, A7. reflexivity. }
        split. { intros z. reflexivity. }
        split. { constructor; [repeat split; discriminate|]. constructor; [auto|constructor]. }
        cbn. auto using eq_refl. repeat split; auto. discriminate.
      * exists [c]. split; [reflexivity|]. apply N.eqb_neq in B, E1.
        split. { intros z. cbn [app rf_unescape_go]. rewrite B. reflexivity. }
        split. { intros z. cbn [app bare_eq]. rewrite B, E1. reflexivity. }
        split. { constructor; [auto|constructor]. } auto.
    + exists [c]. split; [reflexivity|]. apply N.eqb_neq in B, E1.
      split. { intros z. cbn [app rf_unescape_go]. rewrite B. reflexivity. }
      split. { intros z. cbn [app bare_eq]. rewrite B, E1. reflexivity. }
      split. { constructor; [auto|constructor]. } split; [reflexivity|split; [discriminate|reflexivity]].
  - exists [ch_bslash; ch_eq]. split; [reflexivity|]. split; [reflexivity|]. split; [reflexivity|].
    split. { repeat constructor; discriminate. } cbn. repeat split; discriminate.
  - exists (ch_bslash :: t).
    assert (SF : space_free (ch_bslash :: t)).
    { constructor; [reflexivity|]. eapply Forall_impl; [|exact NS]. intros ? []; assumption. }
    assert (FL : match ch_bslash :: t with [_] => true | _ => false end = false) by (destruct t; congruence || reflexivity).
    rewrite FL, andb_false_r.
    split. { rewrite escape_spaces_free by exact SF. reflexivity. }
    split. { intros z. apply (escaped_unescape q c); assumption. }
    split. { intros z. destruct t as [|d t]; [congruence|]. cbn [app bare_eq]. cbn [N.eqb ch_bslash Pos.eqb].
      assert (t = [] \/ d <> ch_bslash) as K.
      { inversion EC; subst; auto; right; discriminate. }
      inversion NS as [|? ? [? ?] NS']; subst.
      assert (G : forall y, Forall (fun c => c <> ch_eq /\ c <> ch_bslash) y -> bare_eq false (y ++ z) = bare_eq false z).
      { intros y Hy; induction Hy as [|a y [Ha1 Ha2] Hy IHy]; [reflexivity|]. cbn [app bare_eq].
        apply N.eqb_neq in Ha1, Ha2. rewrite Ha1, Ha2. exact IHy. }
      apply G. inversion EC; subst;
        first [exact (Forall_nil _) | eapply Forall_impl; [|apply hex_hexy]; intros a Ha; unfold hexy, ch_eq, ch_bslash in *; lia]. }
    split. { constructor; [repeat split; discriminate|]. inversion EC; subst; try congruence.
      all: try (constructor; [|constructor]); try (repeat split; discriminate).
      - destruct H0 as [->| ->]; [destruct Q as [-> | ->]|]; repeat split; discriminate.
      - constructor; [repeat split; discriminate|]. eapply Forall_impl; [|apply hex_hexy]; intros a Ha; unfold hexy, ch_nl, ch_tab, ch_cr in *; lia.
      - constructor; [repeat split; discriminate|]. eapply Forall_impl; [|apply hex_hexy]; intros a Ha; unfold hexy, ch_nl, ch_tab, ch_cr in *; lia.
      - constructor; [repeat split; discriminate|]. eapply Forall_impl; [|apply hex_hexy]; intros a Ha; unfold hexy, ch_nl, ch_tab, ch_cr in *; lia. }
    destruct t as [|d t]; [congruence|]. split; [reflexivity|]. split; [discriminate|].
    inversion SF as [|? ? _ SF']; subst. clear - SF'. split.
    + generalize dependent d. induction t as [|e t IH]; intros d SF; [reflexivity|].
      inversion SF; subst. cbn [double_blank]. rewrite H1. cbn [andb orb]. apply IH; assumption.
    + generalize dependent d. induction t as [|e t IH]; intros d SF; inversion SF; subst; [cbn; assumption|].
      cbn [last]. apply IH; assumption.
Qed.

Lemma double_blank_app t r : double_blank t = false -> double_blank r = false ->
  (is_space (last t 0) = true -> match r with d :: _ => is_space d = false | [] => True end) ->
  double_blank (t ++ r) = false.
Proof.
  intros H1 H2. induction t as [|c t IH]; [intros; exact H2|]. intros H3.
  destruct t as [|d t].
  - cbn [app last] in *. cbn [double_blank]. destruct r as [|d r]; [reflexivity|].
    destruct (is_space c); [rewrite H3 by reflexivity|]; cbn [andb orb]; exact H2.
  - cbn [double_blank] in H1. apply orb_false_iff in H1 as [A B].
    cbn [app double_blank]. rewrite A. cbn [orb]. apply IH; [exact B|]. intros K. apply H3. exact K.
Qed.

Definition starts_blank (x : str) := match x with c :: _ => is_space c | [] => false end.

Lemma units_facts printable q b x : is_quote q -> valid_str x ->
  let y := escape_spaces b (flat_map (unit_of printable q) x) in
  rf_unescape_go 0 y = x /\ bare_eq false y = false /\
  Forall (fun d => d <> ch_nl /\ d <> ch_tab /\ d <> ch_cr) y /\
  double_blank y = false /\ (b = true -> starts_blank y = false).
Proof.
  intros Q V; revert b; induction V as [|c x Hc V IH]; intros b y.
  - subst y. cbn. repeat split; constructor.
  - cbn [flat_map] in y.
    destruct (unit_step q c (unit_of printable q c) b (flat_map (unit_of printable q) x) Q
                (unit_of_shape printable q c Q Hc)) as (u' & E & F1 & F2 & F3 & F4).
    specialize (IH (is_space c && match unit_of printable q c with [_] => true | _ => false end)).
    cbv zeta in IH. unfold y. rewrite E. clear y E. set (r := escape_spaces _ _) in *.
    destruct IH as (I1 & I2 & I3 & I4 & I5).
    split; [rewrite F1, I1; reflexivity|]. split; [rewrite F2; exact I2|].
    split; [apply Forall_app; split; assumption|].
    destruct u' as [|d [|e t]]; [contradiction|..].
    + destruct F4 as (-> & F4 & U). rewrite U, andb_true_r in I5. cbn [app starts_blank].
      split.
      * cbn [double_blank]. destruct r as [|d r]; [reflexivity|].
        destruct (is_space c); [specialize (I5 eq_refl); cbn in I5; rewrite I5|]; cbn [andb orb]; exact I4.
      * intros ->. destruct (is_space c); [discriminate (F4 eq_refl)|reflexivity].
    + destruct F4 as (-> & T & D & L). split; [|intros; reflexivity].
      change (double_blank ((ch_bslash :: e :: t) ++ r) = false).
      apply double_blank_app; [exact D|exact I4|].
      intros K. change (last (ch_bslash :: e :: t) 0) with (last (e :: t) 0) in K.
      rewrite L in K. specialize (I5 K). unfold starts_blank in I5. destruct r; auto.
Qed.

Lemma escape_facts printable x : valid_str x ->
  rf_unescape (escape printable x) = x /\ bare_eq false (escape printable x) = false /\
  Forall (fun d => d <> ch_nl /\ d <> ch_tab /\ d <> ch_cr) (escape printable x) /\
  double_blank (escape printable x) = false.
Proof.
  intros V. rewrite escape_units. destruct (str_mem x control_words) eqn:M.
  - unfold str_mem in M. cbn [existsb control_words] in M. rewrite !orb_true_iff, !str_eqb_spec in M.
    destruct M as [->|[->|[->|M]]]; [..|discriminate].
    all: vm_compute; repeat split; repeat constructor; discriminate.
  - destruct (units_facts printable (repr_quote x) false x (repr_quote_is_quote x) V) as (A & B & C & D & _).
    auto.
Qed.
