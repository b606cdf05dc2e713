(** * Glob patterns become regular expressions that mean the same (no modelled code) *)
From Verif Require Import PyStr PyStrFacts Types Regex ReSem Glob GlobSpec.
Local Open Scope N_scope.

(** ** The regular expression written for a pattern *)
Definition esc_set : str := s "\/$^+.()=!|".
Lemma skip_stars_len x : forall n r, skip_stars x = (n, r) -> (length x = n + length r)%nat.
Proof.
  induction x as [|c x IH]; cbn [skip_stars]; intros n r H; [now injection H as <- <-|].
  destruct (c =? 42); [|now injection H as <- <-]. destruct (skip_stars x) as [m y]. injection H as <- <-. cbn. now rewrite (IH m y).
Qed.
Lemma tl_len (x : str) : (length (tl x) <= length x)%nat. Proof. destruct x; cbn; lia. Qed.
Lemma glob_fuel f : forall g prev ig x, (length x <= f)%nat -> (length x <= g)%nat -> glob_go f prev ig x = glob_go g prev ig x.
Proof.
  induction f as [|f IH]; intros g prev ig x Hf Hg; [destruct x; [now destruct g | cbn in Hf; lia]|].
  destruct x as [|c x]; [now destruct g|]. destruct g as [|g]; [cbn in Hg; lia|]. cbn [length] in Hf, Hg. cbn [glob_go].
  destruct (existsb _ _); [do 2 f_equal; apply IH; lia|].
  destruct (c =? 63); [f_equal; apply IH; lia|]. destruct ((c =? 91) || (c =? 93)); [f_equal; apply IH; lia|].
  destruct (c =? 123); [f_equal; apply IH; lia|]. destruct (c =? 125); [f_equal; apply IH; lia|].
  destruct (c =? ch_comma); [f_equal; apply IH; lia|].
  destruct (c =? 42); [|f_equal; apply IH; lia]. destruct (skip_stars x) as [n r] eqn:E. apply skip_stars_len in E. pose proof (tl_len r).
  destruct (_ && _); f_equal; apply IH; lia.
Qed.
Definition G (prev : option char) (ig : bool) (x : str) : str := glob_go (length x) prev ig x.
Lemma G_nil prev ig : G prev ig [] = []. Proof. reflexivity. Qed.

(** one character *)
Definition special6 (c : char) : bool := existsb (N.eqb c) (s "?*{}[]").
Lemma ordinary_spec c : ordinary c <-> special6 c = false.
Proof.
  unfold ordinary, special6. split.
  - intros H. apply not_true_iff_false. intros E. apply existsb_exists in E as [d [D E]]. apply N.eqb_eq in E as ->. contradiction.
  - intros H I. assert (E : existsb (N.eqb c) (s "?*{}[]") = true) by (apply existsb_exists; exists c; split; [exact I | apply N.eqb_refl]). congruence.
Qed.
Definition rx_char (c : char) : str := if existsb (N.eqb c) esc_set then [ch_bslash; c] else if c =? ch_comma then s "\," else [c].
Lemma special6_cases c : special6 c = false -> (c =? 63) = false /\ (c =? 42) = false /\ (c =? 123) = false /\ (c =? 125) = false /\ (c =? 91) = false /\ (c =? 93) = false.
Proof.
  change (special6 c) with ((c =? 63) || ((c =? 42) || ((c =? 123) || ((c =? 125) || ((c =? 91) || ((c =? 93) || false)))))). intros H. repeat (apply orb_false_iff in H as [? H]). repeat split; assumption.
Qed.
Lemma G_char prev ig c x : ordinary c -> (ig = true -> c <> ch_comma) -> G prev ig (c :: x) = rx_char c ++ G (Some c) ig x.
Proof.
  intros H Hc. apply ordinary_spec, special6_cases in H as [H1 [H2 [H3 [H4 [H5 H6]]]]]. unfold G. cbn [length glob_go]. unfold rx_char. fold esc_set.
  destruct (existsb (N.eqb c) esc_set); [reflexivity|]. rewrite H1, H2, H3, H4, H5, H6. cbn [orb].
  destruct (c =? ch_comma) eqn:E; [|reflexivity]. destruct ig; [|reflexivity]. apply N.eqb_eq in E. now destruct (Hc eq_refl).
Qed.
Lemma G_one prev ig x : G prev ig (63 :: x) = s "." ++ G (Some 63) ig x. Proof. reflexivity. Qed.
Lemma skip_stars_none x : hd_error x <> Some 42 -> skip_stars x = (O, x).
Proof. destruct x as [|c x]; [reflexivity|]. cbn. intros H. destruct (c =? 42) eqn:E; [apply N.eqb_eq in E as ->; now destruct H | reflexivity]. Qed.
Definition rx_segment : str := s "([^/]*)".
Definition rx_deep : str := s "((?:[^/]*(?:/|$))*)".
Lemma G_segment prev ig x : hd_error x <> Some 42 -> G prev ig (42 :: x) = rx_segment ++ G (Some 42) ig x.
Proof. intros H. unfold G. cbn [length glob_go]. change (existsb (N.eqb 42) _) with false. cbv iota. change (42 =? 63) with false. change ((42 =? 91) || (42 =? 93)) with false. change (42 =? 123) with false. change (42 =? 125) with false. change (42 =? ch_comma) with false. change (42 =? 42) with true. cbv iota. rewrite (skip_stars_none x H). reflexivity. Qed.
Lemma G_open prev ig x : G prev ig (123 :: x) = s "(" ++ G (Some 123) true x. Proof. reflexivity. Qed.
Lemma G_close prev ig x : G prev ig (125 :: x) = s ")" ++ G (Some 125) false x. Proof. reflexivity. Qed.
Lemma G_bar prev x : G prev true (ch_comma :: x) = s "|" ++ G (Some ch_comma) true x. Proof. reflexivity. Qed.
Lemma G_deep prev ig x : opt_is prev ch_slash = true -> G prev ig (s "**/" ++ x) = rx_deep ++ G (Some ch_slash) ig x.
Proof.
  intros H. change (s "**/" ++ x) with (42 :: 42 :: ch_slash :: x). unfold G. cbn [length]. remember (S (S (length x))) as f eqn:Ef. cbn [glob_go]. change (existsb (N.eqb 42) _) with false. cbv iota. change (42 =? 63) with false. change ((42 =? 91) || (42 =? 93)) with false. change (42 =? 123) with false. change (42 =? 125) with false. change (42 =? ch_comma) with false. change (42 =? 42) with true. cbv iota.
  change (skip_stars (42 :: ch_slash :: x)) with (1%nat, ch_slash :: x). cbv iota zeta. rewrite H. change (opt_is (hd_error (ch_slash :: x)) ch_slash) with true.
  cbv [Nat.ltb Nat.leb andb tl]. f_equal. apply glob_fuel; lia.
Qed.
Lemma G_deep_last prev ig : opt_is prev ch_slash = true -> G prev ig (s "**") = rx_deep.
Proof. intros H. unfold G. cbn -[opt_is]. rewrite H. reflexivity. Qed.

(** ** The regular expression of a pattern *)
Definition rx_atom (a : gatom) : str := match a with GChar c => rx_char c | GOne => s "." | GSegment => rx_segment end.
Definition rx_atoms (l : list gatom) : str := flat_map rx_atom l.
Definition rx_item (i : gitem) : str :=
  match i with GAtom a => rx_atom a | GGroup alts => s "(" ++ join (s "|") (map rx_atoms alts) ++ s ")" | GDeep => rx_deep end.
Definition rx (g : list gitem) : str := flat_map rx_item g.

Lemma ordinary_42 c : ordinary c -> c <> 42.
Proof. intros H ->. apply H. right. now left. Qed.
Lemma G_atoms l : Forall alt_atom_ok l -> stars_apart l -> forall prev y, hd_error y <> Some 42 -> exists prev', G prev true (show_atoms l ++ y) = rx_atoms l ++ G prev' true y.
Proof.
  induction 1 as [|a l [Ha Hc] Hl IH]; intros S prev y Hy; [exists prev; reflexivity|].
  destruct a as [c| |]; cbn [show_atoms rx_atoms flat_map show_atom rx_atom].
  - destruct (IH S (Some c) y Hy) as [p' E]. exists p'. cbn [app]. rewrite G_char; [|exact Ha | intros _ ->; now apply Hc]. rewrite <- app_assoc. f_equal. exact E.
  - destruct (IH S (Some 63) y Hy) as [p' E]. exists p'. change (G prev true ((s "?" ++ flat_map show_atom l) ++ y)) with (s "." ++ G (Some 63) true (show_atoms l ++ y)). rewrite E. reflexivity.
  - destruct S as [S1 S2]. destruct (IH S2 (Some 42) y Hy) as [p' E]. exists p'. change ((s "*" ++ flat_map show_atom l) ++ y) with (42 :: (show_atoms l ++ y)).
    rewrite G_segment; [rewrite E, <- app_assoc; reflexivity|]. destruct l as [|[c| |] l]; cbn; try exact Hy; try discriminate; [|contradiction].
    inversion Hl as [|? ? [A _] _]; subst. cbn in A. intros X. injection X as ->. now apply (ordinary_42 42).
Qed.
Lemma G_alts alts : alts <> [] -> Forall (fun l => Forall alt_atom_ok l /\ stars_apart l) alts -> forall prev y, exists prev',
  G prev true (join (s ",") (map show_atoms alts) ++ 125 :: y) = join (s "|") (map rx_atoms alts) ++ G prev' true (125 :: y).
Proof.
  intros Hn H. induction H as [|l alts [H1 H2] H IH]; [contradiction|]. clear Hn. intros prev y. destruct alts as [|l2 alts].
  - cbn [map join]. apply G_atoms; auto. discriminate.
  - destruct (G_atoms l H1 H2 prev (s "," ++ join (s ",") (map show_atoms (l2 :: alts)) ++ 125 :: y) ltac:(discriminate)) as [p1 E1].
    destruct (IH ltac:(discriminate) (Some ch_comma) y) as [p2 E2]. exists p2.
    change (join (s ",") (map show_atoms (l :: l2 :: alts))) with (show_atoms l ++ s "," ++ join (s ",") (map show_atoms (l2 :: alts))).
    rewrite <- !app_assoc. rewrite E1. change (s "," ++ join (s ",") (map show_atoms (l2 :: alts)) ++ 125 :: y) with (ch_comma :: (join (s ",") (map show_atoms (l2 :: alts)) ++ 125 :: y)).
    rewrite G_bar, E2. change (join (s "|") (map rx_atoms (l :: l2 :: alts))) with (rx_atoms l ++ s "|" ++ join (s "|") (map rx_atoms (l2 :: alts))). now rewrite <- !app_assoc.
Qed.

Definition coherent (prev : option gitem) (pc : option char) : Prop :=
  match prev with None => pc = None | Some (GAtom (GChar c)) => pc = Some c | Some GDeep => pc = Some ch_slash | _ => True end.
Lemma may_deep prev pc : coherent prev pc -> may_follow prev GDeep -> opt_is pc ch_slash = true.
Proof. destruct prev as [[[c| |]|alts|]|]; cbn; try contradiction; intros -> ; try reflexivity. intros ->. apply N.eqb_refl. Qed.
Lemma show_head prev g : pattern_ok prev g -> may_follow prev GDeep \/ prev = Some (GAtom GSegment) -> prev = Some (GAtom GSegment) -> hd_error (show g) <> Some 42.
Proof.
  intros P _ ->. destruct g as [|[[c| |]|alts|] g]; cbn; try discriminate; destruct P as [P1 [P2 _]]; cbn in P1, P2; try contradiction.
  intros X. injection X as ->. now apply (ordinary_42 42).
Qed.
Lemma G_show g : forall prev pc, pattern_ok prev g -> coherent prev pc -> G pc false (show g) = rx g.
Proof.
  induction g as [|i g IH]; intros prev pc P C; [reflexivity|]. destruct P as [P1 [P2 P3]]. destruct i as [a|alts|].
  - destruct a as [c| |]; cbn [show show_atom rx flat_map rx_item rx_atom].
    + cbn [app]. rewrite G_char; [|exact P1 | discriminate]. f_equal. apply (IH _ _ P3). reflexivity.
    + change (G pc false (s "?" ++ show g)) with (s "." ++ G (Some 63) false (show g)). f_equal. apply (IH _ _ P3). exact I.
    + change (s "*" ++ show g) with (42 :: show g). rewrite G_segment; [f_equal; apply (IH _ _ P3); exact I|]. eapply show_head; eauto.
  - cbn [show rx flat_map rx_item]. destruct P1 as [P1 P1']. change (s "{" ++ ?x) with (123 :: x). change (s "}" ++ ?x) with (125 :: x).
    rewrite G_open. destruct (G_alts alts P1 P1' (Some 123) (show g)) as [p' E]. rewrite E, G_close, <- !app_assoc. do 3 f_equal. apply (IH _ _ P3). exact I.
  - pose proof (may_deep _ _ C P2) as D. cbn [rx flat_map rx_item]. destruct g as [|j g].
    + cbn [show flat_map]. rewrite app_nil_r. now apply G_deep_last.
    + change (show (GDeep :: j :: g)) with (s "**/" ++ show (j :: g)). rewrite (G_deep pc false _ D). f_equal. apply (IH _ _ P3). reflexivity.
Qed.

(** ** Reading it *)
Definition kont (f : nat) (a : re) (y : str) : result (re * str) :=
  rbind (p_quant a y) (fun q1 => rbind (p_cat true true f (snd q1)) (fun q2 => Ok (RSeq (fst q1) (fst q2), snd q2))).
Definition noquant (y : str) : Prop := match y with c :: _ => (c =? 42) = false /\ (c =? 43) = false /\ (c =? 63) = false /\ (c =? 123) = false | [] => True end.
Lemma p_quant_none a y : noquant y -> p_quant a y = Ok (a, y).
Proof. destruct y as [|c y]; [reflexivity|]. cbn [noquant p_quant]. intros [-> [-> [-> ->]]]. cbn [orb]. rewrite andb_false_r. reflexivity. Qed.
Lemma p_quant_star a y : is_anchor a = false -> noquant y -> p_quant a (42 :: y) = Ok (RStar a, y).
Proof. intros A. cbn [p_quant]. rewrite A. cbn [andb]. destruct y as [|c y]; [reflexivity|]. cbn [noquant]. intros [H1 [H2 [H3 H4]]]. change (42 =? 42) with true. cbv iota. rewrite H1, H2, H3, H4. reflexivity. Qed.
Lemma kont_noquant f a y : noquant y -> kont f a y = rbind (p_cat true true f y) (fun q2 => Ok (RSeq a (fst q2), snd q2)).
Proof. intros H. unfold kont. rewrite p_quant_none by exact H. reflexivity. Qed.
Lemma cat_plain f c y : re_special c = false -> p_cat true true (S f) (c :: y) = kont f (RChar c) y.
Proof.
  change (re_special c) with ((c =? 92) || ((c =? 46) || ((c =? 94) || ((c =? 36) || ((c =? 42) || ((c =? 43) || ((c =? 63) || ((c =? 123) || ((c =? 125) || ((c =? 91) || ((c =? 93) || ((c =? 124) || ((c =? 40) || ((c =? 41) || false)))))))))))))).
  intros H. repeat (apply orb_false_iff in H as [?H H]). cbn [p_cat]. unfold ch_pipe, ch_bslash.
  repeat match goal with E : (c =? _) = false |- _ => rewrite E; clear E end. reflexivity.
Qed.
Lemma cat_escape f c y i : p_escape c = Ok i -> p_cat true true (S f) (ch_bslash :: c :: y) = kont f (RSet false [i]) y.
Proof. intros H. cbn [p_cat]. change ((ch_bslash =? ch_pipe) || (ch_bslash =? 41)) with false. change (ch_bslash =? ch_bslash) with true. cbv iota. rewrite H. reflexivity. Qed.
Lemma cat_any f y : p_cat true true (S f) (46 :: y) = kont f RAny y. Proof. reflexivity. Qed.
Lemma cat_eol f y : p_cat true true (S f) (36 :: y) = kont f REolM y. Proof. reflexivity. Qed.
Lemma cat_bol f y : p_cat true true (S f) (94 :: y) = kont f RBolM y. Proof. reflexivity. Qed.
Lemma cat_stop f c y : c = ch_pipe \/ c = 41 -> p_cat true true (S f) (c :: y) = Ok (REps, c :: y).
Proof. intros [->| ->]; reflexivity. Qed.
Lemma cat_notslash f y : p_cat true true (S f) (s "[^/]" ++ y) = kont f (RSet true [CChar 47]) y.
Proof.
  change (s "[^/]" ++ y) with (91 :: 94 :: 47 :: 93 :: y). cbn [p_cat].
  change ((91 =? ch_pipe) || (91 =? 41)) with false. change (91 =? ch_bslash) with false. change (91 =? 46) with false. change (91 =? 94) with false. change (91 =? 36) with false.
  change ((91 =? 42) || (91 =? 43) || (91 =? 63)) with false. change (91 =? 91) with true. change (94 =? 94) with true. cbv iota.
  assert (E : p_class (S (length (47 :: 93 :: y))) true (47 :: 93 :: y) = Ok ([CChar 47], y)).
  { cbn [length]. destruct y as [|d y]; reflexivity. }
  match goal with |- context [p_class ?a ?b ?c] => change (p_class a b c) with (p_class (S (length (47 :: 93 :: y))) true (47 :: 93 :: y)) end.
  rewrite E. reflexivity.
Qed.
Definition closed (r : result (re * str)) : result (re * str) :=
  rbind r (fun q => match snd q with d :: rest => if d =? 41 then Ok (fst q, rest) else Err EReError | [] => Err EReError end).
Lemma cat_group f x : match x with c :: _ => (c =? 63) = false | [] => True end ->
  p_cat true true (S f) (40 :: x) = rbind (closed (p_alt true true f x)) (fun q => kont f (fst q) (snd q)).
Proof.
  intros H. cbn [p_cat].
  change ((40 =? ch_pipe) || (40 =? 41)) with false. change (40 =? ch_bslash) with false. change (40 =? 46) with false. change (40 =? 94) with false. change (40 =? 36) with false.
  change ((40 =? 42) || (40 =? 43) || (40 =? 63)) with false. change (40 =? 91) with false. change (40 =? 40) with true. cbv iota.
  destruct x as [|c [|d x]]; cbn [rbind]; rewrite ?H; reflexivity.
Qed.
Lemma cat_ncgroup f x : p_cat true true (S f) (40 :: 63 :: ch_colon :: x) = rbind (closed (p_alt true true f x)) (fun q => kont f (fst q) (snd q)).
Proof. reflexivity. Qed.
Lemma alt_last f x r y : p_cat true true f x = Ok (r, 41 :: y) -> p_alt true true (S f) x = Ok (r, 41 :: y).
Proof. intros H. cbn [p_alt]. rewrite H. reflexivity. Qed.
Lemma alt_bar f x r y : p_cat true true f x = Ok (r, ch_pipe :: y) -> p_alt true true (S f) x = rbind (p_alt true true f y) (fun q => Ok (RAlt r (fst q), snd q)).
Proof. intros H. cbn [p_alt]. rewrite H. reflexivity. Qed.

Definition re_segment : re := RSeq (RStar (RSet true [CChar 47])) REps.
Definition re_dir : re := RSeq (RStar (RSet true [CChar 47])) (RSeq (RAlt (RSeq (RChar 47) REps) (RSeq REolM REps)) REps).
Definition re_deep : re := RSeq (RStar re_dir) REps.
Lemma cat_segment f y : (3 <= f)%nat -> p_cat true true (S f) (rx_segment ++ y) = kont f re_segment y.
Proof.
  intros H. change (rx_segment ++ y) with (40 :: (s "[^/]" ++ 42 :: 41 :: y)). rewrite cat_group by reflexivity.
  destruct f as [|[|[|f]]]; try lia. rewrite (alt_last _ _ re_segment y); [reflexivity|].
  rewrite cat_notslash. unfold kont. rewrite p_quant_star by (cbn; auto). cbn [rbind fst snd]. rewrite cat_stop by auto. reflexivity.
Qed.
Lemma cat_deep f y : (9 <= f)%nat -> p_cat true true (S f) (rx_deep ++ y) = kont f re_deep y.
Proof.
  intros H. change (rx_deep ++ y) with (40 :: (s "(?:[^/]*(?:/|$))*)" ++ y)). rewrite cat_group by reflexivity.
  do 9 (destruct f as [|f]; [lia|]). rewrite (alt_last _ _ re_deep y); [reflexivity|].
  change (s "(?:[^/]*(?:/|$))*)" ++ y) with (40 :: 63 :: ch_colon :: (s "[^/]" ++ 42 :: 40 :: 63 :: ch_colon :: (s "/|$))*)" ++ y))). rewrite cat_ncgroup.
  assert (E : p_alt true true (S (S (S (S (S (S (S f))))))) (s "[^/]" ++ 42 :: 40 :: 63 :: ch_colon :: (s "/|$))*)" ++ y)) = Ok (re_dir, 41 :: 42 :: 41 :: y)).
  { apply alt_last. rewrite cat_notslash. unfold kont. rewrite p_quant_star by (cbn; auto). cbn [rbind fst snd]. rewrite cat_ncgroup.
    assert (E : p_alt true true (S (S (S (S f)))) (s "/|$))*)" ++ y) = Ok (RAlt (RSeq (RChar 47) REps) (RSeq REolM REps), 41 :: 41 :: 42 :: 41 :: y)).
    { rewrite (alt_bar _ _ (RSeq (RChar 47) REps) (s "$))*)" ++ y)).
      - rewrite (alt_last _ _ (RSeq REolM REps) (41 :: 42 :: 41 :: y)); [reflexivity|]. change (s "$))*)" ++ y) with (36 :: 41 :: 41 :: 42 :: 41 :: y). rewrite cat_eol.
        rewrite kont_noquant by (cbn; auto). rewrite cat_stop by auto. reflexivity.
      - change (s "/|$))*)" ++ y) with (47 :: ch_pipe :: (s "$))*)" ++ y)). rewrite cat_plain by reflexivity. rewrite kont_noquant by (cbn; auto). rewrite cat_stop by auto. reflexivity. }
    rewrite E. cbn [closed rbind snd fst]. change (41 =? 41) with true. cbv iota. cbn [rbind fst snd]. rewrite kont_noquant by (cbn; auto). rewrite cat_stop by auto. reflexivity. }
  rewrite E. cbn [closed rbind snd fst]. change (41 =? 41) with true. cbv iota. cbn [rbind fst snd]. unfold kont. rewrite p_quant_star by (cbn; auto). cbn [rbind fst snd]. rewrite cat_stop by auto. reflexivity.
Qed.

Definition re_atom (a : gatom) : re := match a with GChar c => RChar c | GOne => RAny | GSegment => re_segment end.
Definition re_atoms (l : list gatom) : re := fold_right (fun a r => RSeq (re_atom a) r) REps l.
Fixpoint re_alts (alts : list (list gatom)) : re :=
  match alts with [] => REps | [l] => re_atoms l | l :: alts' => RAlt (re_atoms l) (re_alts alts') end.
Definition re_item (i : gitem) : re := match i with GAtom a => re_atom a | GGroup alts => re_alts alts | GDeep => re_deep end.
Definition re_tail (g : list gitem) : re := fold_right (fun i r => RSeq (re_item i) r) (RSeq REolM REps) g.
Definition re_glob (g : list gitem) : re := RSeq RBolM (re_tail g).

Lemma rx_char_cases c : ordinary c -> (rx_char c = [c] /\ re_special c = false) \/ (rx_char c = [ch_bslash; c] /\ p_escape c = Ok (CChar c)).
Proof.
  intros H. unfold rx_char. destruct (existsb (N.eqb c) esc_set) eqn:E.
  - right. split; [reflexivity|]. apply existsb_exists in E as [d [D E]]. apply N.eqb_eq in E as <-. cbn in D. intuition (subst; reflexivity).
  - destruct (c =? ch_comma) eqn:F; [right; apply N.eqb_eq in F as ->; split; reflexivity|]. left. split; [reflexivity|].
    apply not_true_iff_false. intros X. apply existsb_exists in X as [d [D X]]. apply N.eqb_eq in X as <-. cbn in D.
    assert (E' : ~ In c esc_set). { intros I. assert (existsb (N.eqb c) esc_set = true) by (apply existsb_exists; exists c; split; [exact I | apply N.eqb_refl]). congruence. }
    unfold ordinary in H. repeat destruct D as [<-|D]; try contradiction D; try (apply H; cbn; tauto); try (apply E'; cbn; tauto).
Qed.
Lemma cat_atom f a y : atom_ok a -> (length (rx_atom a) <= S f)%nat -> p_cat true true (S f) (rx_atom a ++ y) = kont f (re_atom a) y.
Proof.
  intros H L. destruct a as [c| |]; cbn [rx_atom re_atom].
  - destruct (rx_char_cases c H) as [[-> E]|[-> E]]; cbn [app]; [now apply cat_plain | now apply cat_escape].
  - apply cat_any.
  - apply cat_segment. cbn in L. lia.
Qed.
(** what may follow an atom starts with no quantifier *)
Lemma noquant_char c y : ordinary c -> noquant (rx_char c ++ y).
Proof.
  intros H. destruct (rx_char_cases c H) as [[-> E]|[-> E]]; cbn [app noquant]; [|repeat split; reflexivity].
  change (re_special c) with ((c =? 92) || ((c =? 46) || ((c =? 94) || ((c =? 36) || ((c =? 42) || ((c =? 43) || ((c =? 63) || ((c =? 123) || ((c =? 125) || ((c =? 91) || ((c =? 93) || ((c =? 124) || ((c =? 40) || ((c =? 41) || false)))))))))))))) in E.
  repeat (apply orb_false_iff in E as [?H E]). repeat split; assumption.
Qed.
Lemma noquant_atoms l y : Forall alt_atom_ok l -> noquant y -> noquant (rx_atoms l ++ y).
Proof.
  intros H Hy. destruct H as [|[c| |] l [H _] _]; [exact Hy| | |]; cbn [rx_atoms flat_map rx_atom]; rewrite <- app_assoc; [now apply noquant_char | repeat split; reflexivity..].
Qed.
Lemma rx_atom_len a : atom_ok a -> (1 <= length (rx_atom a))%nat.
Proof. destruct a as [c| |]; cbn; try lia. intros H. destruct (rx_char_cases c H) as [[-> _]|[-> _]]; cbn; lia. Qed.
Lemma cat_atoms l c y : Forall alt_atom_ok l -> c = ch_pipe \/ c = 41 -> forall f, (length (rx_atoms l) + 1 <= f)%nat ->
  p_cat true true f (rx_atoms l ++ c :: y) = Ok (re_atoms l, c :: y).
Proof.
  intros H Hc. induction H as [|a l [Ha Hk] Hl IH]; intros f Lf.
  - destruct f; [cbn in Lf; lia|]. now apply cat_stop.
  - cbn [rx_atoms flat_map] in *. rewrite app_length in Lf. pose proof (rx_atom_len a Ha). destruct f as [|f]; [lia|]. rewrite <- app_assoc, cat_atom by (auto; lia).
    rewrite kont_noquant; [rewrite IH by (unfold rx_atoms; lia); reflexivity|]. apply noquant_atoms; [exact Hl|]. destruct Hc as [->| ->]; repeat split; reflexivity.
Qed.
Lemma alt_alts alts : alts <> [] -> Forall (fun l => Forall alt_atom_ok l /\ stars_apart l) alts -> forall y f, (length (join (s "|") (map rx_atoms alts)) + 2 <= f)%nat ->
  p_alt true true f (join (s "|") (map rx_atoms alts) ++ 41 :: y) = Ok (re_alts alts, 41 :: y).
Proof.
  intros Hn H. induction H as [|l alts [H1 _] H IH]; [contradiction|]. clear Hn. intros y f Lf. destruct alts as [|l2 alts].
  - cbn [map join] in *. destruct f as [|f]; [lia|]. apply alt_last. apply cat_atoms; auto. lia.
  - change (join (s "|") (map rx_atoms (l :: l2 :: alts))) with (rx_atoms l ++ s "|" ++ join (s "|") (map rx_atoms (l2 :: alts))) in *. rewrite !app_length in Lf. change (length (s "|")) with 1%nat in Lf.
    destruct f as [|f]; [lia|]. rewrite <- !app_assoc. rewrite (alt_bar _ _ (re_atoms l) (join (s "|") (map rx_atoms (l2 :: alts)) ++ 41 :: y)).
    + rewrite IH by (try discriminate; lia). reflexivity.
    + change (s "|" ++ ?z) with (ch_pipe :: z). apply cat_atoms; auto. lia.
Qed.
Lemma cat_item f i y : item_ok i -> (length (rx_item i) <= f)%nat -> p_cat true true (S f) (rx_item i ++ y) = kont f (re_item i) y.
Proof.
  intros H L. destruct i as [a|alts|]; cbn [rx_item re_item] in *.
  - apply cat_atom; [exact H | lia].
  - destruct H as [H1 H2]. rewrite !app_length in L. change (length (s "(")) with 1%nat in L. change (length (s ")")) with 1%nat in L.
    change ((s "(" ++ join (s "|") (map rx_atoms alts) ++ s ")") ++ y) with (40 :: ((join (s "|") (map rx_atoms alts) ++ s ")") ++ y)). rewrite <- app_assoc. change (s ")" ++ y) with (41 :: y).
    rewrite cat_group.
    + rewrite alt_alts; [|assumption..|lia].
      cbn [closed rbind snd fst]. change (41 =? 41) with true. reflexivity.
    + assert (N : noquant (join (s "|") (map rx_atoms alts) ++ 41 :: y)).
      { destruct H2 as [|l alts [H2 _] _]; [contradiction|]. destruct alts as [|l2 alts]; cbn [map].
        - apply noquant_atoms; [exact H2 | repeat split; reflexivity].
        - change (join (s "|") (rx_atoms l :: rx_atoms l2 :: map rx_atoms alts)) with (rx_atoms l ++ s "|" ++ join (s "|") (rx_atoms l2 :: map rx_atoms alts)).
          rewrite <- app_assoc. apply noquant_atoms; [exact H2 | repeat split; reflexivity]. }
      destruct (join _ _ ++ _); [exact I|]. apply N.
  - apply cat_deep. change (length rx_deep) with 19%nat in L. lia.
Qed.
Lemma rx_item_len i : item_ok i -> (1 <= length (rx_item i))%nat.
Proof. destruct i; cbn [rx_item]; [apply rx_atom_len | intros _; rewrite app_length; cbn; lia | intros _; cbn; lia]. Qed.
Lemma noquant_rx g prev : pattern_ok prev g -> noquant (rx g ++ s "$").
Proof.
  destruct g as [|[[c| |]|alts|] g]; intros P; try (repeat split; reflexivity).
  cbn [rx flat_map rx_item rx_atom]. rewrite <- app_assoc. apply noquant_char. apply P.
Qed.
Lemma cat_pattern g : forall prev f, pattern_ok prev g -> (length (rx g) + 2 <= f)%nat -> p_cat true true f (rx g ++ s "$") = Ok (re_tail g, []).
Proof.
  induction g as [|i g IH]; intros prev f P L.
  - destruct f as [|[|f]]; try (cbn in L; lia). reflexivity.
  - destruct P as [P1 [P2 P3]]. change (rx (i :: g)) with (rx_item i ++ rx g) in *. rewrite app_length in L. pose proof (rx_item_len i P1). destruct f as [|f]; [lia|].
    rewrite <- app_assoc, cat_item by (auto; lia). rewrite kont_noquant by (eapply noquant_rx; eauto). rewrite (IH _ f P3) by lia. reflexivity.
Qed.
Theorem glob_compile_show g : pattern_ok None g -> glob_compile (show g) = Ok (re_glob g).
Proof.
  intros P. unfold glob_compile, glob_pattern_to_re. fold (G None false (show g)). rewrite (G_show g None None P eq_refl).
  unfold re_parse. change (startswith (s "(?ms)") (s "(?ms)^" ++ rx g ++ s "$")) with true. cbv iota.
  change (skipn 5 (s "(?ms)^" ++ rx g ++ s "$")) with (94 :: (rx g ++ s "$")). unfold re_parse_flags. cbn [length]. rewrite app_length. change (length (s "$")) with 1%nat.
  set (f := (2 * S (length (rx g) + 1) + 2)%nat). assert (E : f = S (S (2 * length (rx g) + 4))) by (unfold f; lia). rewrite E. clear f E.
  cbn [p_alt]. rewrite cat_bol, kont_noquant by (eapply noquant_rx; eauto). rewrite (cat_pattern g None) by (auto; lia). reflexivity.
Qed.

(** ** What it matches *)
Lemma M_char_iff c p x p' x' : M (RChar c) p x p' x' <-> x = c :: x' /\ p' = Some c.
Proof.
  split.
  - intros H. inversion H as [|? ? ? d y E| | | | | | | | | | | | | | |]; subst. unfold cset_has in E. cbn [existsb citem_has] in E. rewrite orb_false_r in E. destruct (d =? c) eqn:F; [|discriminate]. apply N.eqb_eq in F as ->. auto.
  - intros [-> ->]. constructor. unfold cset_has. cbn [existsb citem_has]. now rewrite N.eqb_refl.
Qed.
Lemma M_seq_iff a b p x p' x' : M (RSeq a b) p x p' x' <-> exists p1 x1, M a p x p1 x1 /\ M b p1 x1 p' x'.
Proof. split; [inversion 1; subst; eauto | intros [p1 [x1 [H1 H2]]]; econstructor; eauto]. Qed.
Lemma M_alt_iff a b p x p' x' : M (RAlt a b) p x p' x' <-> M a p x p' x' \/ M b p x p' x'.
Proof. split; [inversion 1; subst; auto | intros [H|H]; [now apply M_altl | now apply M_altr]]. Qed.
Lemma M_eps_iff p x p' x' : M REps p x p' x' <-> p' = p /\ x' = x.
Proof. split; [inversion 1; auto | intros [-> ->]; constructor]. Qed.
Lemma M_eolm_iff p x p' x' : M REolM p x p' x' <-> p' = p /\ x' = x /\ (x = [] \/ exists y, x = ch_nl :: y).
Proof.
  split; [inversion 1; subst; repeat split; eauto|]. intros [-> [-> [->|[y ->]]]]; constructor.
Qed.
Lemma segs_iff p x p' x' : M (RStar (RSet true [CChar 47])) p x p' x' -> exists w, x = w ++ x' /\ no_slash w.
Proof.
  intros H. remember (RStar (RSet true [CChar 47])) as r eqn:Er. induction H; try discriminate Er; injection Er as ->.
  - exists []. split; [reflexivity | intros []].
  - inversion H as [|? ? ? c y E| | | | | | | | | | | | | | |]; subst. destruct (IHM2 eq_refl) as [w [-> W]]. exists (c :: w). split; [reflexivity|].
    intros [->|I]; [discriminate E | now apply W].
Qed.
Lemma segs_M w : no_slash w -> forall p x, exists p', M (RStar (RSet true [CChar 47])) p (w ++ x) p' x.
Proof.
  induction w as [|c w IH]; intros H p x; [exists p; apply M_star0|]. destruct (IH (fun I => H (or_intror I)) (Some c) x) as [p' E]. exists p'. eapply M_star1; [|exact E].
  constructor. unfold cset_has. cbn [existsb citem_has]. rewrite orb_false_r. destruct (c =? 47) eqn:F; [|reflexivity]. apply N.eqb_eq in F as ->. destruct H. now left.
Qed.
Lemma atom_sound a p x p' x' : M (re_atom a) p x p' x' -> exists w, x = w ++ x' /\ atom_matches a w.
Proof.
  destruct a as [c| |]; cbn [re_atom]; intros H.
  - apply M_char_iff in H as [-> _]. exists [c]. split; [reflexivity | constructor].
  - inversion H; subst. eexists [_]. split; [reflexivity | constructor].
  - apply M_seq_iff in H as [p1 [x1 [H1 H2]]]. apply M_eps_iff in H2 as [-> ->]. apply segs_iff in H1 as [w [-> W]]. exists w. split; [reflexivity | now constructor].
Qed.
Lemma atom_complete a w : atom_matches a w -> forall p x, exists p', M (re_atom a) p (w ++ x) p' x.
Proof.
  destruct 1 as [c|c|w W]; intros p x; cbn [re_atom app].
  - exists (Some c). now apply M_char_iff.
  - exists (Some c). constructor.
  - destruct (segs_M w W p x) as [p' H]. exists p'. apply M_seq_iff. exists p', x. split; [exact H | constructor].
Qed.
Lemma atoms_sound l : forall p x p' x', M (re_atoms l) p x p' x' -> exists w, x = w ++ x' /\ atoms_match l w.
Proof.
  induction l as [|a l IH]; intros p x p' x' H; cbn [re_atoms fold_right] in H.
  - apply M_eps_iff in H as [-> ->]. exists []. split; [reflexivity | constructor].
  - apply M_seq_iff in H as [p1 [x1 [H1 H2]]]. apply atom_sound in H1 as [w1 [-> W1]]. apply IH in H2 as [w2 [-> W2]]. exists (w1 ++ w2). rewrite <- app_assoc. split; [reflexivity | now constructor].
Qed.
Lemma atoms_complete l w : atoms_match l w -> forall p x, exists p', M (re_atoms l) p (w ++ x) p' x.
Proof.
  induction 1 as [|a l w1 w2 H1 H2 IH]; intros p x; [exists p; constructor|]. rewrite <- app_assoc. destruct (atom_complete a w1 H1 p (w2 ++ x)) as [p1 E1]. destruct (IH p1 x) as [p2 E2].
  exists p2. apply M_seq_iff. eauto.
Qed.
Lemma alts_sound alts : alts <> [] -> forall p x p' x', M (re_alts alts) p x p' x' -> exists l w, In l alts /\ x = w ++ x' /\ atoms_match l w.
Proof.
  induction alts as [|l alts IH]; intros Hn p x p' x' H; [contradiction|]. destruct alts as [|l2 alts].
  - apply atoms_sound in H as [w [E W]]. exists l, w. split; [now left | auto].
  - change (re_alts (l :: l2 :: alts)) with (RAlt (re_atoms l) (re_alts (l2 :: alts))) in H. apply M_alt_iff in H as [X|X].
    + apply atoms_sound in X as [w [E W]]. exists l, w. split; [now left | auto].
    + apply IH in X as [l' [w [I [E W]]]]; [|discriminate]. exists l', w. split; [now right | auto].
Qed.
Lemma alts_complete alts l w : In l alts -> atoms_match l w -> forall p x, exists p', M (re_alts alts) p (w ++ x) p' x.
Proof.
  induction alts as [|l0 alts IH]; intros H W p x; [destruct H|]. destruct alts as [|l2 alts].
  - destruct H as [->|[]]. now apply atoms_complete.
  - change (re_alts (l0 :: l2 :: alts)) with (RAlt (re_atoms l0) (re_alts (l2 :: alts))). destruct H as [->|H].
    + destruct (atoms_complete l w W p x) as [p' E]. exists p'. now apply M_altl.
    + destruct (IH H W p x) as [p' E]. exists p'. now apply M_altr.
Qed.
(** one directory of [**] *)
Lemma dir_sound p x p' x' : M re_dir p x p' x' -> exists w, x = w ++ x' /\ no_slash w /\ (x' = [] \/ exists y, x' = ch_nl :: y) \/ exists w, x = w ++ s "/" ++ x' /\ no_slash w.
Proof.
  intros H. apply M_seq_iff in H as [p1 [x1 [H1 H2]]]. apply segs_iff in H1 as [w [-> W]]. exists w. apply M_seq_iff in H2 as [p2 [x2 [H2 H3]]]. apply M_eps_iff in H3 as [-> ->].
  apply M_alt_iff in H2 as [X|X].
  - apply M_seq_iff in X as [p3 [x3 [X1 X2]]]. apply M_eps_iff in X2 as [-> ->]. apply M_char_iff in X1 as [-> _]. right. exists w. auto.
  - apply M_seq_iff in X as [p3 [x3 [X1 X2]]]. apply M_eps_iff in X2 as [-> ->]. apply M_eolm_iff in X1 as [-> [-> X]]. left. auto.
Qed.
Lemma dir_slash w p x : no_slash w -> exists p', M re_dir p (w ++ s "/" ++ x) p' x.
Proof.
  intros W. destruct (segs_M w W p (s "/" ++ x)) as [p1 H]. exists (Some 47). apply M_seq_iff. eexists _, _. split; [exact H|]. apply M_seq_iff. eexists _, _. split; [|constructor].
  apply M_altl. apply M_seq_iff. eexists _, _. split; [|constructor]. now apply M_char_iff.
Qed.
Lemma dir_end w p x : no_slash w -> x = [] \/ (exists y, x = ch_nl :: y) -> exists p', M re_dir p (w ++ x) p' x.
Proof.
  intros W X. destruct (segs_M w W p x) as [p1 H]. exists p1. apply M_seq_iff. eexists _, _. split; [exact H|]. apply M_seq_iff. eexists _, _. split; [|constructor].
  apply M_altr. apply M_seq_iff. eexists _, _. split; [|constructor]. apply M_eolm_iff. auto.
Qed.
Lemma deep_sound p x p' x' : M re_deep p x p' x' -> exists w, x = w ++ x' /\ deep_part w x'.
Proof.
  intros H. apply M_seq_iff in H as [p1 [x1 [H H2]]]. apply M_eps_iff in H2 as [-> ->]. remember (RStar re_dir) as r eqn:Er. induction H; try discriminate Er; injection Er as ->.
  - exists []. split; [reflexivity | now left].
  - destruct (IHM2 eq_refl) as [w2 [-> W2]]. destruct (dir_sound _ _ _ _ H) as [w [[-> [W E]]|[w' [-> W]]]].
    + exists (w ++ w2). split; [now rewrite app_assoc|]. destruct W2 as [->|[[v ->]|W2]]; [|right; left; exists (w ++ v); now rewrite app_assoc | right; right; exact W2].
      right. right. exact E.
    + exists (w' ++ s "/" ++ w2). split; [now rewrite <- !app_assoc|]. destruct W2 as [->|[[v ->]|W2]]; [right; left; exists w'; now rewrite app_nil_r | right; left; exists (w' ++ s "/" ++ v); now rewrite <- !app_assoc | right; right; exact W2].
Qed.
Lemma split_slash (w : str) : no_slash w \/ exists a b, w = a ++ s "/" ++ b /\ no_slash a.
Proof.
  induction w as [|c w IH]; [left; intros []|]. destruct (c =? ch_slash) eqn:E.
  - apply N.eqb_eq in E as ->. right. exists [], w. split; [reflexivity | intros []].
  - apply N.eqb_neq in E. destruct IH as [IH|[a [b [-> IH]]]].
    + left. intros [->|I]; [now apply E | now apply IH].
    + right. exists (c :: a), b. split; [reflexivity|]. intros [->|I]; [now apply E | now apply IH].
Qed.
Lemma deep_complete w x : deep_part w x -> forall p, exists p', M re_deep p (w ++ x) p' x.
Proof.
  intros D p. assert (H : exists p', M (RStar re_dir) p (w ++ x) p' x).
  { remember (length w) as n eqn:En. revert w p D En. induction n as [n IH] using (well_founded_induction lt_wf). intros w p D ->. destruct w as [|c w]; [exists p; apply M_star0|].
    destruct (split_slash (c :: w)) as [S|[a [b [E S]]]].
    - destruct D as [D|[[v D]|D]]; [discriminate | exfalso; apply S; rewrite D; apply in_or_app; right; now left|].
      destruct (dir_end (c :: w) p x S D) as [p' H]. exists p'. eapply M_star1; [exact H | apply M_star0].
    - rewrite E. destruct (dir_slash a p (b ++ x) S) as [p1 H1]. destruct (IH (length b)) with (w := b) (p := p1) as [p2 H2]; [rewrite E, !app_length; cbn; lia | | reflexivity |].
      + destruct D as [D|[[v D]|D]]; [discriminate | | right; right; exact D]. rewrite E in D. destruct b as [|d b] using rev_ind; [now left|]. right. left. exists b.
        rewrite !app_assoc in D. apply app_inj_tail in D as [_ ->]. reflexivity.
      + exists p2. rewrite <- !app_assoc. eapply M_star1; [exact H1 | exact H2]. }
  destruct H as [p' H]. exists p'. apply M_seq_iff. eexists _, _. split; [exact H | constructor].
Qed.
Lemma tail_iff g : forall prev, pattern_ok prev g -> forall p x, (exists p', M (re_tail g) p x p' []) <-> glob_match g x.
Proof.
  induction g as [|i g IH]; intros prev P p x.
  - cbn [re_tail fold_right]. split.
    + intros [p' H]. apply M_seq_iff in H as [p1 [x1 [H1 H2]]]. apply M_eps_iff in H2 as [-> <-]. apply M_eolm_iff in H1 as [_ [<- _]]. constructor.
    + intros H. inversion H; subst. exists p. apply M_seq_iff. eexists _, _. split; [|constructor]. apply M_eolm_iff. auto.
  - destruct P as [P1 [P2 P3]]. change (re_tail (i :: g)) with (RSeq (re_item i) (re_tail g)). split.
    + intros [p' H]. apply M_seq_iff in H as [p1 [x1 [H1 H2]]]. assert (Hg : glob_match g x1) by (apply (IH _ P3 p1); eauto). destruct i as [a|alts|]; cbn [re_item] in H1.
      * apply atom_sound in H1 as [w [-> W]]. now constructor.
      * apply alts_sound in H1 as [l [w [I [-> W]]]]; [|apply P1]. econstructor; eauto.
      * apply deep_sound in H1 as [w [-> W]]. now constructor.
    + intros H. inversion H as [|a g' w y W Hg|alts alt g' w y I W Hg|g' w y W Hg]; subst; apply (IH _ P3) with (p := p) in Hg as Hx.
      all: [> destruct (atom_complete _ _ W p y) as [p1 E1] | destruct (alts_complete _ _ _ I W p y) as [p1 E1] | destruct (deep_complete _ _ W p) as [p1 E1]].
      all: destruct (proj2 (IH _ P3 p1 y) Hg) as [p2 E2]; exists p2; apply M_seq_iff; eauto.
Qed.
Theorem glob_show_iff g path : pattern_ok None g -> exists b, glob_matches (show g) path = Ok b /\ (b = true <-> glob_match g path).
Proof.
  intros P. unfold glob_matches. rewrite (glob_compile_show g P). cbn [rbind]. eexists. split; [reflexivity|]. rewrite fullmatch_M. rewrite <- (tail_iff g None P None path).
  unfold re_glob. split; intros [p H].
  - apply M_seq_iff in H as [p1 [x1 [H1 H2]]]. inversion H1; subst. eauto.
  - exists p. apply M_seq_iff. eexists _, _. split; [constructor | exact H].
Qed.
