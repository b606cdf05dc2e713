(** * Documents with one line more in a scenario or a background *)
From Verif Require Import PyStr Types Line DialectData Matcher LineSpec LangSpec Ast DocSpec Compiler PickleSpec MiddleSpec ExampleSpec ExampleChange PartSpec.

Section Change.
Context (n : nat) (lchg : nline -> list nline) (L1 : forall l, fst l <> n -> lchg l = [l]).
Notation chg := (flat_map lchg).
Notation changes := (changes n lchg).
(** two blocks, one after the other *)
Definition both {A B} (B1 : list nline -> A -> list comment -> Prop) (B2 : list nline -> B -> list comment -> Prop) (ls : list nline) (p : A * B) (cs : list comment) : Prop :=
  exists l1 l2 c1 c2, ls = l1 ++ l2 /\ B1 l1 (fst p) c1 /\ B2 l2 (snd p) c2 /\ cs = c1 ++ c2.
Lemma both_change {A B} (B1 : list nline -> A -> list comment -> Prop) Q1 h1 (B2 : list nline -> B -> list comment -> Prop) Q2 h2 : changes B1 Q1 h1 -> changes B2 Q2 h2 ->
  changes (both B1 B2) (fun p => Q1 (fst p) \/ Q2 (snd p)) (fun p => (h1 (fst p), h2 (snd p))).
Proof.
  intros C1 C2 ls [x y] cs [l1 [l2 [c1 [c2 [-> [H1 [H2 ->]]]]]]]. cbn [fst snd] in *. destruct (C1 _ _ _ H1) as [A1 [A2 A3]], (C2 _ _ _ H2) as [E1 [E2 E3]]. rewrite nums_app. split; [|split].
  - intros [K|K]; apply in_or_app; auto.
  - intros K. rewrite A2, E2; [reflexivity | |]; intros J; apply K, in_or_app; auto.
  - intros N K. apply nodup_app in N as [N1 [N2 N3]]. rewrite flat_map_app. destruct K as [K|K].
    + assert (J : ~ In n (nums l2)) by (intros J; eapply N3; eauto). rewrite (chg_still n lchg L1 l2 J), (E2 J). exists (chg l1), l2, c1, c2. cbn [fst snd]. auto.
    + assert (J : ~ In n (nums l1)) by (intros J; eapply N3; eauto). rewrite (chg_still n lchg L1 l1 J), (A2 J). exists l1, (chg l2), c1, c2. cbn [fst snd]. auto.
Qed.
Lemma maybe_change (B : list nline -> background -> list comment -> Prop) Q h : changes B Q h -> changes (maybe B) (opt_some Q) (option_map h).
Proof.
  intros C ls [x|] cs H; cbn [maybe opt_some option_map] in *.
  - destruct (C _ _ _ H) as [A1 [A2 A3]]. split; [exact A1|]. split; [intros K; now rewrite A2 | exact A3].
  - split; [intros []|]. split; [reflexivity | intros _ []].
Qed.
Lemma no_change {A} (B : list nline -> A -> list comment -> Prop) : changes B (fun _ => False) (fun x => x).
Proof. intros ls x cs H. split; [intros []|]. split; [reflexivity | intros _ []]. Qed.

Context (d : dialect) (Qs : scenario -> Prop) (hs : scenario -> scenario) (Qb : background -> Prop) (hb : background -> background)
  (Es : changes (scenario_block d) Qs hs) (Eb : changes (background_block d) Qb hb).
Lemma parts_rule_change : changes (rule_block d) (rule_some Qs Qb) (parts_rule hs hb).
Proof.
  intros ls x cs [tl [l [dl [bl [sl [tags [kw [name [desc [bg [scs [c0 [c1 [c2 [c3 [-> [H0 [H1 [H2 [H3 [H4 [-> ->]]]]]]]]]]]]]]]]]]]]]].
  assert (S : tl ++ l :: dl ++ bl ++ sl = (tl ++ l :: dl) ++ (bl ++ sl) ++ []) by (rewrite app_nil_r; repeat (rewrite <- app_assoc; cbn [app]); reflexivity). rewrite S.
  assert (Bo : both (maybe (background_block d)) (blocks (scenario_block d)) (bl ++ sl) (bg, scs) (c2 ++ c3)) by (exists bl, sl, c2, c3; auto).
  destruct (both_change _ _ _ _ _ _ (maybe_change _ _ _ Eb) (blocks_change n lchg L1 _ _ _ Es) _ _ _ Bo) as [E1 [E2 E3]]. cbn [fst snd] in *. split; [|split].
  - intros K. apply in_mid. apply E1. exact K.
  - intros K. apply out_mid in K. specialize (E2 K). unfold parts_rule. cbn [ru_id ru_tags ru_loc ru_keyword ru_name ru_desc ru_background ru_scenarios]. f_equal; congruence.
  - intros N K. destruct (chg_mid n lchg L1 _ _ _ N (E1 K)) as [G Nb]. rewrite G. destruct (E3 Nb K) as [b' [s' [c2' [c3' [Eq [M1 [M2 M3]]]]]]]. cbn [fst snd] in *. rewrite Eq.
    exists tl, l, dl, b', s', tags, kw, name, desc, (option_map hb bg), (map hs scs), c0, c1, c2', c3'.
    split; [rewrite app_nil_r; repeat (rewrite <- app_assoc; cbn [app]); reflexivity|]. do 5 (split; [assumption|]). split; [now rewrite M3 | reflexivity].
Qed.
Lemma parts_feature_change lang : changes (feature_block d lang) (feature_some Qs Qb) (parts_feature hs hb).
Proof.
  intros ls x cs [tl [l [dl [bl [sl [ul [tags [kw [name [desc [bg [scs [rus [c0 [c1 [c2 [c3 [c4 [-> [H0 [H1 [H2 [H3 [H4 [H5 [-> ->]]]]]]]]]]]]]]]]]]]]]]]]]].
  assert (S : tl ++ l :: dl ++ bl ++ sl ++ ul = (tl ++ l :: dl) ++ (bl ++ sl ++ ul) ++ []) by (rewrite app_nil_r; repeat (rewrite <- app_assoc; cbn [app]); reflexivity). rewrite S.
  assert (Bo : both (maybe (background_block d)) (both (blocks (scenario_block d)) (blocks (rule_block d))) (bl ++ sl ++ ul) (bg, (scs, rus)) (c2 ++ c3 ++ c4)).
  { exists bl, (sl ++ ul), c2, (c3 ++ c4). split; [reflexivity|]. split; [exact H3|]. split; [|reflexivity]. exists sl, ul, c3, c4. auto. }
  destruct (both_change _ _ _ _ _ _ (maybe_change _ _ _ Eb) (both_change _ _ _ _ _ _ (blocks_change n lchg L1 _ _ _ Es) (blocks_change n lchg L1 _ _ _ parts_rule_change)) _ _ _ Bo) as [E1 [E2 E3]]. cbn [fst snd] in *. split; [|split].
  - intros K. apply in_mid. apply E1. exact K.
  - intros K. apply out_mid in K. specialize (E2 K). unfold parts_feature. cbn [fe_tags fe_loc fe_language fe_keyword fe_name fe_desc fe_background fe_scenarios fe_rules]. f_equal; congruence.
  - intros N K. destruct (chg_mid n lchg L1 _ _ _ N (E1 K)) as [G Nb]. rewrite G. destruct (E3 Nb K) as [b' [su' [c2' [c34 [Eq [M1 [[s' [u' [c3' [c4' [Eq2 [M2 [M3 Ec]]]]]]] M4]]]]]]]. cbn [fst snd] in *. rewrite Eq, Eq2.
    exists tl, l, dl, b', s', u', tags, kw, name, desc, (option_map hb bg), (map hs scs), (map (parts_rule hs hb) rus), c0, c1, c2', c3', c4'.
    split; [rewrite app_nil_r; repeat (rewrite <- app_assoc; cbn [app]); reflexivity|]. do 6 (split; [assumption|]). split; [now rewrite M4, Ec | reflexivity].
Qed.
End Change.

Section Stands.
Context (n : nat) (lchg : nline -> list nline) (L1 : forall l, fst l <> n -> lchg l = [l]) (Qs : scenario -> Prop) (hs : scenario -> scenario) (Qb : background -> Prop) (hb : background -> background).
Theorem stands_parts lang ls doc : stands_for lang ls doc -> NoDup (nums ls) -> some_part Qs Qb doc ->
  (forall f l d, gd_feature doc = Some f -> fe_language f = Some l -> for_name l = Some d -> changes n lchg (scenario_block d) Qs hs /\ changes n lchg (background_block d) Qb hb) ->
  In n (nums ls) /\ stands_for lang (flat_map lchg ls) (on_parts hs hb doc).
Proof.
  intros [[cs [H ->]]|[[pre [fl [d [f [c0 [c1 [-> [H1 [H2 [H3 ->]]]]]]]]]]|[pre [hd [mid [fl [name [d [f [c0 [c1 [c2 [-> [H1 [H2 [H3 [H4 [H5 ->]]]]]]]]]]]]]]]]]] N K C; [destruct K| |]; cbn in K.
  - assert (Lf : fe_language f = Some lang) by (destruct H3 as [? [? [? [? [? [? [? [? [? [? [? [? [? [? [? [? [? [? [_ [_ [_ [_ [_ [_ [_ [_ ->]]]]]]]]]]]]]]]]]]]]]]]]]]; reflexivity).
    destruct (C f lang d eq_refl Lf H2) as [Es Eb].
    destruct (parts_feature_change n lchg L1 d Qs hs Qb hb Es Eb lang _ _ _ H3) as [F1 [_ F3]]. assert (S : pre ++ fl = pre ++ fl ++ []) by now rewrite app_nil_r. rewrite S in N |- *.
    split; [apply in_mid; auto|]. right. left. destruct (chg_mid n lchg L1 _ _ _ N (F1 K)) as [G Nb]. rewrite G, app_nil_r. exists pre, (flat_map lchg fl), d, (parts_feature hs hb f), c0, c1. repeat (split; [auto|]). reflexivity.
  - assert (Lf : fe_language f = Some name) by (destruct H5 as [? [? [? [? [? [? [? [? [? [? [? [? [? [? [? [? [? [? [_ [_ [_ [_ [_ [_ [_ [_ ->]]]]]]]]]]]]]]]]]]]]]]]]]]; reflexivity).
    destruct (C f name d eq_refl Lf H3) as [Es Eb].
    destruct (parts_feature_change n lchg L1 d Qs hs Qb hb Es Eb name _ _ _ H5) as [F1 [_ F3]]. assert (S : pre ++ hd :: mid ++ fl = (pre ++ hd :: mid) ++ fl ++ []) by (rewrite app_nil_r, <- app_assoc; reflexivity). rewrite S in N |- *.
    split; [apply in_mid; auto|]. right. right. destruct (chg_mid n lchg L1 _ _ _ N (F1 K)) as [G Nb]. rewrite G, app_nil_r. exists pre, hd, mid, (flat_map lchg fl), name, d, (parts_feature hs hb f), c0, c1, c2. split; [now rewrite <- app_assoc|]. repeat (split; [auto|]). reflexivity.
Qed.
End Stands.

(** ** A line before line [n] *)
Section Before.
Context (n : nat) (new : nline).
Definition before_line (l : nline) : list nline := if fst l =? n then [new; l] else [l].
Lemma before_other l : fst l <> n -> before_line l = [l].
Proof. intros H. unfold before_line. destruct (fst l =? n) eqn:E; [apply Nat.eqb_eq in E; contradiction | reflexivity]. Qed.
Lemma before_here l : fst l = n -> before_line l = [new; l].
Proof. intros H. unfold before_line. now rewrite (proj2 (Nat.eqb_eq _ _) H). Qed.

(** *** a tag line before a scenario *)
Context (tags' : list tag) (T : tags_at_line new tags').
Lemma tag_lines_more ls tags cs : tag_lines ls tags cs -> tag_lines (ls ++ [new]) (tags ++ tags') cs.
Proof.
  induction 1; cbn [app]; [rewrite <- (app_nil_r tags'); apply tg_tags; [exact T | constructor] | rewrite <- app_assoc; now apply tg_tags | now apply tg_blank | now apply tg_comment].
Qed.
Lemma tags_block_more ls tags cs : tags_block ls tags cs -> tags_block (ls ++ [new]) (tags ++ tags') cs.
Proof.
  intros [[-> [-> ->]]|[l [ls' [t1 [t2 [-> [H1 [H2 ->]]]]]]]]; right.
  - exists new, [], tags', []. split; [reflexivity|]. split; [exact T|]. split; [constructor | now rewrite app_nil_r].
  - exists l, (ls' ++ [new]), t1, (t2 ++ tags'). split; [reflexivity|]. split; [exact H1|]. split; [now apply tag_lines_more | now rewrite app_assoc].
Qed.
Lemma tags_change d : changes n before_line (scenario_block d) (titled n) (more_tags n tags').
Proof.
  intros ls x cs [tl [l [dl [sl [el [tags [kw [name [desc [steps [exs [c0 [c1 [c2 [c3 [-> [H0 [H1 [H2 [H3 [H4 [-> ->]]]]]]]]]]]]]]]]]]]]]].
  change (tl ++ l :: dl ++ sl ++ el) with (tl ++ [l] ++ dl ++ sl ++ el). unfold titled, more_tags. cbn [sc_loc here l_line sc_id sc_tags sc_keyword sc_name sc_desc sc_steps sc_examples]. split; [|split].
  - intros K. apply in_mid. left. exact K.
  - intros K. apply out_mid in K. destruct (fst l =? n) eqn:E; [|reflexivity]. apply Nat.eqb_eq in E. exfalso. apply K. left. exact E.
  - intros N K. destruct (chg_mid n before_line before_other _ _ _ N (or_introl K)) as [G _]. rewrite G. cbn [flat_map]. rewrite (before_here l K), (proj2 (Nat.eqb_eq _ _) K).
    exists (tl ++ [new]), l, dl, sl, el, (tags ++ tags'), kw, name, desc, steps, exs, c0, c1, c2, c3. split; [repeat (rewrite <- app_assoc; cbn [app]); reflexivity|]. split; [now apply tags_block_more|]. repeat (split; [assumption|]). split; reflexivity.
Qed.
End Before.

(** *** a step before a step *)
Section Step.
Context (n : nat) (new : nline) (d : dialect) (kw text : str) (St : step_line d (snd new) kw text).
Notation st' := (mkStep 0 (here new) (Some kw) (Some (LineSpec.step_type d kw)) (Some text) ANone).
Lemma more_steps_off l : (forall st, In st l -> l_line (st_loc st) <> n) -> more_steps n st' l = l.
Proof.
  intros H. induction l as [|x l IH]; [reflexivity|]. unfold more_steps in *. cbn [flat_map]. destruct (l_line (st_loc x) =? n) eqn:E; [apply Nat.eqb_eq in E; exfalso; apply (H x); [now left | exact E]|]. cbn [app]. f_equal. apply IH. intros; apply H; now right.
Qed.
Lemma steps_in ls xs cs : blocks (step_block d) ls xs cs -> forall st, In st xs -> In (l_line (st_loc st)) (nums ls).
Proof.
  induction 1 as [|l1 x c1 l2 xs c2 H _ IH]; intros st Hs; [destruct Hs|]. rewrite nums_app. apply in_or_app. destruct Hs as [<-|Hs]; [left | right; auto]. destruct H as [l [noise [arg [k [t [a [e1 [e2 [-> [_ [_ [_ [_ ->]]]]]]]]]]]]]. left. reflexivity.
Qed.
Lemma steps_change : changes n (before_line n new) (blocks (step_block d)) (Exists (step_on n)) (more_steps n st').
Proof.
  intros ls xs cs H. split; [|split].
  - intros K. apply Exists_exists in K as [st [Hs K]]. rewrite <- K. eapply steps_in; eauto.
  - intros K. apply more_steps_off. intros st Hs E. apply K. rewrite <- E. eapply steps_in; eauto.
  - induction H as [|l1 x c1 l2 xs c2 H H' IH]; intros N K; [inversion K|]. rewrite nums_app in N. apply nodup_app in N as [N1 [N2 N3]]. rewrite flat_map_app. unfold more_steps. cbn [flat_map]. fold (more_steps n st' xs).
    destruct (l_line (st_loc x) =? n) eqn:E.
    + apply Nat.eqb_eq in E. assert (I1 : In n (nums l1)) by (rewrite <- E; eapply (steps_in l1 [x] (c1 ++ [])); [rewrite <- (app_nil_r l1); constructor; [exact H | constructor] | now left]).
      assert (O : ~ In n (nums l2)) by (intros J; exact (N3 n I1 J)). rewrite (chg_still n (before_line n new) (before_other n new) l2 O), more_steps_off by (intros st Hs Es; apply O; rewrite <- Es; eapply steps_in; eauto).
      pose proof H as H2. destruct H2 as [l [noise [arg [k [t [a [e1 [e2 [El [_ [_ [_ [_ Ex]]]]]]]]]]]]]. subst l1 x. cbn [st_loc here l_line] in E. cbn [map] in N1. inversion N1 as [|? ? M1 M2]; subst.
      cbn [flat_map]. rewrite (before_here (fst l) new l eq_refl), (chg_still (fst l) (before_line (fst l) new) (before_other (fst l) new)) by exact M1. cbn [app].
      change (new :: l :: (noise ++ arg) ++ l2) with ([new] ++ ((l :: noise ++ arg) ++ l2)). change (c1 ++ c2) with ([] ++ (c1 ++ c2)). constructor; [|constructor; assumption].
      exists new, [], [], kw, text, ANone, [], []. split; [reflexivity|]. split; [exact St|]. split; [constructor|]. split; [left; auto|]. split; reflexivity.
    + apply Nat.eqb_neq in E. cbn [app]. inversion K as [? ? Kx|? ? Kx]; subst; [contradiction|]. assert (I2 : In n (nums l2)) by (apply Exists_exists in Kx as [st [Hs Kx]]; rewrite <- Kx; eapply steps_in; eauto).
      rewrite (chg_still n (before_line n new) (before_other n new) l1) by (intros J; exact (N3 n J I2)). constructor; [exact H | now apply IH].
Qed.
Lemma scenario_steps_change : changes n (before_line n new) (scenario_block d) (sc_steps_some (step_on n)) (sc_more_steps n st').
Proof.
  intros ls x cs [tl [l [dl [sl [el [tags [kw' [name [desc [steps [exs [c0 [c1 [c2 [c3 [-> [H0 [H1 [H2 [H3 [H4 [-> ->]]]]]]]]]]]]]]]]]]]]]].
  assert (S : tl ++ l :: dl ++ sl ++ el = (tl ++ l :: dl) ++ sl ++ el) by (repeat (rewrite <- app_assoc; cbn [app]); reflexivity). rewrite S.
  destruct (steps_change _ _ _ H3) as [E1 [E2 E3]]. unfold sc_steps_some, sc_more_steps. cbn [sc_id sc_tags sc_loc sc_keyword sc_name sc_desc sc_steps sc_examples]. split; [|split].
  - intros K. apply in_mid. apply E1. exact K.
  - intros K. apply out_mid in K. now rewrite E2.
  - intros N K. destruct (chg_mid n (before_line n new) (before_other n new) _ _ _ N (E1 K)) as [G Nb]. rewrite G. exists tl, l, dl, (flat_map (before_line n new) sl), el, tags, kw', name, desc, (more_steps n st' steps), exs, c0, c1, c2, c3.
    split; [repeat (rewrite <- app_assoc; cbn [app]); reflexivity|]. do 3 (split; [assumption|]). split; [now apply E3|]. split; [assumption|]. split; reflexivity.
Qed.
Lemma background_steps_change : changes n (before_line n new) (background_block d) (bg_steps_some (step_on n)) (bg_more_steps n st').
Proof.
  intros ls x cs [l [dl [sl [kw' [name [desc [steps [c1 [c2 [-> [H1 [H2 [H3 [-> ->]]]]]]]]]]]]]].
  assert (S : l :: dl ++ sl = (l :: dl) ++ sl ++ []) by (rewrite app_nil_r; reflexivity). rewrite S.
  destruct (steps_change _ _ _ H3) as [E1 [E2 E3]]. unfold bg_steps_some, bg_more_steps. cbn [bg_id bg_loc bg_keyword bg_name bg_desc bg_steps]. split; [|split].
  - intros K. apply in_mid. apply E1. exact K.
  - intros K. apply out_mid in K. now rewrite E2.
  - intros N K. destruct (chg_mid n (before_line n new) (before_other n new) _ _ _ N (E1 K)) as [G Nb]. rewrite G. exists l, dl, (flat_map (before_line n new) sl), kw', name, desc, (more_steps n st' steps), c1, c2.
    split; [rewrite app_nil_r; reflexivity|]. do 2 (split; [assumption|]). split; [now apply E3|]. split; reflexivity.
Qed.
End Step.
