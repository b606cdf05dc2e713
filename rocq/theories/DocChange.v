(** * Documents with the lines of one step exchanged for others (for C98) *)
From Verif Require Import PyStr Types Line DialectData Matcher LineSpec LangSpec Ast DocSpec PartsSpec Compiler PickleSpec MiddleSpec ExampleSpec ExampleChange PartSpec PartChange WordSpec ArgOnlySpec DocEditSpec.

(** ** Numbers that only one line has *)
Definition once (n : nat) (ls : list nline) : Prop := forall a b, ls = a ++ b -> In n (nums a) -> ~ In n (nums b).
Lemma nodup_once n ls : NoDup (nums ls) -> once n ls.
Proof. intros N a b -> I J. rewrite nums_app in N. apply nodup_app in N as [_ [_ N]]. exact (N n I J). Qed.
Lemma once_l n a b : once n (a ++ b) -> once n a.
Proof. intros O x y -> I J. apply (O x (y ++ b)); [now rewrite app_assoc | exact I|]. rewrite nums_app. apply in_or_app. now left. Qed.
Lemma once_r n a b : once n (a ++ b) -> once n b.
Proof. intros O x y -> I. apply (O (a ++ x) y); [now rewrite app_assoc|]. rewrite nums_app. apply in_or_app. now right. Qed.
Lemma once_split n : forall p x q a y b, once n (p ++ x :: q) -> p ++ x :: q = a ++ y :: b -> fst x = n -> fst y = n -> p = a /\ x = y /\ q = b.
Proof.
  induction p as [|z p IH]; intros x q [|w a] y b O E Hx Hy; cbn [app] in *.
  - injection E as -> ->. auto.
  - injection E as -> ->. exfalso. apply (O [w] (a ++ y :: b) eq_refl); [left; exact Hx|]. rewrite nums_app. apply in_or_app. right. left. exact Hy.
  - injection E as -> <-. exfalso. apply (O [y] (p ++ x :: q) eq_refl); [left; exact Hy|]. rewrite nums_app. apply in_or_app. right. left. exact Hx.
  - injection E as -> E. destruct (IH x q a y b) as [-> [-> ->]]; auto. exact (once_r n [w] _ O).
Qed.

Lemma once_u n a b : once n (a ++ b) -> In n (nums a) -> ~ In n (nums b).
Proof. intros O. exact (O a b eq_refl). Qed.

Section Swap.
Context (n : nat) (U : list nline -> Prop) (Ul : forall a b, U (a ++ b) -> U a) (Ur : forall a b, U (a ++ b) -> U b) (Uo : forall a b, U (a ++ b) -> In n (nums a) -> ~ In n (nums b)) (T : list nline -> list nline -> Prop).
(** [ls'] is [ls] with one piece exchanged *)
Definition exchanged (ls ls' : list nline) : Prop := exists p old new q, ls = p ++ old ++ q /\ ls' = p ++ new ++ q /\ T old new.
Lemma ex_in a ls ls' b : exchanged ls ls' -> exchanged (a ++ ls ++ b) (a ++ ls' ++ b).
Proof. intros [p [old [new [q [-> [-> H]]]]]]. exists (a ++ p), old, new, (q ++ b). rewrite <- !app_assoc. auto. Qed.
Lemma ex_l ls ls' b : exchanged ls ls' -> exchanged (ls ++ b) (ls' ++ b).
Proof. exact (ex_in [] ls ls' b). Qed.
Lemma ex_r a ls ls' : exchanged ls ls' -> exchanged (a ++ ls) (a ++ ls').
Proof. intros H. apply (ex_in a ls ls' []) in H. now rewrite !app_nil_r in H. Qed.
Definition swaps {A} (B : list nline -> A -> list comment -> Prop) (Q : A -> Prop) (h : A -> A) : Prop := forall ls y cs, B ls y cs ->
  (Q y -> In n (nums ls)) /\ (~ In n (nums ls) -> h y = y) /\ (U ls -> Q y -> exists ls', exchanged ls ls' /\ B ls' (h y) cs).
Lemma blocks_swaps {A} (B : list nline -> A -> list comment -> Prop) Q h : swaps B Q h -> swaps (blocks B) (Exists Q) (map h).
Proof.
  intros C ls xs cs H. induction H as [|l1 y c1 l2 xs c2 H H' [I1 [I2 I3]]].
  - split; [intros K; inversion K|]. split; [reflexivity|]. intros _ K. inversion K.
  - destruct (C _ _ _ H) as [C1 [C2 C3]]. rewrite nums_app. split; [|split].
    + intros K. apply in_or_app. inversion K; subst; auto.
    + intros K. cbn [map]. rewrite C2, I2; [reflexivity | |]; intros J; apply K, in_or_app; auto.
    + intros N K. cbn [map]. inversion K as [? ? Kx|? ? Kx]; subst.
      * assert (J : ~ In n (nums l2)) by (apply (Uo l1 l2 N); auto). destruct (C3 (Ul _ _ N) Kx) as [w [W1 W2]]. exists (w ++ l2). split; [now apply ex_l|]. rewrite (I2 J). constructor; auto.
      * assert (J : ~ In n (nums l1)) by (intros J; apply (Uo l1 l2 N J); auto). destruct (I3 (Ur _ _ N) Kx) as [w [W1 W2]]. exists (l1 ++ w). split; [now apply ex_r|]. rewrite (C2 J). constructor; auto.
Qed.
Lemma both_swaps {A B} (B1 : list nline -> A -> list comment -> Prop) Q1 h1 (B2 : list nline -> B -> list comment -> Prop) Q2 h2 : swaps B1 Q1 h1 -> swaps B2 Q2 h2 ->
  swaps (both B1 B2) (fun p => Q1 (fst p) \/ Q2 (snd p)) (fun p => (h1 (fst p), h2 (snd p))).
Proof.
  intros C1 C2 ls [x y] cs [l1 [l2 [c1 [c2 [-> [H1 [H2 ->]]]]]]]. cbn [fst snd] in *. destruct (C1 _ _ _ H1) as [A1 [A2 A3]], (C2 _ _ _ H2) as [E1 [E2 E3]]. rewrite nums_app. split; [|split].
  - intros [K|K]; apply in_or_app; auto.
  - intros K. rewrite A2, E2; [reflexivity | |]; intros J; apply K, in_or_app; auto.
  - intros N K. destruct K as [K|K].
    + assert (J : ~ In n (nums l2)) by (apply (Uo l1 l2 N); auto). destruct (A3 (Ul _ _ N) K) as [w [W1 W2]]. exists (w ++ l2). split; [now apply ex_l|]. rewrite (E2 J). exists w, l2, c1, c2. cbn [fst snd]. auto.
    + assert (J : ~ In n (nums l1)) by (intros J; apply (Uo l1 l2 N J); auto). destruct (E3 (Ur _ _ N) K) as [w [W1 W2]]. exists (l1 ++ w). split; [now apply ex_r|]. rewrite (A2 J). exists l1, w, c1, c2. cbn [fst snd]. auto.
Qed.
Lemma maybe_swaps (B : list nline -> background -> list comment -> Prop) Q h : swaps B Q h -> swaps (maybe B) (opt_some Q) (option_map h).
Proof.
  intros C ls [x|] cs H; cbn [maybe opt_some option_map] in *.
  - destruct (C _ _ _ H) as [A1 [A2 A3]]. split; [exact A1|]. split; [intros K; now rewrite A2 | exact A3].
  - split; [intros []|]. split; [reflexivity | intros _ []].
Qed.
Lemma u_mid a b c : U (a ++ b ++ c) -> U b.
Proof. intros O. apply Ur in O. now apply Ul in O. Qed.

Context (d : dialect) (Q : step -> Prop) (h : step -> step) (C : swaps (step_block d) Q h).
Lemma scenario_swaps : swaps (scenario_block d) (sc_steps_some Q) (sc_reword h).
Proof.
  intros ls sc cs [tl [l [dl [sl [el [tags [kw' [name [desc [steps [exs [c0 [c1 [c2 [c3 [-> [H0 [H1 [H2 [H3 [H4 [-> ->]]]]]]]]]]]]]]]]]]]]]].
  assert (S : tl ++ l :: dl ++ sl ++ el = (tl ++ l :: dl) ++ sl ++ el) by (repeat (rewrite <- app_assoc; cbn [app]); reflexivity). rewrite S.
  destruct (blocks_swaps _ _ _ C _ _ _ H3) as [E1 [E2 E3]]. unfold sc_steps_some, sc_reword. cbn [sc_id sc_tags sc_loc sc_keyword sc_name sc_desc sc_steps sc_examples]. split; [|split].
  - intros K. apply in_mid. apply E1. exact K.
  - intros K. apply out_mid in K. now rewrite E2.
  - intros N K. destruct (E3 (u_mid _ _ _ N) K) as [w [W1 W2]]. exists ((tl ++ l :: dl) ++ w ++ el). split; [now apply ex_in|]. exists tl, l, dl, w, el, tags, kw', name, desc, (map h steps), exs, c0, c1, c2, c3.
    split; [repeat (rewrite <- app_assoc; cbn [app]); reflexivity|]. do 3 (split; [assumption|]). split; [exact W2|]. split; [assumption|]. split; reflexivity.
Qed.
Lemma background_swaps : swaps (background_block d) (bg_steps_some Q) (bg_reword h).
Proof.
  intros ls bg cs [l [dl [sl [kw' [name [desc [steps [c1 [c2 [-> [H1 [H2 [H3 [-> ->]]]]]]]]]]]]]].
  assert (S : l :: dl ++ sl = (l :: dl) ++ sl ++ []) by (rewrite app_nil_r; reflexivity). rewrite S.
  destruct (blocks_swaps _ _ _ C _ _ _ H3) as [E1 [E2 E3]]. unfold bg_steps_some, bg_reword. cbn [bg_id bg_loc bg_keyword bg_name bg_desc bg_steps]. split; [|split].
  - intros K. apply in_mid. apply E1. exact K.
  - intros K. apply out_mid in K. now rewrite E2.
  - intros N K. destruct (E3 (u_mid _ _ _ N) K) as [w [W1 W2]]. exists ((l :: dl) ++ w ++ []). split; [now apply ex_in|]. exists l, dl, w, kw', name, desc, (map h steps), c1, c2.
    split; [rewrite app_nil_r; reflexivity|]. do 2 (split; [assumption|]). split; [exact W2|]. split; reflexivity.
Qed.
Notation Qs := (sc_steps_some Q).
Notation Qb := (bg_steps_some Q).
Notation hs := (sc_reword h).
Notation hb := (bg_reword h).
Lemma rule_swaps : swaps (rule_block d) (rule_some Qs Qb) (parts_rule hs hb).
Proof.
  intros ls x cs [tl [l [dl [bl [sl [tags [kw [name [desc [bg [scs [c0 [c1 [c2 [c3 [-> [H0 [H1 [H2 [H3 [H4 [-> ->]]]]]]]]]]]]]]]]]]]]]].
  assert (S : tl ++ l :: dl ++ bl ++ sl = (tl ++ l :: dl) ++ (bl ++ sl) ++ []) by (rewrite app_nil_r; repeat (rewrite <- app_assoc; cbn [app]); reflexivity). rewrite S.
  assert (Bo : both (maybe (background_block d)) (blocks (scenario_block d)) (bl ++ sl) (bg, scs) (c2 ++ c3)) by (exists bl, sl, c2, c3; auto).
  destruct (both_swaps _ _ _ _ _ _ (maybe_swaps _ _ _ background_swaps) (blocks_swaps _ _ _ scenario_swaps) _ _ _ Bo) as [E1 [E2 E3]]. cbn [fst snd] in *. split; [|split].
  - intros K. apply in_mid. apply E1. exact K.
  - intros K. apply out_mid in K. specialize (E2 K). unfold parts_rule. cbn [ru_id ru_tags ru_loc ru_keyword ru_name ru_desc ru_background ru_scenarios]. f_equal; congruence.
  - intros N K. destruct (E3 (u_mid _ _ _ N) K) as [w [W1 [b' [s' [c2' [c3' [Eq [M1 [M2 M3]]]]]]]]]. cbn [fst snd] in *. exists ((tl ++ l :: dl) ++ w ++ []). split; [now apply ex_in|]. rewrite Eq.
    exists tl, l, dl, b', s', tags, kw, name, desc, (option_map hb bg), (map hs scs), c0, c1, c2', c3'.
    split; [rewrite app_nil_r; repeat (rewrite <- app_assoc; cbn [app]); reflexivity|]. do 5 (split; [assumption|]). split; [now rewrite M3 | reflexivity].
Qed.
Lemma feature_swaps lang : swaps (feature_block d lang) (feature_some Qs Qb) (parts_feature hs hb).
Proof.
  intros ls x cs [tl [l [dl [bl [sl [ul [tags [kw [name [desc [bg [scs [rus [c0 [c1 [c2 [c3 [c4 [-> [H0 [H1 [H2 [H3 [H4 [H5 [-> ->]]]]]]]]]]]]]]]]]]]]]]]]]].
  assert (S : tl ++ l :: dl ++ bl ++ sl ++ ul = (tl ++ l :: dl) ++ (bl ++ sl ++ ul) ++ []) by (rewrite app_nil_r; repeat (rewrite <- app_assoc; cbn [app]); reflexivity). rewrite S.
  assert (Bo : both (maybe (background_block d)) (both (blocks (scenario_block d)) (blocks (rule_block d))) (bl ++ sl ++ ul) (bg, (scs, rus)) (c2 ++ c3 ++ c4)).
  { exists bl, (sl ++ ul), c2, (c3 ++ c4). split; [reflexivity|]. split; [exact H3|]. split; [|reflexivity]. exists sl, ul, c3, c4. auto. }
  destruct (both_swaps _ _ _ _ _ _ (maybe_swaps _ _ _ background_swaps) (both_swaps _ _ _ _ _ _ (blocks_swaps _ _ _ scenario_swaps) (blocks_swaps _ _ _ rule_swaps)) _ _ _ Bo) as [E1 [E2 E3]]. cbn [fst snd] in *. split; [|split].
  - intros K. apply in_mid. apply E1. exact K.
  - intros K. apply out_mid in K. specialize (E2 K). unfold parts_feature. cbn [fe_tags fe_loc fe_language fe_keyword fe_name fe_desc fe_background fe_scenarios fe_rules]. f_equal; congruence.
  - intros N K. destruct (E3 (u_mid _ _ _ N) K) as [w [W1 [b' [su' [c2' [c34 [Eq [M1 [[s' [u' [c3' [c4' [Eq2 [M2 [M3 Ec]]]]]]] M4]]]]]]]]]. cbn [fst snd] in *. exists ((tl ++ l :: dl) ++ w ++ []). split; [now apply ex_in|]. rewrite Eq, Eq2.
    exists tl, l, dl, b', s', u', tags, kw, name, desc, (option_map hb bg), (map hs scs), (map (parts_rule hs hb) rus), c0, c1, c2', c3', c4'.
    split; [rewrite app_nil_r; repeat (rewrite <- app_assoc; cbn [app]); reflexivity|]. do 6 (split; [assumption|]). split; [now rewrite M4, Ec | reflexivity].
Qed.
End Swap.

Section Stands.
Context (n : nat) (U : list nline -> Prop) (Ul : forall a b, U (a ++ b) -> U a) (Ur : forall a b, U (a ++ b) -> U b) (Uo : forall a b, U (a ++ b) -> In n (nums a) -> ~ In n (nums b)) (T : list nline -> list nline -> Prop) (Q : step -> Prop) (h : step -> step).
Theorem stands_swaps lang ls doc : stands_for lang ls doc -> U ls -> some_step Q doc ->
  (forall f l d, gd_feature doc = Some f -> fe_language f = Some l -> for_name l = Some d -> swaps n U T (step_block d) Q h) ->
  exists ls', exchanged T ls ls' /\ stands_for lang ls' (on_steps h doc).
Proof.
  intros [[cs [H ->]]|[[pre [fl [d [f [c0 [c1 [-> [H1 [H2 [H3 ->]]]]]]]]]]|[pre [hd [mid [fl [name [d [f [c0 [c1 [c2 [-> [H1 [H2 [H3 [H4 [H5 ->]]]]]]]]]]]]]]]]]] N K C; [destruct K| |]; cbn in K.
  - assert (Lf : fe_language f = Some lang) by (destruct H3 as [? [? [? [? [? [? [? [? [? [? [? [? [? [? [? [? [? [? [_ [_ [_ [_ [_ [_ [_ [_ ->]]]]]]]]]]]]]]]]]]]]]]]]]]; reflexivity).
    destruct (feature_swaps n U Ul Ur Uo T d Q h (C f lang d eq_refl Lf H2) lang _ _ _ H3) as [F1 [_ F3]]. destruct (F3 (Ur _ _ N) K) as [w [W1 W2]]. exists (pre ++ w). split; [now apply ex_r|].
    right. left. exists pre, w, d, (parts_feature (sc_reword h) (bg_reword h) f), c0, c1. repeat (split; [auto|]). reflexivity.
  - assert (Lf : fe_language f = Some name) by (destruct H5 as [? [? [? [? [? [? [? [? [? [? [? [? [? [? [? [? [? [? [_ [_ [_ [_ [_ [_ [_ [_ ->]]]]]]]]]]]]]]]]]]]]]]]]]]; reflexivity).
    assert (S : pre ++ hd :: mid ++ fl = (pre ++ hd :: mid) ++ fl) by (rewrite <- app_assoc; reflexivity). rewrite S in N |- *.
    destruct (feature_swaps n U Ul Ur Uo T d Q h (C f name d eq_refl Lf H3) name _ _ _ H5) as [F1 [_ F3]]. destruct (F3 (Ur _ _ N) K) as [w [W1 W2]]. exists ((pre ++ hd :: mid) ++ w). split; [now apply ex_r|].
    right. right. exists pre, hd, mid, w, name, d, (parts_feature (sc_reword h) (bg_reword h) f), c0, c1, c2. split; [now rewrite <- app_assoc|]. repeat (split; [auto|]). reflexivity.
Qed.
End Stands.

(** ** The lines of one step *)
(** the lines of a doc string that begins on line [n] *)
Definition doc_piece (n : nat) (old : list nline) : Prop :=
  exists sep open content close, old = open :: content ++ [close] /\ fst open = n /\ separator sep /\ begins sep (snd open) /\ begins sep (snd close) /\ Forall (fun l => ~ begins sep (snd l)) content.
Lemma doc_lines_block n xs ds ls rest cs : doc_lines n xs ds -> map snd ls = xs -> (match ls with l :: _ => fst l = n | [] => False end) -> noise_lines rest cs -> doc_block (ls ++ rest) ds cs.
Proof.
  intros [sep [op [ct [cl [-> [H1 [H2 [H3 [H4 ->]]]]]]]]] E N R. destruct ls as [|o ls]; [destruct N|]. cbn [map] in E. injection E as E1 E2. destruct (rev ls) as [|c ct'] eqn:Rv.
  { apply (f_equal (@rev _)) in Rv. rewrite rev_involutive in Rv. subst ls. destruct ct; discriminate E2. }
  apply (f_equal (@rev _)) in Rv. rewrite rev_involutive in Rv. cbn [rev] in Rv. subst ls. rewrite map_app in E2. cbn [map] in E2. apply app_inj_tail in E2 as [E2 E3]. subst cl ct op.
  exists sep, o, (rev ct'), c, rest, (strip (skipn (length sep) (lstrip (snd o)))). split; [cbn [app]; rewrite <- app_assoc; reflexivity|]. repeat (split; [assumption|]). split; [rewrite Forall_map in H4; exact H4|]. split; [reflexivity|]. split; [exact R|].
  unfold here. rewrite N, map_map. f_equal. generalize (strip (skipn (length sep) (lstrip (snd o)))). intros []; reflexivity.
Qed.
(** a doc string exchanged *)
Lemma doc_swap n d xs ds new : doc_lines n xs ds -> map snd new = xs -> (match new with l :: _ => fst l = n | [] => False end) ->
  swaps n (once n) (fun old ls => doc_piece n old /\ ls = new) (step_block d) (doc_at n) (for_doc n (ADoc ds)).
Proof.
  intros D E N ls st cs [l [noise [arg [kw [text [a [c1 [c2 [-> [H1 [H2 [H3 [-> ->]]]]]]]]]]]]]. unfold doc_at, for_doc. cbn [st_arg].
  assert (G : (exists ds0, a = ADoc ds0 /\ l_line (ds_loc ds0) = n) -> exists old rest, arg = old ++ rest /\ doc_piece n old /\ In n (nums old) /\ noise_lines rest c2).
  { intros [ds0 [-> Q]]. destruct H3 as [[_ [A _]]|[[? [? [? [_ [_ A]]]]]|[ds1 [H3 A]]]]; [discriminate A | discriminate A |]. injection A as <-. destruct H3 as [sep [op [ct [cl [rest [media [-> [K1 [K2 [K3 [K4 [K5 [K6 ->]]]]]]]]]]]]]. cbn [ds_loc here l_line] in Q.
    exists (op :: ct ++ [cl]), rest. split; [cbn [app]; rewrite <- app_assoc; reflexivity|]. split; [exists sep, op, ct, cl; repeat (split; [auto|]); auto|]. split; [left; exact Q | exact K6]. }
  split; [|split].
  - intros K. destruct (G K) as [old [rest [-> [_ [I _]]]]]. change (l :: noise ++ old ++ rest) with ((l :: noise) ++ old ++ rest). now apply in_mid.
  - intros K. destruct a as [|t|ds0]; try reflexivity. destruct (l_line (ds_loc ds0) =? n) eqn:Q; [|reflexivity]. apply Nat.eqb_eq in Q. destruct (G ltac:(eauto)) as [old [rest [-> [_ [I _]]]]]. exfalso. apply K. change (l :: noise ++ old ++ rest) with ((l :: noise) ++ old ++ rest). now apply in_mid.
  - intros _ K. destruct (G K) as [old [rest [-> [P [_ R]]]]]. destruct K as [ds0 [-> Q]]. rewrite (proj2 (Nat.eqb_eq _ _) Q). exists ((l :: noise) ++ new ++ rest). split; [exists (l :: noise), old, new, rest; auto|].
    exists l, noise, (new ++ rest), kw, text, (ADoc ds), c1, c2. split; [reflexivity|]. split; [exact H1|]. split; [exact H2|]. split; [|split; reflexivity]. right. right. exists ds. split; [|reflexivity]. now apply (doc_lines_block n xs).
Qed.
Lemma noise_app a ca b cb : noise_lines a ca -> noise_lines b cb -> noise_lines (a ++ b) (ca ++ cb).
Proof. induction 1; cbn [app]; auto; intros; [apply nz_blank | apply nz_comment]; auto. Qed.
(** a doc string removed *)
Lemma doc_removed n d : swaps n (once n) (fun old ls => doc_piece n old /\ ls = []) (step_block d) (doc_at n) (for_doc n ANone).
Proof.
  intros ls st cs [l [noise [arg [kw [text [a [c1 [c2 [-> [H1 [H2 [H3 [-> ->]]]]]]]]]]]]]. unfold doc_at, for_doc. cbn [st_arg].
  assert (G : (exists ds0, a = ADoc ds0 /\ l_line (ds_loc ds0) = n) -> exists old rest, arg = old ++ rest /\ doc_piece n old /\ In n (nums old) /\ noise_lines rest c2).
  { intros [ds0 [-> Q]]. destruct H3 as [[_ [A _]]|[[? [? [? [_ [_ A]]]]]|[ds1 [H3 A]]]]; [discriminate A | discriminate A |]. injection A as <-. destruct H3 as [sep [op [ct [cl [rest [media [-> [K1 [K2 [K3 [K4 [K5 [K6 ->]]]]]]]]]]]]]. cbn [ds_loc here l_line] in Q.
    exists (op :: ct ++ [cl]), rest. split; [cbn [app]; rewrite <- app_assoc; reflexivity|]. split; [exists sep, op, ct, cl; repeat (split; [auto|]); auto|]. split; [left; exact Q | exact K6]. }
  split; [|split].
  - intros K. destruct (G K) as [old [rest [-> [_ [I _]]]]]. change (l :: noise ++ old ++ rest) with ((l :: noise) ++ old ++ rest). now apply in_mid.
  - intros K. destruct a as [|t|ds0]; try reflexivity. destruct (l_line (ds_loc ds0) =? n) eqn:Q; [|reflexivity]. apply Nat.eqb_eq in Q. destruct (G ltac:(eauto)) as [old [rest [-> [_ [I _]]]]]. exfalso. apply K. change (l :: noise ++ old ++ rest) with ((l :: noise) ++ old ++ rest). now apply in_mid.
  - intros _ K. destruct (G K) as [old [rest [-> [P [_ R]]]]]. destruct K as [ds0 [-> Q]]. rewrite (proj2 (Nat.eqb_eq _ _) Q). exists ((l :: noise) ++ [] ++ rest). split; [exists (l :: noise), old, [], rest; auto|].
    exists l, (noise ++ rest), [], kw, text, ANone, (c1 ++ c2), []. split; [cbn [app]; now rewrite app_nil_r|]. split; [exact H1|]. split; [now apply noise_app|]. split; [now left|]. split; [symmetry; apply app_nil_r | reflexivity].
Qed.
(** a doc string added *)
Lemma doc_added n d xs ds new : doc_lines (Datatypes.S n) xs ds -> map snd new = xs -> (match new with l :: _ => fst l = Datatypes.S n | [] => False end) ->
  swaps n (once n) (fun old ls => exists l, fst l = n /\ old = [l] /\ ls = l :: new) (step_block d) (bare_on n) (for_step n (ADoc ds)).
Proof.
  intros D E N ls st cs [l [noise [arg [kw [text [a [c1 [c2 [-> [H1 [H2 [H3 [-> ->]]]]]]]]]]]]]. unfold bare_on, step_on, for_step. cbn [st_arg st_loc here l_line]. split; [|split].
  - intros [K _]. left. exact K.
  - intros K. destruct (fst l =? n) eqn:Q; [|reflexivity]. apply Nat.eqb_eq in Q. exfalso. apply K. left. exact Q.
  - intros _ [K ->]. rewrite (proj2 (Nat.eqb_eq _ _) K). destruct H3 as [[-> [_ ->]]|[[? [? [? [_ [_ A]]]]]|[ds1 [_ A]]]]; [|discriminate A|discriminate A]. rewrite !app_nil_r.
    exists (l :: new ++ noise). split; [exists [], [l], (l :: new), noise; repeat (split; [reflexivity|]); exists l; auto|].
    exists l, [], (new ++ noise), kw, text, (ADoc ds), [], c1. split; [reflexivity|]. split; [exact H1|]. split; [constructor|]. split; [|split; reflexivity]. right. right. exists ds. split; [|reflexivity]. now apply (doc_lines_block (Datatypes.S n) xs).
Qed.
