(** * Documents with one line of examples more or less *)
From Verif Require Import PyStr Types Line DialectData Matcher LineSpec LangSpec Ast DocSpec Compiler PickleSpec MiddleSpec ExampleSpec.

Notation nums := (map (@fst nat str)).
Section Change.
Context (n : nat) (lchg : nline -> list nline) (L1 : forall l, fst l <> n -> lchg l = [l]).
Notation chg := (flat_map lchg).
Lemma chg_still ls : ~ In n (nums ls) -> chg ls = ls.
Proof. induction ls as [|l ls IH]; intros H; [reflexivity|]. cbn [flat_map map] in *. rewrite L1, IH; [reflexivity | |]; intros K; apply H; [now right | now left]. Qed.
Lemma nums_app (a b : list nline) : nums (a ++ b) = nums a ++ nums b.
Proof. apply map_app. Qed.
Lemma nodup_app {A} (a b : list A) : NoDup (a ++ b) -> NoDup a /\ NoDup b /\ forall x, In x a -> In x b -> False.
Proof.
  induction a as [|x a IH]; intros H; [split; [constructor|]; split; [exact H | intros x []]|]. cbn [app] in H. inversion H as [|? ? N D]; subst. destruct (IH D) as [H1 [H2 H3]].
  split; [constructor; [|exact H1]; intros K; apply N; apply in_or_app; now left|]. split; [exact H2|]. intros y [->|Ha] Hb; [apply N; apply in_or_app; now right | eauto].
Qed.
Lemma chg_mid (a b c : list nline) : NoDup (nums (a ++ b ++ c)) -> In n (nums b) -> chg (a ++ b ++ c) = a ++ chg b ++ c /\ NoDup (nums b).
Proof.
  intros N H. rewrite !nums_app in N. apply nodup_app in N as [_ [N N1]]. apply nodup_app in N as [Nb [_ N2]]. split; [|exact Nb]. rewrite !flat_map_app.
  rewrite (chg_still a), (chg_still c); [reflexivity | intros K; eauto | intros K; apply (N1 n K); apply in_or_app; now left].
Qed.
Definition changes {A} (B : list nline -> A -> list comment -> Prop) (Q : A -> Prop) (h : A -> A) : Prop := forall ls x cs, B ls x cs ->
  (Q x -> In n (nums ls)) /\ (~ In n (nums ls) -> h x = x) /\ (NoDup (nums ls) -> Q x -> B (chg ls) (h x) cs).
Lemma in_mid (a b c : list nline) : In n (nums b) -> In n (nums (a ++ b ++ c)).
Proof. intros H. rewrite !nums_app. apply in_or_app. right. apply in_or_app. now left. Qed.
Lemma out_mid (a b c : list nline) : ~ In n (nums (a ++ b ++ c)) -> ~ In n (nums b).
Proof. intros H K. apply H. now apply in_mid. Qed.

Lemma blocks_change {A} (B : list nline -> A -> list comment -> Prop) Q h : changes B Q h -> changes (blocks B) (Exists Q) (map h).
Proof.
  intros C ls xs cs H. induction H as [|l1 x c1 l2 xs c2 H H' [I1 [I2 I3]]].
  - split; [intros K; inversion K|]. split; [reflexivity|]. intros _ K. inversion K.
  - destruct (C _ _ _ H) as [C1 [C2 C3]]. rewrite nums_app. split; [|split].
    + intros K. apply in_or_app. inversion K; subst; auto.
    + intros K. cbn [map]. rewrite C2, I2; [reflexivity | |]; intros J; apply K, in_or_app; auto.
    + intros N K. apply nodup_app in N as [N1 [N2 N3]]. rewrite flat_map_app. cbn [map]. inversion K as [? ? Kx|? ? Kx]; subst.
      * assert (J : ~ In n (nums l2)) by (intros J; eapply N3; eauto). rewrite (chg_still l2 J), (I2 J). constructor; auto.
      * assert (J : ~ In n (nums l1)) by (intros J; eapply N3; eauto). rewrite (chg_still l1 J), (C2 J). constructor; auto.
Qed.

Context (d : dialect) (Q : examples -> Prop) (h : examples -> examples) (E : changes (examples_block d) Q h).
Lemma scenario_change : changes (scenario_block d) (sc_some Q) (on_scenario h).
Proof.
  intros ls x cs [tl [l [dl [sl [el [tags [kw [name [desc [steps [exs [c0 [c1 [c2 [c3 [-> [H0 [H1 [H2 [H3 [H4 [-> ->]]]]]]]]]]]]]]]]]]]]]].
  assert (S : tl ++ l :: dl ++ sl ++ el = (tl ++ l :: dl ++ sl) ++ el ++ []) by (rewrite app_nil_r; repeat (rewrite <- app_assoc; cbn [app]); reflexivity). rewrite S.
  destruct (blocks_change _ _ _ E _ _ _ H4) as [E1 [E2 E3]]. split; [|split].
  - intros K. apply in_mid. apply E1. exact K.
  - intros K. apply out_mid in K. unfold on_scenario. cbn [sc_examples]. now rewrite E2.
  - intros N K. destruct (chg_mid _ _ _ N (E1 K)) as [G Nb]. rewrite G. exists tl, l, dl, sl, (chg el), tags, kw, name, desc, steps, (map h exs), c0, c1, c2, c3.
    split; [rewrite app_nil_r; repeat (rewrite <- app_assoc; cbn [app]); reflexivity|]. do 4 (split; [assumption|]). split; [now apply E3|]. split; reflexivity.
Qed.
Lemma rule_change : changes (rule_block d) (ru_some Q) (on_rule h).
Proof.
  intros ls x cs [tl [l [dl [bl [sl [tags [kw [name [desc [bg [scs [c0 [c1 [c2 [c3 [-> [H0 [H1 [H2 [H3 [H4 [-> ->]]]]]]]]]]]]]]]]]]]]]].
  assert (S : tl ++ l :: dl ++ bl ++ sl = (tl ++ l :: dl ++ bl) ++ sl ++ []) by (rewrite app_nil_r; repeat (rewrite <- app_assoc; cbn [app]); reflexivity). rewrite S.
  destruct (blocks_change _ _ _ scenario_change _ _ _ H4) as [E1 [E2 E3]]. split; [|split].
  - intros K. apply in_mid. apply E1. exact K.
  - intros K. apply out_mid in K. unfold on_rule. cbn [ru_scenarios]. now rewrite E2.
  - intros N K. destruct (chg_mid _ _ _ N (E1 K)) as [G Nb]. rewrite G. exists tl, l, dl, bl, (chg sl), tags, kw, name, desc, bg, (map (on_scenario h) scs), c0, c1, c2, c3.
    split; [rewrite app_nil_r; repeat (rewrite <- app_assoc; cbn [app]); reflexivity|]. do 4 (split; [assumption|]). split; [now apply E3|]. split; reflexivity.
Qed.
Lemma feature_change lang : changes (feature_block d lang) (fe_some Q) (on_feature h).
Proof.
  intros ls x cs [tl [l [dl [bl [sl [ul [tags [kw [name [desc [bg [scs [rus [c0 [c1 [c2 [c3 [c4 [-> [H0 [H1 [H2 [H3 [H4 [H5 [-> ->]]]]]]]]]]]]]]]]]]]]]]]]]].
  assert (S : tl ++ l :: dl ++ bl ++ sl ++ ul = (tl ++ l :: dl ++ bl) ++ sl ++ ul) by (repeat (rewrite <- app_assoc; cbn [app]); reflexivity).
  assert (S' : tl ++ l :: dl ++ bl ++ sl ++ ul = (tl ++ l :: dl ++ bl ++ sl) ++ ul ++ []) by (rewrite app_nil_r; repeat (rewrite <- app_assoc; cbn [app]); reflexivity).
  destruct (blocks_change _ _ _ scenario_change _ _ _ H4) as [E1 [E2 E3]]. destruct (blocks_change _ _ _ rule_change _ _ _ H5) as [F1 [F2 F3]]. split; [|split].
  - intros [K|K]; [rewrite S; apply in_mid, E1, K | rewrite S'; apply in_mid, F1, K].
  - intros K. pose proof K as K'. rewrite S in K. apply out_mid in K. rewrite S' in K'. apply out_mid in K'. unfold on_feature. cbn [fe_scenarios fe_rules]. now rewrite E2, F2.
  - intros N [K|K]; cbn [fe_scenarios fe_rules] in K.
    + rewrite S in N |- *. destruct (chg_mid _ _ _ N (E1 K)) as [G Nb]. rewrite G. assert (O : ~ In n (nums ul)).
      { rewrite !nums_app in N. apply nodup_app in N as [_ [N _]]. apply nodup_app in N as [_ [_ N]]. intros J. exact (N n (E1 K) J). }
      exists tl, l, dl, bl, (chg sl), ul, tags, kw, name, desc, bg, (map (on_scenario h) scs), rus, c0, c1, c2, c3, c4.
      split; [repeat (rewrite <- app_assoc; cbn [app]); reflexivity|]. do 4 (split; [assumption|]). split; [now apply E3|]. split; [assumption|]. split; [reflexivity|]. unfold on_feature. cbn. now rewrite (F2 O).
    + rewrite S' in N |- *. destruct (chg_mid _ _ _ N (F1 K)) as [G Nb]. rewrite G. assert (O : ~ In n (nums sl)).
      { assert (S2 : (tl ++ l :: dl ++ bl ++ sl) ++ ul ++ [] = (tl ++ l :: dl ++ bl) ++ sl ++ ul) by congruence. rewrite S2, !nums_app in N. apply nodup_app in N as [_ [N _]]. apply nodup_app in N as [_ [_ N]]. intros J. exact (N n J (F1 K)). }
      exists tl, l, dl, bl, sl, (chg ul), tags, kw, name, desc, bg, scs, (map (on_rule h) rus), c0, c1, c2, c3, c4.
      split; [rewrite app_nil_r; repeat (rewrite <- app_assoc; cbn [app]); reflexivity|]. do 5 (split; [assumption|]). split; [now apply F3|]. split; [reflexivity|]. unfold on_feature. cbn. now rewrite (E2 O).
Qed.
End Change.

Section Stands.
Context (n : nat) (lchg : nline -> list nline) (L1 : forall l, fst l <> n -> lchg l = [l]) (Q : examples -> Prop) (h : examples -> examples)
  (E : forall d, changes n lchg (examples_block d) Q h).
Theorem stands_change lang ls doc : stands_for lang ls doc -> NoDup (nums ls) -> some_examples Q doc -> stands_for lang (flat_map lchg ls) (on_examples h doc).
Proof.
  intros [[cs [H ->]]|[[pre [fl [d [f [c0 [c1 [-> [H1 [H2 [H3 ->]]]]]]]]]]|[pre [hd [mid [fl [name [d [f [c0 [c1 [c2 [-> [H1 [H2 [H3 [H4 [H5 ->]]]]]]]]]]]]]]]]]] N K; [destruct K| |]; cbn in K.
  - right. left. destruct (feature_change n lchg L1 d Q h (E d) lang _ _ _ H3) as [F1 [_ F3]]. assert (S : pre ++ fl = pre ++ fl ++ []) by now rewrite app_nil_r. rewrite S in N |- *.
    destruct (chg_mid n lchg L1 _ _ _ N (F1 K)) as [G Nb]. rewrite G, app_nil_r. exists pre, (flat_map lchg fl), d, (on_feature h f), c0, c1. repeat (split; [auto|]). reflexivity.
  - right. right. destruct (feature_change n lchg L1 d Q h (E d) name _ _ _ H5) as [F1 [_ F3]]. assert (S : pre ++ hd :: mid ++ fl = (pre ++ hd :: mid) ++ fl ++ []) by (rewrite app_nil_r, <- app_assoc; reflexivity). rewrite S in N |- *.
    destruct (chg_mid n lchg L1 _ _ _ N (F1 K)) as [G Nb]. rewrite G, app_nil_r. exists pre, hd, mid, (flat_map lchg fl), name, d, (on_feature h f), c0, c1, c2. split; [now rewrite <- app_assoc|]. repeat (split; [auto|]). reflexivity.
Qed.
End Stands.

(** ** A row less *)
Section Less.
Variable n : nat.
Definition less_line (l : nline) : list nline := if fst l =? n then [] else [l].
Lemma less_other l : fst l <> n -> less_line l = [l].
Proof. intros H. unfold less_line. destruct (fst l =? n) eqn:E; [apply Nat.eqb_eq in E; contradiction | reflexivity]. Qed.
Lemma row_line_no l r : row_at_line l r -> l_line (row_loc r) = fst l.
Proof. intros [items [_ ->]]. reflexivity. Qed.
Lemma rows_in ls rows cs : row_lines ls rows cs -> forall r, In r rows -> In (l_line (row_loc r)) (nums ls).
Proof. induction 1 as [|l ls r rs cs H _ IH|l ls rs cs H _ IH|l ls rs cs H _ IH]; intros x Hx; [destruct Hx| | |]; cbn [map]; [|right; auto|right; auto]. destruct Hx as [<-|Hx]; [left; symmetry; now apply row_line_no | right; auto]. Qed.
Lemma rows_off ls rows cs : row_lines ls rows cs -> ~ In n (nums ls) -> filter (off_line n) rows = rows.
Proof.
  intros H N. assert (K : forall r, In r rows -> off_line n r = true).
  { intros r Hr. unfold off_line. destruct (l_line (row_loc r) =? n) eqn:E; [|reflexivity]. apply Nat.eqb_eq in E. exfalso. apply N. rewrite <- E. eapply rows_in; eauto. }
  clear H N. induction rows as [|r rows IH]; [reflexivity|]. cbn [filter]. rewrite (K r) by now left. f_equal. apply IH. intros; apply K; now right.
Qed.
Lemma rows_less ls rows cs : row_lines ls rows cs -> NoDup (nums ls) -> Exists (on_line n) rows -> row_lines (flat_map less_line ls) (filter (off_line n) rows) cs.
Proof.
  induction 1 as [|l ls r rs cs H H' IH|l ls rs cs H H' IH|l ls rs cs H H' IH]; intros N K; [inversion K| | |]; cbn [map] in N; inversion N as [|? ? N1 N2]; subst; cbn [flat_map].
  - pose proof (row_line_no _ _ H) as R. cbn [filter]. unfold off_line at 1. rewrite R. unfold less_line at 1. destruct (fst l =? n) eqn:E.
    + apply Nat.eqb_eq in E. cbn [negb]. rewrite E in N1. rewrite (rows_off ls rs cs H') by exact N1. rewrite (chg_still n less_line less_other) by exact N1. exact H'.
    + apply Nat.eqb_neq in E. cbn [negb]. apply rw_row; [exact H|]. apply IH; [exact N2|]. inversion K as [? ? Kx|? ? Kx]; subst; [|exact Kx]. unfold on_line in Kx. congruence.
  - assert (E : fst l <> n). { intros J. apply Exists_exists in K as [r [Hr Er]]. apply N1. unfold on_line in Er. rewrite J, <- Er. eapply rows_in; eauto. } rewrite less_other by exact E. apply rw_blank; auto.
  - assert (E : fst l <> n). { intros J. apply Exists_exists in K as [r [Hr Er]]. apply N1. unfold on_line in Er. rewrite J, <- Er. eapply rows_in; eauto. } rewrite less_other by exact E. apply rw_comment; auto.
Qed.
Lemma examples_less d : changes n less_line (examples_block d) (body_row n) (less_examples n).
Proof.
  intros ls x cs [tl [l [dl [rl [tags [kw [name [desc [rows [c0 [c1 [c2 [-> [H0 [H1 [H2 [H3 [-> ->]]]]]]]]]]]]]]]]]].
  assert (S : tl ++ l :: dl ++ rl = (tl ++ l :: dl) ++ rl ++ []) by (rewrite app_nil_r, <- app_assoc; reflexivity). rewrite S.
  destruct rows as [rows|]; cbn [maybe] in H3.
  2:{ destruct H3 as [-> ->]. split; [intros K; inversion K|]. split; [reflexivity|]. intros _ K. inversion K. }
  destruct H3 as [[l0 [ls' [r0 [rs [-> [R1 [R2 ->]]]]]]] Re]. assert (IN : Exists (on_line n) rs -> In n (nums ls')). { intros K. apply Exists_exists in K as [r [Hr Er]]. rewrite <- Er. eapply rows_in; eauto. }
  split; [|split].
  - intros K. apply in_mid. right. apply IN. exact K.
  - intros K. apply out_mid in K. unfold less_examples. cbn [ex_body ex_id ex_tags ex_loc ex_keyword ex_name ex_desc ex_header]. rewrite (rows_off ls' rs c2 R2); [reflexivity|]. intros J. apply K. now right.
  - intros N K. change (Exists (on_line n) rs) in K. destruct (chg_mid n less_line less_other _ _ _ N (or_intror (IN K))) as [G Nb]. rewrite G. cbn [map] in Nb. inversion Nb as [|? ? N1 N2]; subst.
    assert (O : fst l0 <> n) by (intros O; apply N1; rewrite O; auto). cbn [flat_map]. rewrite (less_other l0 O).
    exists tl, l, dl, ([l0] ++ flat_map less_line ls'), tags, kw, name, desc, (Some (r0 :: filter (off_line n) rs)), c0, c1, c2.
    split; [rewrite app_nil_r, <- app_assoc; reflexivity|]. do 3 (split; [assumption|]). split; [|split; reflexivity]. split.
    + exists l0, (flat_map less_line ls'), r0, (filter (off_line n) rs). split; [reflexivity|]. split; [exact R1|]. split; [now apply rows_less | reflexivity].
    + intros r1 r2 I1 I2. apply Re; [destruct I1 as [<-|I1]; [now left | right; apply filter_In in I1; tauto] | destruct I2 as [<-|I2]; [now left | right; apply filter_In in I2; tauto]].
Qed.
End Less.

(** ** A row more *)
Section More.
Context (n : nat) (new : nline) (r' : row) (R' : row_at_line new r').
Definition more_line (l : nline) : list nline := if fst l =? n then [l; new] else [l].
Lemma more_other l : fst l <> n -> more_line l = [l].
Proof. intros H. unfold more_line. destruct (fst l =? n) eqn:E; [apply Nat.eqb_eq in E; contradiction | reflexivity]. Qed.
Definition follow (r : row) : list row := if l_line (row_loc r) =? n then [r'] else [].
Notation mores := (flat_map (fun r => r :: follow r)).
Lemma follow_off r : l_line (row_loc r) <> n -> follow r = [].
Proof. intros H. unfold follow. destruct (l_line (row_loc r) =? n) eqn:E; [apply Nat.eqb_eq in E; contradiction | reflexivity]. Qed.
Lemma mores_off ls rows cs : row_lines ls rows cs -> ~ In n (nums ls) -> mores rows = rows.
Proof.
  intros H N. assert (K : forall r, In r rows -> follow r = []) by (intros r Hr; apply follow_off; intros E; apply N; rewrite <- E; eapply rows_in; eauto).
  clear H N. induction rows as [|r rows IH]; [reflexivity|]. cbn [flat_map]. rewrite (K r) by now left. cbn [app]. f_equal. apply IH. intros; apply K; now right.
Qed.
Lemma rows_more ls rows cs : row_lines ls rows cs -> NoDup (nums ls) -> Exists (on_line n) rows -> row_lines (flat_map more_line ls) (mores rows) cs.
Proof.
  induction 1 as [|l ls r rs cs H H' IH|l ls rs cs H H' IH|l ls rs cs H H' IH]; intros N K; [inversion K| | |]; cbn [map] in N; inversion N as [|? ? N1 N2]; subst; cbn [flat_map].
  - pose proof (row_line_no _ _ H) as R. unfold follow at 1. rewrite R. unfold more_line at 1. destruct (fst l =? n) eqn:E.
    + apply Nat.eqb_eq in E. cbn [app]. rewrite E in N1. rewrite (mores_off ls rs cs H') by exact N1. rewrite (chg_still n more_line more_other) by exact N1. apply rw_row; [exact H|]. apply rw_row; [exact R' | exact H'].
    + apply Nat.eqb_neq in E. cbn [app]. apply rw_row; [exact H|]. apply IH; [exact N2|]. inversion K as [? ? Kx|? ? Kx]; subst; [|exact Kx]. unfold on_line in Kx. congruence.
  - assert (E : fst l <> n). { intros J. apply Exists_exists in K as [r [Hr Er]]. apply N1. unfold on_line in Er. rewrite J, <- Er. eapply rows_in; eauto. } rewrite more_other by exact E. apply rw_blank; auto.
  - assert (E : fst l <> n). { intros J. apply Exists_exists in K as [r [Hr Er]]. apply N1. unfold on_line in Er. rewrite J, <- Er. eapply rows_in; eauto. } rewrite more_other by exact E. apply rw_comment; auto.
Qed.
Lemma examples_more d : changes n more_line (examples_block d) (table_row n (length (row_cells r'))) (more_examples n r').
Proof.
  intros ls x cs [tl [l [dl [rl [tags [kw [name [desc [rows [c0 [c1 [c2 [-> [H0 [H1 [H2 [H3 [-> ->]]]]]]]]]]]]]]]]]].
  assert (S : tl ++ l :: dl ++ rl = (tl ++ l :: dl) ++ rl ++ []) by (rewrite app_nil_r, <- app_assoc; reflexivity). rewrite S.
  destruct rows as [rows|]; cbn [maybe] in H3.
  2:{ destruct H3 as [-> ->]. split; [intros [hh [K _]]; discriminate K|]. split; [reflexivity|]. intros _ [hh [K _]]; discriminate K. }
  destruct H3 as [[l0 [ls' [r0 [rs [-> [R1 [R2 ->]]]]]]] Re]. pose proof (row_line_no _ _ R1) as R0.
  assert (IN : Exists (on_line n) (r0 :: rs) -> In n (nums (l0 :: ls'))). { intros K. apply Exists_exists in K as [r [Hr Er]]. destruct Hr as [<-|Hr]; [left; unfold on_line in Er; congruence | right; rewrite <- Er; eapply rows_in; eauto]. }
  split; [|split].
  - intros [hh [Eh [_ K]]]. cbn [ex_header ex_body] in *. injection Eh as <-. apply in_mid. apply IN. exact K.
  - intros K. apply out_mid in K. unfold more_examples. cbn [ex_body ex_id ex_tags ex_loc ex_keyword ex_name ex_desc ex_header]. fold (follow r0).
    rewrite (follow_off r0) by (intros J; apply K; left; congruence). change (mkExamples 0 tags (here l) (Some kw) (Some name) desc (Some r0) (mores rs) = mkExamples 0 tags (here l) (Some kw) (Some name) desc (Some r0) rs).
    rewrite (mores_off ls' rs c2 R2); [reflexivity|]. intros J. apply K. now right.
  - intros N [hh [Eh [Le K]]]. cbn [ex_header ex_body] in *. injection Eh as <-. destruct (chg_mid n more_line more_other _ _ _ N (IN K)) as [G Nb]. rewrite G. cbn [map] in Nb. inversion Nb as [|? ? N1 N2]; subst.
    exists tl, l, dl, (flat_map more_line (l0 :: ls')), tags, kw, name, desc, (Some (r0 :: follow r0 ++ mores rs)), c0, c1, c2.
    split; [rewrite app_nil_r, <- app_assoc; reflexivity|]. do 3 (split; [assumption|]). split; [|split; reflexivity]. split.
    + assert (W : exists w, flat_map more_line (l0 :: ls') = l0 :: w /\ row_lines w (follow r0 ++ mores rs) c2).
      { cbn [flat_map]. unfold more_line at 1, follow at 1. rewrite R0. destruct (fst l0 =? n) eqn:E0.
        - apply Nat.eqb_eq in E0. rewrite E0 in N1. exists (new :: flat_map more_line ls'). split; [reflexivity|]. rewrite (chg_still n more_line more_other) by exact N1. rewrite (mores_off ls' rs c2 R2) by exact N1. apply rw_row; assumption.
        - apply Nat.eqb_neq in E0. exists (flat_map more_line ls'). split; [reflexivity|]. cbn [app]. apply rows_more; [exact R2 | exact N2|]. inversion K as [? ? Kx|? ? Kx]; subst; [|exact Kx]. unfold on_line in Kx. congruence. }
      destruct W as [w [-> W]]. exists l0, w, r0, (follow r0 ++ mores rs). repeat split; assumption.
    + assert (A : forall r, In r (r0 :: follow r0 ++ mores rs) -> length (row_cells r) = length (row_cells r0)).
      { assert (Fo : forall q r, In r (follow q) -> r = r') by (intros q r; unfold follow; destruct (l_line (row_loc q) =? n); [intros [<-|[]]; reflexivity | intros []]).
        intros r [<-|Hr]; [reflexivity|]. apply in_app_or in Hr as [Hr|Hr]; [apply Fo in Hr; subst r; now symmetry|]. apply in_flat_map in Hr as [q [Hq [<-|Hr]]]; [apply Re; [now right | now left]|]. apply Fo in Hr; subst r; now symmetry. }
      intros r1 r2 I1 I2. now rewrite (A r1 I1), (A r2 I2).
Qed.
End More.
