(** * Every part of a feature stands for a part of the text *)
From Verif Require Import PyStr PyStrFacts Types Line DialectData Matcher Ast LineSpec LangSpec DocSpec PartsSpec.

Lemma within_refl {A} (l : list A) : within l l.
Proof. exists [], []. now rewrite app_nil_r. Qed.
Lemma within_trans {A} (a b c : list A) : within a b -> within b c -> within a c.
Proof. intros [x [y ->]] [u [v ->]]. exists (u ++ x), (y ++ v). now rewrite <- !app_assoc. Qed.
Lemma within_in {A} (a b : list A) x : within a b -> In x a -> In x b.
Proof. intros [u [v ->]] H. apply in_or_app. right. apply in_or_app. now left. Qed.
Lemma within_mid {A} (a b c : list A) : within b (a ++ b ++ c).
Proof. now exists a, c. Qed.
Lemma within_l {A} (a b : list A) : within a (a ++ b).
Proof. now exists [], b. Qed.
Lemma within_r {A} (a b : list A) : within b (a ++ b).
Proof. exists a, []. now rewrite app_nil_r. Qed.
Lemma within_app_r {A} (a b c : list A) : within a c -> within a (b ++ c).
Proof. intros H. eapply within_trans; [exact H | apply within_r]. Qed.
Lemma within_app_l {A} (a b c : list A) : within a b -> within a (b ++ c).
Proof. intros H. eapply within_trans; [exact H | apply within_l]. Qed.
Lemma within_cons {A} (x : A) a c : within a c -> within a (x :: c).
Proof. intros H. apply (within_app_r a [x] c H). Qed.
Ltac win := first [apply within_refl | apply within_cons; win | solve [apply within_app_l; win] | solve [apply within_app_r; win]].

Definition part_of {A} (B : list nline -> A -> list comment -> Prop) (whole : list nline) (x : A) : Prop := exists ls cs, within ls whole /\ B ls x cs.
Lemma part_in {A} (B : list nline -> A -> list comment -> Prop) a b x : within a b -> part_of B a x -> part_of B b x.
Proof. intros H [ls [cs [W P]]]. exists ls, cs. split; [eapply within_trans; eauto | exact P]. Qed.
Lemma blocks_part {A} (B : list nline -> A -> list comment -> Prop) ls xs cs : blocks B ls xs cs -> forall x, In x xs -> part_of B ls x.
Proof.
  induction 1 as [|ls1 x cs1 ls2 xs cs2 H1 H2 IH]; intros y [].
  - subst y. exists ls1, cs1. split; [apply within_l | exact H1].
  - eapply part_in; [apply within_r | now apply IH].
Qed.
Lemma maybe_part {A} (B : list nline -> A -> list comment -> Prop) ls o cs : maybe B ls o cs -> forall x, In x (of_option o) -> part_of B ls x.
Proof. destruct o as [a|]; intros H x []; [subst x; exists ls, cs; split; [apply within_refl | exact H] | contradiction]. Qed.

Section D.
Variable d : dialect.
Lemma background_steps ls x cs : background_block d ls x cs -> forall y, In y (bg_steps x) -> part_of (step_block d) ls y.
Proof. intros [l [dl [sl [kw [name [desc [steps [cs1 [cs2 [-> [_ [_ [H [_ ->]]]]]]]]]]]]]] y Hy. eapply part_in; [|eapply blocks_part; [exact H | exact Hy]]. win. Qed.
Lemma scenario_steps ls x cs : scenario_block d ls x cs -> forall y, In y (sc_steps x) -> part_of (step_block d) ls y.
Proof.
  intros [tl [l [dl [sl [el [tags [kw [name [desc [steps [exs [cs0 [cs1 [cs2 [cs3 [-> [_ [_ [_ [H [_ [_ ->]]]]]]]]]]]]]]]]]]]]]] y Hy.
  eapply part_in; [|eapply blocks_part; [exact H | exact Hy]]. win.
Qed.
Lemma scenario_examples ls x cs : scenario_block d ls x cs -> forall y, In y (sc_examples x) -> part_of (examples_block d) ls y.
Proof.
  intros [tl [l [dl [sl [el [tags [kw [name [desc [steps [exs [cs0 [cs1 [cs2 [cs3 [-> [_ [_ [_ [_ [H [_ ->]]]]]]]]]]]]]]]]]]]]]] y Hy.
  eapply part_in; [|eapply blocks_part; [exact H | exact Hy]]. win.
Qed.
Lemma rule_scenarios ls x cs : rule_block d ls x cs -> forall y, In y (ru_scenarios x) -> part_of (scenario_block d) ls y.
Proof.
  intros [tl [l [dl [bl [sl [tags [kw [name [desc [bg [scs [cs0 [cs1 [cs2 [cs3 [-> [_ [_ [_ [_ [H [_ ->]]]]]]]]]]]]]]]]]]]]]] y Hy.
  eapply part_in; [|eapply blocks_part; [exact H | exact Hy]]. win.
Qed.
Lemma rule_background ls x cs : rule_block d ls x cs -> forall y, In y (of_option (ru_background x)) -> part_of (background_block d) ls y.
Proof.
  intros [tl [l [dl [bl [sl [tags [kw [name [desc [bg [scs [cs0 [cs1 [cs2 [cs3 [-> [_ [_ [_ [H [_ [_ ->]]]]]]]]]]]]]]]]]]]]]] y Hy.
  eapply part_in; [|eapply maybe_part; [exact H | exact Hy]]. win.
Qed.
Lemma part_sub {A B} (P : list nline -> A -> list comment -> Prop) (Q : list nline -> B -> list comment -> Prop) (f : A -> list B) :
  (forall ls x cs, P ls x cs -> forall y, In y (f x) -> part_of Q ls y) -> forall whole x y, part_of P whole x -> In y (f x) -> part_of Q whole y.
Proof. intros H whole x y [ls [cs [W Hp]]] Hy. eapply part_in; [exact W | eapply H; eauto]. Qed.

Lemma in_opt_map {A B} (f : A -> list B) l y : In y (flat_map f l) -> exists x, In x l /\ In y (f x).
Proof. apply in_flat_map. Qed.
Theorem feature_parts_of lang ls f cs : feature_block d lang ls f cs ->
  (forall x, In x (fe_rules f) -> part_of (rule_block d) ls x) /\
  (forall x, In x (feature_scenarios f) -> part_of (scenario_block d) ls x) /\
  (forall x, In x (feature_backgrounds f) -> part_of (background_block d) ls x) /\
  (forall x, In x (feature_steps f) -> part_of (step_block d) ls x) /\
  (forall x, In x (feature_examples f) -> part_of (examples_block d) ls x).
Proof.
  intros [tl [l [dl [bl [sl [rl [tags [kw [name [desc [bg [scs [rus [cs0 [cs1 [cs2 [cs3 [cs4 [-> [_ [_ [_ [Hb [Hs [Hr [_ ->]]]]]]]]]]]]]]]]]]]]]]]]]].
  set (whole := tl ++ l :: dl ++ bl ++ sl ++ rl). unfold feature_steps, feature_examples, feature_scenarios, feature_backgrounds. cbn [fe_rules fe_scenarios fe_background].
  assert (R : forall x, In x rus -> part_of (rule_block d) whole x) by (intros x Hx; eapply part_in; [|eapply blocks_part; [exact Hr | exact Hx]]; unfold whole; win).
  assert (S : forall x, In x (scs ++ flat_map ru_scenarios rus) -> part_of (scenario_block d) whole x).
  { intros x Hx. apply in_app_or in Hx as [Hx|Hx].
    - eapply part_in; [|eapply blocks_part; [exact Hs | exact Hx]]. unfold whole. win.
    - apply in_flat_map in Hx as [r [H1 H2]]. eapply (part_sub (rule_block d)); [exact rule_scenarios | exact (R r H1) | exact H2]. }
  assert (B : forall x, In x (of_option bg ++ flat_map (fun r => of_option (ru_background r)) rus) -> part_of (background_block d) whole x).
  { intros x Hx. apply in_app_or in Hx as [Hx|Hx].
    - eapply part_in; [|eapply maybe_part; [exact Hb | exact Hx]]. unfold whole. win.
    - apply in_flat_map in Hx as [r [H1 H2]]. eapply (part_sub (rule_block d) _ (fun r => of_option (ru_background r))); [exact rule_background | exact (R r H1) | exact H2]. }
  split; [exact R|]. split; [exact S|]. split; [exact B|]. split.
  - intros x Hx. apply in_app_or in Hx as [Hx|Hx]; apply in_flat_map in Hx as [y [H1 H2]].
    + eapply (part_sub (background_block d)); [exact background_steps | exact (B y H1) | exact H2].
    + eapply (part_sub (scenario_block d)); [exact scenario_steps | exact (S y H1) | exact H2].
  - intros x Hx. apply in_flat_map in Hx as [y [H1 H2]]. eapply (part_sub (scenario_block d)); [exact scenario_examples | exact (S y H1) | exact H2].
Qed.
End D.

(** the feature of a document and its language *)
Lemma stands_feature lang ls f cs : stands_for lang ls (mkGdoc (Some f) cs) -> exists name d, for_name name = Some d /\ fe_language f = Some name /\ part_of (feature_block d name) ls f.
Proof.
  assert (L : forall d name ls f cs, feature_block d name ls f cs -> fe_language f = Some name).
  { intros d name ls' f' cs' [tl [l [dl [bl [sl [rl [tags [kw [nm [desc [bg [scs [rus [cs0 [cs1 [cs2 [cs3 [cs4 [_ [_ [_ [_ [_ [_ [_ [_ ->]]]]]]]]]]]]]]]]]]]]]]]]]]. reflexivity. }
  intros [[c [_ H]]|[Q|Q]]; [discriminate H| |].
  - destruct Q as [pre [fl [d [f' [cs0 [cs1 [-> [P [D [F E]]]]]]]]]]. injection E as <- _. exists lang, d. split; [exact D|]. split; [eapply L; eauto|]. exists fl, cs1. split; [win | exact F].
  - destruct Q as [pre [h [mid [fl [name [d [f' [cs0 [cs1 [cs2 [-> [P [L1 [L2 [L3 [F E]]]]]]]]]]]]]]]]. injection E as <- _. exists name, d. split; [exact L2|]. split; [eapply L; eauto|]. exists fl, cs2. split; [win | exact F].
Qed.
