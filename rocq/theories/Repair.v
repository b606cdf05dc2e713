(** * A text with ragged tables, and the text with the first row of each table repeated *)
From Verif Require Import PyStr PyStrFacts Types Line DialectData Matcher Ast LineSpec LangSpec DocSpec PartsSpec RaggedSpec.

Definition is_row (x : str) : Prop := exists items, row_line x items.
Definition swap (l l' : nline) : Prop := fst l = fst l' /\ (snd l = snd l' \/ (is_row (snd l) /\ is_row (snd l'))).
Lemma swap_refl l : swap l l.
Proof. split; auto. Qed.
Lemma swaps_refl ls : Forall2 swap ls ls.
Proof. induction ls; constructor; [apply swap_refl | assumption]. Qed.

Definition lineno (r : row) : nat := l_line (row_loc r).
Definition tab_lines (ts : list (list row)) : list (list nat) := map (map lineno) ts.
Definition lifts {A} (P Q : list nline -> A -> list comment -> Prop) (f : A -> list (list row)) : Prop :=
  forall ls x cs, P ls x cs -> exists ls' x', Forall2 swap ls ls' /\ Q ls' x' cs /\ tab_lines (f x') = tab_lines (f x).

Lemma lifts_blocks {A} (P Q : list nline -> A -> list comment -> Prop) f : lifts P Q f -> lifts (blocks P) (blocks Q) (flat_map f).
Proof.
  intros H ls xs cs B. induction B as [|ls1 x cs1 ls2 xs cs2 B1 B2 IH].
  - exists [], []. repeat constructor.
  - destruct (H _ _ _ B1) as [l1 [x' [F1 [Q1 E1]]]]. destruct IH as [l2 [xs' [F2 [Q2 E2]]]]. exists (l1 ++ l2), (x' :: xs'). split; [now apply Forall2_app|].
    split; [now constructor|]. cbn [flat_map]. unfold tab_lines in *. rewrite !map_app. congruence.
Qed.
Lemma lifts_maybe {A} (P Q : list nline -> A -> list comment -> Prop) f : lifts P Q f ->
  lifts (maybe P) (maybe Q) (fun o => match o with Some a => f a | None => [] end).
Proof.
  intros H ls [a|] cs B; cbn [maybe] in B.
  - destruct (H _ _ _ B) as [l' [a' [F [Q1 E]]]]. exists l', (Some a'). auto.
  - destruct B as [-> ->]. exists [], None. repeat split. constructor.
Qed.

(** ** Rows *)
Lemma lift_rows x0 items0 ls rs cs : row_line x0 items0 -> row_lines ls rs cs ->
  exists ls' rs', Forall2 swap ls ls' /\ row_lines ls' rs' cs /\ map lineno rs' = map lineno rs /\ Forall (fun r => length (row_cells r) = length items0) rs'.
Proof.
  intros Hx H. induction H as [|l ls r rs cs H H0 IH|l ls rs cs H H0 IH|l ls rs cs H H0 IH].
  - exists [], []. repeat constructor.
  - destruct IH as [ls' [rs' [F [R [E W]]]]]. destruct l as [n x]. destruct H as [items [Hr ->]].
    exists ((n, x0) :: ls'), (mkRow 0 (here (n, x0)) (map (fun i => mkCell (at_col (n, x0) (i_column i)) (i_text i)) items0) :: rs').
    split; [constructor; [split; [reflexivity | right; split; [exists items | exists items0]; assumption] | exact F]|].
    split; [constructor; [exists items0; auto | exact R]|]. split; [cbn; now f_equal|]. constructor; [cbn; apply map_length | exact W].
  - destruct IH as [ls' [rs' [F [R [E W]]]]]. exists (l :: ls'), rs'. split; [constructor; [apply swap_refl | exact F]|]. split; [now constructor | auto].
  - destruct IH as [ls' [rs' [F [R [E W]]]]]. exists (l :: ls'), rs'. split; [constructor; [apply swap_refl | exact F]|]. split; [now constructor | auto].
Qed.
Lemma lift_table l ls rows cs : rows_block (l :: ls) rows cs ->
  exists ls' rows', Forall2 swap ls ls' /\ table_block (l :: ls') rows' cs /\ map lineno rows' = map lineno rows /\ rows <> [] /\ rows' <> [].
Proof.
  intros [l0 [ls0 [r [rs [E [Hr [Hl ->]]]]]]]. injection E as <- <-. destruct Hr as [items [Hi Er]].
  destruct (lift_rows _ _ _ _ _ Hi Hl) as [ls' [rs' [F [R [E W]]]]]. exists ls', (r :: rs'). split; [exact F|]. split; [|split; [cbn; now f_equal | split; discriminate]]. split.
  - exists l, ls', r, rs'. split; [reflexivity|]. split; [exists items; auto|]. auto.
  - assert (Q : forall r', In r' (r :: rs') -> length (row_cells r') = length items).
    { intros r' [<-|H]; [rewrite Er; cbn; apply map_length|]. rewrite Forall_forall in W. now apply W. }
    intros r1 r2 H1 H2. now rewrite (Q r1 H1), (Q r2 H2).
Qed.

(** ** Elements *)
Ltac swaps := repeat first [apply Forall2_app | assumption | apply swaps_refl | constructor; [apply swap_refl|]].
Lemma lift_step d : lifts (step_with rows_block d) (step_block d) step_tabs.
Proof.
  intros ls x cs [l [noise [arg [kw [text [a [cs1 [cs2 [-> [Hl [Hn [Ha [-> ->]]]]]]]]]]]]].
  assert (Q : exists arg' a', Forall2 swap arg arg' /\ argument_block arg' a' cs2 /\
     tab_lines (match a' with ATable t => [dt_rows t] | _ => [] end) = tab_lines (match a with ATable t => [dt_rows t] | _ => [] end)).
  { destruct Ha as [[-> [-> ->]]|[[l0 [ls' [rows [-> [Ht ->]]]]]|[ds [Hd ->]]]].
    - exists [], ANone. split; [constructor|]. split; [now left | reflexivity].
    - destruct (lift_table _ _ _ _ Ht) as [ls2 [rows' [F [T [E _]]]]]. exists (l0 :: ls2), (ATable (mkTable (here l0) rows')). split; [swaps|]. split; [right; left; eauto 8|]. cbn. now rewrite E.
    - exists arg, (ADoc ds). split; [apply swaps_refl|]. split; [right; right; eauto | reflexivity]. }
  destruct Q as [arg' [a' [F [B E]]]]. exists (l :: noise ++ arg'), (mkStep 0 (here l) (Some kw) (Some (step_type d kw)) (Some text) a').
  split; [swaps|]. split; [|exact E]. exists l, noise, arg', kw, text, a', cs1, cs2. auto 10.
Qed.
Lemma lift_background d : lifts (background_with rows_block d) (background_block d) (fun b => background_tabs (Some b)).
Proof.
  intros ls x cs [l [dl [sl [kw [name [desc [steps [cs1 [cs2 [-> [Ht [Hd [Hs [-> ->]]]]]]]]]]]]]].
  destruct (lifts_blocks _ _ _ (lift_step d) _ _ _ Hs) as [sl' [steps' [F [B E]]]].
  exists (l :: dl ++ sl'), (mkBackground 0 (here l) (Some kw) (Some name) desc steps'). split; [swaps|]. split; [|exact E]. exists l, dl, sl', kw, name, desc, steps', cs1, cs2. auto 10.
Qed.
Lemma lift_maybe_background d : lifts (maybe (background_with rows_block d)) (maybe (background_block d)) background_tabs.
Proof.
  intros ls o cs H. destruct (lifts_maybe _ _ _ (lift_background d) _ _ _ H) as [ls' [o' [F [B E]]]]. exists ls', o'. split; [exact F|]. split; [exact B|]. destruct o, o'; exact E.
Qed.
Lemma lift_examples d : lifts (examples_with rows_block d) (examples_block d) examples_tabs.
Proof.
  intros ls x cs [tl [l [dl [rl [tags [kw [name [desc [rows [cs0 [cs1 [cs2 [-> [Htg [Ht [Hd [Hr [-> ->]]]]]]]]]]]]]]]]]].
  assert (Q : exists rl' rows', Forall2 swap rl rl' /\ maybe table_block rl' rows' cs2 /\
     tab_lines (examples_tabs (mkExamples 0 tags (here l) (Some kw) (Some name) desc (match rows' with Some (h :: _) => Some h | _ => None end) (match rows' with Some (_ :: b) => b | _ => [] end))) =
     tab_lines (examples_tabs (mkExamples 0 tags (here l) (Some kw) (Some name) desc (match rows with Some (h :: _) => Some h | _ => None end) (match rows with Some (_ :: b) => b | _ => [] end)))).
  { destruct rows as [rows|]; cbn [maybe] in Hr.
    - assert (exists l0 ls0, rl = l0 :: ls0) as [l0 [ls0 ->]] by (destruct Hr as [l0 [ls0 [? [? [-> _]]]]]; eauto).
      destruct (lift_table _ _ _ _ Hr) as [ls2 [rows' [F [T [E [N1 N2]]]]]]. exists (l0 :: ls2), (Some rows'). split; [swaps|]. split; [exact T|].
      destruct rows as [|h b]; [contradiction|]. destruct rows' as [|h' b']; [contradiction|]. cbn. cbn in E. congruence.
    - destruct Hr as [-> ->]. exists [], None. split; [constructor|]. split; [now split | reflexivity]. }
  destruct Q as [rl' [rows' [F [B E]]]]. eexists (tl ++ l :: dl ++ rl'), _. split; [swaps|]. split; [|exact E]. exists tl, l, dl, rl', tags, kw, name, desc, rows', cs0, cs1, cs2. auto 10.
Qed.
Lemma lift_scenario d : lifts (scenario_with rows_block d) (scenario_block d) scenario_tabs.
Proof.
  intros ls x cs [tl [l [dl [sl [el [tags [kw [name [desc [steps [exs [cs0 [cs1 [cs2 [cs3 [-> [Htg [Ht [Hd [Hs [He [-> ->]]]]]]]]]]]]]]]]]]]]]].
  destruct (lifts_blocks _ _ _ (lift_step d) _ _ _ Hs) as [sl' [steps' [F [B E]]]]. destruct (lifts_blocks _ _ _ (lift_examples d) _ _ _ He) as [el' [exs' [F2 [B2 E2]]]].
  exists (tl ++ l :: dl ++ sl' ++ el'), (mkScenario 0 tags (here l) (Some kw) (Some name) desc steps' exs'). split; [swaps|].
  split; [exists tl, l, dl, sl', el', tags, kw, name, desc, steps', exs', cs0, cs1, cs2, cs3; auto 12|]. unfold scenario_tabs, tab_lines in *. cbn. rewrite !map_app. congruence.
Qed.
Lemma lift_rule d : lifts (rule_with rows_block d) (rule_block d) rule_tabs.
Proof.
  intros ls x cs [tl [l [dl [bl [sl [tags [kw [name [desc [bg [scs [cs0 [cs1 [cs2 [cs3 [-> [Htg [Ht [Hd [Hb [Hs [-> ->]]]]]]]]]]]]]]]]]]]]]].
  destruct (lift_maybe_background d _ _ _ Hb) as [bl' [bg' [F [B E]]]]. destruct (lifts_blocks _ _ _ (lift_scenario d) _ _ _ Hs) as [sl' [scs' [F2 [B2 E2]]]].
  exists (tl ++ l :: dl ++ bl' ++ sl'), (mkRule 0 tags (here l) (Some kw) (Some name) desc bg' scs'). split; [swaps|].
  split; [exists tl, l, dl, bl', sl', tags, kw, name, desc, bg', scs', cs0, cs1, cs2, cs3; auto 12|]. unfold rule_tabs, tab_lines in *. cbn. rewrite !map_app. congruence.
Qed.
Lemma lift_feature d lang : lifts (feature_with rows_block d lang) (feature_block d lang) feature_tabs.
Proof.
  intros ls x cs [tl [l [dl [bl [sl [rl [tags [kw [name [desc [bg [scs [rus [cs0 [cs1 [cs2 [cs3 [cs4 [-> [Htg [Ht [Hd [Hb [Hs [Hr [-> ->]]]]]]]]]]]]]]]]]]]]]]]]]].
  destruct (lift_maybe_background d _ _ _ Hb) as [bl' [bg' [F [B E]]]]. destruct (lifts_blocks _ _ _ (lift_scenario d) _ _ _ Hs) as [sl' [scs' [F2 [B2 E2]]]].
  destruct (lifts_blocks _ _ _ (lift_rule d) _ _ _ Hr) as [rl' [rus' [F3 [B3 E3]]]].
  exists (tl ++ l :: dl ++ bl' ++ sl' ++ rl'), (mkFeature tags (here l) (Some lang) (Some kw) (Some name) desc bg' scs' rus'). split; [swaps|].
  split; [exists tl, l, dl, bl', sl', rl', tags, kw, name, desc, bg', scs', rus', cs0, cs1, cs2, cs3, cs4; auto 14|]. unfold feature_tabs, tab_lines in *. cbn. rewrite !map_app. congruence.
Qed.
(** the repaired text *)
Theorem repaired lang ls doc : stands_with rows_block lang ls doc ->
  exists ls' doc', Forall2 swap ls ls' /\ stands_for lang ls' doc' /\ tab_lines (document_tabs doc') = tab_lines (document_tabs doc) /\ gd_comments doc' = gd_comments doc.
Proof.
  intros [[cs [P ->]]|[Q|Q]]; [|destruct Q as [pre [fl [d [f [cs0 [cs1 [-> [P [D [F ->]]]]]]]]]]|destruct Q as [pre [h [mid [fl [name [d [f [cs0 [cs1 [cs2 [-> [P [L1 [L2 [L3 [F ->]]]]]]]]]]]]]]]]].
  - exists ls, (mkGdoc None cs). split; [apply swaps_refl|]. split; [left; eauto | auto].
  - destruct (lift_feature _ _ _ _ _ F) as [fl' [f' [S1 [B E]]]]. exists (pre ++ fl'), (mkGdoc (Some f') (cs0 ++ cs1)). split; [swaps|]. split; [right; left; eauto 12 | auto].
  - destruct (lift_feature _ _ _ _ _ F) as [fl' [f' [S1 [B E]]]]. exists (pre ++ h :: mid ++ fl'), (mkGdoc (Some f') (cs0 ++ cs1 ++ cs2)). split; [swaps|].
    split; [right; right; exists pre, h, mid, fl', name, d, f', cs0, cs1, cs2; auto 12 | auto].
Qed.

(** ** The rows of a text *)
Definition from_line (ls : list nline) (r : row) : Prop := exists l, In l ls /\ row_at_line l r.
Definition tabs_from {A} (P : list nline -> A -> list comment -> Prop) (f : A -> list (list row)) : Prop :=
  forall ls x cs, P ls x cs -> Forall (fun t => t <> [] /\ Forall (from_line ls) t) (f x).
Lemma from_in ls ls' r : incl ls ls' -> from_line ls r -> from_line ls' r.
Proof. intros H [l [H1 H2]]. exists l. split; [now apply H | exact H2]. Qed.
Lemma tabs_in ls ls' (ts : list (list row)) : incl ls ls' -> Forall (fun t => t <> [] /\ Forall (from_line ls) t) ts -> Forall (fun t => t <> [] /\ Forall (from_line ls') t) ts.
Proof. intros H. apply Forall_impl. intros t [N F]. split; [exact N|]. eapply Forall_impl; [|exact F]. intros r. now apply from_in. Qed.
Lemma tabs_blocks {A} (P : list nline -> A -> list comment -> Prop) f : tabs_from P f -> tabs_from (blocks P) (flat_map f).
Proof.
  intros H ls xs cs B. induction B as [|ls1 x cs1 ls2 xs cs2 B1 B2 IH]; [constructor|]. cbn [flat_map]. apply Forall_app. split.
  - eapply tabs_in; [|eapply H; eauto]. intros l Hl. apply in_or_app. now left.
  - eapply tabs_in; [|exact IH]. intros l Hl. apply in_or_app. now right.
Qed.
Lemma row_lines_from ls rs cs : row_lines ls rs cs -> Forall (from_line ls) rs.
Proof.
  induction 1 as [|l ls r rs cs H H0 IH|l ls rs cs H H0 IH|l ls rs cs H H0 IH]; [constructor|constructor| |].
  - exists l. split; [now left | exact H].
  - eapply Forall_impl; [|exact IH]. intros r'. apply from_in. now right.
  - eapply Forall_impl; [|exact IH]. intros r'. apply from_in. now right.
  - eapply Forall_impl; [|exact IH]. intros r'. apply from_in. now right.
Qed.
Lemma rows_from ls rows cs : rows_block ls rows cs -> rows <> [] /\ Forall (from_line ls) rows.
Proof.
  intros [l [ls' [r [rs [-> [Hr [Hl ->]]]]]]]. split; [discriminate|]. constructor; [exists l; split; [now left | exact Hr]|].
  eapply Forall_impl; [|eapply row_lines_from; exact Hl]. intros r'. apply from_in. now right.
Qed.
Ltac inc := intros ?l ?Hl; rewrite ?in_app_iff; cbn [In]; rewrite ?in_app_iff; auto 10.
Lemma step_from d : tabs_from (step_with rows_block d) step_tabs.
Proof.
  intros ls x cs [l [noise [arg [kw [text [a [cs1 [cs2 [-> [Hl [Hn [Ha [-> ->]]]]]]]]]]]]]. unfold step_tabs. cbn [st_arg].
  destruct Ha as [[-> [-> ->]]|[[l0 [ls' [rows [-> [Ht ->]]]]]|[ds [Hd ->]]]]; [constructor| |constructor].
  constructor; [|constructor]. destruct (rows_from _ _ _ Ht) as [N F]. split; [exact N|]. cbn [dt_rows]. eapply Forall_impl; [|exact F]. intros r. apply from_in. inc.
Qed.
Lemma background_from d : tabs_from (maybe (background_with rows_block d)) background_tabs.
Proof.
  intros ls [b|] cs; [|constructor]. cbn [maybe background_tabs]. intros [l [dl [sl [kw [name [desc [steps [cs1 [cs2 [-> [Ht [Hd [Hs [-> ->]]]]]]]]]]]]]]. cbn [bg_steps].
  eapply tabs_in; [|eapply (tabs_blocks _ _ (step_from d)); exact Hs]. inc.
Qed.
Lemma examples_from d : tabs_from (examples_with rows_block d) examples_tabs.
Proof.
  intros ls x cs [tl [l [dl [rl [tags [kw [name [desc [rows [cs0 [cs1 [cs2 [-> [Htg [Ht [Hd [Hr [-> ->]]]]]]]]]]]]]]]]]]. unfold examples_tabs. cbn [ex_header ex_body].
  destruct rows as [[|h b]|]; try constructor; [|constructor]. cbn [maybe] in Hr. destruct (rows_from _ _ _ Hr) as [N F]. split; [discriminate|]. eapply Forall_impl; [|exact F]. intros r. apply from_in. inc.
Qed.
Lemma scenario_from d : tabs_from (scenario_with rows_block d) scenario_tabs.
Proof.
  intros ls x cs [tl [l [dl [sl [el [tags [kw [name [desc [steps [exs [cs0 [cs1 [cs2 [cs3 [-> [Htg [Ht [Hd [Hs [He [-> ->]]]]]]]]]]]]]]]]]]]]]]. unfold scenario_tabs. cbn [sc_steps sc_examples]. apply Forall_app. split.
  - eapply tabs_in; [|eapply (tabs_blocks _ _ (step_from d)); exact Hs]. inc.
  - eapply tabs_in; [|eapply (tabs_blocks _ _ (examples_from d)); exact He]. inc.
Qed.
Lemma rule_from d : tabs_from (rule_with rows_block d) rule_tabs.
Proof.
  intros ls x cs [tl [l [dl [bl [sl [tags [kw [name [desc [bg [scs [cs0 [cs1 [cs2 [cs3 [-> [Htg [Ht [Hd [Hb [Hs [-> ->]]]]]]]]]]]]]]]]]]]]]]. unfold rule_tabs. cbn [ru_background ru_scenarios]. apply Forall_app. split.
  - eapply tabs_in; [|eapply background_from; exact Hb]. inc.
  - eapply tabs_in; [|eapply (tabs_blocks _ _ (scenario_from d)); exact Hs]. inc.
Qed.
Lemma feature_from d lang : tabs_from (feature_with rows_block d lang) feature_tabs.
Proof.
  intros ls x cs [tl [l [dl [bl [sl [rl [tags [kw [name [desc [bg [scs [rus [cs0 [cs1 [cs2 [cs3 [cs4 [-> [Htg [Ht [Hd [Hb [Hs [Hr [-> ->]]]]]]]]]]]]]]]]]]]]]]]]]].
  unfold feature_tabs. cbn [fe_background fe_scenarios fe_rules]. apply Forall_app. split; [|apply Forall_app; split].
  - eapply tabs_in; [|eapply background_from; exact Hb]. inc.
  - eapply tabs_in; [|eapply (tabs_blocks _ _ (scenario_from d)); exact Hs]. inc.
  - eapply tabs_in; [|eapply (tabs_blocks _ _ (rule_from d)); exact Hr]. inc.
Qed.
Theorem document_from lang ls doc : stands_with rows_block lang ls doc -> Forall (fun t => t <> [] /\ Forall (from_line ls) t) (document_tabs doc).
Proof.
  intros [[cs [P ->]]|[Q|Q]]; [|destruct Q as [pre [fl [d [f [cs0 [cs1 [-> [P [D [F ->]]]]]]]]]]|destruct Q as [pre [h [mid [fl [name [d [f [cs0 [cs1 [cs2 [-> [P [L1 [L2 [L3 [F ->]]]]]]]]]]]]]]]]]; unfold document_tabs; cbn [gd_feature]; [constructor| |].
  - eapply tabs_in; [|eapply feature_from; exact F]. inc.
  - eapply tabs_in; [|eapply feature_from; exact F]. inc.
Qed.
