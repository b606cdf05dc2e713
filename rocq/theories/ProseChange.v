(** * A line of description after a title, block by block (for C96) *)
From Verif Require Import PyStr PyStrFacts Types Regex Line DialectData Matcher Ast Parser Compiler Scan LineSpec LangSpec DocSpec PartsSpec PropLine PickleSpec EssenceSpec MiddleSpec Renumber ExampleSpec ExampleChange PartSpec PartChange TitleSpec LabelChange ProseSpec.

(** ** Lines and texts *)
Lemma join_flat c (l : list str) w : join [c] (w :: l) = w ++ flat_map (cons c) l.
Proof. revert w. induction l as [|y l IH]; intros w; [symmetry; apply app_nil_r|]. change (join [c] (w :: y :: l)) with (w ++ [c] ++ join [c] (y :: l)). rewrite IH. reflexivity. Qed.
Lemma space_app x y : all_space x -> all_space y -> all_space (x ++ y).
Proof. unfold all_space. intros H K. rewrite forallb_app, H, K. reflexivity. Qed.
Lemma rstrip_by_prefix p x : exists e, x = rstrip_by p x ++ e.
Proof. unfold rstrip_by. assert (D : forall y, exists e, y = e ++ drop_while p y) by (induction y as [|c y [e E]]; [now exists [] | cbn [drop_while]; destruct (p c); [exists (c :: e); cbn; now rewrite <- E | now exists []]]). destruct (D (rev x)) as [e E]. exists (rev e). rewrite <- rev_app_distr, <- E. symmetry. apply rev_involutive. Qed.
Lemma space_eol x : all_space x -> all_space (without_eol x).
Proof. unfold all_space. intros H. destruct (rstrip_by_prefix is_crlf x) as [e E]. rewrite E, forallb_app in H. apply andb_prop in H. exact (proj1 H). Qed.
Lemma space_lines (ts : list str) : Forall all_space ts -> all_space (flat_map (cons ch_nl) ts).
Proof. induction 1 as [|t ts H _ IH]; [reflexivity|]. cbn [flat_map]. apply space_app; [|exact IH]. unfold all_space in *. cbn [forallb]. now rewrite H. Qed.
Lemma first_text (w : str) ts : w <> [] -> Forall all_space ts -> exists body last empties mid, w :: ts = body ++ [last] ++ empties /\ last <> [] /\ Forall (fun x => x = []) empties /\ join [ch_nl] (body ++ [last]) = w ++ mid /\ all_space mid.
Proof.
  intros W. induction ts as [|z ts IH] using rev_ind; intros H.
  - exists [], w, [], []. repeat split; auto. symmetry. apply app_nil_r.
  - apply Forall_app in H as [H1 H2]. destruct z as [|c z].
    + destruct (IH H1) as [body [last [em [mid [E [L [F [J M]]]]]]]]. exists body, last, (em ++ [[]]), mid. split; [|repeat split; auto; apply Forall_app; auto]. change (w :: ts ++ [[]]) with ((w :: ts) ++ [[]]). rewrite E, <- !app_assoc. reflexivity.
    + exists (w :: ts), (c :: z), [], (flat_map (cons ch_nl) (ts ++ [c :: z])). split; [reflexivity|]. split; [discriminate|]. split; [constructor|]. split; [change ((w :: ts) ++ [c :: z]) with (w :: ts ++ [c :: z]); apply join_flat|]. apply space_lines, Forall_app. auto.
Qed.
Lemma lstrip_space x : all_space x -> lstrip x = [].
Proof. unfold all_space, lstrip. induction x as [|c x IH]; [reflexivity|]. cbn [forallb]. intros H. apply andb_prop in H as [H1 H2]. cbn [lstrip_by drop_while]. unfold lstrip_by in *. cbn [drop_while]. rewrite H1. exact (IH H2). Qed.
Lemma blank_goes_on d p x : Forall (fun k => k <> []) (all_step_keywords d) -> all_space x -> ~ ends_description d p x.
Proof.
  intros K H. apply lstrip_space in H. assert (T : forall kws, ~ is_title kws x) by (intros kws [kw [nm [_ [rest [E _]]]]]; rewrite H in E; destruct kw; discriminate E).
  assert (B : forall c, ~ begins [c] x) by (intros c E; unfold begins in E; rewrite H in E; discriminate E).
  assert (St : ~ is_step d x). { intros [kw [text [b [a [rest [E [_ [L _]]]]]]]]. rewrite H in L. destruct kw; [|discriminate L]. rewrite Forall_forall in K. apply (K []); [rewrite E; apply in_or_app; right; now left | reflexivity]. }
  unfold ends_description. intros [E|[E|[E|[E|E]]]]; try (now apply (B _ E)); try (now apply (T _ E)). destruct p; [now apply (T _ E) | now apply St | destruct E as [E|E]; [now apply St | now apply (T _ E)] | destruct E as [E|E]; [now apply (B _ E) | now apply (T _ E)]].
Qed.
(** a description with one more line at its beginning *)
Lemma description_more d p (new : nline) dl desc cs : Forall (fun k => k <> []) (all_step_keywords d) -> without_eol (snd new) <> [] -> ~ blank_line new -> ~ ends_description d p (snd new) -> description_block d p dl desc cs ->
  exists w, all_space w /\ description_block d p (new :: dl) (without_eol (snd new) ++ w ++ desc) cs.
Proof.
  intros Kw W Nb Ne [blanks [lines [rest [-> [H1 [H2 [H3 [H4 H5]]]]]]]].
  assert (Hb : Forall (fun l : nline => ~ ends_description d p (snd l)) blanks) by (eapply Forall_impl; [|exact H1]; intros l Hl; now apply blank_goes_on).
  assert (Hs : Forall all_space (map (fun l : nline => without_eol (snd l)) blanks)) by (apply Forall_map; eapply Forall_impl; [|exact H1]; intros l Hl; now apply space_eol).
  destruct lines as [|l0 lines].
  - subst desc. destruct (first_text (without_eol (snd new)) _ W Hs) as [body [last [em [mid [E [L [F [J M]]]]]]]]. exists mid. split; [exact M|]. rewrite app_nil_r. exists [], (new :: blanks), rest. split; [reflexivity|]. split; [constructor|]. split; [constructor; assumption|].
    split; [|split; assumption]. split; [exact Nb|]. exists body, last, em. split; [exact E|]. split; [exact L|]. split; [exact F | now symmetry].
  - destruct H3 as [H3 [body [last [em [E [L [F J]]]]]]]. exists (flat_map (cons ch_nl) (map (fun l : nline => without_eol (snd l)) blanks) ++ [ch_nl]). split; [apply space_app; [now apply space_lines | reflexivity]|].
    exists [], (new :: blanks ++ l0 :: lines), rest. split; [cbn [app]; now rewrite <- app_assoc|]. split; [constructor|]. split; [constructor; [assumption|]; apply Forall_app; auto|]. split; [|split; assumption]. split; [exact Nb|].
    exists (without_eol (snd new) :: map (fun l : nline => without_eol (snd l)) blanks ++ body), last, em. split; [change (new :: blanks ++ l0 :: lines) with ((new :: blanks) ++ l0 :: lines); rewrite map_app; etransitivity; [apply (f_equal (app _)); exact E|]; cbn [map app]; now rewrite <- app_assoc|]. split; [exact L|]. split; [exact F|].
    cbn [app]. rewrite join_flat, J. f_equal. rewrite <- (app_assoc _ body [last]), flat_map_app, <- app_assoc. f_equal. destruct (body ++ [last]) as [|y ys] eqn:Y; [destruct body; discriminate Y|]. rewrite join_flat. reflexivity.
Qed.

(** ** A line after line [n] *)
Section After.
Context (n : nat) (new : nline) (d : dialect) (Kw : Forall (fun k => k <> []) (all_step_keywords d)) (Nb : ~ blank_line new) (We : without_eol (snd new) <> []).
Definition after_line (l : nline) : list nline := if fst l =? n then [l; new] else [l].
Lemma after_other l : fst l <> n -> after_line l = [l].
Proof. intros H. unfold after_line. destruct (fst l =? n) eqn:E; [apply Nat.eqb_eq in E; contradiction | reflexivity]. Qed.
Lemma after_here l : fst l = n -> after_line l = [l; new].
Proof. intros H. unfold after_line. now rewrite (proj2 (Nat.eqb_eq _ _) H). Qed.
Notation al := after_line.
Notation chg := (flat_map al).
Notation x := (without_eol (snd new)).
Definition adds {A} (B : list nline -> A -> list comment -> Prop) (Q : A -> Prop) (h : str -> A -> A) : Prop := forall ls y cs, B ls y cs ->
  (Q y -> In n (nums ls)) /\ (~ In n (nums ls) -> forall w, h w y = y) /\ (NoDup (nums ls) -> Q y -> exists w, all_space w /\ B (chg ls) (h w y) cs).
Lemma blocks_adds {A} (B : list nline -> A -> list comment -> Prop) Q h : adds B Q h -> adds (blocks B) (Exists Q) (fun w => map (h w)).
Proof.
  intros C ls xs cs H. induction H as [|l1 y c1 l2 xs c2 H H' [I1 [I2 I3]]].
  - split; [intros K; inversion K|]. split; [reflexivity|]. intros _ K. inversion K.
  - destruct (C _ _ _ H) as [C1 [C2 C3]]. rewrite nums_app. split; [|split].
    + intros K. apply in_or_app. inversion K; subst; auto.
    + intros K w. cbn [map]. rewrite C2, I2; [reflexivity | |]; intros J; apply K, in_or_app; auto.
    + intros N K. apply nodup_app in N as [N1 [N2 N3]]. rewrite flat_map_app. cbn [map]. inversion K as [? ? Kx|? ? Kx]; subst.
      * assert (J : ~ In n (nums l2)) by (intros J; eapply N3; eauto). destruct (C3 N1 Kx) as [w [W1 W2]]. exists w. split; [exact W1|]. rewrite (chg_still n al after_other l2 J), (I2 J). constructor; auto.
      * assert (J : ~ In n (nums l1)) by (intros J; eapply N3; eauto). destruct (I3 N2 Kx) as [w [W1 W2]]. exists w. split; [exact W1|]. rewrite (chg_still n al after_other l1 J), (C2 J). constructor; auto.
Qed.
Lemma both_adds {A B} (B1 : list nline -> A -> list comment -> Prop) Q1 h1 (B2 : list nline -> B -> list comment -> Prop) Q2 h2 : adds B1 Q1 h1 -> adds B2 Q2 h2 ->
  adds (both B1 B2) (fun p => Q1 (fst p) \/ Q2 (snd p)) (fun w p => (h1 w (fst p), h2 w (snd p))).
Proof.
  intros C1 C2 ls [y z] cs [l1 [l2 [c1 [c2 [-> [H1 [H2 ->]]]]]]]. cbn [fst snd] in *. destruct (C1 _ _ _ H1) as [A1 [A2 A3]], (C2 _ _ _ H2) as [E1 [E2 E3]]. rewrite nums_app. split; [|split].
  - intros [K|K]; apply in_or_app; auto.
  - intros K w. rewrite A2, E2; [reflexivity | |]; intros J; apply K, in_or_app; auto.
  - intros N K. apply nodup_app in N as [N1 [N2 N3]]. rewrite flat_map_app. destruct K as [K|K].
    + assert (J : ~ In n (nums l2)) by (intros J; eapply N3; eauto). destruct (A3 N1 K) as [w [W1 W2]]. exists w. split; [exact W1|]. rewrite (chg_still n al after_other l2 J), (E2 J). exists (chg l1), l2, c1, c2. cbn [fst snd]. auto.
    + assert (J : ~ In n (nums l1)) by (intros J; eapply N3; eauto). destruct (E3 N2 K) as [w [W1 W2]]. exists w. split; [exact W1|]. rewrite (chg_still n al after_other l1 J), (A2 J). exists l1, (chg l2), c1, c2. cbn [fst snd]. auto.
Qed.
Lemma maybe_adds (B : list nline -> background -> list comment -> Prop) Q h : adds B Q h -> adds (maybe B) (opt_some Q) (fun w => option_map (h w)).
Proof.
  intros C ls [y|] cs H; cbn [maybe opt_some option_map] in *.
  - destruct (C _ _ _ H) as [A1 [A2 A3]]. split; [exact A1|]. split; [intros K w; now rewrite A2 | exact A3].
  - split; [intros []|]. split; [reflexivity | intros _ []].
Qed.
Lemma none_adds {A} (B : list nline -> A -> list comment -> Prop) : adds B (fun _ => False) (fun _ y => y).
Proof. intros ls y cs H. split; [intros []|]. split; [reflexivity | intros _ []]. Qed.
(** a title, a description, and other blocks *)
Lemma title_adds {A} (Rest : list nline -> A -> list comment -> Prop) Q h p tl (l : nline) dl rl desc r c1 c2 : adds Rest Q h -> description_block d p dl desc c1 -> Rest rl r c2 ->
  let P := (fst l = n /\ ~ ends_description d p (snd new)) \/ Q r in let ls := tl ++ l :: dl ++ rl in
  (P -> In n (nums ls)) /\ (~ In n (nums ls) -> forall w, desc_here n x w (here l) desc = desc /\ h w r = r) /\
  (NoDup (nums ls) -> P -> exists w dl' rl', all_space w /\ chg ls = tl ++ l :: dl' ++ rl' /\ description_block d p dl' (desc_here n x w (here l) desc) c1 /\ Rest rl' (h w r) c2).
Proof.
  intros C D H P ls. destruct (C _ _ _ H) as [F1 [F2 F3]]. assert (Z : ls = (tl ++ l :: dl) ++ rl ++ []) by (unfold ls; rewrite app_nil_r, <- app_assoc; reflexivity).
  assert (Z' : ls = tl ++ [l] ++ dl ++ rl) by reflexivity. unfold desc_here. cbn [here l_line]. split; [|split].
  - intros [[K _]|K]; [rewrite Z'; apply in_mid; left; exact K | rewrite Z; apply in_mid, F1, K].
  - intros K w. rewrite (title_out n tl l _ K). rewrite Z in K. apply out_mid in K. split; [reflexivity | now apply F2].
  - intros N [[K Ke]|K].
    + rewrite Z' in N |- *. destruct (chg_mid n al after_other _ _ _ N (or_introl K)) as [G _]. destruct (sides n _ _ _ N (or_introl K)) as [_ O]. destruct (description_more d p new dl desc c1 Kw We Nb Ke D) as [w [W1 W2]].
      exists w, (new :: dl), rl. split; [exact W1|]. split; [rewrite G; cbn [flat_map]; rewrite (after_here l K); reflexivity|]. rewrite (proj2 (Nat.eqb_eq _ _) K). split; [exact W2|].
      rewrite F2 by (intros J; apply O; rewrite nums_app; apply in_or_app; now right). exact H.
    + rewrite Z in N |- *. destruct (chg_mid n al after_other _ _ _ N (F1 K)) as [G M]. destruct (sides n _ _ _ N (F1 K)) as [O _]. destruct (F3 M K) as [w [W1 W2]].
      exists w, dl, (chg rl). split; [exact W1|]. split; [rewrite G, app_nil_r, <- app_assoc; reflexivity|]. rewrite (title_out n tl l dl O). split; [exact D | exact W2].
Qed.
Notation Qb := (fun b => l_line (bg_loc b) = n /\ ~ ends_description d InBackground (snd new)).
Lemma background_adds : adds (background_block d) Qb (fun w => tell_background n x w).
Proof.
  intros ls bg cs [l [dl [sl [kw' [nm [desc [steps [c1 [c2 [-> [H1 [H2 [H3 [-> ->]]]]]]]]]]]]]].
  destruct (title_adds _ _ _ _ [] l dl sl desc steps c1 c2 (none_adds _) H2 H3) as [F1 [F2 F3]]. cbn [app] in *. unfold tell_background. cbn [bg_id bg_loc bg_keyword bg_name bg_desc bg_steps here l_line]. split; [|split].
  - intros K. apply F1. left. exact K.
  - intros K w. destruct (F2 K w) as [E _]. now rewrite E.
  - intros N K. destruct (F3 N (or_introl K)) as [w [dl' [sl' [W [E [D R]]]]]]. exists w. split; [exact W|]. rewrite E. exists l, dl', sl', kw', nm, (desc_here n x w (here l) desc), steps, c1, c2. repeat (split; [assumption || reflexivity|]). reflexivity.
Qed.
Notation Qex := (fun e => l_line (ex_loc e) = n /\ ~ ends_description d InExamples (snd new)).
Lemma examples_adds : adds (examples_block d) Qex (fun w => tell_examples n x w).
Proof.
  intros ls ex cs [tl [l [dl [rl [tags [kw' [nm [desc [rows [c0 [c1 [c2 [-> [H0 [H1 [H2 [H3 [-> ->]]]]]]]]]]]]]]]]]].
  destruct (title_adds _ _ _ _ tl l dl rl desc rows c1 c2 (none_adds _) H2 H3) as [F1 [F2 F3]]. unfold tell_examples. cbn [ex_loc here l_line ex_id ex_tags ex_keyword ex_name ex_desc ex_header ex_body]. split; [|split].
  - intros K. apply F1. left. exact K.
  - intros K w. destruct (F2 K w) as [E _]. now rewrite E.
  - intros N K. destruct (F3 N (or_introl K)) as [w [dl' [rl' [W [E [D R]]]]]]. exists w. split; [exact W|]. rewrite E. exists tl, l, dl', rl', tags, kw', nm, (desc_here n x w (here l) desc), rows, c0, c1, c2. repeat (split; [assumption || reflexivity|]). reflexivity.
Qed.
Notation Qsc := (fun e => l_line (sc_loc e) = n /\ ~ ends_description d InScenario (snd new) \/ Exists Qex (sc_examples e)).
Lemma scenario_adds : adds (scenario_block d) Qsc (fun w => tell_scenario n x w).
Proof.
  intros ls e cs [tl [l [dl [sl [el [tags [kw [name [desc [steps [exs [c0 [c1 [c2 [c3 [-> [H0 [H1 [H2 [H3 [H4 [-> ->]]]]]]]]]]]]]]]]]]]]]].
  assert (Bo : both (blocks (step_block d)) (blocks (examples_block d)) (sl ++ el) (steps, exs) (c2 ++ c3)) by (exists sl, el, c2, c3; auto).
  destruct (title_adds _ _ _ _ tl l dl _ desc _ c1 _ (both_adds _ _ _ _ _ _ (none_adds _) (blocks_adds _ _ _ examples_adds)) H2 Bo) as [F1 [F2 F3]]. cbn [fst snd] in *. unfold tell_scenario. cbn [sc_loc here l_line sc_id sc_tags sc_keyword sc_name sc_desc sc_steps sc_examples]. split; [|split].
  - intros K. apply F1. destruct K as [K|K]; [left; exact K | right; right; exact K].
  - intros K w. destruct (F2 K w) as [E E']. rewrite E. f_equal. congruence.
  - intros N K. destruct (F3 N ltac:(destruct K as [K|K]; [left; exact K | right; right; exact K])) as [w [dl' [rl' [W [E [D [s' [e' [c2' [c3' [Eq [M1 [M2 M3]]]]]]]]]]]]]. cbn [fst snd] in *. exists w. split; [exact W|]. rewrite E, Eq.
    exists tl, l, dl', s', e', tags, kw, name, (desc_here n x w (here l) desc), steps, (map (tell_examples n x w) exs), c0, c1, c2', c3'. split; [reflexivity|]. do 5 (split; [assumption|]). split; [now rewrite M3 | reflexivity].
Qed.
Notation Qru := (fun r => l_line (ru_loc r) = n /\ ~ ends_description d InHeader (snd new) \/ opt_some Qb (ru_background r) \/ Exists Qsc (ru_scenarios r)).
Lemma rule_adds : adds (rule_block d) Qru (fun w => tell_rule n x w).
Proof.
  intros ls r cs [tl [l [dl [bl [sl [tags [kw [nm [desc [bg [scs [c0 [c1 [c2 [c3 [-> [H0 [H1 [H2 [H3 [H4 [-> ->]]]]]]]]]]]]]]]]]]]]]].
  assert (Bo : both (maybe (background_block d)) (blocks (scenario_block d)) (bl ++ sl) (bg, scs) (c2 ++ c3)) by (exists bl, sl, c2, c3; auto).
  destruct (title_adds _ _ _ _ tl l dl _ desc _ c1 _ (both_adds _ _ _ _ _ _ (maybe_adds _ _ _ background_adds) (blocks_adds _ _ _ scenario_adds)) H2 Bo) as [F1 [F2 F3]]. cbn [fst snd] in *. unfold tell_rule. cbn [ru_loc here l_line ru_id ru_tags ru_keyword ru_name ru_desc ru_background ru_scenarios]. split; [|split].
  - intros K. apply F1. exact K.
  - intros K w. destruct (F2 K w) as [E E']. rewrite E. f_equal; congruence.
  - intros N K. destruct (F3 N K) as [w [dl' [rl' [W [E [D [b' [s' [c2' [c3' [Eq [M1 [M2 M3]]]]]]]]]]]]]. cbn [fst snd] in *. exists w. split; [exact W|]. rewrite E, Eq.
    exists tl, l, dl', b', s', tags, kw, nm, (desc_here n x w (here l) desc), (option_map (tell_background n x w) bg), (map (tell_scenario n x w) scs), c0, c1, c2', c3'. split; [reflexivity|]. do 5 (split; [assumption|]). split; [now rewrite M3 | reflexivity].
Qed.
Definition tell_some (f : feature) : Prop := l_line (fe_loc f) = n /\ ~ ends_description d InHeader (snd new) \/ opt_some Qb (fe_background f) \/ Exists Qsc (fe_scenarios f) \/ Exists Qru (fe_rules f).
Lemma feature_adds lang : adds (feature_block d lang) tell_some (fun w => tell_feature n x w).
Proof.
  intros ls f cs [tl [l [dl [bl [sl [ul [tags [kw [nm [desc [bg [scs [rus [c0 [c1 [c2 [c3 [c4 [-> [H0 [H1 [H2 [H3 [H4 [H5 [-> ->]]]]]]]]]]]]]]]]]]]]]]]]]].
  assert (Bo : both (maybe (background_block d)) (both (blocks (scenario_block d)) (blocks (rule_block d))) (bl ++ sl ++ ul) (bg, (scs, rus)) (c2 ++ c3 ++ c4)).
  { exists bl, (sl ++ ul), c2, (c3 ++ c4). split; [reflexivity|]. split; [exact H3|]. split; [|reflexivity]. exists sl, ul, c3, c4. auto. }
  destruct (title_adds _ _ _ _ tl l dl _ desc _ c1 _ (both_adds _ _ _ _ _ _ (maybe_adds _ _ _ background_adds) (both_adds _ _ _ _ _ _ (blocks_adds _ _ _ scenario_adds) (blocks_adds _ _ _ rule_adds))) H2 Bo) as [F1 [F2 F3]]. cbn [fst snd] in *.
  unfold tell_some, tell_feature. cbn [fe_loc here l_line fe_tags fe_language fe_keyword fe_name fe_desc fe_background fe_scenarios fe_rules]. split; [|split].
  - intros K. apply F1. exact K.
  - intros K w. destruct (F2 K w) as [E E']. rewrite E. f_equal; congruence.
  - intros N K. destruct (F3 N K) as [w [dl' [rl' [W [E [D [b' [su' [c2' [c34 [Eq [M1 [[s' [u' [c3' [c4' [Eq2 [M2 [M3 Ec]]]]]]] M4]]]]]]]]]]]]]. cbn [fst snd] in *. exists w. split; [exact W|]. rewrite E, Eq, Eq2.
    exists tl, l, dl', b', s', u', tags, kw, nm, (desc_here n x w (here l) desc), (option_map (tell_background n x w) bg), (map (tell_scenario n x w) scs), (map (tell_rule n x w) rus), c0, c1, c2', c3', c4'. split; [reflexivity|]. do 6 (split; [assumption|]). split; [now rewrite M4, Ec | reflexivity].
Qed.
End After.
