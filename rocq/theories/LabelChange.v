(** * A tag line before a title, block by block (for C94) *)
From Verif Require Import PyStr PyStrFacts Types Regex Line DialectData Matcher Ast Parser Compiler Scan LineSpec LangSpec DocSpec PartsSpec PropLine PickleSpec EssenceSpec MiddleSpec Renumber ExampleSpec ExampleChange PartSpec PartChange TitleSpec LabelSpec.

Lemma sides n (a b c : list nline) : NoDup (nums (a ++ b ++ c)) -> In n (nums b) -> ~ In n (nums a) /\ ~ In n (nums c).
Proof.
  intros N H. rewrite !nums_app in N. apply nodup_app in N as [_ [N N1]]. apply nodup_app in N as [_ [_ N2]]. split; [intros K; apply (N1 n K); apply in_or_app; now left | intros K; eauto].
Qed.
Lemma title_out n (a : list nline) l c : ~ In n (nums (a ++ l :: c)) -> (fst l =? n) = false.
Proof. intros K. apply Nat.eqb_neq. intros E. apply K. rewrite nums_app. apply in_or_app. right. left. exact E. Qed.
Section Label.
Context (n : nat) (new : nline) (tags' : list tag) (T : tags_at_line new tags') (d : dialect).
Notation bl := (before_line n new).
Notation other := (before_other n new).
Notation Qex := (fun e => l_line (ex_loc e) = n).
Lemma examples_label : changes n bl (examples_block d) Qex (label_examples n tags').
Proof.
  intros ls ex cs [tl [l [dl [rl [tags [kw' [nm [desc [rows [c0 [c1 [c2 [-> [H0 [H1 [H2 [H3 [-> ->]]]]]]]]]]]]]]]]]].
  change (tl ++ l :: dl ++ rl) with (tl ++ [l] ++ dl ++ rl). unfold label_examples, if_here. cbn [ex_loc here l_line ex_id ex_tags ex_keyword ex_name ex_desc ex_header ex_body]. split; [|split].
  - intros K. apply in_mid. left. exact K.
  - intros K. now rewrite (title_out n tl l _ K).
  - intros N K. destruct (chg_mid n bl other _ _ _ N (or_introl K)) as [G _]. rewrite G. cbn [flat_map]. rewrite (before_here n new l K), (proj2 (Nat.eqb_eq _ _) K).
    exists (tl ++ [new]), l, dl, rl, (tags ++ tags'), kw', nm, desc, rows, c0, c1, c2. split; [repeat (rewrite <- app_assoc; cbn [app]); reflexivity|]. split; [now apply tags_block_more|]. repeat (split; [assumption|]). split; reflexivity.
Qed.
Notation Qsc := (fun x => l_line (sc_loc x) = n \/ Exists Qex (sc_examples x)).
Lemma scenario_label : changes n bl (scenario_block d) Qsc (label_scenario n tags').
Proof.
  intros ls x cs [tl [l [dl [sl [el [tags [kw [name [desc [steps [exs [c0 [c1 [c2 [c3 [-> [H0 [H1 [H2 [H3 [H4 [-> ->]]]]]]]]]]]]]]]]]]]]]].
  destruct (blocks_change n bl other _ _ _ examples_label _ _ _ H4) as [F1 [F2 F3]].
  assert (Z : tl ++ l :: dl ++ sl ++ el = (tl ++ l :: dl ++ sl) ++ el ++ []) by (rewrite app_nil_r; repeat (rewrite <- app_assoc; cbn [app]); reflexivity).
  unfold label_scenario, if_here. cbn [sc_loc here l_line sc_id sc_tags sc_keyword sc_name sc_desc sc_steps sc_examples]. split; [|split].
  - intros [K|K]; [apply (in_mid n tl [l]); left; exact K | rewrite Z; apply in_mid, F1, K].
  - intros K. rewrite (title_out n tl l _ K). rewrite Z in K. apply out_mid in K. now rewrite F2.
  - intros N [K|K].
    + change (tl ++ l :: dl ++ sl ++ el) with (tl ++ [l] ++ dl ++ sl ++ el) in *. destruct (chg_mid n bl other _ _ _ N (or_introl K)) as [G _]. destruct (sides n _ _ _ N (or_introl K)) as [_ O]. rewrite G. cbn [flat_map]. rewrite (before_here n new l K), (proj2 (Nat.eqb_eq _ _) K).
      rewrite F2 by (intros J; apply O; rewrite !nums_app; apply in_or_app; right; apply in_or_app; now right).
      exists (tl ++ [new]), l, dl, sl, el, (tags ++ tags'), kw, name, desc, steps, exs, c0, c1, c2, c3. split; [repeat (rewrite <- app_assoc; cbn [app]); reflexivity|]. split; [now apply tags_block_more|]. repeat (split; [assumption|]). split; reflexivity.
    + rewrite Z in N |- *. destruct (chg_mid n bl other _ _ _ N (F1 K)) as [G Nb]. destruct (sides n _ _ _ N (F1 K)) as [O _]. rewrite G, (title_out n tl l (dl ++ sl) O).
      exists tl, l, dl, sl, (flat_map bl el), tags, kw, name, desc, steps, (map (label_examples n tags') exs), c0, c1, c2, c3. split; [rewrite app_nil_r; repeat (rewrite <- app_assoc; cbn [app]); reflexivity|]. do 4 (split; [assumption|]). split; [now apply F3|]. split; reflexivity.
Qed.
Notation Qru := (fun x => l_line (ru_loc x) = n \/ Exists Qsc (ru_scenarios x)).
Lemma rule_label : changes n bl (rule_block d) Qru (label_rule n tags').
Proof.
  intros ls x cs [tl [l [dl [gl [sl [tags [kw [nm [desc [bg [scs [c0 [c1 [c2 [c3 [-> [H0 [H1 [H2 [H3 [H4 [-> ->]]]]]]]]]]]]]]]]]]]]]].
  destruct (blocks_change n bl other _ _ _ scenario_label _ _ _ H4) as [F1 [F2 F3]].
  assert (Z : tl ++ l :: dl ++ gl ++ sl = (tl ++ l :: dl ++ gl) ++ sl ++ []) by (rewrite app_nil_r; repeat (rewrite <- app_assoc; cbn [app]); reflexivity).
  unfold label_rule, if_here. cbn [ru_loc here l_line ru_id ru_tags ru_keyword ru_name ru_desc ru_background ru_scenarios]. split; [|split].
  - intros [K|K]; [apply (in_mid n tl [l]); left; exact K | rewrite Z; apply in_mid, F1, K].
  - intros K. rewrite (title_out n tl l _ K). rewrite Z in K. apply out_mid in K. now rewrite F2.
  - intros N [K|K].
    + change (tl ++ l :: dl ++ gl ++ sl) with (tl ++ [l] ++ dl ++ gl ++ sl) in *. destruct (chg_mid n bl other _ _ _ N (or_introl K)) as [G _]. destruct (sides n _ _ _ N (or_introl K)) as [_ O]. rewrite G. cbn [flat_map]. rewrite (before_here n new l K), (proj2 (Nat.eqb_eq _ _) K).
      rewrite F2 by (intros J; apply O; rewrite !nums_app; apply in_or_app; right; apply in_or_app; now right).
      exists (tl ++ [new]), l, dl, gl, sl, (tags ++ tags'), kw, nm, desc, bg, scs, c0, c1, c2, c3. split; [repeat (rewrite <- app_assoc; cbn [app]); reflexivity|]. split; [now apply tags_block_more|]. repeat (split; [assumption|]). split; reflexivity.
    + rewrite Z in N |- *. destruct (chg_mid n bl other _ _ _ N (F1 K)) as [G Nb]. destruct (sides n _ _ _ N (F1 K)) as [O _]. rewrite G, (title_out n tl l (dl ++ gl) O).
      exists tl, l, dl, gl, (flat_map bl sl), tags, kw, nm, desc, bg, (map (label_scenario n tags') scs), c0, c1, c2, c3. split; [rewrite app_nil_r; repeat (rewrite <- app_assoc; cbn [app]); reflexivity|]. do 4 (split; [assumption|]). split; [now apply F3|]. split; reflexivity.
Qed.
Definition label_some (x : feature) : Prop := l_line (fe_loc x) = n \/ Exists Qsc (fe_scenarios x) \/ Exists Qru (fe_rules x).
Lemma feature_label lang : changes n bl (feature_block d lang) label_some (label_feature n tags').
Proof.
  intros ls f cs [tl [l [dl [gl [sl [ul [tags [kw [nm [desc [bg [scs [rus [c0 [c1 [c2 [c3 [c4 [-> [H0 [H1 [H2 [H3 [H4 [H5 [-> ->]]]]]]]]]]]]]]]]]]]]]]]]]].
  destruct (blocks_change n bl other _ _ _ scenario_label _ _ _ H4) as [F1 [F2 F3]]. destruct (blocks_change n bl other _ _ _ rule_label _ _ _ H5) as [R1 [R2 R3]].
  assert (Z : tl ++ l :: dl ++ gl ++ sl ++ ul = (tl ++ l :: dl ++ gl) ++ sl ++ ul) by (repeat (rewrite <- app_assoc; cbn [app]); reflexivity).
  assert (Z' : tl ++ l :: dl ++ gl ++ sl ++ ul = (tl ++ l :: dl ++ gl ++ sl) ++ ul ++ []) by (rewrite app_nil_r; repeat (rewrite <- app_assoc; cbn [app]); reflexivity).
  unfold label_some, label_feature, if_here. cbn [fe_loc here l_line fe_tags fe_language fe_keyword fe_name fe_desc fe_background fe_scenarios fe_rules]. split; [|split].
  - intros [K|[K|K]]; [apply (in_mid n tl [l]); left; exact K | rewrite Z; apply in_mid, F1, K | rewrite Z'; apply in_mid, R1, K].
  - intros K. rewrite (title_out n tl l _ K). pose proof K as K'. rewrite Z in K. rewrite Z' in K'. apply out_mid in K. apply out_mid in K'. now rewrite F2, R2.
  - intros N [K|[K|K]].
    + change (tl ++ l :: dl ++ gl ++ sl ++ ul) with (tl ++ [l] ++ dl ++ gl ++ sl ++ ul) in *. destruct (chg_mid n bl other _ _ _ N (or_introl K)) as [G _]. destruct (sides n _ _ _ N (or_introl K)) as [_ O]. rewrite G. cbn [flat_map]. rewrite (before_here n new l K), (proj2 (Nat.eqb_eq _ _) K).
      rewrite F2 by (intros J; apply O; rewrite !nums_app; apply in_or_app; right; apply in_or_app; right; apply in_or_app; now left).
      rewrite R2 by (intros J; apply O; rewrite !nums_app; apply in_or_app; right; apply in_or_app; right; apply in_or_app; now right).
      exists (tl ++ [new]), l, dl, gl, sl, ul, (tags ++ tags'), kw, nm, desc, bg, scs, rus, c0, c1, c2, c3, c4. split; [repeat (rewrite <- app_assoc; cbn [app]); reflexivity|]. split; [now apply tags_block_more|]. repeat (split; [assumption|]). split; reflexivity.
    + rewrite Z in N |- *. destruct (chg_mid n bl other _ _ _ N (F1 K)) as [G Nb]. destruct (sides n _ _ _ N (F1 K)) as [O O']. rewrite G, (title_out n tl l (dl ++ gl) O), (R2 O').
      exists tl, l, dl, gl, (flat_map bl sl), ul, tags, kw, nm, desc, bg, (map (label_scenario n tags') scs), rus, c0, c1, c2, c3, c4. split; [repeat (rewrite <- app_assoc; cbn [app]); reflexivity|]. do 4 (split; [assumption|]). split; [now apply F3|]. split; [assumption|]. split; reflexivity.
    + rewrite Z' in N |- *. destruct (chg_mid n bl other _ _ _ N (R1 K)) as [G Nb]. destruct (sides n _ _ _ N (R1 K)) as [O _]. rewrite G, (title_out n tl l (dl ++ gl ++ sl) O).
      rewrite F2 by (intros J; apply O; rewrite nums_app; apply in_or_app; right; right; rewrite !map_app; apply in_or_app; right; apply in_or_app; now right).
      exists tl, l, dl, gl, sl, (flat_map bl ul), tags, kw, nm, desc, bg, scs, (map (label_rule n tags') rus), c0, c1, c2, c3, c4. split; [rewrite app_nil_r; repeat (rewrite <- app_assoc; cbn [app]); reflexivity|]. do 5 (split; [assumption|]). split; [now apply R3|]. split; reflexivity.
Qed.
End Label.
