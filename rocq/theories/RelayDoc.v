(** * Laying out a document anew: lemmas for C63 (no modelled code) *)
From Verif Require Import PyStr PyStrFacts Types Regex Line DialectData Matcher Ast Parser Classify Scan LineSpec LangSpec LangFacts DocSpec LineIff CommentSpec PropLine PropParse PropDoc PropLang PropComments WriteSpec WriteRead RelaySpec RelayFacts.

(** ** Where elements begin *)
Lemma in_blocks {A} (block : list nline -> A -> list comment -> Prop) (st : A -> list nat) : (forall ls x cs, block ls x cs -> incl (st x) (map fst ls)) ->
  forall ls xs cs, blocks block ls xs cs -> incl (flat_map st xs) (map fst ls).
Proof. intros H ls xs cs B. induction B as [|l1 x c1 l2 xs c2 B1 B2 IH]; [apply incl_refl|]. cbn [flat_map]. rewrite map_app. apply incl_app; [apply incl_appl; eauto | apply incl_appr, IH]. Qed.
Lemma in_maybe {A} (block : list nline -> A -> list comment -> Prop) (st : A -> list nat) : (forall ls x cs, block ls x cs -> incl (st x) (map fst ls)) ->
  forall ls x cs, maybe block ls x cs -> incl (opt_starts st x) (map fst ls).
Proof. intros H ls [x|] cs B; cbn in *; [eauto | apply incl_nil_l]. Qed.
Lemma in_tag l tags : tags_at_line l tags -> incl (tag_starts tags) [fst l].
Proof. intros [items [_ ->]] n H. unfold tag_starts in H. rewrite map_map in H. apply in_map_iff in H as [i [<- _]]. now left. Qed.
Lemma in_tags ls tags cs : tag_lines ls tags cs -> incl (tag_starts tags) (map fst ls).
Proof.
  induction 1 as [|l ls t1 t2 cs T H IH|l ls t cs B H IH|l ls t cs B H IH]; [apply incl_refl| |apply incl_tl, IH|apply incl_tl, IH].
  unfold tag_starts. rewrite map_app. apply incl_app; [|apply incl_tl, IH]. intros n Hn. apply (in_tag _ _ T) in Hn as [<-|[]]. now left.
Qed.
Lemma in_tags_block ls tags cs : tags_block ls tags cs -> incl (tag_starts tags) (map fst ls).
Proof.
  intros [[-> [-> _]]|[l [ls' [t1 [t2 [-> [T [H ->]]]]]]]]; [apply incl_refl|]. eapply in_tags. eapply tg_tags; eauto.
Qed.
Lemma in_rows ls rows cs : row_lines ls rows cs -> incl (row_starts rows) (map fst ls).
Proof.
  induction 1 as [|l ls r rs cs T H IH|l ls t cs B H IH|l ls t cs B H IH]; [apply incl_refl| |apply incl_tl, IH|apply incl_tl, IH].
  destruct T as [items [_ ->]]. cbn. apply incl_cons; [now left | apply incl_tl, IH].
Qed.
Lemma in_table ls rows cs : table_block ls rows cs -> incl (row_starts rows) (map fst ls).
Proof. intros [[l [ls' [r [rs [-> [T [H ->]]]]]]] _]. eapply in_rows. eapply rw_row; eauto. Qed.
Lemma in_doc ls ds cs : doc_block ls ds cs -> incl [l_line (ds_loc ds)] (map fst ls).
Proof. intros [sep [o [content [c [rest [media [-> [_ [_ [_ [_ [_ [_ ->]]]]]]]]]]]]]. intros n [<-|[]]. now left. Qed.
Lemma in_arg ls a cs : argument_block ls a cs -> incl (arg_starts a) (map fst ls).
Proof. intros [[-> [-> _]]|[[l [ls' [rows [-> [T ->]]]]]|[ds [T ->]]]]; [apply incl_refl | eapply in_table; eauto | eapply in_doc; eauto]. Qed.
Lemma in_step d ls x cs : step_block d ls x cs -> incl (step_starts x) (map fst ls).
Proof.
  intros [l [nz [ag [kw [text [a [cs1 [cs2 [-> [H1 [H2 [H3 [-> ->]]]]]]]]]]]]]. unfold step_starts. cbn. apply incl_cons; [now left|]. apply incl_tl. rewrite map_app. apply incl_appr. eapply in_arg; eauto.
Qed.
Section Starts.
Context (d : dialect).
Lemma in_background ls x cs : background_block d ls x cs -> incl (background_starts x) (map fst ls).
Proof.
  intros [l [dl [sl [kw [nm [desc [steps [cs1 [cs2 [-> [H1 [H2 [H3 [-> ->]]]]]]]]]]]]]]. unfold background_starts. cbn. apply incl_cons; [now left|]. apply incl_tl. rewrite map_app. apply incl_appr. exact (in_blocks _ step_starts (in_step d) _ _ _ H3).
Qed.
Lemma in_examples ls x cs : examples_block d ls x cs -> incl (examples_starts x) (map fst ls).
Proof.
  intros [tl [l [dl [rl [tags [kw [nm [desc [rows [cs0 [cs1 [cs2 [-> [H0 [H1 [H2 [H3 [-> ->]]]]]]]]]]]]]]]]]]. unfold examples_starts. cbn [ex_tags ex_loc ex_header ex_body]. rewrite map_app. apply incl_app; [apply incl_appl; eapply in_tags_block; eauto|]. apply incl_appr.
  cbn. apply incl_cons; [now left|]. apply incl_tl. rewrite map_app. apply incl_appr. destruct rows as [rows|]; [|apply incl_nil_l]. cbn in H3. apply in_table in H3. destruct rows; exact H3.
Qed.
Lemma in_scenario ls x cs : scenario_block d ls x cs -> incl (scenario_starts x) (map fst ls).
Proof.
  intros [tl [l [dl [sl [el [tags [kw [nm [desc [steps [exs [cs0 [cs1 [cs2 [cs3 [-> [H0 [H1 [H2 [H3 [H4 [-> ->]]]]]]]]]]]]]]]]]]]]]].
  unfold scenario_starts. cbn [sc_tags sc_loc sc_steps sc_examples]. rewrite map_app. apply incl_app; [apply incl_appl; eapply in_tags_block; eauto|]. apply incl_appr.
  cbn. apply incl_cons; [now left|]. apply incl_tl. rewrite !map_app. apply incl_appr. apply incl_app; [apply incl_appl; exact (in_blocks _ step_starts (in_step d) _ _ _ H3) | apply incl_appr; exact (in_blocks _ examples_starts in_examples _ _ _ H4)].
Qed.
Lemma in_rule ls x cs : rule_block d ls x cs -> incl (rule_starts x) (map fst ls).
Proof.
  intros [tl [l [dl [bl [sl [tags [kw [nm [desc [bg [scs [cs0 [cs1 [cs2 [cs3 [-> [H0 [H1 [H2 [H3 [H4 [-> ->]]]]]]]]]]]]]]]]]]]]]].
  unfold rule_starts. cbn [ru_tags ru_loc ru_background ru_scenarios]. rewrite map_app. apply incl_app; [apply incl_appl; eapply in_tags_block; eauto|]. apply incl_appr.
  cbn. apply incl_cons; [now left|]. apply incl_tl. rewrite !map_app. apply incl_appr. apply incl_app; [apply incl_appl; exact (in_maybe _ background_starts in_background _ _ _ H3) | apply incl_appr; exact (in_blocks _ scenario_starts in_scenario _ _ _ H4)].
Qed.
Lemma in_feature name ls x cs : feature_block d name ls x cs -> incl (feature_starts x) (map fst ls).
Proof.
  intros [tl [l [dl [bl [sl [rl [tags [kw [nm [desc [bg [scs [rus [cs0 [cs1 [cs2 [cs3 [cs4 [-> [H0 [H1 [H2 [H3 [H4 [H5 [-> ->]]]]]]]]]]]]]]]]]]]]]]]]]].
  unfold feature_starts. cbn [fe_tags fe_loc fe_background fe_scenarios fe_rules]. rewrite map_app. apply incl_app; [apply incl_appl; eapply in_tags_block; eauto|]. apply incl_appr.
  cbn. apply incl_cons; [now left|]. apply incl_tl. rewrite !map_app. apply incl_appr. apply incl_app; [apply incl_appl; exact (in_maybe _ background_starts in_background _ _ _ H3)|]. apply incl_appr.
  apply incl_app; [apply incl_appl; exact (in_blocks _ scenario_starts in_scenario _ _ _ H4) | apply incl_appr; exact (in_blocks _ rule_starts in_rule _ _ _ H5)].
Qed.
End Starts.

(** ** Parts of a new layout *)
Definition loudhead (ls : list nline) : Prop := match ls with [] => True | l :: _ => ~ quiet l end.
Section Own.
Context (own : nline -> Prop).
(** the own lines of [ls] are numbered in [st] *)
Definition fair (ls : list nline) (st : list nat) : Prop := NoDup (map fst ls) /\ forall l, In l ls -> own l -> In (fst l) st.
Lemma nodup_disjoint (a b : list nat) n : NoDup (a ++ b) -> In n a -> In n b -> False.
Proof. induction a as [|x a IH]; intros H Ha Hb; [destruct Ha|]. inversion H as [|? ? H1 H2]; subst. destruct Ha as [->|Ha]; [apply H1, in_or_app; now right | auto]. Qed.
Lemma nodup_parts (a b : list nat) : NoDup (a ++ b) -> NoDup a /\ NoDup b.
Proof. induction a as [|x a IH]; intros H; [split; [constructor | exact H]|]. inversion H as [|? ? H1 H2]; subst. destruct (IH H2) as [I1 I2]. split; [|exact I2]. constructor; [|exact I1]. intros X. apply H1, in_or_app. now left. Qed.
Lemma fair_split a b st sa sb : fair (a ++ b) st -> (forall n, In n st -> In n sa \/ In n sb) -> incl sa (map fst a) -> incl sb (map fst b) -> fair a sa /\ fair b sb.
Proof.
  intros [N F] S Ia Ib. rewrite map_app in N. destruct (nodup_parts _ _ N) as [Na Nb]. split; (split; [assumption|]); intros l Hl O.
  - assert (H : In (fst l) st) by (apply F; [apply in_or_app; now left | exact O]). apply S in H as [H|H]; [exact H|]. exfalso. eapply nodup_disjoint; [exact N | apply in_map; exact Hl | apply Ib, H].
  - assert (H : In (fst l) st) by (apply F; [apply in_or_app; now right | exact O]). apply S in H as [H|H]; [|exact H]. exfalso. eapply nodup_disjoint; [exact N | apply Ia, H | apply in_map; exact Hl].
Qed.
Lemma fair_nil a : fair a [] -> forall l, In l a -> ~ own l.
Proof. intros [_ F] l Hl O. exact (F l Hl O). Qed.

Definition front (ls ls' : list nline) : Prop :=
  match ls, ls' with
  | [], [] => True
  | l :: r, l' :: r' => alike (snd l) (snd l') /\ relaid own r r'
  | _, _ => False
  end.
Lemma rest_split a b ls' : loudhead b -> relaid own (a ++ b) ls' -> exists a' b', ls' = a' ++ b' /\ relaid own a a' /\ front b b'.
Proof.
  intros L H. destruct b as [|l b].
  - rewrite app_nil_r in H. exists ls', []. rewrite app_nil_r. repeat split; assumption.
  - destruct (loud_split own a l b ls' L H) as [a' [l' [b' [-> [H1 [H2 H3]]]]]]. exists a', (l' :: b'). repeat split; assumption.
Qed.
Lemma front_split a b ls' : loudhead b -> front (a ++ b) ls' -> exists a' b', ls' = a' ++ b' /\ front a a' /\ front b b'.
Proof.
  intros L H. destruct a as [|x a]; [exists [], ls'; split; [reflexivity|]; split; [exact I | exact H]|]. cbn [app] in H. destruct ls' as [|x' ls']; [destruct H|]. destruct H as [H1 H2].
  destruct (rest_split a b ls' L H2) as [a' [b' [-> [H3 H4]]]]. exists (x' :: a'), b'. repeat split; assumption.
Qed.
Lemma front_cons l r ls' : front (l :: r) ls' -> exists l' r', ls' = l' :: r' /\ alike (snd l) (snd l') /\ relaid own r r'.
Proof. destruct ls' as [|l' r']; intros H; [destruct H|]. exists l', r'. split; [reflexivity | exact H]. Qed.

(** what a block becomes *)
Definition moves {A} (block : list nline -> A -> list comment -> Prop) (st : A -> list nat) (pl : A -> A) : Prop :=
  forall ls x cs ls', block ls x cs -> fair ls (st x) -> front ls ls' -> exists x' cs', block ls' x' cs' /\ pl x' = pl x.
Definition loud_block {A} (block : list nline -> A -> list comment -> Prop) : Prop := forall ls x cs, block ls x cs -> ls <> [] /\ loudhead ls.
Lemma blocks_loud {A} (block : list nline -> A -> list comment -> Prop) ls xs cs : loud_block block -> blocks block ls xs cs -> loudhead ls.
Proof. intros L B. destruct B as [|l1 x c1 l2 xs c2 B1 B2]; [exact I|]. destruct (L _ _ _ B1) as [N H]. destruct l1; [now destruct N | exact H]. Qed.
Lemma maybe_loud {A} (block : list nline -> A -> list comment -> Prop) ls x cs : loud_block block -> maybe block ls x cs -> loudhead ls.
Proof. intros L B. destruct x; cbn in B; [now apply L in B | destruct B as [-> _]; exact I]. Qed.
Lemma loud_app a b : loudhead a -> loudhead b -> loudhead (a ++ b).
Proof. destruct a; [auto | intros H _; exact H]. Qed.
Lemma r_blocks {A} (block : list nline -> A -> list comment -> Prop) (st : A -> list nat) (pl : A -> A) : (forall ls x cs, block ls x cs -> incl (st x) (map fst ls)) -> loud_block block -> moves block st pl ->
  forall ls xs cs, blocks block ls xs cs -> forall ls', fair ls (flat_map st xs) -> front ls ls' -> exists xs' cs', blocks block ls' xs' cs' /\ map pl xs' = map pl xs.
Proof.
  intros In_ L M ls xs cs B. induction B as [|l1 x c1 l2 xs c2 B1 B2 IH]; intros ls' F H.
  - destruct ls'; [|destruct H]. exists [], []. split; [constructor | reflexivity].
  - destruct (fair_split l1 l2 _ (st x) (flat_map st xs) F) as [F1 F2]; [intros n Hn; now apply in_app_or | eauto | eapply in_blocks; eauto |].
    destruct (front_split l1 l2 ls' (blocks_loud _ _ _ _ L B2) H) as [a' [b' [-> [H1 H2]]]]. destruct (M _ _ _ _ B1 F1 H1) as [x' [c1' [X1 X2]]]. destruct (IH _ F2 H2) as [xs' [c2' [Y1 Y2]]].
    exists (x' :: xs'). eexists. split; [apply bl_cons; eauto|]. cbn. now rewrite X2, Y2.
Qed.
Lemma r_maybe {A} (block : list nline -> A -> list comment -> Prop) (st : A -> list nat) (pl : A -> A) : moves block st pl ->
  forall ls x cs ls', maybe block ls x cs -> fair ls (opt_starts st x) -> front ls ls' -> exists x' cs', maybe block ls' x' cs' /\ option_map pl x' = option_map pl x.
Proof.
  intros M ls [x|] cs ls' B F H; cbn in *.
  - destruct (M _ _ _ _ B F H) as [x' [c' [X1 X2]]]. exists (Some x'), c'. cbn. rewrite X2. auto.
  - destruct B as [-> ->]. destruct ls'; [|destruct H]. exists None, []. cbn. auto.
Qed.

(** ** Tags, tables, doc strings, steps *)
Lemma r_tags ls tags cs ls' : tags_block ls tags cs -> front ls ls' -> exists tags' cs', tags_block ls' tags' cs' /\ map plain_tag tags' = map plain_tag tags.
Proof.
  intros [[-> [-> ->]]|[l [r [t1 [t2 [-> [T [R ->]]]]]]]] H.
  - destruct ls'; [|destruct H]. exists [], []. split; [left; auto | reflexivity].
  - apply front_cons in H as [l' [r' [-> [H1 H2]]]]. destruct (alike_tags _ l' _ H1 T) as [t1' [T' E1]]. destruct (r_tag_lines own _ _ H2 _ _ R) as [t2' [c' [R' E2]]].
    exists (t1' ++ t2'), c'. split; [right; exists l', r', t1', t2'; auto|]. rewrite !map_app. now rewrite E1, E2.
Qed.
Lemma tags_block_loud ls tags cs : tags_block ls tags cs -> loudhead ls.
Proof. intros [[-> _]|[l [r [t1 [t2 [-> [T _]]]]]]]; [exact I | eapply tags_loud; eauto]. Qed.
Lemma r_table ls rows cs ls' : table_block ls rows cs -> front ls ls' -> exists rows' cs', table_block ls' rows' cs' /\ map plain_row rows' = map plain_row rows.
Proof.
  intros [[l [r [w [ws [-> [T [R ->]]]]]]] Rc] H. apply front_cons in H as [l' [r' [-> [H1 H2]]]]. destruct (alike_row _ l' _ H1 T) as [w' [T' E1]]. destruct (r_row_lines own _ _ H2 _ _ R) as [ws' [c' [R' E2]]].
  assert (E : map plain_row (w' :: ws') = map plain_row (w :: ws)) by (cbn [map]; now rewrite E1, E2).
  exists (w' :: ws'), c'. split; [|exact E]. split; [exists l', r', w', ws'; auto|]. eapply rectangular_plain; eauto.
Qed.
Lemma table_loud : loud_block table_block.
Proof. intros ls x cs [[l [r [w [ws [-> [T _]]]]]] _]. split; [discriminate|]. eapply row_no_quiet; eauto. Qed.
Lemma doc_loud : loud_block doc_block.
Proof. intros ls x cs [sep [o [content [c [rest [media [-> [S [B1 _]]]]]]]]]. split; [discriminate|]. eapply sep_loud; eauto. Qed.
Lemma r_doc ls ds cs ls' : doc_block ls ds cs -> fair ls [l_line (ds_loc ds)] -> front ls ls' -> exists ds' cs', doc_block ls' ds' cs' /\ plain_arg (ADoc ds') = plain_arg (ADoc ds).
Proof.
  intros [sep [o [content [c [rest [media [-> [S [B1 [B2 [F [Em [N ->]]]]]]]]]]]]] [ND Fr] H. apply front_cons in H as [o' [r' [-> [H1 H2]]]].
  assert (Eo : snd o' = snd o) by (destruct H1 as [H1|[_ H1]]; [exact H1 | exfalso; exact (H1 sep S B1)]).
  assert (O : forall x, In x (content ++ [c]) -> ~ own x).
  { intros x Hx Ox. cbn [here l_line ds_loc] in Fr. inversion ND as [|? ? ND1 _]; subst.
    assert (Ix : In x (content ++ c :: rest)) by (apply in_app_or in Hx as [Hx|[<-|[]]]; apply in_or_app; [now left | right; now left]).
    destruct (Fr x (or_intror Ix) Ox) as [E|[]]. cbn in E. apply ND1. rewrite E. now apply in_map. }
  destruct (still_split own content c rest r' O (sep_loud _ _ S B2) H2) as [ct' [c' [rest' [-> [E1 [E2 R]]]]]]. destruct (r_noise own _ _ _ N R) as [cs' N'].
  eexists (mkDoc (here o') _ (Some sep) _), cs'. split.
  - exists sep, o', ct', c', rest', media. split; [reflexivity|]. split; [exact S|]. split; [now rewrite Eo|]. split; [now rewrite E2|]. split; [exact (map_snd_forall (fun x => ~ begins sep x) content ct' E1 F)|]. split; [now rewrite Eo|]. split; [exact N'|]. reflexivity.
  - unfold plain_arg. cbn [ds_content ds_delimiter ds_media]. rewrite Eo. f_equal. f_equal. f_equal. rewrite <- !(map_map snd (content_line (indent_of (snd o)) sep)). now rewrite E1.
Qed.
Lemma arg_loud ls a cs : argument_block ls a cs -> loudhead ls.
Proof. intros [[-> _]|[[l [ls' [rows [-> [T ->]]]]]|[ds [T ->]]]]; [exact I | now apply table_loud in T | now apply doc_loud in T]. Qed.
Lemma r_arg : moves argument_block arg_starts plain_arg.
Proof.
  intros ls a cs ls' [[-> [-> ->]]|[[l [r [rows [-> [T ->]]]]]|[ds [T ->]]]] F H.
  - destruct ls'; [|destruct H]. exists ANone, []. split; [left; auto | reflexivity].
  - destruct (r_table _ _ _ _ T H) as [rows' [cs' [T' E]]]. apply front_cons in H as [l' [r' [-> _]]]. exists (ATable (mkTable (here l') rows')), cs'. split; [right; left; exists l', r', rows'; auto|]. cbn. now rewrite E.
  - destruct (r_doc _ _ _ _ T F H) as [ds' [cs' [T' E]]]. exists (ADoc ds'), cs'. split; [right; right; eauto | exact E].
Qed.
Section Dialect.
Context (d : dialect) (Hd : dialect_ok d = true).
Lemma steps_loud : loud_block (step_block d).
Proof. intros ls x cs [l [nz [ag [kw [text [a [cs1 [cs2 [-> [H1 _]]]]]]]]]]. split; [discriminate|]. eapply step_loud; eauto. Qed.
Lemma r_step : moves (step_block d) step_starts plain_step.
Proof.
  intros ls x cs ls' [l [nz [ag [kw [text [a [cs1 [cs2 [-> [H1 [H2 [H3 [-> ->]]]]]]]]]]]]] F H. apply front_cons in H as [l' [r' [-> [A R]]]].
  destruct (rest_split _ _ _ (arg_loud _ _ _ H3) R) as [nz' [ag' [-> [R1 R2]]]]. destruct (r_noise own _ _ _ H2 R1) as [c1' N'].
  change (l :: nz ++ ag) with ((l :: nz) ++ ag) in F. destruct (fair_split _ _ _ [fst l] (arg_starts a) F) as [_ Fa]; [intros n Hn; destruct Hn as [<-|Hn]; [left; now left | now right] | intros n [<-|[]]; now left | eapply in_arg; eauto |].
  destruct (r_arg _ _ _ _ H3 Fa R2) as [a' [c2' [A' E]]]. eexists. eexists. split; [exists l', nz', ag', kw, text, a', c1', c2'; split; [reflexivity|]; split; [eapply alike_step; eauto|]; auto|]. unfold plain_step. cbn. now rewrite E.
Qed.
(** the title line, the description and the rest *)
Lemma r_titled p l dl rest st sr ls' desc cs : fair (l :: dl ++ rest) st -> (forall n, In n st -> In n [fst l] \/ In n sr) -> incl sr (map fst rest) -> loudhead rest ->
  description_block d p dl desc cs -> front (l :: dl ++ rest) ls' ->
  exists l' dl' rest' cs', ls' = l' :: dl' ++ rest' /\ alike (snd l) (snd l') /\ description_block d p dl' desc cs' /\ fair rest sr /\ front rest rest'.
Proof.
  intros F S I L D H. apply front_cons in H as [l' [r' [-> [A R]]]]. destruct (rest_split _ _ _ L R) as [dl' [rest' [-> [R1 R2]]]].
  change (l :: dl ++ rest) with ([l] ++ dl ++ rest) in F. destruct (fair_split [l] (dl ++ rest) _ [fst l] sr F S) as [_ F1]; [apply incl_refl | rewrite map_app; now apply incl_appr|].
  destruct (fair_split dl rest _ [] sr F1) as [F2 F3]; [now right | apply incl_nil_l | exact I|].
  destruct (r_description own d p dl desc cs dl' Hd (fair_nil _ F2) D R1) as [cs' D']. exists l', dl', rest', cs'. auto.
Qed.
(** tags before a titled element *)
Lemma r_tagged tl l rest tags cs st sr ls' : fair (tl ++ l :: rest) st -> (forall n, In n st -> In n (tag_starts tags) \/ In n sr) -> incl sr (map fst (l :: rest)) -> ~ quiet l ->
  tags_block tl tags cs -> front (tl ++ l :: rest) ls' ->
  exists tl' ls2 tags' cs', ls' = tl' ++ ls2 /\ tags_block tl' tags' cs' /\ map plain_tag tags' = map plain_tag tags /\ fair (l :: rest) sr /\ front (l :: rest) ls2.
Proof.
  intros F S I L T H. destruct (front_split tl (l :: rest) ls' L H) as [tl' [ls2 [-> [H1 H2]]]]. destruct (r_tags _ _ _ _ T H1) as [tags' [cs' [T' E]]].
  destruct (fair_split _ _ _ (tag_starts tags) sr F S) as [_ F2]; [eapply in_tags_block; eauto | exact I|]. exists tl', ls2, tags', cs'. auto.
Qed.
Ltac inn := let n := fresh "n" in intros n; repeat (cbn [In app]; rewrite ?in_app_iff; cbn [In]; progress rewrite ?in_app_iff); cbn [In]; rewrite ?in_app_iff; tauto.
Lemma background_loud : loud_block (background_block d).
Proof. intros ls x cs [l [dl [sl [kw [nm [desc [steps [cs1 [cs2 [-> [H1 _]]]]]]]]]]]. split; [discriminate|]. eapply (any_title_loud d TkBackgroundLine); eauto. Qed.
Lemma r_background : moves (background_block d) background_starts plain_background.
Proof.
  intros ls x cs ls' [l [dl [sl [kw [nm [desc [steps [cs1 [cs2 [-> [H1 [H2 [H3 [-> ->]]]]]]]]]]]]]] F H.
  destruct (r_titled InBackground l dl sl _ (flat_map step_starts steps) ls' desc cs1 F) as [l' [dl' [sl' [c1' [-> [A [D' [F' R']]]]]]]]; auto; [unfold background_starts; cbn [bg_loc bg_steps here l_line]; inn | eapply in_blocks; eauto using in_step | eapply blocks_loud; eauto using steps_loud|].
  destruct (r_blocks _ step_starts plain_step (in_step d) steps_loud r_step _ _ _ H3 _ F' R') as [steps' [c2' [B' E]]].
  eexists. eexists. split; [exists l', dl', sl', kw, nm, desc, steps', c1', c2'; split; [reflexivity|]; split; [eapply alike_title; eauto|]; auto|]. unfold plain_background. cbn. now rewrite E.
Qed.
Lemma tagged_loud tl l tags cs rest : tags_block tl tags cs -> ~ quiet l -> tl ++ l :: rest <> [] /\ loudhead (tl ++ l :: rest).
Proof. intros T Q. split; [now destruct tl|]. apply loud_app; [eapply tags_block_loud; eauto | exact Q]. Qed.
Lemma examples_loud : loud_block (examples_block d).
Proof. intros ls x cs [tl [l [dl [rl [tags [kw [nm [desc [rows [cs0 [cs1 [cs2 [-> [H0 [H1 _]]]]]]]]]]]]]]]. eapply tagged_loud; eauto. eapply (any_title_loud d TkExamplesLine); eauto. Qed.
Lemma r_examples : moves (examples_block d) examples_starts plain_examples.
Proof.
  intros ls x cs ls' [tl [l [dl [rl [tags [kw [nm [desc [rows [cs0 [cs1 [cs2 [-> [H0 [H1 [H2 [H3 [-> ->]]]]]]]]]]]]]]]]]] F H. 
  set (sr := match rows with Some r => row_starts r | None => [] end).
  assert (Q : ~ quiet l) by (eapply (any_title_loud d TkExamplesLine); eauto).
  assert (Ir : incl sr (map fst rl)) by (destruct rows; [eapply in_table; eauto | apply incl_nil_l]).
  destruct (r_tagged tl l (dl ++ rl) tags cs0 _ (fst l :: sr) ls' F) as [tl' [ls2 [tags' [c0' [-> [T' [Et [F2 H']]]]]]]]; auto.
  { unfold examples_starts. cbn [ex_tags ex_loc ex_header ex_body here l_line]. intros n Hn. apply in_app_or in Hn as [Hn|[Hn|Hn]]; [now left | right; now left | right; right]. unfold sr. destruct rows as [[|h b]|]; exact Hn. }
  { cbn. apply incl_cons; [now left|]. apply incl_tl. rewrite map_app. now apply incl_appr. }
  destruct (r_titled InExamples l dl rl _ sr ls2 desc cs1 F2) as [l' [dl' [rl' [c1' [-> [A [D' [F' R']]]]]]]]; auto; [inn | eapply maybe_loud; eauto using table_loud|].
  assert (G : exists rows' c2', maybe table_block rl' rows' c2' /\ option_map (map plain_row) rows' = option_map (map plain_row) rows).
  { destruct rows as [rows|]; cbn in H3.
    - destruct (r_table _ _ _ _ H3 R') as [rows' [c2' [X Y]]]. exists (Some rows'), c2'. cbn. rewrite Y. auto.
    - destruct H3 as [-> ->]. destruct rl'; [|destruct R']. exists None, []. cbn. auto. }
  destruct G as [rows' [c2' [X Y]]].
  eexists. eexists. split; [exists tl', l', dl', rl', tags', kw, nm, desc, rows', c0', c1', c2'; split; [reflexivity|]; split; [exact T'|]; split; [eapply alike_title; eauto|]; auto|].
  unfold plain_examples. cbn [ex_tags ex_keyword ex_name ex_desc ex_header ex_body]. rewrite Et. destruct rows as [[|h b]|], rows' as [[|h' b']|]; cbn in Y |- *; try discriminate Y; try reflexivity.
  assert (Y1 : plain_row h' = plain_row h) by congruence. assert (Y2 : map plain_row b' = map plain_row b) by congruence. now rewrite Y1, Y2.
Qed.
Lemma scenario_loud : loud_block (scenario_block d).
Proof. intros ls x cs [tl [l [dl [sl [el [tags [kw [nm [desc [steps [exs [cs0 [cs1 [cs2 [cs3 [-> [H0 [H1 _]]]]]]]]]]]]]]]]]]. eapply tagged_loud; eauto. eapply (any_title_loud d TkScenarioLine); eauto. Qed.
Lemma r_scenario : moves (scenario_block d) scenario_starts plain_scenario.
Proof.
  intros ls x cs ls' [tl [l [dl [sl [el [tags [kw [nm [desc [steps [exs [cs0 [cs1 [cs2 [cs3 [-> [H0 [H1 [H2 [H3 [H4 [-> ->]]]]]]]]]]]]]]]]]]]]]] F H.
  assert (Q : ~ quiet l) by (eapply (any_title_loud d TkScenarioLine); eauto).
  pose proof (in_blocks _ step_starts (in_step d) _ _ _ H3) as I3. pose proof (in_blocks _ examples_starts (in_examples d) _ _ _ H4) as I4.
  pose proof (blocks_loud _ _ _ _ steps_loud H3) as L3. pose proof (blocks_loud _ _ _ _ examples_loud H4) as L4.
  assert (I : incl (flat_map step_starts steps ++ flat_map examples_starts exs) (map fst (sl ++ el))) by (rewrite map_app; apply incl_app; [now apply incl_appl | now apply incl_appr]).
  destruct (r_tagged tl l (dl ++ sl ++ el) tags cs0 _ (fst l :: flat_map step_starts steps ++ flat_map examples_starts exs) ls' F) as [tl' [ls2 [tags' [c0' [-> [T' [Et [F2 H']]]]]]]]; auto; [unfold scenario_starts; cbn [sc_tags sc_loc sc_steps sc_examples here l_line]; inn | cbn; apply incl_cons; [now left|]; apply incl_tl; rewrite map_app; now apply incl_appr|].
  destruct (r_titled InScenario l dl (sl ++ el) _ (flat_map step_starts steps ++ flat_map examples_starts exs) ls2 desc cs1 F2) as [l' [dl' [rl' [c1' [-> [A [D' [F' R']]]]]]]]; auto; [inn | now apply loud_app|].
  destruct (front_split sl el rl' L4 R') as [sl' [el' [-> [R3 R4]]]]. destruct (fair_split sl el _ _ _ F' (fun n Hn => in_app_or _ _ _ Hn) I3 I4) as [F3 F4].
  destruct (r_blocks _ step_starts plain_step (in_step d) steps_loud r_step _ _ _ H3 _ F3 R3) as [steps' [c2' [B3 E3]]].
  destruct (r_blocks _ examples_starts plain_examples (in_examples d) examples_loud r_examples _ _ _ H4 _ F4 R4) as [exs' [c3' [B4 E4]]].
  eexists. eexists. split; [exists tl', l', dl', sl', el', tags', kw, nm, desc, steps', exs', c0', c1', c2', c3'; split; [reflexivity|]; split; [exact T'|]; split; [eapply alike_title; eauto|]; repeat (split; [eassumption|]); split; reflexivity|].
  unfold plain_scenario. cbn. now rewrite Et, E3, E4.
Qed.
Lemma rule_loud : loud_block (rule_block d).
Proof. intros ls x cs [tl [l [dl [bl [sl [tags [kw [nm [desc [bg [scs [cs0 [cs1 [cs2 [cs3 [-> [H0 [H1 _]]]]]]]]]]]]]]]]]]. eapply tagged_loud; eauto. eapply (any_title_loud d TkRuleLine); eauto. Qed.
Lemma r_rule : moves (rule_block d) rule_starts plain_rule.
Proof.
  intros ls x cs ls' [tl [l [dl [bl [sl [tags [kw [nm [desc [bg [scs [cs0 [cs1 [cs2 [cs3 [-> [H0 [H1 [H2 [H3 [H4 [-> ->]]]]]]]]]]]]]]]]]]]]]] F H.
  assert (Q : ~ quiet l) by (eapply (any_title_loud d TkRuleLine); eauto).
  pose proof (in_maybe _ background_starts (in_background d) _ _ _ H3) as I3. pose proof (in_blocks _ scenario_starts (in_scenario d) _ _ _ H4) as I4.
  pose proof (maybe_loud _ _ _ _ background_loud H3) as L3. pose proof (blocks_loud _ _ _ _ scenario_loud H4) as L4.
  assert (I : incl (opt_starts background_starts bg ++ flat_map scenario_starts scs) (map fst (bl ++ sl))) by (rewrite map_app; apply incl_app; [now apply incl_appl | now apply incl_appr]).
  destruct (r_tagged tl l (dl ++ bl ++ sl) tags cs0 _ (fst l :: opt_starts background_starts bg ++ flat_map scenario_starts scs) ls' F) as [tl' [ls2 [tags' [c0' [-> [T' [Et [F2 H']]]]]]]]; auto; [unfold rule_starts; cbn [ru_tags ru_loc ru_background ru_scenarios here l_line]; inn | cbn; apply incl_cons; [now left|]; apply incl_tl; rewrite map_app; now apply incl_appr|].
  destruct (r_titled InHeader l dl (bl ++ sl) _ (opt_starts background_starts bg ++ flat_map scenario_starts scs) ls2 desc cs1 F2) as [l' [dl' [rl' [c1' [-> [A [D' [F' R']]]]]]]]; auto; [inn | now apply loud_app|].
  destruct (front_split bl sl rl' L4 R') as [bl' [sl' [-> [R3 R4]]]]. destruct (fair_split bl sl _ _ _ F' (fun n Hn => in_app_or _ _ _ Hn) I3 I4) as [F3 F4].
  destruct (r_maybe _ background_starts plain_background r_background _ _ _ _ H3 F3 R3) as [bg' [c2' [B3 E3]]].
  destruct (r_blocks _ scenario_starts plain_scenario (in_scenario d) scenario_loud r_scenario _ _ _ H4 _ F4 R4) as [scs' [c3' [B4 E4]]].
  eexists. eexists. split; [exists tl', l', dl', bl', sl', tags', kw, nm, desc, bg', scs', c0', c1', c2', c3'; split; [reflexivity|]; split; [exact T'|]; split; [eapply alike_title; eauto|]; repeat (split; [eassumption|]); split; reflexivity|].
  unfold plain_rule. cbn. now rewrite Et, E3, E4.
Qed.
Lemma feature_head : forall name, loud_block (feature_block d name).
Proof. intros name ls x cs [tl [l [dl [bl [sl [rl [tags [kw [nm [desc [bg [scs [rus [cs0 [cs1 [cs2 [cs3 [cs4 [-> [H0 [H1 _]]]]]]]]]]]]]]]]]]]]]. eapply tagged_loud; eauto. eapply (any_title_loud d TkFeatureLine); eauto. Qed.
Lemma r_feature name : moves (feature_block d name) feature_starts plain.
Proof.
  intros ls x cs ls' [tl [l [dl [bl [sl [rl [tags [kw [nm [desc [bg [scs [rus [cs0 [cs1 [cs2 [cs3 [cs4 [-> [H0 [H1 [H2 [H3 [H4 [H5 [-> ->]]]]]]]]]]]]]]]]]]]]]]]]]] F H.
  assert (Q : ~ quiet l) by (eapply (any_title_loud d TkFeatureLine); eauto).
  pose proof (in_maybe _ background_starts (in_background d) _ _ _ H3) as I3. pose proof (in_blocks _ scenario_starts (in_scenario d) _ _ _ H4) as I4. pose proof (in_blocks _ rule_starts (in_rule d) _ _ _ H5) as I5.
  pose proof (maybe_loud _ _ _ _ background_loud H3) as L3. pose proof (blocks_loud _ _ _ _ scenario_loud H4) as L4. pose proof (blocks_loud _ _ _ _ rule_loud H5) as L5.
  assert (I45 : incl (flat_map scenario_starts scs ++ flat_map rule_starts rus) (map fst (sl ++ rl))) by (rewrite map_app; apply incl_app; [now apply incl_appl | now apply incl_appr]).
  assert (I : incl (opt_starts background_starts bg ++ flat_map scenario_starts scs ++ flat_map rule_starts rus) (map fst (bl ++ sl ++ rl))) by (rewrite map_app; apply incl_app; [now apply incl_appl | now apply incl_appr]).
  destruct (r_tagged tl l (dl ++ bl ++ sl ++ rl) tags cs0 _ (fst l :: opt_starts background_starts bg ++ flat_map scenario_starts scs ++ flat_map rule_starts rus) ls' F) as [tl' [ls2 [tags' [c0' [-> [T' [Et [F2 H']]]]]]]]; auto; [unfold feature_starts; cbn [fe_tags fe_loc fe_background fe_scenarios fe_rules here l_line]; inn | cbn; apply incl_cons; [now left|]; apply incl_tl; rewrite map_app; now apply incl_appr|].
  destruct (r_titled InHeader l dl (bl ++ sl ++ rl) _ (opt_starts background_starts bg ++ flat_map scenario_starts scs ++ flat_map rule_starts rus) ls2 desc cs1 F2) as [l' [dl' [rest' [c1' [-> [A [D' [F' R']]]]]]]]; auto; [inn | apply loud_app; [exact L3 | now apply loud_app]|].
  destruct (front_split bl (sl ++ rl) rest' (loud_app _ _ L4 L5) R') as [bl' [r2 [-> [R3 R45]]]]. destruct (front_split sl rl r2 L5 R45) as [sl' [rl' [-> [R4 R5]]]].
  destruct (fair_split bl (sl ++ rl) _ _ _ F' (fun n Hn => in_app_or _ _ _ Hn) I3 I45) as [F3 F45]. destruct (fair_split sl rl _ _ _ F45 (fun n Hn => in_app_or _ _ _ Hn) I4 I5) as [F4 F5].
  destruct (r_maybe _ background_starts plain_background r_background _ _ _ _ H3 F3 R3) as [bg' [c2' [B3 E3]]].
  destruct (r_blocks _ scenario_starts plain_scenario (in_scenario d) scenario_loud r_scenario _ _ _ H4 _ F4 R4) as [scs' [c3' [B4 E4]]].
  destruct (r_blocks _ rule_starts plain_rule (in_rule d) rule_loud r_rule _ _ _ H5 _ F5 R5) as [rus' [c4' [B5 E5]]].
  eexists. eexists. split; [exists tl', l', dl', bl', sl', rl', tags', kw, nm, desc, bg', scs', rus', c0', c1', c2', c3', c4'; split; [reflexivity|]; split; [exact T'|]; split; [eapply alike_title; eauto|]; repeat (split; [eassumption|]); split; reflexivity|].
  unfold plain. cbn. now rewrite Et, E3, E4, E5.
Qed.
End Dialect.
End Own.
