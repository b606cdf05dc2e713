(** * Comments: C19 *)
From Coq Require Import Sorting.Sorted.
From Verif Require Import PyStr PyStrFacts Types Regex Line DialectData Matcher Ast ParserTable Parser Classify Table Scan LineSpec TagIff RowIff LangSpec LangFacts Complete DocSpec LineIff PropLine PropParse PropDoc PartsSpec Parts PropPlaces PropLang CommentSpec.

(** ** Accounting for the comments of a block *)
Inductive accounts : list nline -> list comment -> list docstring -> Prop :=
| ac_nil : accounts [] [] []
| ac_other l ls cs dss : ~ comment_line l -> accounts ls cs dss -> accounts (l :: ls) cs dss
| ac_comment l ls cs dss : comment_line l -> accounts ls cs dss -> accounts (l :: ls) (comment_at l :: cs) dss
| ac_doc o content c ls sep ds cs dss : separator sep -> begins sep (snd c) -> ~ comment_line o -> Forall (fun l => ~ begins sep (snd l)) content ->
    ds_loc ds = here o -> ds_delimiter ds = Some sep -> accounts ls cs dss -> accounts (o :: content ++ c :: ls) cs (ds :: dss).
Lemma accounts_app l1 c1 d1 : accounts l1 c1 d1 -> forall l2 c2 d2, accounts l2 c2 d2 -> accounts (l1 ++ l2) (c1 ++ c2) (d1 ++ d2).
Proof.
  induction 1 as [|l ls cs dss N H IH|l ls cs dss N H IH|o content c ls sep ds cs dss S B N F D1 D2 H IH]; intros l2 c2 d2 H2; cbn [app].
  - exact H2.
  - apply ac_other; auto.
  - apply ac_comment; auto.
  - rewrite <- app_assoc. cbn [app]. eapply ac_doc; eauto.
Qed.
Lemma accounts_other ls : Forall (fun l => ~ comment_line l) ls -> accounts ls [] [].
Proof. induction 1; [constructor | now apply ac_other]. Qed.
Lemma first_char a b x y z : startswith [a] (lstrip x) = true -> startswith (b :: y) (lstrip z) = true -> x = z -> a = b.
Proof. intros H1 H2 ->. destruct (lstrip z); [discriminate H1|]. cbn [startswith] in *. apply andb_true_iff in H1 as [H1 _], H2 as [H2 _]. apply N.eqb_eq in H1, H2. congruence. Qed.
Lemma sep_no_comment sep l : separator sep -> begins sep (snd l) -> ~ comment_line l.
Proof. intros [-> | ->] B C; pose proof (first_char _ _ _ _ _ C B eq_refl) as X; discriminate X. Qed.
Lemma row_no_comment l r : row_at_line l r -> ~ comment_line l.
Proof. intros [items [H _]] C. apply (table_cells_iff _ 0) in H as [H _]. pose proof (first_char _ _ _ _ _ C H eq_refl) as X. discriminate X. Qed.
Lemma tags_no_comment l r : tags_at_line l r -> ~ comment_line l.
Proof. intros H C. exact (tags_loud _ _ H (or_intror C)). Qed.
Lemma kind_no_comment d l k : dialect_ok d = true -> cls (mkMs false [] [] d 0 None false) (snd l) = k -> k <> TkComment -> ~ comment_line l.
Proof.
  intros D C K B. assert (G : good (mkMs false [] [] d 0 None false)) by (split; [reflexivity | exact D]).
  apply K. rewrite <- C. apply (cls_begins _ (snd l) TkComment ch_hash G); [discriminate | discriminate | reflexivity | exact B].
Qed.
Lemma title_no_comment d k l kw name : dialect_ok d = true -> title_kind k = true -> title_line (keywords_of d k) (snd l) kw name -> ~ comment_line l.
Proof.
  intros D K T. assert (G : good (mkMs false [] [] d 0 None false)) by (split; [reflexivity | exact D]).
  apply (kind_no_comment d l k D); [|destruct k; discriminate]. apply (cls_title _ (snd l) k G K). exists kw, name. exact T.
Qed.
Lemma step_no_comment d l kw text : dialect_ok d = true -> step_line d (snd l) kw text -> ~ comment_line l.
Proof.
  intros D T. assert (G : good (mkMs false [] [] d 0 None false)) by (split; [reflexivity | exact D]).
  apply (kind_no_comment d l TkStepLine D); [|discriminate]. apply (cls_step _ (snd l) G). exists kw, text. exact T.
Qed.
Lemma noise_accounts ls cs : noise_lines ls cs -> accounts ls cs [].
Proof. induction 1; [constructor | apply ac_other; auto; now apply blank_not_comment | now apply ac_comment]. Qed.
Lemma tags_accounts ls tags cs : tags_block ls tags cs -> accounts ls cs [].
Proof.
  intros [[-> [_ ->]]|[l [ls' [t1 [t2 [-> [H1 [H2 _]]]]]]]]; [constructor|]. apply ac_other; [eapply tags_no_comment; eauto|].
  induction H2; [constructor | apply ac_other; auto; eapply tags_no_comment; eauto | apply ac_other; auto; now apply blank_not_comment | now apply ac_comment].
Qed.
Lemma table_accounts ls rows cs : table_block ls rows cs -> accounts ls cs [].
Proof.
  intros [[l [ls' [r [rs [-> [H1 [H2 _]]]]]]] _]. apply ac_other; [eapply row_no_comment; eauto|].
  induction H2; [constructor | apply ac_other; auto; eapply row_no_comment; eauto | apply ac_other; auto; now apply blank_not_comment | now apply ac_comment].
Qed.
Lemma description_accounts d p ls desc cs : description_block d p ls desc cs -> accounts ls cs [].
Proof.
  intros [b [lines [rest [-> [H1 [H2 [_ [H3 _]]]]]]]]. change cs with ([] ++ [] ++ cs). change (@nil docstring) with (@nil docstring ++ [] ++ []). apply accounts_app; [|apply accounts_app; [|now apply noise_accounts]]; apply accounts_other.
  - eapply Forall_impl; [|exact H1]. intros l. apply blank_not_comment.
  - eapply Forall_impl; [|exact H2]. intros l H C. apply H. left. exact C.
Qed.
Lemma doc_accounts ls ds cs : doc_block ls ds cs -> accounts ls cs [ds].
Proof.
  intros [sep [o [content [c [rest [media [-> [S [B1 [B2 [F [_ [N ->]]]]]]]]]]]]]. eapply ac_doc; eauto; [eapply sep_no_comment; eauto | now apply noise_accounts].
Qed.
Lemma blocks_accounts {A} (block : list nline -> A -> list comment -> Prop) (docs : A -> list docstring) :
  (forall ls x cs, block ls x cs -> accounts ls cs (docs x)) -> forall ls xs cs, blocks block ls xs cs -> accounts ls cs (flat_map docs xs).
Proof. intros H ls xs cs B. induction B; [constructor|]. cbn [flat_map]. apply accounts_app; auto. Qed.
Lemma maybe_accounts {A} (block : list nline -> A -> list comment -> Prop) (docs : A -> list docstring) :
  (forall ls x cs, block ls x cs -> accounts ls cs (docs x)) -> forall ls x cs, maybe block ls x cs -> accounts ls cs (flat_map docs (of_option x)).
Proof. intros H ls [x|] cs B; cbn in *; [rewrite app_nil_r; auto | destruct B as [-> ->]; constructor]. Qed.
Definition background_docs (x : background) : list docstring := flat_map step_docs (bg_steps x).
Definition scenario_docs (x : scenario) : list docstring := flat_map step_docs (sc_steps x).
Definition rule_docs (x : rule_ast) : list docstring := flat_map background_docs (of_option (ru_background x)) ++ flat_map scenario_docs (ru_scenarios x).
Definition feature_docs' (f : feature) : list docstring := flat_map background_docs (of_option (fe_background f)) ++ flat_map scenario_docs (fe_scenarios f) ++ flat_map rule_docs (fe_rules f).
Section Acc.
Context (d : dialect) (Hd : dialect_ok d = true).
Lemma step_accounts ls x cs : step_block d ls x cs -> accounts ls cs (step_docs x).
Proof.
  intros [l [nz [ag [kw [text [a [cs1 [cs2 [-> [H1 [H2 [H3 [-> ->]]]]]]]]]]]]]. apply ac_other; [eapply step_no_comment; eauto|]. unfold step_docs. cbn [st_arg]. apply (accounts_app nz cs1 []); [now apply noise_accounts|].
  destruct H3 as [[-> [-> ->]]|[[l0 [ls' [rows [-> [T ->]]]]]|[ds [T ->]]]]; [constructor | now apply (table_accounts _ rows) | now apply doc_accounts].
Qed.
Lemma background_accounts ls x cs : background_block d ls x cs -> accounts ls cs (background_docs x).
Proof.
  intros [l [dl [sl [kw [nm [desc [steps [cs1 [cs2 [-> [H1 [H2 [H3 [-> ->]]]]]]]]]]]]]]. apply ac_other; [eapply (title_no_comment d TkBackgroundLine); eauto|]. apply (accounts_app dl cs1 []); [eapply description_accounts; eauto|].
  exact (blocks_accounts _ step_docs step_accounts _ _ _ H3).
Qed.
Lemma examples_accounts ls x cs : examples_block d ls x cs -> accounts ls cs [].
Proof.
  intros [tl [l [dl [rl [tags [kw [nm [desc [rows [cs0 [cs1 [cs2 [-> [H0 [H1 [H2 [H3 [-> _]]]]]]]]]]]]]]]]]]. apply (accounts_app tl cs0 []); [eapply tags_accounts; eauto|]. apply ac_other; [eapply (title_no_comment d TkExamplesLine); eauto|].
  apply (accounts_app dl cs1 []); [eapply description_accounts; eauto|]. destruct rows; cbn in H3; [eapply table_accounts; eauto | destruct H3 as [-> ->]; constructor].
Qed.
Lemma no_docs {A} (l : list A) : flat_map (fun _ => @nil docstring) l = []. Proof. induction l; auto. Qed.
Lemma scenario_accounts ls x cs : scenario_block d ls x cs -> accounts ls cs (scenario_docs x).
Proof.
  intros [tl [l [dl [sl [el [tags [kw [nm [desc [steps [exs [cs0 [cs1 [cs2 [cs3 [-> [H0 [H1 [H2 [H3 [H4 [-> ->]]]]]]]]]]]]]]]]]]]]]].
  apply (accounts_app tl cs0 []); [eapply tags_accounts; eauto|]. apply ac_other; [eapply (title_no_comment d TkScenarioLine); eauto|]. apply (accounts_app dl cs1 []); [eapply description_accounts; eauto|].
  change (accounts (sl ++ el) (cs2 ++ cs3) (flat_map step_docs steps)). rewrite <- (app_nil_r (flat_map step_docs steps)). apply accounts_app; [apply (blocks_accounts _ step_docs step_accounts); exact H3|].
  rewrite <- (no_docs exs). apply (blocks_accounts _ (fun _ => []) examples_accounts). exact H4.
Qed.
Lemma rule_accounts ls x cs : rule_block d ls x cs -> accounts ls cs (rule_docs x).
Proof.
  intros [tl [l [dl [bl [sl [tags [kw [nm [desc [bg [scs [cs0 [cs1 [cs2 [cs3 [-> [H0 [H1 [H2 [H3 [H4 [-> ->]]]]]]]]]]]]]]]]]]]]]].
  apply (accounts_app tl cs0 []); [eapply tags_accounts; eauto|]. apply ac_other; [eapply (title_no_comment d TkRuleLine); eauto|]. apply (accounts_app dl cs1 []); [eapply description_accounts; eauto|].
  change (accounts (bl ++ sl) (cs2 ++ cs3) (flat_map background_docs (of_option bg) ++ flat_map scenario_docs scs)). apply accounts_app; [apply (maybe_accounts _ _ background_accounts); exact H3 | apply (blocks_accounts _ _ scenario_accounts); exact H4].
Qed.
Lemma feature_accounts name ls x cs : feature_block d name ls x cs -> accounts ls cs (feature_docs' x).
Proof.
  intros [tl [l [dl [bl [sl [rl [tags [kw [nm [desc [bg [scs [rus [cs0 [cs1 [cs2 [cs3 [cs4 [-> [H0 [H1 [H2 [H3 [H4 [H5 [-> ->]]]]]]]]]]]]]]]]]]]]]]]]]].
  apply (accounts_app tl cs0 []); [eapply tags_accounts; eauto|]. apply ac_other; [eapply (title_no_comment d TkFeatureLine); eauto|]. apply (accounts_app dl cs1 []); [eapply description_accounts; eauto|].
  change (accounts (bl ++ sl ++ rl) (cs2 ++ cs3 ++ cs4) (flat_map background_docs (of_option bg) ++ flat_map scenario_docs scs ++ flat_map rule_docs rus)). apply accounts_app; [apply (maybe_accounts _ _ background_accounts); exact H3|]. apply accounts_app; [apply (blocks_accounts _ _ scenario_accounts); exact H4 | apply (blocks_accounts _ _ rule_accounts); exact H5].
Qed.
End Acc.
Lemma in_fm {A B} (g : A -> list B) l b : In b (flat_map g l) <-> exists a, In a l /\ In b (g a). Proof. apply in_flat_map. Qed.
Lemma flat_map_flat_map' {A B C} (g : B -> list C) (h : A -> list B) l : flat_map g (flat_map h l) = flat_map (fun a => flat_map g (h a)) l.
Proof. induction l as [|a l IH]; [reflexivity|]. cbn [flat_map]. now rewrite flat_map_app, IH. Qed.
Lemma docs_same f ds : In ds (feature_docs' f) <-> In ds (feature_docs f).
Proof.
  unfold feature_docs', feature_docs, feature_steps, feature_backgrounds, feature_scenarios. 
  assert (B : forall l, flat_map step_docs (flat_map bg_steps l) = flat_map background_docs l) by (intros; apply flat_map_flat_map').
  assert (C : forall l, flat_map step_docs (flat_map sc_steps l) = flat_map scenario_docs l) by (intros; apply flat_map_flat_map').
  rewrite (flat_map_app step_docs), B, C, !flat_map_app, !in_app_iff.
  assert (R : In ds (flat_map rule_docs (fe_rules f)) <-> In ds (flat_map background_docs (flat_map (fun r => of_option (ru_background r)) (fe_rules f))) \/ In ds (flat_map scenario_docs (flat_map ru_scenarios (fe_rules f)))).
  { induction (fe_rules f) as [|r rs IH]; [cbn; tauto|]. cbn [flat_map]. rewrite !flat_map_app, !in_app_iff, IH. unfold rule_docs. rewrite in_app_iff. tauto. }
  rewrite R. tauto.
Qed.

(** ** The comment lines of an accounted text *)
Lemma accounts_places ls cs dss : accounts ls cs dss -> forall ds, In ds dss -> exists l, In l ls /\ l_line (ds_loc ds) = fst l.
Proof.
  induction 1 as [|l ls cs dss N H IH|l ls cs dss N H IH|o content c ls sep ds cs dss S B N F D1 D2 H IH]; intros x Hx.
  - destruct Hx.
  - destruct (IH x Hx) as [l' [H1 H2]]. exists l'. split; [now right | exact H2].
  - destruct (IH x Hx) as [l' [H1 H2]]. exists l'. split; [now right | exact H2].
  - destruct Hx as [<-|Hx]; [exists o; rewrite D1; split; [now left | reflexivity]|]. destruct (IH x Hx) as [l' [H1 H2]]. exists l'. split; [right; apply in_or_app; right; now right | exact H2].
Qed.
Lemma in_order_app a b : in_order (a ++ b) -> in_order a /\ in_order b /\ forall x y, In x a -> In y b -> fst x < fst y.
Proof.
  unfold in_order. induction a as [|z a IH]; cbn [app]; intros H; [repeat split; [constructor | exact H | intros x y []]|]. inversion H as [|? ? H1 H2]; subst. destruct (IH H1) as [I1 [I2 I3]]. apply Forall_app in H2 as [F1 F2]. split; [now constructor|]. split; [exact I2|].
  intros x y [<-|Hx] Hy; [rewrite Forall_forall in F2; auto | auto].
Qed.
Lemma app_in_order a b : in_order a -> in_order b -> (forall x y, In x a -> In y b -> fst x < fst y) -> in_order (a ++ b).
Proof.
  unfold in_order. intros A B. induction A as [|z a A IH F]; intros H; cbn [app]; [exact B|]. constructor; [apply IH; intros x y Hx; apply H; now right|]. apply Forall_app. split; [exact F|]. apply Forall_forall. intros y Hy. apply H; [now left | exact Hy].
Qed.
Lemma select ls cs dss : accounts ls cs dss -> forall before after, in_order (before ++ ls ++ after) ->
  exists some, cs = map comment_at some /\ lines_with (fun l => comment_line l /\ ~ exists ds, In ds dss /\ inside (before ++ ls ++ after) ds (fst l)) ls some.
Proof.
  induction 1 as [|l ls cs dss N H IH|l ls cs dss N H IH|o content c ls sep ds cs dss S B N F D1 D2 H IH]; intros before after Ho.
  - exists []. split; [reflexivity|]. split; [constructor|]. cbn. tauto.
  - destruct (IH (before ++ [l]) after) as [some [E [O P]]]; [rewrite <- app_assoc; exact Ho|]. rewrite <- app_assoc in P. cbn [app] in *. exists some. split; [exact E|]. split; [exact O|]. intros x. rewrite P. cbn [In]. split; [tauto|]. intros [[<-|X] Y]; tauto.
  - destruct (IH (before ++ [l]) after) as [some [E [O P]]]; [rewrite <- app_assoc; exact Ho|]. rewrite <- app_assoc in P. cbn [app] in *.
    apply in_order_app in Ho as [_ [Ho _]]. inversion Ho as [|? ? _ Ho']; subst. apply Forall_app in Ho' as [Ho' _].
    exists (l :: some). split; [reflexivity|]. split.
    + constructor; [exact O|]. apply Forall_forall. intros x Hx. rewrite Forall_forall in Ho'. apply Ho'. now apply P in Hx.
    + intros x. cbn [In]. rewrite P. split; [|tauto]. intros [<-|X]; [|tauto]. split; [now left|]. split; [exact N|]. intros [ds [D1 [sep [_ [D2 _]]]]]. destruct (accounts_places _ _ _ H ds D1) as [y [Y1 Y2]]. rewrite Forall_forall in Ho'. specialize (Ho' y Y1). lia.
  - assert (Ew : before ++ (o :: content ++ c :: ls) ++ after = (before ++ o :: content ++ [c]) ++ ls ++ after) by (cbn [app]; rewrite <- !app_assoc; cbn [app]; rewrite <- !app_assoc; reflexivity).
    rewrite Ew in *. destruct (IH (before ++ o :: content ++ [c]) after Ho) as [some [E [O P]]]. exists some. split; [exact E|]. split; [exact O|].
    set (whole := (before ++ o :: content ++ [c]) ++ ls ++ after) in *.
    assert (Ho1 : in_order (o :: content ++ c :: ls ++ after)). { rewrite <- Ew in Ho. apply in_order_app in Ho as [_ [Ho _]]. cbn [app] in Ho. rewrite <- app_assoc in Ho. exact Ho. }
    assert (Lo : forall x, In x (content ++ c :: ls) -> fst o < fst x). { intros x Hx. inversion Ho1 as [|? ? _ Q]; subst. rewrite Forall_forall in Q. apply Q. apply in_app_or in Hx as [Hx|Hx]; apply in_or_app; [now left | right]. destruct Hx as [<-|Hx]; [now left | right; apply in_or_app; now left]. }
    assert (Lc : forall x, In x ls -> fst c < fst x). { intros x Hx. inversion Ho1 as [|? ? Q _]; subst. apply in_order_app in Q as [_ [Q _]]. inversion Q as [|? ? _ Q']; subst. rewrite Forall_forall in Q'. apply Q'. apply in_or_app. now left. }
    assert (Lm : forall x, In x content -> fst x < fst c). { intros x Hx. inversion Ho1 as [|? ? Q _]; subst. apply in_order_app in Q as [_ [_ Q]]. apply Q; [exact Hx | now left]. }
    assert (Oc : fst o < fst c) by (apply Lo; apply in_elt).
    assert (Dl : l_line (ds_loc ds) = fst o) by now rewrite D1.
    assert (Later : forall ds', In ds' dss -> fst c < l_line (ds_loc ds')). { intros ds' Hd. destruct (accounts_places _ _ _ H ds' Hd) as [y [Y1 ->]]. now apply Lc. }
    intros x. rewrite P. cbn [In]. rewrite in_app_iff. cbn [In]. split.
    + intros [X [C1 C2]]. split; [tauto|]. split; [exact C1|]. intros [ds' [[<-|D'] I']]; [|apply C2; eauto]. destruct I' as [sep' [S1 [S2 S3]]]. assert (sep' = sep) as -> by congruence. destruct c as [m y]. apply (S3 m y); [|rewrite Dl; exact Oc | pose proof (Lc x X); cbn in *; lia | exact B].
      try unfold whole. apply in_or_app. left. apply in_or_app. right. right. apply in_or_app. right. now left.
    + intros [X [C1 C2]]. assert (Nc : ~ comment_line c) by (eapply sep_no_comment; eauto). destruct X as [<-|[X|[<-|X]]]; try contradiction.
      * exfalso. apply C2. exists ds. split; [now left|]. exists sep. split; [exact D2|]. rewrite Dl. split; [apply Lo; apply in_or_app; now left|].
        intros m y My M1 M2 By. rewrite <- Ew in My.
        assert (Q : In (m, y) content).
        { apply in_app_or in My as [My|My]; [exfalso; rewrite <- Ew in Ho; apply in_order_app in Ho as [_ [_ Ho]]; specialize (Ho (m, y) o My (or_introl eq_refl)); cbn in Ho; lia|].
          cbn [app In] in My. destruct My as [My|My]; [rewrite My in M1; cbn in M1; lia|]. rewrite <- app_assoc in My. cbn [app] in My. apply in_app_or in My as [My|My]; [exact My|]. exfalso.
          pose proof (Lm x X). inversion Ho1 as [|? ? Q _]; subst. apply in_order_app in Q as [_ [_ Q]]. specialize (Q x (m, y) X My). cbn in Q. lia. }
        rewrite Forall_forall in F. exact (F (m, y) Q By).
      * split; [exact X|]. split; [exact C1|]. intros [ds' [D' I']]. apply C2. exists ds'. split; [now right | exact I'].
Qed.

Lemma numbered_in_order lines : in_order (numbered_lines lines).
Proof.
  unfold numbered_lines. generalize 1. induction lines as [|x lines IH]; intros n; cbn [length seq combine]; [constructor|]. constructor; [apply IH|].
  apply Forall_forall. intros [m y] H. apply in_combine_l in H. apply (proj1 (List.in_seq _ _ _)) in H. cbn. lia.
Qed.
Definition doc_docs (doc : gdoc) : list docstring := flat_map feature_docs (of_option (gd_feature doc)).
Lemma with_impl (P Q : nline -> Prop) lines some : (forall l, In l lines -> (P l <-> Q l)) -> lines_with P lines some -> lines_with Q lines some.
Proof. intros H [O I]. split; [exact O|]. intros l. rewrite I. split; intros [H1 H2]; (split; [exact H1 | now apply H]). Qed.
Lemma preamble_header pre cs rest h : preamble pre cs -> In h pre -> in_order (pre ++ rest) -> ~ header (pre ++ rest) h.
Proof. intros [_ F] Hh Ho [p [r [c [nm [_ [_ L]]]]]]. rewrite Forall_forall in F. exact (F h Hh nm L). Qed.
(** the comments of what the lines stand for *)
Lemma stands_comments lang lines doc : supported lang -> in_order lines -> stands_for lang lines doc ->
  exists some, gd_comments doc = map comment_at some /\
    lines_with (fun l => comment_line l /\ ~ header lines l /\ ~ exists ds, In ds (doc_docs doc) /\ inside lines ds (fst l)) lines some.
Proof.
  intros S Ho [[cs [[N F] ->]]|[[pre [fl [d [f [c0 [c1 [-> [[N F] [D [B ->]]]]]]]]]]|[pre [h [mid [fl [nm [d [f [c0 [c1 [c2 [-> [[N F] [L [D [N1 [B ->]]]]]]]]]]]]]]]]]].
  - pose proof (noise_accounts _ _ N) as A. rewrite <- (app_nil_r lines) in Ho. destruct (select _ _ _ A [] [] Ho) as [some [E W]]. exists some. split; [exact E|]. eapply with_impl; [|exact W]. intros l Hl. cbn [In doc_docs of_option flat_map gd_feature].
    assert (~ header lines l) by (intros [p [r [c [name [_ [_ X]]]]]]; rewrite Forall_forall in F; exact (F l Hl name X)). split; intros [C _]; (split; [exact C|]); [split; [assumption|]|]; intros [ds [[] _]].
  - pose proof (accounts_app _ _ _ (noise_accounts _ _ N) _ _ _ (feature_accounts d (for_name_ok _ _ D) _ _ _ _ B)) as A. cbn [app] in A. rewrite <- (app_nil_r (pre ++ fl)) in Ho. destruct (select _ _ _ A [] [] Ho) as [some [E W]]. exists some. split; [exact E|]. cbn [app] in W. rewrite app_nil_r in W, Ho.
    eapply with_impl; [|exact W]. intros l Hl. unfold doc_docs. cbn [of_option flat_map gd_feature]. rewrite app_nil_r.
    assert (Hh : ~ header (pre ++ fl) l).
    { intros [p [r [c [name [E' [[P1 P2] X]]]]]]. apply in_app_or in Hl as [Hl|Hl]; [rewrite Forall_forall in F; exact (F l Hl name X)|].
      destruct (feature_loud _ _ _ _ _ (for_name_ok _ _ D) B) as [l0 [rest [-> Q]]]. apply noise_quiet in P1, N.
      assert (Ql : quiet l) by (right; exact (language_hash _ _ X)).
      assert (G : forall pre p : list nline, pre ++ l0 :: rest = p ++ l :: r -> in_order (pre ++ l0 :: rest) -> Forall quiet p -> ~ In l pre -> False).
      { clear -Q Ql. induction pre as [|y pre IH]; intros [|z p] E Ho Fp Nl; cbn in E; injection E as E1 E2; subst.
        - contradiction.
        - inversion Fp; contradiction.
        - apply Nl. now left.
        - inversion Fp; inversion Ho; subst. eapply (IH p); eauto. intros X; apply Nl; now right. }
      apply (G pre p E' Ho P1). intros Hp. rewrite Forall_forall in F. exact (F l Hp name X). }
    split; [|intros [C [_ X]]; split; [exact C|]; intros [ds [D1 D2]]; apply X; exists ds; split; [now apply docs_same | exact D2]].
    intros [C X]. split; [exact C|]. split; [exact Hh|]. intros [ds [D1 D2]]. apply X. exists ds. split; [now apply docs_same | exact D2].
  - assert (E3 : pre ++ h :: mid ++ fl = [] ++ pre ++ h :: mid ++ fl) by reflexivity.
    destruct (select _ _ _ (noise_accounts _ _ N) [] (h :: mid ++ fl) Ho) as [some1 [S1 W1]].
    pose proof (accounts_app _ _ _ (noise_accounts _ _ N1) _ _ _ (feature_accounts d (for_name_ok _ _ D) _ _ _ _ B)) as A. cbn [app] in A.
    assert (E4 : (pre ++ [h]) ++ (mid ++ fl) ++ [] = pre ++ h :: mid ++ fl) by (rewrite app_nil_r, <- app_assoc; reflexivity).
    destruct (select _ _ _ A (pre ++ [h]) []) as [some2 [S2 W2]]; [now rewrite E4|]. rewrite E4 in W2. cbn [app] in W1. destruct W1 as [O1 I1], W2 as [O2 I2].
    exists (some1 ++ some2). cbn [gd_comments]. split; [now rewrite map_app, S1, S2|].
    pose proof Ho as Ho'. apply in_order_app in Ho' as [_ [Ho2 Ho3]]. inversion Ho2 as [|? ? Ho4 Ho5]; subst.
    assert (Hl : forall l, In l (pre ++ h :: mid ++ fl) -> comment_line l -> (header (pre ++ h :: mid ++ fl) l <-> l = h)).
    { intros l Hl _. split.
      - intros [p [r [c [name [E' [[_ P2] X]]]]]]. destruct (split_first (fun l => forall name, ~ language_line (snd l) name) _ _ _ _ _ _ E' F) as [_ [-> _]]; auto; [intros Y; exact (Y _ L) | intros Y; exact (Y _ X)].
      - intros ->. exists pre, (mid ++ fl), (map comment_at some1), nm. split; [reflexivity|]. split; [split; assumption | exact L]. }
    unfold doc_docs. cbn [of_option flat_map gd_feature]. rewrite app_nil_r.
    assert (Pl : forall ds, In ds (feature_docs f) -> exists l, In l (mid ++ fl) /\ l_line (ds_loc ds) = fst l) by (intros ds Hd; apply (accounts_places _ _ _ A); now apply docs_same).
    split; [apply app_in_order; auto; intros x y Hx Hy; apply Ho3; [now apply I1 in Hx | right; now apply I2 in Hy]|].
    intros l. rewrite in_app_iff, I1, I2. split.
    + intros [[H1 [H2 _]]|[H1 [H2 H3]]].
      * split; [apply in_or_app; now left|]. split; [exact H2|]. split; [rewrite Hl; [|apply in_or_app; now left | exact H2]; intros ->; specialize (Ho3 h h H1 (or_introl eq_refl)); lia|].
        intros [ds [D1 [sp [_ [D2 _]]]]]. destruct (Pl ds D1) as [y [Y1 Y2]]. specialize (Ho3 l y H1 (or_intror Y1)). lia.
      * assert (In l (pre ++ h :: mid ++ fl)) by (apply in_or_app; right; now right). split; [assumption|]. split; [exact H2|]. split; [rewrite Hl; auto; intros ->; rewrite Forall_forall in Ho5; specialize (Ho5 h H1); lia|].
        intros [ds [D1 D2]]. apply H3. exists ds. split; [now apply docs_same | exact D2].
    + intros [H1 [H2 [H3 H4]]]. rewrite Hl in H3 by auto. apply in_app_or in H1 as [H1|[H1|H1]]; [left | congruence | right].
      * split; [exact H1|]. split; [exact H2|]. intros [ds [[] _]].
      * split; [exact H1|]. split; [exact H2|]. intros [ds [D1 D2]]. apply H4. exists ds. split; [now apply docs_same | exact D2].
Qed.
(** C19.  The comments of an accepted text: the lines that begin with #, except the language header
    and the lines inside doc strings; in order, verbatim without line end, at column 1. *)
Theorem C19_comments : forall stop lang text doc, supported lang -> parse_with stop false lang text = Ok doc ->
  let lines := numbered_lines (split_lines text) in
  exists some, gd_comments doc = map (fun l => mkComment (at_col l 1) (Some (without_eol (snd l)))) some /\
    lines_with (fun l => comment_line l /\ ~ header lines l /\
      ~ exists f ds, gd_feature doc = Some f /\ In ds (feature_docs f) /\ inside lines ds (fst l)) lines some.
Proof.
  intros stop lang text doc S P lines. pose proof (accepted _ _ _ _ S P) as A. destruct (stands_comments _ _ _ S (numbered_in_order _) A) as [some [E W]]. exists some. split; [exact E|].
  eapply with_impl; [|exact W]. intros l _. cbn beta. unfold doc_docs, no_ids. cbn [gd_feature].
  destruct (gd_feature doc) as [f|]; cbn [option_map of_option flat_map]; rewrite ?app_nil_r, ?docs_no.
  - split; intros [H1 [H2 H3]]; (split; [exact H1|]); (split; [exact H2|]); intros X; apply H3.
    + destruct X as [f' [ds [X1 [X2 X3]]]]. injection X1 as <-. eauto.
    + destruct X as [ds [X1 X2]]. eauto.
  - split; intros [H1 [H2 H3]]; (split; [exact H1|]); (split; [exact H2|]); intros X.
    + destruct X as [f' [ds [X1 _]]]. discriminate X1.
    + destruct X as [ds [[] _]].
Qed.
Print Assumptions C19_comments.
Definition c19_text : str := text_of_lines
  [s "# one"; s "# language: en"; s "# language: de"; s "Feature: f"; s "  # two"; s "Scenario: s"; s "* x"; s "```"; s "# inside"; s "```"; s "  # three  "].
Example C19_case : exists doc f ds, parse c19_text = Ok doc /\ gd_feature doc = Some f /\ feature_docs f = [ds] /\
  gd_comments doc = map (fun p => mkComment (mkLoc (fst p) (Some 1)) (Some (snd p))) [(1, s "# one"); (3, s "# language: de"); (5, s "  # two"); (11, s "  # three  ")] /\
  inside (numbered_lines (split_lines c19_text)) ds 9 /\ header (numbered_lines (split_lines c19_text)) (2, s "# language: en" ++ [ch_nl]).
Proof.
  do 3 eexists. split; [vm_compute; reflexivity|]. split; [reflexivity|]. split; [vm_compute; reflexivity|]. split; [vm_compute; reflexivity|]. split.
  - exists (s "```"). split; [reflexivity|]. split; [cbn; lia|]. intros m x H. vm_compute in H. cbn [l_line ds_loc].
    repeat (destruct H as [H|H]; [injection H as <- <-; intros H1 H2; try (exfalso; lia); vm_compute; discriminate|]). destruct H.
  - exists [(1, s "# one" ++ [ch_nl])]. eexists. exists [comment_at (1, s "# one" ++ [ch_nl])], (s "en"). split; [vm_compute; reflexivity|]. split.
    + split; [apply nz_comment; [reflexivity | constructor]|]. constructor; [|constructor]. pose proof (language_re (s "# one" ++ [ch_nl])) as R. vm_compute in R. exact R.
    + exists [], (s " "), [], (s " "), [ch_nl]. repeat split. discriminate.
Qed.
