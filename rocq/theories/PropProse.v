(** * Prose in a Markdown feature file: C81 *)
From Verif Require Import PyStr PyStrFacts Types Regex Line DialectData Matcher Ast Parser Compiler LineSpec MdSpec TransSpec PropLine PropParse StepFacts MdFacts PropTranslate Glob Robot PropRobot PropTwoFiles.

(** ** Specification *)
(** the same lines, but for prose (TransSpec.v), which may be other prose; inside doc strings nothing is prose *)
Inductive reworded (d : dialect) : place -> list str -> list str -> Prop :=
| rw_end p : reworded d p [] []
| rw_same p k p' x y xs xs' : next p k = Some p' -> stands d k x y -> reworded d p' xs xs' -> reworded d p (x :: xs) (x :: xs')
| rw_prose p p' x x' xs xs' : next p LBlank = Some p' -> one_line x -> one_line x' -> x <> [] -> x' <> [] -> prose d x -> prose d x' ->
    reworded d p' xs xs' -> reworded d p (x :: xs) (x' :: xs').

(** ** The lines of the classic text are lines of a text *)
Inductive lined : list str -> Prop :=
| li_nil : lined []
| li_last y : y <> [] -> ~ In ch_nl y -> lined [y]
| li_cons y ls : ~ In ch_nl y -> lined ls -> lined ((y ++ [ch_nl]) :: ls).
Lemma lined_lines text : lined (split_lines text).
Proof.
  induction text as [|c text IH]; cbn [split_lines]; [constructor|]. destruct (c =? ch_nl)%N eqn:E.
  - apply N.eqb_eq in E. subst c. exact (li_cons [] _ (fun H => H) IH).
  - apply N.eqb_neq in E. destruct (split_lines text) as [|l ls] eqn:Es.
    + constructor; [discriminate | intros [H|[]]; congruence].
    + inversion IH as [|y Hn Hy E1|y ls' Hy Hl E1]; subst.
      * constructor; [discriminate | intros [H|H]; [congruence | auto]].
      * apply (li_cons (c :: y)); [intros [H|H]; [congruence | auto] | exact Hl].
Qed.
Lemma split_line y rest : ~ In ch_nl y -> split_lines (y ++ ch_nl :: rest) = (y ++ [ch_nl]) :: split_lines rest.
Proof.
  induction y as [|c y IH]; intros H; cbn [app split_lines]; [reflexivity|]. assert (E : (c =? ch_nl)%N = false) by (apply N.eqb_neq; intros ->; apply H; now left).
  rewrite E, IH by (intros I; apply H; now right). reflexivity.
Qed.
Lemma split_one y : y <> [] -> ~ In ch_nl y -> split_lines y = [y].
Proof.
  induction y as [|c y IH]; intros N H; [congruence|]. cbn [split_lines]. assert (E : (c =? ch_nl)%N = false) by (apply N.eqb_neq; intros ->; apply H; now left). rewrite E.
  destruct y as [|c' y]; [reflexivity|]. rewrite IH; [reflexivity | discriminate | intros I; apply H; now right].
Qed.
Lemma lined_text ls : lined ls -> split_lines (concat ls) = ls.
Proof.
  induction 1 as [|y N H|y ls H L IH]; [reflexivity | cbn [concat]; rewrite app_nil_r; now apply split_one|].
  cbn [concat]. rewrite <- app_assoc. cbn [app]. rewrite split_line by exact H. now rewrite IH.
Qed.
(** the end of a line is the end of a line *)
Lemma suffix_full pre z y : ~ In ch_nl y -> z <> [] -> pre ++ z = y ++ [ch_nl] -> exists w, z = w ++ [ch_nl] /\ ~ In ch_nl w.
Proof.
  intros H N E. destruct (exists_last N) as [w [c ->]]. rewrite app_assoc in E. apply app_inj_tail in E as [E ->]. exists w. split; [reflexivity|]. intros I. apply H. rewrite <- E. apply in_or_app. now right.
Qed.
Lemma suffix_bare pre z y : ~ In ch_nl y -> pre ++ z = y -> ~ In ch_nl z.
Proof. intros H <- I. apply H. apply in_or_app. now right. Qed.
Definition full (z : str) : Prop := exists w, z = w ++ [ch_nl] /\ ~ In ch_nl w.
Lemma names_clear l : (forall name gap, In (name, gap) l -> tag_name_ok name /\ name <> [] /\ ~ In ch_btick name /\ all_space gap) -> ~ In ch_nl (flat_map (fun p : str * str => s "@" ++ fst p ++ s " ") l).
Proof.
  intros H I. apply in_flat_map in I as [[n g] [Hn I]]. destruct (H n g Hn) as [T _]. cbn [fst] in I. apply in_app_or in I as [[I|[]]|I]; [discriminate I|]. apply in_app_or in I as [I|[I|[]]]; [|discriminate I].
  unfold tag_name_ok in T. rewrite forallb_forall in T. specialize (T _ I). discriminate T.
Qed.
Lemma step_keyword_full lang d k : for_name lang = Some d -> In k (all_step_keywords d) -> exists a w, k = a :: w.
Proof.
  intros H I. apply for_name_in in H. pose proof visible_kws as V. rewrite forallb_forall in V. specialize (V _ H). cbn [snd] in V.
  apply andb_true_iff in V as [V _]. rewrite forallb_forall in V. specialize (V _ I). destruct k; [discriminate V | eauto].
Qed.
Lemma stands_suffix lang d k x z : for_name lang = Some d -> stands d k x z -> full z \/ (z <> [] /\ exists pre, x = pre ++ z).
Proof.
  intros D S. destruct S as [x Hx _ _|x n cells|ind l Hi Hl Hn Ho|k ind h c kw rest e H1 H2 H3 H4 H5 H6 H7 H8 H9|x ind b gap rest kw H1 H2 H3 H4 H5|x n ind rest cells H1 H2 H3 H4 -> H6 H7|q x [i [r [_ ->]]] _|q x Hx _|q x [i [r [_ ->]]]].
  - left. now exists [].
  - left. exists (s "#"). split; [reflexivity|]. intros [Q|[]]. discriminate Q.
  - left. eexists. split; [reflexivity|]. now apply names_clear.
  - right. split; [intros E; apply app_eq_nil in E as [_ E]; discriminate E|]. exists (ind ++ repeat ch_hash h ++ [c]). now rewrite <- !app_assoc.
  - right. destruct H3 as [_ [_ [_ [_ ->]]]]. split.
    + intros ->. destruct (step_keyword_full lang d kw D H4) as [a [w ->]]. discriminate H5.
    + exists (ind ++ [b] ++ gap). now rewrite <- !app_assoc.
  - right. split; [intros E; apply app_eq_nil in E as [_ E]; discriminate E | now exists []].
  - right. split; [intros E; apply app_eq_nil in E as [_ E]; apply app_eq_nil in E as [E _]; destruct q; discriminate E | now exists []].
  - right. split; [exact Hx | now exists []].
  - right. split; [intros E; apply app_eq_nil in E as [_ E]; apply app_eq_nil in E as [E _]; destruct q; discriminate E | now exists []].
Qed.
Lemma translation_lined lang d (D : for_name lang = Some d) p xs zs : translation d p xs zs -> lined xs -> lined zs.
Proof.
  induction 1 as [p|p k p' x xs z zs Hn Hs T IH]; intros L; [constructor|]. destruct (stands_suffix lang d k x z D Hs) as [[w [-> Hw]]|[Nz [pre ->]]].
  - apply li_cons; [exact Hw|]. apply IH. inversion L; subst; [constructor | assumption].
  - inversion L as [|y Ny Hy E|y ls Hy Hl E]; subst.
    + inversion T; subst. constructor; [exact Nz|]. exact (suffix_bare pre z _ Hy eq_refl).
    + symmetry in E. destruct (suffix_full pre z y Hy Nz E) as [w [-> Hw]]. apply li_cons; auto.
Qed.
(** both texts stand for the same classic text *)
Lemma reworded_both d p xs xs' : reworded d p xs xs' -> exists zs, translation d p xs zs /\ translation d p xs' zs.
Proof.
  induction 1 as [p|p k p' x y xs xs' Hn Hs R [zs [I1 I2]]|p p' x x' xs xs' Hn H1 H2 H3 H4 H5 H6 R [zs [I1 I2]]].
  - exists []. split; constructor.
  - exists (y :: zs). split; econstructor; eauto.
  - exists ([ch_nl] :: zs). split; (econstructor; [exact Hn | constructor; assumption | assumption]).
Qed.
Lemma reworded_classic lang d text text' : for_name lang = Some d -> reworded d Start (split_lines text) (split_lines text') ->
  exists classic, translation d Start (split_lines text) (split_lines classic) /\ translation d Start (split_lines text') (split_lines classic).
Proof.
  intros D R. destruct (reworded_both _ _ _ _ R) as [zs [T1 T2]]. exists (concat zs). rewrite lined_text; [now split|]. exact (translation_lined lang d D _ _ _ T1 (lined_lines text)).
Qed.

(** C81.  Other prose: the same outcome, and a document with the same content on the same lines. *)
Theorem C81_document : forall stop lang d text text', for_name lang = Some d -> reworded d Start (split_lines text) (split_lines text') ->
  match parse_with stop true lang text, parse_with stop true lang text' with
  | Ok g, Ok g' => plain_document d g = plain_document d g'
  | Err _, Err _ => True
  | _, _ => False
  end.
Proof.
  intros stop lang d text text' D R. destruct (reworded_classic lang d text text' D R) as [c [T1 T2]].
  pose proof (C68_translation stop lang d text c D T1) as C1. pose proof (C68_translation stop lang d text' c D T2) as C2.
  destruct (parse_with stop true lang text), (parse_with stop true lang text'), (parse_with stop false lang c); try contradiction; [congruence | exact I].
Qed.
Print Assumptions C81_document.
Lemma worded_doc g g' : plain_document en g = plain_document en g' -> worded_document g -> worded_document g'.
Proof.
  intros E W. apply (f_equal gd_feature) in E. unfold worded_document in *. cbn [gd_feature plain_document] in E. destruct (gd_feature g) as [f|], (gd_feature g') as [f'|]; try discriminate E; [|exact I].
  cbn [option_map] in E. apply (worded_same f); [congruence | exact W].
Qed.
(** C81.  The Robot suite is the same (if the steps have words for keywords, not stars). *)
Theorem C81_suite : forall printable name name' content content' dir, is_markdown name = true -> is_markdown name' = true ->
  reworded en Start (split_lines content) (split_lines content') -> (forall g, read_file name content = Ok g -> worded_document g) ->
  match build_gherkin_model printable name content dir, build_gherkin_model printable name' content' dir with
  | Ok (RSuite x, n), Ok (RSuite x', n') => suite_on_lines x = suite_on_lines x' /\ n = n'
  | Ok (RSuite _, _), _ | _, Ok (RSuite _, _) => False
  | _, _ => True
  end.
Proof.
  intros pr name name' content content' dir M M' R W. assert (Hd : for_name (s "en") = Some en) by (vm_compute; reflexivity).
  destruct (reworded_classic (s "en") en content content' Hd R) as [c [T1 T2]].
  assert (Mc : is_markdown (s "a.feature") = false) by reflexivity.
  assert (Wc : forall g, read_file (s "a.feature") c = Ok g -> worded_document g).
  { intros g Hg. pose proof (C68_translation false (s "en") en content c Hd T1) as C. unfold read_file in W, Hg. rewrite M in W. rewrite Mc in Hg. rewrite Hg in C.
    destruct (parse_with false true (s "en") content) as [g0|]; [|contradiction C]. exact (worded_doc g0 g C (W g0 eq_refl)). }
  pose proof (C70_same_suite pr name (s "a.feature") content c dir M Mc T1 Wc) as C1. pose proof (C70_same_suite pr name' (s "a.feature") content' c dir M' Mc T2 Wc) as C2.
  destruct (build_gherkin_model pr name content dir) as [[[x|l] n]|], (build_gherkin_model pr name' content' dir) as [[[x'|l'] n']|], (build_gherkin_model pr (s "a.feature") c dir) as [[[x2|l2] n2]|]; try contradiction; try exact I.
  destruct C1 as [C1 ->], C2 as [C2 ->]. split; congruence.
Qed.
Print Assumptions C81_suite.

(** ** A concrete case *)
Definition c81_a : str := text_of_lines [s "# Feature: shop"; s "Some prose."; s "## Scenario: a"; s "* Given x"; s ""; s "* When y"].
Definition c81_b : str := text_of_lines [s "# Feature: shop"; s ""; s "## Scenario: a"; s "* Given x"; s "Given z, but not in a list"; s "* When y"].
Example C81_case : reworded en Start (split_lines c81_a) (split_lines c81_b) /\ (forall g, read_file (s "a.feature.md") c81_a = Ok g -> worded_document g) /\
  exists x n, build_gherkin_model (fun _ => true) (s "a.feature.md") c81_a None = Ok (RSuite x, n) /\ map (fun t => (rt_name t, map (fun c => (rc_name c, rc_line c)) (rt_calls t))) (rs_tests x) = [(s "a", [(s "Given x", 4); (s "When y", 6)])].
Proof.
  split; [|split].
  - change (split_lines c81_a) with (map (fun x => x ++ [ch_nl]) [s "# Feature: shop"; s "Some prose."; s "## Scenario: a"; s "* Given x"; s ""; s "* When y"]).
    change (split_lines c81_b) with (map (fun x => x ++ [ch_nl]) [s "# Feature: shop"; s ""; s "## Scenario: a"; s "* Given x"; s "Given z, but not in a list"; s "* When y"]). cbn [map].
    eapply (rw_same _ _ (LHead TkFeatureLine)); [reflexivity | head 1%nat TkFeatureLine (s "Feature") (s " shop")|].
    eapply rw_prose; [reflexivity | nl (s "Some prose.") | nl (s "") | discriminate | discriminate | apply prose_first; vm_compute; reflexivity | apply prose_first; vm_compute; reflexivity|].
    eapply (rw_same _ _ (LHead TkScenarioLine)); [reflexivity | head 2%nat TkScenarioLine (s "Scenario") (s " a")|].
    eapply (rw_same _ _ LStep); [reflexivity | bullet (s "* Given x") 42%N (s "Given x") (s "Given ")|].
    eapply rw_prose; [reflexivity | nl (s "") | nl (s "Given z, but not in a list") | discriminate | discriminate | apply prose_first; vm_compute; reflexivity | apply prose_first; vm_compute; reflexivity|].
    eapply (rw_same _ _ LStep); [reflexivity | bullet (s "* When y") 42%N (s "When y") (s "When ")|].
    constructor.
  - intros g H. assert (E : exists g, read_file (s "a.feature.md") c81_a = Ok g /\ worded_document g).
    { eexists. split; [vm_compute; reflexivity|]. unfold worded_document. cbn [gd_feature]. repeat constructor; cbn; tauto. }
    destruct E as [g' [E W]]. rewrite E in H. injection H as <-. exact W.
  - do 2 eexists. split; vm_compute; reflexivity.
Qed.
