(** * The tags of a line in Markdown *)
From Verif Require Import PyStr PyStrFacts Types Regex RegexFacts ReSem Line DialectData Matcher LineSpec LineFacts LangFacts MdSpec MdFacts MdRun EolMd.

Lemma here_unique x v q v' q' : tag_here x v q -> tag_here x v' q' -> v = v' /\ q = q'.
Proof.
  intros [_ [N ->]] [_ [N' E]]. injection E as E. clear -N N' E. revert v' N' E. induction v as [|c v IH]; intros [|c' v'] N' E; cbn in E.
  - now injection E as ->.
  - injection E as <- E. exfalso. apply N'. now left.
  - injection E as -> E. exfalso. apply N. now left.
  - injection E as <- E. destruct (IH ltac:(intros H; apply N; now right) v' ltac:(intros H; apply N'; now right) E) as [-> ->]. auto.
Qed.
Lemma here_has x v q : tag_here x v q -> forall p, has_md_tag (p ++ x).
Proof. intros [A [B ->]] p. exists p, v, q. auto. Qed.
(** the specification determines the tags *)
Lemma tags_fun p x l1 : md_tags p x l1 -> forall l2, md_tags p x l2 -> l1 = l2.
Proof.
  induction 1 as [p x N|p pre x v q l H F D IH]; intros l2 H2.
  - inversion H2 as [y N2|pre2 x2 v2 q2 m2 A2 F2 D2]; subst; [reflexivity|]. exfalso. apply N. now apply (here_has _ _ _ A2).
  - remember (pre ++ x) as z eqn:Ez. destruct H2 as [y N2|pre2 x2 v2 q2 m2 A2 F2 D2].
    { exfalso. subst y. apply N2. now apply (here_has _ _ _ H). }
    assert (E : pre2 = pre /\ x2 = x).
    { clear -Ez H F A2 F2. apply app_eq_app in Ez as [m [[-> E]|[-> E]]].
      - destruct m as [|c m]; [now rewrite app_nil_r|]. subst x. exfalso. eapply (F2 pre (c :: m)); [reflexivity | discriminate | exact H].
      - destruct m as [|c m]; [now rewrite app_nil_r|]. subst x2. exfalso. eapply (F pre2 (c :: m)); [reflexivity | discriminate | exact A2]. }
    destruct E as [-> ->]. destruct (here_unique _ _ _ _ _ H A2) as [<- <-]. now rewrite (IH m2 D2).
Qed.
Lemma tags_skip (w y : str) pos k ind : k = length w -> md_tags_go (w ++ y) pos k ind = md_tags_go y (pos + k) 0 ind.
Proof.
  revert pos k. induction w as [|c w IH]; intros pos k ->; cbn [length app]; [now rewrite Nat.add_0_r|].
  cbn [md_tags_go]. rewrite (IH (S pos) _ eq_refl). f_equal. lia.
Qed.
Definition pair_of (i : mitem) : nat * str := (i_column i, i_text i).
Lemma tag_at_here x : tag_at x = true <-> exists v q, tag_here x v q.
Proof. rewrite tag_at_iff. reflexivity. Qed.
Lemma tags_go_ok n : forall x pos ind, length x <= n -> md_tags (ind + pos) x (map pair_of (md_tags_go x pos 0 ind)).
Proof.
  induction n as [|n IH]; intros x pos ind L.
  { destruct x; [|cbn in L; lia]. apply md_tags_none. intros [p [v [q [_ [_ H]]]]]. destruct p; discriminate H. }
  destruct x as [|c x]; [apply md_tags_none; intros [p [v [q [_ [_ H]]]]]; destruct p; discriminate H|].
  destruct (tag_at (c :: x)) eqn:T.
  - apply tag_at_here in T as [v [q T]]. pose proof T as [T1 [T2 T3]]. destruct (tag_exec_full v q T1 T2) as [l [p E]].
    rewrite <- T3 in E. cbn [md_tags_go]. rewrite E. cbn [map pair_of i_column i_text r_rest group r_caps find fst snd Nat.eqb].
    injection T3 as -> T3.
    replace (length (ch_btick :: x) - length q - 1) with (length ([ch_at] ++ v ++ [ch_btick])) by (rewrite T3; cbn [length app]; rewrite ?app_length; cbn [length]; lia).
    assert (W : x = ([ch_at] ++ v ++ [ch_btick]) ++ q) by (rewrite T3; cbn [app]; rewrite <- app_assoc; reflexivity).
    assert (G : md_tags_go x (S pos) (length ([ch_at] ++ v ++ [ch_btick])) ind = md_tags_go q (S pos + length ([ch_at] ++ v ++ [ch_btick])) 0 ind) by (rewrite W at 1; now apply tags_skip).
    rewrite G.
    change (ch_btick :: x) with ([] ++ (ch_btick :: x)).
    replace (ind + pos + 2) with (ind + pos + length (@nil char) + 2) by (cbn; lia). change (ch_at :: v) with ([ch_at] ++ v).
    apply md_tags_some with (q := q); [exact T|intros a b Hab Hb; destruct a; [|discriminate Hab]; cbn in Hab; congruence|].
    replace (ind + pos + length (@nil char) + length v + 3) with (ind + (S pos + length ([ch_at] ++ v ++ [ch_btick]))) by (cbn [length app]; rewrite app_length; cbn [length]; lia).
    apply IH. cbn [length] in L. rewrite W in L. rewrite app_length in L. cbn [app length] in L. lia.
  - cbn [md_tags_go]. destruct (exec md_tag_re (mkR None (c :: x) [])) as [|st l] eqn:E.
    + cbn [length] in L. specialize (IH x (S pos) ind ltac:(lia)). remember (map pair_of (md_tags_go x (S pos) 0 ind)) as its. clear Heqits.
      remember (ind + S pos) as p eqn:Ep. destruct IH as [y N|pre y v q l H F D].
      * apply md_tags_none. rewrite <- tag_in_iff in *. cbn [tag_in]. rewrite T. exact N.
      * change (c :: pre ++ y) with ((c :: pre) ++ y). replace (p + length pre + 2) with (ind + pos + length (c :: pre) + 2) by (cbn [length]; lia).
        apply md_tags_some with (q := q); [exact H| |].
        -- intros a b Hab Hb v' q' Hh. destruct a as [|c' a]; cbn in Hab; [subst b|injection Hab as _ Hab; now apply (F a b Hab Hb v' q')].
           assert (tag_at (c :: pre ++ y) = true) by (apply tag_at_here; eauto). cbn in Hh. congruence.
        -- replace (ind + pos + length (c :: pre) + length v + 3) with (p + length pre + length v + 3) by (cbn [length]; lia). exact D.
    + exfalso. pose proof (proj1 (tag_exec (c :: x))) as X. rewrite E in X. specialize (X ltac:(discriminate)). congruence.
Qed.
Lemma tags_indent w x p l : forallb is_space w = true -> md_tags (p + length w) x l -> md_tags p (w ++ x) l.
Proof.
  intros W H. remember (p + length w) as p' eqn:E. destruct H as [x N|pre x v q l H F D].
  - apply md_tags_none. intros T. apply N. rewrite <- has_tag_lstrip in T |- *. rewrite lstrip_space in T by exact W. exact T.
  - rewrite app_assoc. replace (p' + length pre + 2) with (p + length (w ++ pre) + 2) by (rewrite app_length; lia).
    apply md_tags_some with (q := q); [exact H| |].
    + intros a b Hab Hb v' q' Hh. apply app_eq_app in Hab as [m [[E1 E2]|[E1 E2]]].
      * destruct m as [|c m].
        -- cbn in E2. subst b. apply (F [] pre eq_refl Hb v' q' Hh).
        -- subst w b. rewrite forallb_app in W. apply andb_true_iff in W as [_ W]. cbn [forallb] in W. apply andb_true_iff in W as [W _].
           destruct Hh as [_ [_ Hh]]. cbn in Hh. injection Hh as -> _. discriminate W.
      * apply (F m b E2 Hb v' q' Hh).
    + rewrite app_length. replace (p + (length w + length pre) + length v + 3) with (p' + length pre + length v + 3) by lia. exact D.
Qed.
Lemma tag_line_items t : md_tags 0 (g_text (t_line t)) (map pair_of (md_tags_go (get_line_text (t_line t) (-1)) 0 0 (g_indent (t_line t)))).
Proof.
  change (get_line_text (t_line t) (-1)) with (lstrip (g_text (t_line t))). unfold g_indent, g_trimmed. set (x := g_text (t_line t)).
  destruct (drop_while_suffix is_space x) as [w [E W]]. change (drop_while is_space x) with (lstrip x) in E.
  rewrite E at 1. apply tags_indent; [exact W|]. assert (L : length w = length x - length (lstrip x)) by (rewrite E at 1; rewrite app_length; lia).
  rewrite L. cbn [Nat.add]. rewrite <- (Nat.add_0_r (length x - length (lstrip x))) at 1. now apply tags_go_ok with (n := length (lstrip x)).
Qed.
Theorem tag_line_match ms t : 
  match md_match_TagLine ms t with
  | (Ok true, ms', t') => ms' = ms /\ t_mtype t' = Some TkTagLine /\ exists l, md_tags 0 (g_text (t_line t)) l /\ l <> [] /\ map pair_of (t_items t') = l
  | (Ok false, ms', t') => ms' = ms /\ t' = t /\ md_tags 0 (g_text (t_line t)) []
  | _ => False
  end.
Proof.
  pose proof (tag_line_items t) as H. unfold md_match_TagLine. destruct (md_tags_go _ _ _ _) as [|i l]; [auto|].
  split; [reflexivity|]. split; [reflexivity|]. eexists. split; [exact H|]. split; [discriminate | reflexivity].
Qed.
