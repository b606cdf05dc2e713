(** * Descriptions and doc strings *)
From Verif Require Import PyStr PyStrFacts Types Regex Line DialectData Matcher Ast ParserTable Parser Classify Table Scan Grammar Deriv Cert LineSpec StepFacts Cst Report Eval LangSpec LangFacts Complete DocSpec Erase Den LineIff Means Layout.

(** ** Lines of free text *)
Definition other_leaf (ms : mstate) (l : nline) : leaf := mkLeaf ms (fst l) (snd l) (snd (lexm TkOther ms (fst l) (snd l))).
Lemma lex_other_true ms n x : x <> [] -> lexm TkOther ms n x = (Ok true, ms, snd (lexm TkOther ms n x)).
Proof. intros Hx. rewrite lexm_ne by exact Hx. reflexivity. Qed.
Lemma other_kind ms l : snd l <> [] -> lkind (other_leaf ms l) = TkOther.
Proof. destruct l as [n x]. intros H. pose proof (lexm_kind _ _ _ _ _ _ (lex_other_true ms n x H)) as E. unfold lkind, other_leaf, tok_kind. cbn [lf_t fst snd] in *. now rewrite E. Qed.
Lemma seg_others ms nls ls ms' : seg ms nls ls ms' -> Forall (fun a => lkind a = TkOther) ls -> ms' = ms /\ ls = map (other_leaf ms) nls /\ nonempty nls.
Proof.
  induction 1 as [ms|ms n x t ms1 nls ls ms2 Hx Hl Hs IH]; intros F; [repeat split; constructor|].
  inversion F as [|? ? F1 F2]; subst. unfold lkind in F1. cbn [lf_t] in F1. rewrite F1 in Hl. pose proof (lexm_other _ _ _ _ _ _ Hl ltac:(discriminate) ltac:(discriminate)) as ->.
  destruct (IH F2) as [-> [-> Hn]]. split; [reflexivity|]. split; [|constructor; assumption]. cbn [map]. f_equal. unfold other_leaf. cbn. now rewrite Hl.
Qed.
Lemma others_seg ms nls : nonempty nls -> seg ms nls (map (other_leaf ms) nls) ms.
Proof.
  induction 1 as [|[n x] nls Hx Hn IH]; [constructor|]. cbn [map]. econstructor; [exact Hx| |exact IH]. cbn in Hx.
  pose proof (other_kind ms (n, x) Hx) as K. unfold lkind, other_leaf in K. cbn in *. rewrite K. now apply lex_other_true.
Qed.
Lemma eval_leaves ls : Forall (fun a => lkind a = TkOther) ls -> evals0 (map Leaf ls) = (map (fun a => (KTok TkOther, ITok (lf_t a))) ls, []) /\ comments_of ls = [].
Proof.
  induction 1 as [|a ls H Hs [IH1 IH2]]; [split; reflexivity|]. cbn [map]. rewrite evals0_cons, IH1. cbn [eval0]. unfold comments_of. cbn [flat_map]. rewrite H. split; [reflexivity | exact IH2].
Qed.
Lemma yields_leaves (ls : list leaf) : yields (map Leaf ls) = ls.
Proof. induction ls as [|a ls IH]; [reflexivity|]. cbn [map yields flat_map yield app]. f_equal. exact IH. Qed.
Lemma tokens_leaves r ls : get_tokens (mkNode r (map (fun a => (KTok TkOther, ITok (lf_t a))) ls)) TkOther = map lf_t ls.
Proof. unfold get_tokens, get_items. cbn [n_subs]. induction ls as [|a ls IH]; [reflexivity|]. cbn. f_equal. exact IH. Qed.
(** words over one token kind *)
Lemma star_leaves k l : matches (GStar (T k)) (lsyms l) -> exists ls, l = map Leaf ls /\ Forall (fun a => lkind a = k) ls.
Proof.
  intros H. remember (lsyms l) as w eqn:Ew. remember (GStar (T k)) as g eqn:Eg. revert l Ew. induction H; try discriminate Eg; injection Eg as ->; intros l Ew.
  - destruct l; [|discriminate Ew]. exists []. split; [reflexivity | constructor].
  - apply sym_inv in H. subst u. destruct l as [|[a|r l'] l]; try discriminate Ew. injection Ew as E1 E2. destruct (IHmatches2 eq_refl l E2) as [ls [-> F]].
    exists (a :: ls). split; [reflexivity|]. constructor; [now symmetry | exact F].
Qed.
Lemma leaves_star k ls : Forall (fun a => lkind a = k) ls -> matches (GStar (T k)) (lsyms (map Leaf ls)).
Proof.
  induction 1 as [|a ls H Hs IH]; [constructor|]. cbn [map lsyms syms root_sym]. change (ST (lkind a) :: map (root_sym lkind) (map Leaf ls)) with ([ST (lkind a)] ++ lsyms (map Leaf ls)). rewrite H. constructor; [constructor | exact IH].
Qed.

(** ** Descriptions *)
Lemma last_non_empty_spec ts : forall k, last_non_empty ts = Some k -> exists body last empties, map text_of ts = body ++ [last] ++ empties /\
  last <> [] /\ Forall (fun x => x = []) empties /\ map text_of (firstn k ts) = body ++ [last].
Proof.
  induction ts as [|t ts IH]; intros k H; [discriminate|]. cbn [last_non_empty] in H. destruct (last_non_empty ts) as [m|] eqn:E.
  - injection H as <-. destruct (IH _ eq_refl) as [b [z [e [H1 [H2 [H3 H4]]]]]]. exists (text_of t :: b), z, e. cbn [map firstn app]. rewrite H1, H4. auto.
  - assert (A : Forall (fun x => x = []) (map text_of ts)).
    { clear -E. induction ts as [|u ts IH]; [constructor|]. cbn in *. destruct (last_non_empty ts); [discriminate|]. constructor; [|now apply IH]. unfold text_of. destruct (t_text u) as [[|]|]; congruence. }
    destruct (t_text t) as [[|c y]|] eqn:F; try discriminate H. injection H as <-. exists [], (c :: y), (map text_of ts). cbn [map firstn app]. assert (Q : text_of t = c :: y) by (unfold text_of; now rewrite F). rewrite Q.
    split; [reflexivity|]. split; [discriminate|]. split; [exact A | reflexivity].
Qed.
Lemma last_non_empty_none ts : last_non_empty ts = None -> Forall (fun x => x = []) (map text_of ts).
Proof.
  induction ts as [|u ts IH]; intros E; [constructor|]. cbn in *. destruct (last_non_empty ts); [discriminate|]. constructor; [|now apply IH]. unfold text_of. destruct (t_text u) as [[|]|]; congruence.
Qed.
Lemma split_unique {A} (P : A -> Prop) b1 z1 e1 b2 z2 e2 : b1 ++ [z1] ++ e1 = b2 ++ [z2] ++ e2 -> ~ P z1 -> ~ P z2 -> Forall P e1 -> Forall P e2 -> b1 ++ [z1] = b2 ++ [z2].
Proof.
  revert b2. induction b1 as [|a b1 IH]; intros [|c b2] E N1 N2 F1 F2; cbn in *.
  - now injection E as -> _.
  - injection E as -> E. subst e1. exfalso. apply N2. rewrite Forall_forall in F1. apply F1. apply in_or_app. right. now left.
  - injection E as -> E. subst e2. exfalso. apply N1. rewrite Forall_forall in F2. apply F2. apply in_or_app. right. now left.
  - injection E as -> E. f_equal. eapply IH; eauto.
Qed.
Lemma visible_eol x : ~ all_space x -> without_eol x <> [].
Proof.
  intros H E. apply H. unfold all_space, without_eol, rstrip_crlf in *. destruct (rstrip_by_prefix is_crlf x) as [w [H1 H2]]. rewrite E in H1. cbn in H1. rewrite H1.
  apply forallb_forall. intros c Hc. rewrite forallb_forall in H2. specialize (H2 c Hc). destruct (is_space c) eqn:Q; [reflexivity|]. apply crlf_space in Q. congruence.
Qed.

Section Desc.
Variables (ms : mstate) (p : rule) (pl : place).
Context (Hi : idle ms) (Hp : place_of p = Some pl).
Let Hg : good ms := matcher_good _ (proj1 Hi).

Definition desc_S : bl str := fun nls desc cs => cs = [] /\ Forall (fun l => ~ ends_description (ms_dialect ms) pl (snd l)) nls /\
  match nls with [] => False | l :: _ => ~ blank_line l end /\ description_text nls desc.
Lemma desc_text nls : nonempty nls -> map text_of (map lf_t (map (other_leaf ms) nls)) = map (fun l => without_eol (snd l)) nls.
Proof.
  intros H. rewrite !map_map. apply map_ext_in. intros [n x] Hin. unfold nonempty in H. rewrite Forall_forall in H. specialize (H _ Hin). cbn in *. unfold text_of, other_leaf. cbn [lf_t fst snd].
  rewrite (other_text ms n x ms _ H (proj1 Hi) (proj2 Hi) (lex_other_true ms n x H)). reflexivity.
Qed.
Lemma desc_eval nls : nonempty nls -> match nls with [] => False | l :: _ => ~ blank_line l end ->
  exists desc, description_text nls desc /\ eval0 (Node RDescription (map Leaf (map (other_leaf ms) nls))) = ([(KRule RDescription, IDesc desc)], []).
Proof.
  intros Hn Hb. assert (K : Forall (fun a => lkind a = TkOther) (map (other_leaf ms) nls)).
  { apply Forall_map. eapply Forall_impl; [|exact Hn]. intros l Hl. now apply other_kind. }
  destruct (eval_leaves _ K) as [E1 E2]. rewrite eval0_node, E1. unfold finish0. cbn [transform_node n_rule]. rewrite tokens_leaves.
  destruct (last_non_empty (map lf_t (map (other_leaf ms) nls))) as [k|] eqn:E.
  - apply last_non_empty_spec in E as [b [z [e [H1 [H2 [H3 H4]]]]]]. rewrite (desc_text _ Hn) in H1. exists (join [ch_nl] (b ++ [z])). split; [exists b, z, e; auto|].
    rewrite H4. reflexivity.
  - exfalso. apply last_non_empty_none in E. rewrite (desc_text _ Hn) in E. destruct nls as [|l nls]; [exact Hb|]. apply Forall_inv in E. now apply (visible_eol (snd l)) in Hb.
Qed.
Lemma desc_fun nls d1 d2 : description_text nls d1 -> description_text nls d2 -> d1 = d2.
Proof.
  intros [b1 [z1 [e1 [A1 [A2 [A3 ->]]]]]] [b2 [z2 [e2 [B1 [B2 [B3 ->]]]]]]. f_equal. rewrite A1 in B1. exact (split_unique (fun x => x = []) _ _ _ _ _ _ B1 A2 B2 A3 B3).
Qed.
Lemma means_description : means (V p (R RDescription)) ms desc_S (node_G RDescription IDesc).
Proof.
  split.
  - intros nls ms' subs cs H. apply V_node in H as [l [H1 [H2 [H3 H4]]]]. inversion H1 as [|? ? A1 A2 A3]; subst. cbn [prod gplus] in A1.
    apply cat_inv in A1 as [u [v [E [M1 M2]]]]. apply sym_inv in M1. subst u. destruct l as [|[a|r0 l'] l]; try discriminate E. injection E as Ek Ev. subst v.
    apply star_leaves in M2 as [ls [-> F]]. change (Leaf a :: map Leaf ls) with (map Leaf (a :: ls)) in *. rewrite yields_leaves in H2.
    assert (K : Forall (fun a => lkind a = TkOther) (a :: ls)) by (constructor; assumption). destruct (seg_others _ _ _ _ H2 K) as [-> [El Hn]].
    rewrite yields_leaves, (proj2 (eval_leaves _ K)). rewrite El in *. split; [reflexivity|].
    assert (Pr : forall pre l0 post, nls = pre ++ l0 :: post -> ~ ends_description (ms_dialect ms) pl (snd l0) /\ (pre = [] -> ~ blank_line l0)).
    { intros pre l0 post ->. assert (B : leaf_ok p RDescription (map Leaf (map (other_leaf ms) pre)) (other_leaf ms l0)).
      { eapply A2. rewrite !map_app. cbn [map]. reflexivity. }
      pose proof (lo_prio _ _ _ _ B) as P. unfold priority in P. assert (Q : lkind (other_leaf ms l0) = TkOther).
      { apply other_kind. apply Forall_app in Hn as [_ Hn]. now apply Forall_inv in Hn. }
      rewrite Q in P. cbn [other_leaf lf_ms lf_x] in P. destruct P as [P1 P2]. split.
      - intros X. apply P1. now apply (ends_spec ms p pl (snd l0) Hg Hp).
      - intros -> X. apply (P2 eq_refl). now apply cls_blank. }
    assert (Hb : match nls with [] => False | l :: _ => ~ blank_line l end).
    { destruct nls as [|l0 nls]; [discriminate El|]. apply (Pr [] l0 nls eq_refl). reflexivity. }
    destruct (desc_eval nls Hn Hb) as [desc [D1 D2]]. rewrite D2 in H3. injection H3 as <-. exists desc. split; [|reflexivity].
    split; [reflexivity|]. split; [|split; assumption]. apply Forall_forall. intros l0 Hl0. apply in_split in Hl0 as [pre [post Hl0]]. eapply Pr; eauto.
  - intros nls desc cs Hn [-> [H1 [H2 H3]]]. destruct (desc_eval nls Hn H2) as [desc' [D1 D2]]. rewrite (desc_fun _ _ _ H3 D1). exists [(KRule RDescription, IDesc desc')]. split; [|reflexivity].
    assert (K : Forall (fun a => lkind a = TkOther) (map (other_leaf ms) nls)).
    { apply Forall_map. eapply Forall_impl; [|exact Hn]. intros l Hl. now apply other_kind. }
    apply V_node. exists (map Leaf (map (other_leaf ms) nls)). rewrite yields_leaves. split; [|split; [now apply others_seg|]; split; [exact D2 | apply (eval_leaves _ K)]].
    constructor.
    + destruct nls as [|l nls]; [destruct H2|]. cbn [map]. inversion K as [|? ? K1 K2]; subst. cbn [prod gplus]. apply (m_cat (T TkOther) (GStar (T TkOther)) [ST (lkind (other_leaf ms l))] (lsyms (map Leaf (map (other_leaf ms) nls)))); [rewrite K1; constructor | now apply leaves_star].
    + intros pre a post E. apply map_eq_app in E as [x1 [x2 [E [E1 E2]]]]. destruct x2 as [|a' x2]; [discriminate E2|]. cbn [map] in E2. injection E2 as -> E2.
      apply map_eq_app in E as [n1 [n2 [-> [E3 E4]]]]. destruct n2 as [|l0 n2]; [discriminate E4|]. cbn [map] in E4. injection E4 as <- E4.
      apply Forall_app in Hn as [Hn1 Hn2]. apply Forall_inv in Hn2. apply Forall_app in H1 as [H11 H12]. apply Forall_inv in H12.
      pose proof (other_kind ms l0 Hn2) as Q. constructor.
      * apply Hi.
      * exists ms. rewrite Q. cbn. now apply lex_other_true.
      * cbn. unfold sep_open, res_open. cbn. split; [reflexivity|]. intros _. apply Hi.
      * unfold priority. rewrite Q. cbn. split.
        -- intros X. apply H12. now apply (ends_spec ms p pl (snd l0) Hg Hp).
        -- intros Ep X. apply cls_blank in X; [|exact Hg]. destruct n1 as [|l1 n1]; [now apply H2|]. subst x1 pre. cbn in Ep. discriminate Ep.
      * cbn. intros X. contradiction.
    + apply Forall_map. apply Forall_forall. intros. constructor.
Qed.

(** after a title line *)
Definition helper : gx := GCat (GStar (T TkEmpty)) (GCat (gopt (R RDescription)) (gopt (GCat (T TkComment) noise))).
Definition desc_G (desc : str) (subs : list (key * item)) : Prop :=
  exists b1 m b2, subs = b1 ++ m ++ b2 /\ blanks b1 /\ blanks b2 /\ (m = [(KRule RDescription, IDesc desc)] \/ m = [] /\ desc = []).
Lemma blanks_gather nls (a : list unit) cs : gather one_blank nls a cs <-> a = [] /\ cs = [] /\ Forall blank_line nls.
Proof.
  split.
  - induction 1 as [|n1 a c1 n2 b c2 H1 H2 [-> [-> IH]]]; [repeat split; constructor|]. destruct H1 as [-> [-> [l [-> H]]]]. repeat split. now constructor.
  - intros [-> [-> H]]. induction H as [|l ls H H0 IH]; [constructor|]. apply (ga_cons _ [l] [] [] ls [] []); [|exact IH]. split; [reflexivity|]. split; [reflexivity|]. eauto.
Qed.
Lemma means_helper : means (V p helper) ms (description_block (ms_dialect ms) pl) desc_G.
Proof.
  assert (Hr : p <> RGherkinDocument) by (destruct p; discriminate).
  apply (means_map (V p helper) ms (cat_S (gather (A := unit) one_blank) (cat_S (maybe desc_S) (maybe (cat_S (A := list unit) one_comment noise_S))))
     (cat_G (fun _ => blanks) (cat_G (opt_G (node_G RDescription IDesc)) (opt_G (cat_G (fun _ => blanks) noise_G))))).
  - apply means_cat; [apply means_gather; [now apply means_blank | constructor | intros; now apply blanks_app]|].
    apply means_cat; [apply means_opt, means_description|]. apply means_opt, means_cat; [apply means_comment; [exact Hi | exact Hr | constructor] | now apply means_noise].
  - intros nls [u [od ow]] cs subs [n1 [n2 [c1 [c2 [-> [-> [H1 H2]]]]]]] [s1 [s2 [-> [G1 G2]]]]. cbn [fst snd] in *.
    destruct H2 as [n3 [n4 [c3 [c4 [-> [-> [H2 H3]]]]]]]. destruct G2 as [s3 [s4 [-> [G2 G3]]]]. cbn [fst snd] in *. apply blanks_gather in H1 as [_ [-> H1]].
    assert (W : noise_lines n4 c4 /\ match n4 with [] => True | l :: _ => comment_line l end /\ blanks s4).
    { destruct ow as [[w1 w2]|]; cbn in H3, G3.
      - destruct H3 as [m1 [m2 [k1 [k2 [-> [-> [[Ew [l [-> [W ->]]]] W2]]]]]]]. cbn in *. destruct G3 as [t1 [t2 [-> [T1 T2]]]]. split; [now apply nz_comment|]. split; [exact W | now apply blanks_app].
      - destruct H3 as [-> ->]. subst. repeat split; constructor. }
    destruct W as [W1 [W2 W3]]. destruct od as [desc|]; cbn in H2, G2.
    + exists desc. destruct H2 as [-> [D1 [D2 D3]]]. split.
      * exists n1, n3, n4. split; [reflexivity|]. split; [exact H1|]. split; [exact D1|]. split; [|split; assumption]. destruct n3; [destruct D2|]. auto.
      * exists s1, s3, s4. unfold node_G in G2. subst. auto 6.
    + destruct H2 as [-> ->]. subst s3. exists []. split.
      * exists n1, [], n4. split; [reflexivity|]. split; [exact H1|]. split; [constructor|]. split; [reflexivity|]. split; assumption.
      * exists s1, [], s4. auto 6.
  - intros nls desc cs [n1 [n3 [n4 [-> [H1 [H2 [H3 [H4 H5]]]]]]]].
    assert (W : exists ow, maybe (cat_S (A := list unit) one_comment noise_S) n4 ow cs).
    { destruct n4 as [|l n4]; [inversion H4; subst; exists None; split; reflexivity|]. inversion H4 as [|? ? ? Hb ?|l' ls cs' Hc Hz]; subst.
      - exfalso. cbn in Hb. unfold blank_line in Hb. rewrite blank_spec in Hb. unfold comment_line, begins in H5. rewrite Hb in H5. discriminate H5.
      - exists (Some ([], tt)). exists [l], n4, [comment_at l], cs'. split; [reflexivity|]. split; [reflexivity|]. split; [split; [reflexivity|]; eauto | exact Hz]. }
    destruct W as [ow W].
    assert (GG : forall od s, opt_G (node_G RDescription IDesc) od s -> (od = Some desc \/ od = None /\ desc = []) -> s = [(KRule RDescription, IDesc desc)] \/ s = [] /\ desc = []).
    { intros od s G [-> | [-> ->]]; cbn in G; [left; exact G | right; auto]. }
    assert (D : exists od, maybe desc_S n3 od [] /\ (od = Some desc \/ od = None /\ desc = [])).
    { destruct n3 as [|l n3]; [exists None; split; [split; reflexivity | right; auto]|]. exists (Some desc). split; [|now left]. destruct H3 as [H3 H3']. split; [reflexivity|]. auto. }
    destruct D as [od [D1 D2]]. exists ([], (od, ow)). split.
    + exists n1, (n3 ++ n4), [], cs. split; [reflexivity|]. split; [reflexivity|]. split; [apply blanks_gather; auto|]. cbn [snd]. exists n3, n4, [], cs. auto.
    + intros subs [s1 [s2 [-> [G1 [s3 [s4 [-> [G2 G3]]]]]]]]. cbn [fst snd] in *. exists s1, s3, s4. split; [reflexivity|]. split; [exact G1|]. split; [|now apply (GG od)].
      destruct ow as [[w1 w2]|]; cbn in G3; [|subst; constructor]. destruct G3 as [t1 [t2 [-> [T1 T2]]]]. now apply blanks_app.
Qed.
End Desc.
