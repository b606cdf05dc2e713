(** * Doc strings *)
From Verif Require Import PyStr PyStrFacts Types Regex Line DialectData Matcher Ast ParserTable Parser Classify Table Scan Grammar Deriv Cert LineSpec StepFacts Cst Report Eval LangSpec LangFacts Complete DocSpec Erase Den LineIff Means Layout Texts.

Definition quiet (t : ltree) : Prop := root_sym lkind t = ST TkEmpty \/ root_sym lkind t = ST TkComment.
Lemma noise_word l : matches noise (lsyms l) <-> Forall quiet l.
Proof.
  split.
  - intros H. remember (lsyms l) as w eqn:Ew. unfold noise in H. remember (GStar (GAlt (T TkEmpty) (T TkComment))) as g eqn:Eg. revert l Ew. induction H; try discriminate Eg; injection Eg as ->; intros l Ew.
    + destruct l; [constructor | discriminate Ew].
    + assert (Q : u = [ST TkEmpty] \/ u = [ST TkComment]) by (apply alt_inv in H as [H|H]; apply sym_inv in H; auto).
      destruct l as [|t l]; [destruct Q as [Q|Q]; subst u; discriminate Ew|]. destruct Q as [Q|Q]; subst u; cbn in Ew; injection Ew as E1 E2; (constructor; [unfold quiet; rewrite <- E1; auto | now apply IHmatches2]).
  - induction 1 as [|t l H Hs IH]; [constructor|]. change (lsyms (t :: l)) with ([root_sym lkind t] ++ lsyms l). constructor; [|exact IH].
    destruct H as [H|H]; rewrite H; [apply m_altl | apply m_altr]; constructor.
Qed.
Definition in_doc : gx := GCat (GStar (T TkOther)) (GCat (T TkDocStringSeparator) noise).
Lemma derivs_noise l : Forall quiet l -> derivs (lsyms l) noise = noise.
Proof.
  induction 1 as [|t l H Hs IH]; [reflexivity|]. change (lsyms (t :: l)) with ([root_sym lkind t] ++ lsyms l). rewrite derivs_app.
  assert (E : derivs [root_sym lkind t] noise = noise) by (destruct H as [H|H]; rewrite H; reflexivity). now rewrite E.
Qed.
Lemma derivs_others ls : Forall (fun a => lkind a = TkOther) ls -> derivs (lsyms (map Leaf ls)) in_doc = in_doc.
Proof.
  induction 1 as [|a l H Hs IH]; [reflexivity|]. change (lsyms (map Leaf (a :: l))) with ([ST (lkind a)] ++ lsyms (map Leaf l)). rewrite derivs_app, H. exact IH.
Qed.

Section Doc.
Variables (ms : mstate) (p : rule).
Context (Hi : idle ms).

Lemma sep_open_content a ls : lkind a = TkDocStringSeparator -> Forall (fun a => lkind a = TkOther) ls -> sep_open RDocString (Leaf a :: map Leaf ls) = true.
Proof.
  intros Ha Hl. unfold sep_open. change (lsyms (Leaf a :: map Leaf ls)) with ([ST (lkind a)] ++ lsyms (map Leaf ls)). rewrite derivs_app, Ha.
  change (derivs [ST TkDocStringSeparator] (prod RDocString)) with in_doc. rewrite derivs_others by exact Hl. reflexivity.
Qed.
Lemma sep_open_rest a ls b nl : lkind a = TkDocStringSeparator -> lkind b = TkDocStringSeparator -> Forall (fun a => lkind a = TkOther) ls -> Forall quiet nl ->
  sep_open RDocString (Leaf a :: map Leaf ls ++ Leaf b :: nl) = false.
Proof.
  intros Ha Hb Hl Hn. unfold sep_open. change (lsyms (Leaf a :: map Leaf ls ++ Leaf b :: nl)) with ([ST (lkind a)] ++ lsyms (map Leaf ls ++ ([Leaf b] ++ nl))). rewrite derivs_app, Ha.
  change (derivs [ST TkDocStringSeparator] (prod RDocString)) with in_doc. rewrite !lsyms_app, !derivs_app, derivs_others by exact Hl.
  change (lsyms [Leaf b]) with [ST (lkind b)]. rewrite Hb. change (derivs [ST TkDocStringSeparator] in_doc) with noise. rewrite derivs_noise by exact Hn. reflexivity.
Qed.
Lemma back_to_idle ind sep : sep_state (sep_state ms ind sep) 0 None = ms.
Proof. destruct Hi as [Hm Hs]. pose proof (mo_indent _ Hm Hs) as E. destruct ms. cbn in *. subst. reflexivity. Qed.
Lemma open_ok ind sep : separator sep -> matcher_ok (sep_state ms ind (Some sep)).
Proof.
  intros Hsep. destruct Hi as [[H1 H2 H3] Hs]. constructor.
  - exact H1.
  - discriminate.
  - right. destruct Hsep as [-> | ->]; [left | right]; reflexivity.
Qed.

(** what building makes of it *)
Lemma doc_eval a ls b nl s : lkind a = TkDocStringSeparator -> lkind b = TkDocStringSeparator -> Forall (fun a => lkind a = TkOther) ls -> evals0 nl = (s, []) -> blanks s ->
  forall media, t_text (lf_t a) = Some media ->
  eval0 (Node RDocString (Leaf a :: map Leaf ls ++ Leaf b :: nl)) =
    ([(KRule RDocString, IDoc (mkDoc (t_location (lf_t a)) (join [ch_nl] (map text_of (map lf_t ls))) (t_keyword (lf_t a)) (match media with [] => None | _ => Some media end)))], []).
Proof.
  intros Ha Hb Hl Es Bs media Hm. rewrite eval0_node, evals0_cons, evals0_app, evals0_cons, Es. destruct (eval_leaves ls Hl) as [E1 _]. rewrite E1. cbn [eval0]. rewrite Ha, Hb. cbn [tok_eqb app].
  unfold finish0. cbn [transform_node n_rule]. set (S1 := map _ ls).
  assert (T : forall k, get_tokens (mkNode RDocString ((KTok TkDocStringSeparator, ITok (lf_t a)) :: S1 ++ (KTok TkDocStringSeparator, ITok (lf_t b)) :: s)) k =
    get_tokens (mkNode RDocString [(KTok TkDocStringSeparator, ITok (lf_t a))]) k ++ get_tokens (mkNode RDocString S1) k ++ get_tokens (mkNode RDocString [(KTok TkDocStringSeparator, ITok (lf_t b))]) k ++ get_tokens (mkNode RDocString s) k).
  { intros k. rewrite <- !get_tokens_app. reflexivity. }
  rewrite !T. subst S1. rewrite tokens_leaves. assert (Q : forall k, k <> TkEmpty -> get_tokens (mkNode RDocString s) k = []).
  { intros k Hk. unfold get_tokens. rewrite gi_blanks; [reflexivity | exact Bs | congruence]. }
  rewrite !Q by discriminate. rewrite !app_nil_r. cbn [get_tokens get_items n_subs filter fst key_eqb tok_eqb map snd flat_map app]. rewrite Hm. reflexivity.
Qed.

Lemma doc_comments a ls b nl : lkind a = TkDocStringSeparator -> lkind b = TkDocStringSeparator -> Forall (fun a => lkind a = TkOther) ls ->
  comments_of (yields (Leaf a :: map Leaf ls ++ Leaf b :: nl)) = comments_of (yields nl).
Proof.
  intros Ha Hb Hl. change (yields (Leaf a :: map Leaf ls ++ Leaf b :: nl)) with (a :: yields (map Leaf ls ++ Leaf b :: nl)). rewrite yields_app', yields_leaves.
  change (yields (Leaf b :: nl)) with (b :: yields nl). unfold comments_of. cbn [flat_map]. rewrite flat_map_app. cbn [flat_map]. rewrite Ha, Hb. cbn [tok_eqb app].
  fold (comments_of ls). rewrite (proj2 (eval_leaves ls Hl)). reflexivity.
Qed.

Lemma quiet_leaves l : Forall quiet l -> exists ls, l = map Leaf ls.
Proof.
  induction 1 as [|t l H Hs [ls ->]]; [exists []; reflexivity|]. destruct t as [a|r l']; [exists (a :: ls); reflexivity|]. destruct H as [H|H]; discriminate H.
Qed.
Lemma content_texts ind sep nls : separator sep -> nonempty nls -> map text_of (map lf_t (map (other_leaf (sep_state ms ind (Some sep))) nls)) = map (fun l => content_line ind sep (snd l)) nls.
Proof.
  intros Hsep H. rewrite !map_map. apply map_ext_in. intros [n x] Hin. unfold nonempty in H. rewrite Forall_forall in H. specialize (H _ Hin). cbn [snd] in *. unfold text_of, other_leaf. cbn [lf_t fst snd].
  now rewrite (docstring_text (sep_state ms ind (Some sep)) n x _ _ sep H Hsep eq_refl (lex_other_true _ n x H)).
Qed.

Lemma seg_cons_inv m nls a ls m' : seg m nls (a :: ls) m' -> exists n x t m1 nls', nls = (n, x) :: nls' /\ a = mkLeaf m n x t /\ x <> [] /\ lexm (tok_kind t) m n x = (Ok true, m1, t) /\ seg m1 nls' ls m'.
Proof. intros H. inversion H; subst. eauto 12. Qed.

Lemma means_docstring : means (V p (R RDocString)) ms doc_block (node_G RDocString IDoc).
Proof.
  split.
  - intros nls ms' subs cs H. apply V_node in H as [l [H1 [H2 [H3 H4]]]]. inversion H1 as [|? ? A1 A2 A3]; subst.
    cbn [prod gseq] in A1. apply cat_inv in A1 as [u [v [E [M1 M2]]]]. apply sym_inv in M1. subst u. destruct l as [|[a|r0 l'] l]; try discriminate E. injection E as Ea Ev. subst v.
    apply cat_inv in M2 as [u [v [E [M1 M2]]]]. unfold lsyms, syms in E. apply map_eq_app in E as [l1 [l2 [-> [E1 E2]]]]. subst u v.
    apply star_leaves in M1 as [ls [-> Hl]]. apply cat_inv in M2 as [u [v [E [M1 M2]]]]. apply sym_inv in M1. subst u. destruct l2 as [|[b|r0 l'] nl]; try discriminate E. injection E as Eb Ev. subst v.
    apply noise_word in M2. 
    change (yields (Leaf a :: map Leaf ls ++ Leaf b :: nl)) with (a :: yields (map Leaf ls ++ Leaf b :: nl)) in H2. rewrite yields_app', yields_leaves in H2.
    apply seg_cons_inv in H2 as [n0 [x0 [t0 [ms1 [nls1 [-> [Ha [Hx0 [L0 H2]]]]]]]]]. apply seg_app_inv in H2 as [content [nls2 [ms2 [-> [S1 S2]]]]].
    assert (K0 : tok_kind t0 = TkDocStringSeparator) by (now rewrite Ha in Ea). rewrite K0 in L0. apply lex_open in L0 as [sep [Hsep [B0 [-> Et0]]]]; [|exact Hx0 | apply Hi].
    destruct (seg_others _ _ _ _ S1 Hl) as [-> [Els Hn]].
    change (yields (Leaf b :: nl)) with (b :: yields nl) in S2. apply seg_cons_inv in S2 as [n1 [x1 [t1 [ms3 [rest [-> [Hb [Hx1 [L1 S3]]]]]]]]].
    assert (K1 : tok_kind t1 = TkDocStringSeparator) by (now rewrite Hb in Eb). rewrite K1 in L1. apply (lex_close _ _ _ _ _ sep) in L1 as [B1 [-> Et1]]; [|exact Hx1 | reflexivity].
    rewrite back_to_idle in S3.
    (* the rest *)
    destruct (evals0 nl) as [s es] eqn:Es.
    assert (Fes : es = []).
    { pose proof H3 as H3'. rewrite eval0_node, evals0_cons, evals0_app, evals0_cons, Es in H3'. destruct (eval_leaves ls Hl) as [X _]. rewrite X in H3'. cbn [eval0] in H3'. now apply finish0_errs in H3'. }
    subst es.
    assert (W : V RStep noise ms rest ms' s (comments_of (yields nl))).
    { exists nl. split; [|split; [exact Es | reflexivity]]. split; [now apply noise_word|]. split; [|split; [|exact S3]].
      - apply Forall_forall. intros [c|r0 l'] Hc; [|exact I]. apply in_split in Hc as [pre [post Hc]]. cbn [treec].
        assert (Fp : Forall quiet pre) by (rewrite Hc in M2; now apply Forall_app in M2).
        assert (B : leaf_ok p RDocString (Leaf a :: map Leaf ls ++ Leaf b :: pre) c).
        { eapply A2 with (post := post). rewrite Hc. cbn [app]. f_equal. rewrite <- app_assoc. reflexivity. }
        split; [apply (lo_ms _ _ _ _ B)|]. split; [|discriminate]. apply (lo_open _ _ _ _ B). now apply sep_open_rest.
      - apply Forall_forall. intros t Ht. rewrite Forall_forall in A3. assert (In t (Leaf a :: map Leaf ls ++ Leaf b :: nl)) by (right; apply in_or_app; right; now right).
        destruct (quiet_leaves nl M2) as [zs ->]. apply in_map_iff in Ht as [z [<- _]]. constructor. }
    destruct (means_noise RStep ms Hi ltac:(discriminate)) as [FN _]. apply FN in W as [-> [[] [W1 W2]]]. split; [reflexivity|].
    assert (Ht : t_text (lf_t a) = Some (strip (skipn (length sep) (lstrip x0)))).
    { rewrite Ha. cbn [lf_t]. rewrite Et0. cbn. f_equal. apply rstrip_crlf_strip. }
    rewrite (doc_eval a ls b nl s Ea Eb Hl Es W2 _ Ht) in H3. injection H3 as <-. eexists. split; [|reflexivity].
    rewrite doc_comments by assumption.
    exists sep, (n0, x0), content, (n1, x1), rest. eexists. split; [reflexivity|]. split; [exact Hsep|]. split; [exact B0|]. split; [exact B1|]. split.
    + apply Forall_forall. intros l0 Hl0. apply in_split in Hl0 as [pre [post Hc]].
      assert (B : leaf_ok p RDocString (Leaf a :: map Leaf (map (other_leaf (sep_state ms (indent_of x0) (Some sep))) pre)) (other_leaf (sep_state ms (indent_of x0) (Some sep)) l0)).
      { eapply A2. rewrite Els, Hc. rewrite !map_app. cbn [map app]. rewrite <- app_assoc. reflexivity. }
      rewrite Hc in Hn. apply Forall_app in Hn as [_ Hn]. apply Forall_inv in Hn.
      pose proof (lo_prio _ _ _ _ B) as P. unfold priority in P. rewrite (other_kind _ _ Hn) in P. cbn [other_leaf lf_ms lf_x lf_n] in P. now apply (lex_not_close (sep_state ms (indent_of x0) (Some sep)) _ _ sep Hn eq_refl) in P.
    + split; [reflexivity|]. split; [exact W1|]. cbn [snd]. rewrite Els, content_texts by assumption. rewrite Ha. cbn [lf_t]. rewrite Et0. f_equal.
      unfold t_location, set_matched, here. cbn. unfold g_bool. cbn. destruct x0; [contradiction|]. reflexivity.
  - intros nls ds cs Hn [sep [[n0 x0] [content [[n1 x1] [rest [media [-> [Hsep [B0 [B1 [Hc [Em [Hr ->]]]]]]]]]]]]]. cbn [snd] in *.
    inversion Hn as [|? ? Hx0 Hn1]; subst. apply Forall_app in Hn1 as [Hnc Hn2]. inversion Hn2 as [|? ? Hx1 Hnr]; subst. cbn [snd] in Hx0, Hx1.
    set (m1 := sep_state ms (indent_of x0) (Some sep)).
    destruct (means_noise RStep ms Hi ltac:(discriminate)) as [_ BN]. destruct (BN rest tt cs Hnr Hr) as [s [[nl [[W1 [W2 [W3 W4]]] [W5 W6]]] W7]].
    apply noise_word in W1.
    pose proof (proj2 (lex_open ms n0 x0 m1 _ Hx0 (proj2 Hi)) (ex_intro _ sep (conj Hsep (conj B0 (conj eq_refl eq_refl))))) as L0.
    set (t0 := set_matched m1 (new_token x0 n0) (Some TkDocStringSeparator) (Some (strip (skipn (length sep) (lstrip x0)))) (Some sep) None None []) in L0.
    pose proof (proj2 (lex_close m1 n1 x1 _ _ sep Hx1 eq_refl) (conj B1 (conj eq_refl eq_refl))) as L1.
    unfold m1 in L1 at 2. rewrite back_to_idle in L1.
    match type of L1 with _ = (_, _, ?t) => set (t1 := t) in L1 end.
    set (a := mkLeaf ms n0 x0 t0). set (b := mkLeaf m1 n1 x1 t1). set (ls := map (other_leaf m1) content).
    assert (Ea : lkind a = TkDocStringSeparator) by reflexivity. assert (Eb : lkind b = TkDocStringSeparator) by reflexivity.
    assert (Hl : Forall (fun a => lkind a = TkOther) ls) by (apply Forall_map; eapply Forall_impl; [|exact Hnc]; intros l0 Hl0; now apply other_kind).
    exists [(KRule RDocString, IDoc (mkDoc (here (n0, x0)) (join [ch_nl] (map (fun l => content_line (indent_of x0) sep (snd l)) content)) (Some sep) (match strip (skipn (length sep) (lstrip x0)) with [] => None | _ => Some (strip (skipn (length sep) (lstrip x0))) end)))].
    split; [|reflexivity]. apply V_node. exists (Leaf a :: map Leaf ls ++ Leaf b :: nl). split; [|split; [|split]].
    + constructor.
      * change (matches (GCat (T TkDocStringSeparator) in_doc) ([ST (lkind a)] ++ lsyms (map Leaf ls ++ Leaf b :: nl))). rewrite Ea. constructor; [constructor|]. rewrite lsyms_app'. constructor; [now apply leaves_star|].
        change (lsyms (Leaf b :: nl)) with ([ST (lkind b)] ++ lsyms nl). rewrite Eb. constructor; [constructor | now apply noise_word].
      * intros pre c post E. destruct pre as [|z pre].
        { injection E as <- E. constructor.
          - apply Hi.
          - exists m1. exact L0.
          - split; [intros _; reflexivity | intros _; apply Hi].
          - exact I.
          - intros X. cbn in X. contradiction. }
        injection E as <- E. apply app_eq_app in E as [z [[E1 E2]|[E1 E2]]].
        -- apply map_eq_app in E1 as [x1' [x2 [E3 [E4 E5]]]]. destruct x2 as [|c' x2].
           { cbn in E5. subst z. cbn in E2. injection E2 as Ec E2. assert (Ec' : c = b) by congruence. rewrite Ec'. clear Ec Ec'. rewrite app_nil_r in E3. subst x1'. subst pre. constructor.
             - now apply open_ok.
             - exists ms. exact L1.
             - split; [discriminate|]. rewrite sep_open_content by assumption. discriminate.
             - exact I.
             - intros X. cbn in X. contradiction. }
           cbn in E5. subst z. cbn in E2. injection E2 as -> E2. unfold ls in E3. apply map_eq_app in E3 as [c1 [c2 [-> [E6 E7]]]]. destruct c2 as [|l0 c2]; [discriminate E7|]. cbn in E7. injection E7 as <- E7.
           apply Forall_app in Hnc as [Hnc1 Hnc2]. apply Forall_inv in Hnc2. apply Forall_app in Hc as [Hc1 Hc2]. apply Forall_inv in Hc2. pose proof (other_kind m1 l0 Hnc2) as Q. constructor.
           ++ now apply open_ok.
           ++ exists m1. rewrite Q. cbn [other_leaf lf_t lf_ms lf_n lf_x]. now apply lex_other_true.
           ++ split; [discriminate|]. subst pre. rewrite sep_open_content; [discriminate | exact Ea|]. subst x1'. apply Forall_map. eapply Forall_impl; [|exact Hnc1]. intros l1 Hl1. now apply other_kind.
           ++ unfold priority. rewrite Q. cbn [other_leaf lf_ms lf_x lf_n]. now apply (lex_not_close m1 _ _ sep).
           ++ intros X. cbn in X. contradiction.
        -- destruct z as [|z zs].
           { rewrite app_nil_r in E1. subst pre. cbn in E2. injection E2 as Ec E2. assert (Ec' : c = b) by congruence. rewrite Ec'. clear Ec Ec'. constructor.
             - now apply open_ok.
             - exists ms. exact L1.
             - split; [discriminate|]. rewrite sep_open_content by assumption. discriminate.
             - exact I.
             - intros X. cbn in X. contradiction. }
           injection E2 as <- E2. subst pre.
           assert (Fz : Forall quiet zs) by (rewrite E2 in W1; now apply Forall_app in W1). assert (Hin : In (Leaf c) nl) by (rewrite E2; apply in_or_app; right; now left).
           rewrite Forall_forall in W2. destruct (W2 _ Hin) as [C1 [C2 _]]. destruct (seg_leaf _ _ _ _ c W4 (in_yields _ _ Hin)) as [X1 X2]. constructor.
           ++ exact C1.
           ++ exact X2.
           ++ split; [intros _; now apply sep_open_rest | intros _; exact C2].
           ++ unfold priority. rewrite Forall_forall in W1. destruct (W1 _ Hin) as [Qk|Qk]; cbn in Qk; injection Qk as ->; exact I.
           ++ intros X. contradiction.
      * constructor; [constructor|]. apply Forall_app. split; [apply Forall_map; apply Forall_forall; intros; constructor|]. constructor; [constructor|].
        destruct (quiet_leaves nl W1) as [zs ->]. apply Forall_map. apply Forall_forall. intros. constructor.
    + change (yields (Leaf a :: map Leaf ls ++ Leaf b :: nl)) with (a :: yields (map Leaf ls ++ Leaf b :: nl)). rewrite yields_app', yields_leaves.
      change (yields (Leaf b :: nl)) with (b :: yields nl). econstructor; [exact Hx0 | exact L0|]. eapply seg_app; [now apply others_seg|]. econstructor; [exact Hx1 | exact L1 | exact W4].
    + assert (Ht : t_text (lf_t a) = Some (strip (skipn (length sep) (lstrip x0)))) by (cbn; f_equal; apply rstrip_crlf_strip).
      rewrite (doc_eval a ls b nl s Ea Eb Hl W5 W7 _ Ht). unfold ls, m1. rewrite content_texts by assumption.
      assert (Hloc : t_location (lf_t a) = here (n0, x0)) by (unfold a, t0; cbn [lf_t]; unfold t_location, set_matched, here; cbn; unfold g_bool; cbn; destruct x0; [contradiction | reflexivity]).
      rewrite Hloc. reflexivity.
    + rewrite doc_comments by assumption. exact W6.
Qed.
End Doc.
