(** * The list of expected kinds: C59 *)
From Verif Require Import PyStr PyStrFacts Types Regex Line DialectData Matcher Ast ParserTable Parser Classify Table Scan Grammar Deriv Cert LineSpec Cst Report Eval LangSpec LangFacts Complete DocSpec LineIff DocRun PropLine PropParse ErrorSpec ErrorFacts ExpectFacts PropErrors.

(** ** The language in force *)
Lemma first_unique {A} (P : A -> Prop) a h b a' h' b' : a ++ h :: b = a' ++ h' :: b' -> Forall P a -> ~ P h -> Forall P a' -> ~ P h' -> h = h'.
Proof.
  revert a'. induction a as [|x a IH]; intros [|x' a'] E Fa Nh Fa' Nh'; cbn in E; injection E as E1 E2; subst.
  - reflexivity.
  - inversion Fa'; contradiction.
  - inversion Fa; contradiction.
  - inversion Fa; inversion Fa'; subst. eapply IH; eauto.
Qed.
Definition force_inv (d0 : dialect) (q : nat) (ms : mstate) (done : list str) : Prop :=
  (q = 0 /\ ms_dialect ms = d0 /\ Forall (before_header d0) done) \/
  (q <> 0 /\ (header_gives d0 done (ms_dialect ms) \/
     ms_dialect ms = d0 /\ exists a h b, done = a ++ h :: b /\ Forall (before_header d0) a /\ (begins [ch_at] h \/ is_title (d_feature d0) h))).
Lemma header_not_before d0 h name d : language_line h name -> for_name name = Some d -> ~ before_header d0 h.
Proof. intros L D [_ [_ H]]. rewrite (H name L) in D. discriminate. Qed.
Lemma force_unique lang ms0 q ms done d : good ms0 -> for_name lang = Some (ms_dialect ms0) -> force_inv (ms_dialect ms0) q ms done -> in_force lang done d -> d = ms_dialect ms.
Proof.
  intros G L Inv [d0 [L' H]]. assert (d0 = ms_dialect ms0) as -> by congruence. set (d0 := ms_dialect ms0) in *.
  destruct Inv as [[_ [Ed F]]|[_ [K|[Ed [a [h [b [-> [Fa Bl]]]]]]]]].
  - destruct H as [[a [h [b [name [-> [_ [Hl Hd]]]]]]]|[-> _]]; [|now symmetry]. exfalso.
    rewrite Forall_forall in F. exact (header_not_before _ _ _ _ Hl Hd (F h (in_elt _ _ _))).
  - destruct H as [H|[_ H]]; [|now destruct (H (ms_dialect ms))].
    destruct K as [a [h [b [name [E [Fa [Hl Hd]]]]]]]. destruct H as [a' [h' [b' [name' [E' [Fa' [Hl' Hd']]]]]]].
    assert (h = h') as <- by (eapply (first_unique (before_header d0)); [rewrite <- E; exact E' | exact Fa | eapply header_not_before; eauto | exact Fa' | eapply header_not_before; eauto]).
    rewrite (language_unique _ _ _ Hl Hl') in Hd. congruence.
  - destruct H as [[a' [h' [b' [name' [E' [Fa' [Hl' Hd']]]]]]]|[-> _]]; [|now symmetry]. exfalso.
    assert (Nh : ~ before_header d0 h) by (intros [N1 [N2 _]]; destruct Bl; contradiction).
    assert (h = h') as <- by (eapply (first_unique (before_header d0)); [exact E' | exact Fa | exact Nh | exact Fa' | eapply header_not_before; eauto]).
    pose proof (cls_language ms0 h name' G Hl') as C. destruct Bl as [Bl|Bl].
    + apply (cls_begins ms0 h TkTagLine ch_at G ltac:(discriminate) ltac:(discriminate) eq_refl) in Bl. congruence.
    + apply (cls_title ms0 h TkFeatureLine G eq_refl) in Bl. congruence.
Qed.
Lemma header_gives_app d0 done x d : header_gives d0 done d -> header_gives d0 (done ++ [x]) d.
Proof. intros [a [h [b [name [-> H]]]]]. exists a, h, (b ++ [x]), name. rewrite <- app_assoc. auto. Qed.
Lemma force_step ms0 q st ms cs n x rest evs q' ms' done : good ms0 -> ptable q = Some st -> st_inv q ms cs -> x <> [] ->
  force_inv (ms_dialect ms0) q ms done -> scan_step q ms n x rest = (evs, Ok (q', ms')) -> force_inv (ms_dialect ms0) q' ms' (done ++ [x]).
Proof.
  intros G0 Hq Hi Hx Inv E. assert (M : matcher_ok ms) by (now destruct Hi as [fr [_ [_ [M _]]]]). pose proof (matcher_good _ M) as G.
  pose proof (ptable_basic _ _ Hq) as Hb. unfold check_basic in Hb. repeat (apply andb_true_iff in Hb as [Hb ?Hb]).
  apply Nat.eqb_eq in Hb1. pose proof E as Es. unfold scan_step in E. rewrite Hq in E.
  destruct (choose (st_trans st) ms n x rest) as [es ch] eqn:C. destruct Inv as [[-> [Ed F]]|[Nq K]].
  - injection Hq as <-. destruct ch as [tr t m| |e]; [| |discriminate]; injection E as _ <- <-.
    + destruct (choose_split _ _ _ _ _ _ _ _ _ C) as [bef [aft [Et [R L]]]].
      assert (NL : In TkLanguage (map tr_tok bef) -> forall name, language_line x name -> for_name name = None).
      { intros I name Hn. destruct (for_name name) as [d|] eqn:D; [|reflexivity]. exfalso. apply in_map_iff in I as [tl [T1 T2]]. rewrite Forall_forall in R. specialize (R _ T2).
        unfold refuses in R. rewrite T1, (lexm_lang_true ms n x name d Hx Hn D) in R. cbn [fst] in R.
        destruct R as [R|[[p R]|[l [R _]]]]; [discriminate | discriminate|].
        assert (Hin : In tl (st_trans state_0)) by (rewrite Et; apply in_or_app; now left). cbn [Nat.eqb negb orb] in Hb2. rewrite forallb_forall in Hb2. apply Hb2 in Hin. rewrite R in Hin. discriminate. }
      unfold state_0 in Et. cbn [st_trans] in Et.
      destruct bef as [|t0 bef]; [injection Et as <- _; apply lexm_eof_nil in L; contradiction|]. injection Et as <- Et.
      destruct bef as [|t1 bef].
      * injection Et as <- _. right. split; [discriminate|]. left. cbn [tr_tok] in L. destruct (lexm_lang_inv _ _ _ _ _ L) as [name [d [L1 [L2 [-> _]]]]].
        exists done, x, [], name. repeat split; auto.
      * injection Et as <- Et. destruct bef as [|t2 bef].
        { injection Et as <- _. right. split; [discriminate|]. right. cbn [tr_tok] in L. split; [rewrite (lexm_other _ _ _ _ _ _ L) by discriminate; exact Ed|].
          exists done, x, []. split; [reflexivity|]. split; [exact F|]. left. apply (cls_begins ms x TkTagLine ch_at G ltac:(discriminate) ltac:(discriminate) eq_refl). exact (lexm_cls TkTagLine ms n x _ t G eq_refl L). }
        injection Et as <- Et. destruct bef as [|t3 bef].
        { injection Et as <- _. right. split; [discriminate|]. right. cbn [tr_tok] in L. split; [rewrite (lexm_other _ _ _ _ _ _ L) by discriminate; exact Ed|].
          exists done, x, []. split; [reflexivity|]. split; [exact F|]. right. rewrite <- Ed. apply (cls_title ms x TkFeatureLine G eq_refl). exact (lexm_cls TkFeatureLine ms n x _ t G eq_refl L). }
        injection Et as <- Et. specialize (NL (or_intror (or_introl eq_refl))).
        assert (Z : forall k, k <> TkDocStringSeparator -> k <> TkLanguage -> plain k = true -> k <> TkTagLine -> k <> TkFeatureLine -> lexm k ms n x = (Ok true, m, t) ->
           force_inv (ms_dialect ms0) 0 m (done ++ [x])).
        { intros k K1 K2 K3 K4 K5 Lk. left. split; [reflexivity|]. split; [rewrite (lexm_other _ _ _ _ _ _ Lk K1 K2); exact Ed|]. apply Forall_app. split; [exact F|]. constructor; [|constructor].
          pose proof (lexm_cls k ms n x m t G K3 Lk) as Ck. split; [|split; [|exact NL]].
          - intros H. apply (cls_begins ms x TkTagLine ch_at G ltac:(discriminate) ltac:(discriminate) eq_refl) in H. congruence.
          - rewrite <- Ed. intros H. apply (cls_title ms x TkFeatureLine G eq_refl) in H. congruence. }
        destruct bef as [|t4 bef]; [injection Et as <- _; cbn [tr_next]; apply (Z TkComment); (discriminate || reflexivity || exact L)|].
        injection Et as <- Et. destruct bef as [|t5 bef]; [injection Et as <- _; cbn [tr_next]; apply (Z TkEmpty); (discriminate || reflexivity || exact L)|].
        destruct bef; discriminate Et.
    + left. split; [reflexivity|]. split; [exact Ed|]. apply Forall_app. split; [exact F|]. constructor; [|constructor].
      pose proof (refused_kinds 0 state_0 ms cs n x rest es eq_refl Hi Hx C) as R. split; [|split].
      * intros H. apply (R TkTagLine); [cbn; tauto|]. now apply kl_tags.
      * rewrite <- Ed. intros H. apply (R TkFeatureLine); [cbn; tauto|]. now apply kl_feature.
      * intros name H. exfalso. apply (R TkLanguage); [cbn; tauto|]. now apply (kl_language _ _ name).
  - right.
    assert (Q : q' <> 0 /\ ms_dialect ms' = ms_dialect ms).
    { destruct ch as [tr t m| |e]; [| |discriminate]; injection E as _ <- <-; [|split; [congruence | reflexivity]].
      destruct (choose_split _ _ _ _ _ _ _ _ _ C) as [bef [aft [Et [_ L]]]]. assert (Hin : In tr (st_trans st)) by (rewrite Et; apply in_elt).
      destruct q as [|q]; [contradiction|]. cbn [Nat.eqb orb] in Hb3. rewrite forallb_forall in Hb3. specialize (Hb3 _ Hin). apply andb_true_iff in Hb3 as [H1 H2]. split.
      - intros H. rewrite H in H1. discriminate.
      - destruct (lexm_dialect _ _ _ _ _ _ M L) as [D|[name [D _]]]; [exact D|].
        destruct (tok_eqb (tr_tok tr) TkDocStringSeparator) eqn:Q2.
        + apply tok_eqb_spec in Q2. rewrite Q2 in L. now destruct (lexm_sep _ _ _ _ _ L M) as [_ [_ [_ [X _]]]].
        + rewrite (lexm_other _ _ _ _ _ _ L); [reflexivity | intros X; rewrite X in Q2; discriminate | intros X; rewrite X in H2; discriminate]. }
    destruct Q as [Q1 Q2]. split; [exact Q1|]. rewrite Q2. destruct K as [K|[K1 [a [h [b [-> K2]]]]]]; [left; now apply header_gives_app | right].
    split; [exact K1|]. exists a, h, (b ++ [x]). split; [now rewrite <- app_assoc | exact K2].
Qed.

(** ** The state at a place *)
Lemma go_inv ms0 pre : forall q ms n post cs done, good ms0 -> lines_ok pre -> ptable q <> None -> st_inv q ms cs -> force_inv (ms_dialect ms0) q ms done ->
  match snd (go q ms n pre post) with
  | Ok (q', ms') => ptable q' <> None /\ (exists cs', st_inv q' ms' cs') /\ force_inv (ms_dialect ms0) q' ms' (done ++ pre)
  | Err _ => True end /\ Forall (fun e => exists m, n < m <= n + length pre /\ ev_at m e) (fst (go q ms n pre post)).
Proof.
  induction pre as [|x pre IH]; intros q ms n post cs done G Hl Hq Hi Inv; cbn [go fst snd].
  - rewrite app_nil_r. split; [|constructor]. eauto.
  - inversion Hl as [|? ? Hx Hl']; subst. destruct (ptable q) as [st|] eqn:Eq; [|contradiction].
    destruct (scan_step q ms (S n) x (pre ++ post)) as [evs r] eqn:E.
    destruct (scan_step_sound _ _ _ _ _ _ _ _ _ Eq Hi E) as [F _].
    assert (F' : Forall (fun e => exists m, n < m <= n + length (x :: pre) /\ ev_at m e) evs) by (eapply Forall_impl; [|exact F]; intros e He; exists (S n); cbn [length]; split; [lia | exact He]).
    destruct r as [[q' ms']|e]; [|now split].
    destruct (scan_step_next _ _ _ _ _ _ _ _ _ _ Eq Hi Hx E) as [Hq' [cs' Hi']].
    pose proof (force_step ms0 q st ms cs (S n) x _ _ _ _ done G Eq Hi Hx Inv E) as Inv'.
    specialize (IH q' ms' (S n) post cs' (done ++ [x]) G Hl' Hq' Hi' Inv').
    destruct (go q' ms' (S n) pre post) as [e2 r2]. cbn [fst snd] in *. destruct IH as [I1 I2]. split.
    + destruct r2 as [[q2 ms2]|]; [|exact I]. destruct I1 as [J1 [J2 J3]]. rewrite <- app_assoc in J3. auto.
    + apply Forall_app. split; [exact F'|]. eapply Forall_impl; [|exact I2]. intros e [m [M1 M2]]. exists m. cbn [length]. split; [lia | exact M2].
Qed.
Lemma scan_after lines : forall q ms n cs, lines_ok lines -> ptable q <> None -> st_inv q ms cs ->
  Forall (fun e => exists m, n < m /\ ev_at m e) (fst (scan q ms n lines)).
Proof.
  induction lines as [|x rest IH]; intros q ms n cs Hl Hq Hi; cbn [scan]; (destruct (ptable q) as [st|] eqn:Eq; [|contradiction]).
  - destruct (scan_step q ms (S n) [] []) as [evs r] eqn:E. destruct (scan_step_sound _ _ _ _ _ _ _ _ _ Eq Hi E) as [F _].
    destruct r; cbn [fst]; (eapply Forall_impl; [|exact F]); intros e1 He; exists (S n); (split; [lia | exact He]).
  - inversion Hl as [|? ? Hx Hl']; subst. destruct (scan_step q ms (S n) x rest) as [evs r] eqn:E. destruct (scan_step_sound _ _ _ _ _ _ _ _ _ Eq Hi E) as [F _].
    assert (F' : Forall (fun e => exists m, n < m /\ ev_at m e) evs) by (eapply Forall_impl; [|exact F]; intros e He; exists (S n); (split; [lia | exact He])).
    destruct r as [[q' ms']|e]; [|exact F']. destruct (scan_step_next _ _ _ _ _ _ _ _ _ _ Eq Hi Hx E) as [Hq' [cs' Hi']].
    specialize (IH q' ms' (S n) cs' Hl' Hq' Hi'). destruct (scan q' ms' (S n) rest). cbn [fst] in *. apply Forall_app. split; [exact F'|].
    eapply Forall_impl; [|exact IH]. intros e0 [m [M1 M2]]. exists m. split; [lia | exact M2].
Qed.
(** an error for the first of the lines [post] that is not about a language *)
Lemma error_at_place ms0 pre post e : matcher_ok ms0 -> ms_sep ms0 = None -> lines_ok (pre ++ post) ->
  In (EvErr e) (fst (scan 0 ms0 0 (pre ++ post))) -> l_line (pe_loc e) = S (length pre) -> pe_kind e = KUnexpectedToken \/ pe_kind e = KUnexpectedEOF ->
  exists q ms st cs es, snd (go 0 ms0 0 pre post) = Ok (q, ms) /\ ptable q = Some st /\ st_inv q ms cs /\ force_inv (ms_dialect ms0) q ms pre /\
    choose (st_trans st) ms (S (length pre)) (hd [] post) (tl post) = (es, CNone) /\ e = unexpected (new_token (hd [] post) (S (length pre))) (st_expected st).
Proof.
  intros M Sp Hl Hin He Hk. apply Forall_app in Hl as [Hl1 Hl2].
  assert (Hi : exists cs, st_inv 0 ms0 cs).
  { exists [(RGherkinDocument, [])]. exists [(RGherkinDocument, prod RGherkinDocument)]. split; [reflexivity|]. split.
    - cbn [sinv]. split; [reflexivity|]. split; [reflexivity|]. split; [apply leaves_ok_nil|]. split; [constructor | exact I].
    - split; [exact M|]. rewrite Sp. split; reflexivity. }
  destruct Hi as [cs0 Hi].
  destruct (go_inv ms0 pre 0 ms0 0 post cs0 [] (matcher_good _ M) Hl1 ltac:(discriminate) Hi) as [I1 I2]; [left; auto|].
  rewrite scan_go in Hin. destruct (go 0 ms0 0 pre post) as [evs [[q ms]|x]]; cbn [fst snd] in *.
  - destruct I1 as [Hq [[cs Hc] Inv]]. cbn [app Nat.add] in *. destruct (ptable q) as [st|] eqn:Eq; [|contradiction].
    destruct (scan q ms (length pre) post) as [e2 r] eqn:Sc. cbn [fst] in Hin. apply in_app_or in Hin as [Hin|Hin].
    { rewrite Forall_forall in I2. destruct (I2 _ Hin) as [m [Hm Hm']]. cbn in Hm'. lia. }
    assert (Step : In (EvErr e) (fst (scan_step q ms (S (length pre)) (hd [] post) (tl post)))).
    { destruct post as [|x post]; cbn [scan hd tl] in *.
      - destruct (scan_step q ms (S (length pre)) [] []) as [ev [?|?]]; injection Sc as <- <-; exact Hin.
      - inversion Hl2 as [|? ? Hx Hl']; subst. destruct (scan_step q ms (S (length pre)) x post) as [ev [[q' ms']|x0]] eqn:E; [|injection Sc as <- <-; exact Hin].
        destruct (scan q' ms' (S (length pre)) post) as [e3 r3] eqn:E3. injection Sc as <- <-. apply in_app_or in Hin as [Hin|Hin]; [exact Hin|]. exfalso.
        destruct (scan_step_next _ _ _ _ _ _ _ _ _ _ Eq Hc Hx E) as [Hq' [cs' Hi']].
        pose proof (scan_after post q' ms' (S (length pre)) cs' Hl' Hq' Hi') as Fa. rewrite E3 in Fa. rewrite Forall_forall in Fa.
        destruct (Fa _ Hin) as [m [Hm Hm']]. cbn in Hm'. lia. }
    unfold scan_step in Step. rewrite Eq in Step. destruct (choose (st_trans st) ms (S (length pre)) (hd [] post) (tl post)) as [es ch] eqn:C.
    assert (NE : ~ In (EvErr e) (map EvErr es)).
    { intros H. apply in_map_iff in H as [e' [E' H]]. injection E' as ->.
      destruct post as [|x post]; cbn [hd tl] in *.
      - assert (es = []) as ->; [|contradiction]. clear -C. revert es ch C. induction (st_trans st) as [|tr trs IH]; intros es ch; cbn [choose]; [intros H; now injection H|].
        destruct (tok_eqb (tr_tok tr) TkEOF) eqn:Q.
        + apply tok_eqb_spec in Q. rewrite Q. change (lexm TkEOF ms (S (length pre)) []) with (Ok true, ms, set_matched ms (new_token [] (S (length pre))) (Some TkEOF) None None None None []).
          cbv iota. destruct (tr_la tr) as [l|]; [cbn [la]; apply IH | intros H; now injection H].
        + rewrite lexm_nil by (intros F; rewrite F in Q; discriminate). apply IH.
      - inversion Hl2 as [|? ? Hx Hl']; subst. pose proof (choose_error _ _ _ _ _ Hx _ _ C) as Fe. rewrite Forall_forall in Fe. destruct (Fe _ H) as [name [_ [_ ->]]]. cbn in Hk. destruct Hk; discriminate. }
    exists q, ms, st, cs, es. destruct ch as [tr t m| |x]; cbn [fst] in Step; [| |contradiction]; (apply in_app_or in Step as [Step|[Step|[]]]; [contradiction|]); [discriminate Step|].
    injection Step as <-. auto 8.
  - rewrite Forall_forall in I2. destruct (I2 _ Hin) as [m [Hm Hm']]. cbn in Hm'. lia.
Qed.

(** ** Names in messages *)
Definition comma_free (x : str) : Prop := ~ In ch_comma x.
Lemma comma_split (a a' r r' : str) : comma_free a -> comma_free a' -> a ++ ch_comma :: r = a' ++ ch_comma :: r' -> a = a' /\ r = r'.
Proof.
  unfold comma_free. revert a'. induction a as [|c a IH]; intros [|c' a'] H H' E.
  - injection E as E. auto.
  - injection E as E1 E2. exfalso. apply H'. left. now symmetry.
  - injection E as E1 E2. exfalso. apply H. now left.
  - injection E as E1 E2. destruct (IH a') as [-> ->]; subst; auto; intros X; [apply H | apply H']; now right.
Qed.
Lemma shown_cons x l : l <> [] -> shown (x :: l) = x ++ ch_comma :: ch_space :: shown l.
Proof. destruct l; [contradiction | reflexivity]. Qed.
Lemma shown_inj_list l : Forall comma_free l -> l <> [] -> forall l', Forall comma_free l' -> l' <> [] -> shown l = shown l' -> l = l'.
Proof.
  induction l as [|x l IH]; [contradiction|]. intros F _ [|x' l'] F' N E; [contradiction|]. inversion F as [|? ? Fx Fl]; inversion F' as [|? ? Fx' Fl']; subst.
  destruct l as [|y l], l' as [|y' l'].
  - cbn in E. now subst.
  - exfalso. rewrite (shown_cons x' (y' :: l')) in E by discriminate. change (shown [x]) with x in E. apply Fx. rewrite E. apply in_elt.
  - exfalso. rewrite (shown_cons x (y :: l)) in E by discriminate. change (shown [x']) with x' in E. apply Fx'. rewrite <- E. apply in_elt.
  - rewrite !shown_cons in E by discriminate. apply comma_split in E as [-> E]; auto. injection E as E. f_equal. apply IH; auto; discriminate.
Qed.
Lemma known_comma_free names : incl names (s "#EOF" :: line_names) -> Forall comma_free names.
Proof.
  intros H. apply Forall_forall. intros x Hx. apply H in Hx. revert x Hx. apply Forall_forall. unfold comma_free. vm_compute.
  repeat (constructor; [intros Hc; repeat (destruct Hc as [Hc|Hc]; [discriminate Hc|]); exact Hc|]). constructor.
Qed.
Lemma list_recovered n post names exp : incl names (s "#EOF" :: line_names) -> names <> [] -> exp <> [] -> Forall (fun x => x <> []) post ->
  unexpected_at n post names = unexpected (new_token (hd [] post) n) exp -> names = map shown_name exp.
Proof.
  intros Hi Hn He Hp E. apply shown_inj_list; [now apply known_comma_free | exact Hn | apply known_comma_free | destruct exp; [contradiction | discriminate]|].
  - intros x Hx. apply in_map_iff in Hx as [k [<- _]]. apply shown_in.
  - destruct post as [|x post]; cbn [hd unexpected_at] in E.
    + rewrite unexpected_end_shown in E. apply (f_equal pe_msg) in E. unfold unexpected_end_error, message in E. cbn [pe_msg] in E.
      repeat (apply app_inv_head in E). exact E.
    + inversion Hp; subst. rewrite unexpected_line_shown in E by assumption. apply (f_equal pe_msg) in E. unfold unexpected_line_error, message in E. cbn [pe_msg] in E.
      repeat (apply app_inv_head in E). now apply app_inv_tail in E.
Qed.

(** ** The kinds that are listed *)
Definition errors_of {A} (r : result A) : list perr :=
  match r with Err (EParser e) => [e] | Err (EComposite es) => es | _ => [] end.
Lemma parse_error_scan stop lang text e : supported lang -> In e (errors_of (parse_with stop false lang text)) -> pe_kind e <> KAstBuilder -> pe_kind e <> KNoSuchLanguage ->
  exists ms, for_name lang = Some (ms_dialect ms) /\ matcher_ok ms /\ ms_sep ms = None /\ In (EvErr e) (fst (scan 0 ms 0 (split_lines text))) /\
    ms_reset ms = Ok ms /\ new_matcher false lang = Ok ms.
Proof.
  intros S H K K2. destruct (fresh_matcher lang S) as [ms [E1 [E2 [E3 [E4 _]]]]]. pose proof (split_lines_nonempty text) as Hl.
  assert (D : for_name lang = Some (ms_dialect ms)).
  { destruct S as [d S]. unfold new_matcher in E1. rewrite S in E1. unfold ms_reset in E1. cbn in E1. assert (R : str_eqb lang lang = true) by now apply str_eqb_spec. rewrite R in E1. cbn in E1. injection E1 as <-. exact S. }
  exists ms. do 3 (split; [assumption|]). split; [|split; assumption]. unfold parse_with in H. rewrite E1 in H. cbn [rbind] in H.
  set (P := fun e => In (EvErr e) (fst (scan 0 ms 0 (split_lines text))) \/ pe_kind e = KAstBuilder \/ pe_kind e = KNoSuchLanguage).
  assert (F : Forall (ev_P P) (fst (scan 0 ms 0 (split_lines text)))).
  { apply Forall_forall. intros v Hv. destruct v as [p|a acts]; cbn [ev_P]; [now left | intros _; right; now left]. }
  assert (HP : forall e, P e -> P (settled e)).
  { intros p Hp. destruct (pe_kind p) eqn:Kp; try (assert (Es : settled p = p) by (unfold settled; now rewrite Kp); now rewrite Es).
    right. right. now rewrite settled_kind. }
  pose proof (parse_lines_errors P HP stop 0 ms ms (split_lines text) E2 E3 E4 Hl F) as Q.
  destruct (fst (parse_lines stop 0 ms (split_lines text))) as [d|[]]; try contradiction; cbn [errors_of] in H.
  - destruct H as [<-|[]]. destruct Q as [Q|[Q|Q]]; [assumption | contradiction | contradiction].
  - rewrite Forall_forall in Q. destruct (Q _ H) as [Q'|[Q'|Q']]; [assumption | contradiction | contradiction].
Qed.
Lemma la_head k ms x r : la k ms (x :: r) = Ok true -> cls ms x = k \/ cls ms x = TkEmpty \/ cls ms x = TkComment \/ cls ms x = TkTagLine.
Proof. cbn [la]. destruct (tok_eqb (cls ms x) k) eqn:E; [apply tok_eqb_spec in E; auto|]. destruct (cls ms x); auto; discriminate. Qed.
Lemma want_refused q k st ms cs n x rest es : want q = Some k -> ptable q = Some st -> st_inv q ms cs -> good ms -> x <> [] -> choose (st_trans st) ms n x rest = (es, CNone) ->
  cls ms x <> k /\ cls ms x <> TkEmpty /\ cls ms x <> TkComment /\ cls ms x <> TkTagLine.
Proof.
  intros W Hq Hi G Hx C. destruct (want_inv q k W) as [st' [t1 [t2 [t3 [t4 [Hq' [E [A1 [_ [_ [B1 [_ [C1 [_ [_ [D1 [_ [_ [Hk _]]]]]]]]]]]]]]]]]]].
  assert (st' = st) as -> by congruence. destruct (expected_facts q st Hq) as [_ [_ [_ [E4 _]]]]. rewrite E in E4.
  pose proof (refused_kinds q st ms cs n x rest es Hq Hi Hx C) as R.
  assert (Z : forall tr, In tr [t1; t2; t3; t4] -> tr_tok tr <> TkOther -> tr_tok tr <> TkEOF -> tr_tok tr <> TkLanguage -> tr_tok tr <> TkDocStringSeparator -> cls ms x <> tr_tok tr).
  { intros tr Ht N1 N2 N3 N4 Ec. apply (R (tr_tok tr) (E4 tr Ht)). apply cls_kind; [exact G|]. destruct (tr_tok tr); try contradiction; exact Ec. }
  pose proof (Z t1) as Z1. pose proof (Z t2) as Z2. pose proof (Z t3) as Z3. pose proof (Z t4) as Z4. rewrite A1 in Z1. rewrite B1 in Z2. rewrite C1 in Z3. rewrite D1 in Z4.
  split; [|split; [|split]]; [apply Z2 | apply Z4 | apply Z3 | apply Z1]; try (cbn; tauto); try discriminate;
    cbn in Hk; destruct Hk as [<-|[<-|[<-|[<-|[]]]]]; discriminate.
Qed.

(** C59, first half.  A kind of line that is listed as expected is accepted there: if the place where the
    error is reported is filled with any line of that kind, and anything after it, that line is no longer unexpected. *)
Theorem C59_listed : forall stop stop' lang text text' pre post y post' d names names' name,
  supported lang -> split_lines text = pre ++ post -> split_lines text' = pre ++ y :: post' ->
  In (unexpected_at (S (length pre)) post names) (errors_of (parse_with stop false lang text)) ->
  incl names (s "#EOF" :: line_names) -> names <> [] -> in_force lang pre d -> In name names -> kind_of_line d y name ->
  ~ In (unexpected_line_error (S (length pre), y) names') (errors_of (parse_with stop' false lang text')).
Proof.
  intros stop stop' lang text text' pre post y post' d names names' name S E E' H Hi Hn Hf Hin Hk H'.
  pose proof (split_lines_nonempty text) as Hl. pose proof (split_lines_nonempty text') as Hl'. rewrite E in Hl. rewrite E' in Hl'.
  apply parse_error_scan in H as [ms [D [M [Sp [H [_ Nm]]]]]]; [|exact S|destruct post; discriminate|destruct post; discriminate].
  apply parse_error_scan in H' as [ms1 [_ [_ [_ [H' [_ Nm']]]]]]; [|exact S|discriminate|discriminate].
  assert (ms1 = ms) as -> by congruence. rewrite E in H. rewrite E' in H'.
  apply error_at_place in H; [|exact M|exact Sp|exact Hl|destruct post; reflexivity|destruct post; [now right | now left]].
  apply (error_at_place ms pre (y :: post')) in H'; [|exact M|exact Sp|exact Hl'|reflexivity|now left]. cbn [hd tl] in H'.
  destruct H as [q [m [st [cs [es [G1 [G2 [G3 [G4 [G5 G6]]]]]]]]]]. destruct H' as [q1 [m1 [st1 [cs1 [es1 [K1 [K2 [K3 [K4 [K5 K6]]]]]]]]]].
  assert (Hp : Forall (fun x => x <> []) post) by (apply Forall_app in Hl; apply Hl).
  assert (Hy : y <> []) by (apply Forall_app in Hl' as [_ Hl']; now inversion Hl').
  destruct (expected_facts q st G2) as [_ [Ne _]]. apply list_recovered in G6; auto. subst names. apply in_map_iff in Hin as [k [<- Hk1]].
  pose proof (force_unique lang ms q m pre d (matcher_good _ M) D G4 Hf) as ->.
  assert (Gm : good m) by (destruct G3 as [fr [_ [_ [M' _]]]]; now apply matcher_good).
  assert (Hi0 : exists cs, st_inv 0 ms cs).
  { exists [(RGherkinDocument, [])]. exists [(RGherkinDocument, prod RGherkinDocument)]. split; [reflexivity|]. split.
    - cbn [sinv]. split; [reflexivity|]. split; [reflexivity|]. split; [apply leaves_ok_nil|]. split; [constructor | exact I].
    - split; [exact M|]. rewrite Sp. split; reflexivity. }
  destruct Hi0 as [cs0 Hi0].
  destruct (go_two pre 0 ms 0 post (y :: post') cs0) as [T|[[e T]|[[e T]|[_ [qA [qB [kA [kB [m' [T0 [T1 [T2 [T3 [T4 T5]]]]]]]]]]]]]];
    [apply Forall_app in Hl; apply Hl | discriminate | exact Hi0 | | congruence | congruence|].
  - rewrite T in G1. rewrite G1 in K1. injection K1 as <- <-. assert (st1 = st) as -> by congruence.
    exact (refused_kinds q st m cs _ y post' es1 G2 G3 Hy K5 k Hk1 Hk).
  - rewrite G1 in T1. rewrite K1 in T2. injection T1 as <- <-. injection T2 as <- ->.
    pose proof (want_refused q1 kB st1 m cs1 _ y post' es1 T4 K2 K3 T0 Hy K5) as [R1 [R2 [R3 R4]]].
    destruct T5 as [[T5 T6]|[T5 T6]].
    + destruct post as [|x post]; [discriminate T6|]. inversion Hp; subst. cbn [hd tl] in G5.
      pose proof (want_refused q kA st m cs _ x post es T3 G2 G3 T0 ltac:(assumption) G5) as [V1 [V2 [V3 V4]]].
      apply la_head in T6. tauto.
    + apply la_head in T6. tauto.
Qed.
Print Assumptions C59_listed.

(** ** The kinds that are not listed *)
Definition builder_kind {A} (r : result A) : Prop := forall e, r = Err (EParser e) -> pe_kind e = KAstBuilder.
Lemma transform_kind n cm id : builder_kind (fst (transform_node n cm id)).
Proof.
  intros p. assert (T : forall m k e, get_token m k = Err e -> e = EAttributeError).
  { intros m k e. unfold get_token. destruct (get_single m (KTok k)) as [[]|]; congruence. }
  pose proof (get_table_rows_cases n id) as G.
  unfold transform_node. destruct (n_rule n); cbn [fst]; try discriminate.
  - destruct (get_node _ _); [|discriminate]. destruct (get_tags _ _). destruct (get_token _ _); discriminate.
  - destruct (get_node _ _); [|discriminate]. destruct (get_tags _ _). destruct (get_token _ _); discriminate.
  - destruct (get_token _ _) eqn:E; [discriminate|]. apply T in E as ->. discriminate.
  - destruct (get_tags _ _). destruct (get_node _ _); [|discriminate]. destruct (get_token _ _) eqn:E; [discriminate|]. apply T in E as ->. discriminate.
  - destruct (get_tags _ _). destruct (get_node _ _); [|discriminate]. destruct (get_token _ _) eqn:E; [discriminate|]. apply T in E as ->. discriminate.
  - destruct (get_table_rows n id) as [[rows|e] i]; [discriminate|]. destruct G as [q [-> G]]. cbn [fst]. intros H. injection H as <-.
    destruct G as [t [_ G]]. now rewrite G.
  - destruct (get_token _ _) eqn:E; [discriminate|]. apply T in E as ->. discriminate.
  - destruct (get_table_rows n id) as [[[|? ?]|e] i]; [discriminate..|]. destruct G as [q [-> [t [_ G]]]]. cbn [fst]. intros H. injection H as <-. now rewrite G.
  - destruct (get_tokens n TkDocStringSeparator) as [|t ts]; [discriminate|]. destruct (t_text t); discriminate.
  - cbv zeta. destruct (last_non_empty _); discriminate.
Qed.
Lemma bact_kind t a b : builder_kind (fst (bact ast_builder t a b)).
Proof.
  intros p. destruct a; cbn [bact ast_builder bd_start bd_end bd_build]; [discriminate| |].
  - unfold ab_end_rule. destruct (ab_stack b) as [|n [|q st]]; try discriminate.
    pose proof (transform_kind n (ab_comments b) (ab_ids b) p) as T.
    destruct (transform_node _ _ _) as [[i|e] id]; [discriminate | cbn [fst] in *; intros H; apply T; congruence].
  - unfold ab_build. destruct (t_mtype t) as [k|]; [destruct k|]; destruct (ab_stack b); discriminate.
Qed.
Lemma raw_kind evs : forall b, Forall (fun e => In (EvErr e) evs \/ pe_kind e = KAstBuilder) (fst (fst (raw_evs ast_builder evs b))).
Proof.
  assert (A : forall t acts b, Forall (fun e => pe_kind e = KAstBuilder) (fst (fst (raw_acts ast_builder t acts b)))).
  { intros t. induction acts as [|a acts IH]; intros b; cbn [raw_acts]; [constructor|]. pose proof (bact_kind t a b) as K.
    destruct (bact ast_builder t a b) as [[u|e] b1]; [apply IH|]. destruct e; try constructor.
    specialize (IH b1). destruct (raw_acts ast_builder t acts b1) as [[es r] b2]. cbn [fst] in *. constructor; [exact (K _ eq_refl) | exact IH]. }
  induction evs as [|[e|l acts] evs IH]; intros b; cbn [raw_evs]; [constructor| |].
  - specialize (IH b). destruct (raw_evs ast_builder evs b) as [[es r] b2]. cbn [fst] in *. constructor; [left; now left|].
    eapply Forall_impl; [|exact IH]. intros e' [H|H]; [left; now right | now right].
  - specialize (A (lf_t l) acts b). destruct (raw_acts ast_builder (lf_t l) acts b) as [[es [u|x]] b1]; cbn [fst] in *.
    + specialize (IH b1). destruct (raw_evs ast_builder evs b1) as [[es' r] b2]. cbn [fst] in *. apply Forall_app. split.
      * eapply Forall_impl; [|exact A]. auto.
      * eapply Forall_impl; [|exact IH]. intros e' [H|H]; [left; now right | now right].
    + eapply Forall_impl; [|exact A]. auto.
Qed.

(** a line of none of the listed kinds fits no transition *)
Lemma choose_none q st ms cs n y rest : ptable q = Some st -> st_inv q ms cs -> y <> [] ->
  (forall k, In k (st_expected st) -> ~ kind_of_line (ms_dialect ms) y (shown_name k)) -> choose (st_trans st) ms n y rest = ([], CNone).
Proof.
  intros Hq Hi Hy N. destruct (expected_facts q st Hq) as [_ [_ [_ [E4 [_ E5]]]]]. destruct Hi as [fr [Cf [_ [Hm Ho]]]]. pose proof (matcher_good _ Hm) as G.
  assert (NO : tries TkOther (st_trans st) = false).
  { destruct (tries TkOther (st_trans st)) eqn:T; [|reflexivity]. exfalso. unfold tries in T. apply existsb_exists in T as [tr [T1 T2]].
    assert (T3 : tr_tok tr = TkOther) by (apply tok_eqb_spec; destruct (tok_eqb (tr_tok tr) TkOther); [reflexivity|]; cbn in T2; discriminate).
    specialize (E4 _ T1). rewrite T3 in E4. exact (N _ E4 (kl_other _ _)). }
  assert (Sp : ms_sep ms = None) by (destruct E5 as [E5|[fr' [E6 E7]]]; [congruence | apply Ho; congruence]).
  assert (Z : forall tr, In tr (st_trans st) -> lexm (tr_tok tr) ms n y = (Ok false, ms, new_token y n)).
  { intros tr Ht. specialize (N _ (E4 _ Ht)). destruct (plain (tr_tok tr)) eqn:P.
    - apply lexm_false; auto. intros C. apply N, cls_kind; [exact G|]. destruct (tr_tok tr); try discriminate P; exact C.
    - destruct (tr_tok tr) eqn:K; try discriminate P.
      + now apply lexm_eof_false.
      + rewrite lexm_ne by exact Hy. cbn [classic_match]. unfold c_match_DocStringSeparator. rewrite Sp. unfold m_or, match_separator, g_startswith.
        change (g_trimmed (t_line (new_token y n))) with (lstrip y).
        assert (B1 : startswith sep_quotes (lstrip y) = false).
        { destruct (startswith sep_quotes (lstrip y)) eqn:B; [|reflexivity]. exfalso. apply N. apply (kl_separator _ _ sep_quotes); [now left | exact B]. }
        assert (B2 : startswith sep_ticks (lstrip y) = false).
        { destruct (startswith sep_ticks (lstrip y)) eqn:B; [|reflexivity]. exfalso. apply N. apply (kl_separator _ _ sep_ticks); [now right | exact B]. }
        rewrite B1. cbn [negb]. change (g_trimmed (t_line (new_token y n))) with (lstrip y). rewrite B2. reflexivity.
      + apply lexm_lang_false; [exact Hy|]. intros name H. apply N. now apply (kl_language _ _ name).
      + exfalso. apply N. apply kl_other. }
  clear -Z. induction (st_trans st) as [|tr trs IH]; [reflexivity|]. cbn [choose]. rewrite Z by now left. apply IH. intros; apply Z. now right.
Qed.

(** without tags at the end, the lines do not depend on what follows *)
Lemma choose_no_tag trs ms n x A B : good ms -> x <> [] -> (forall tr, In tr trs -> tr_la tr <> None -> tr_tok tr = TkTagLine) -> cls ms x <> TkTagLine ->
  choose trs ms n x A = choose trs ms n x B.
Proof.
  intros G Hx Hla C. induction trs as [|tr trs IH]; [reflexivity|]. cbn [choose].
  assert (IH' : choose trs ms n x A = choose trs ms n x B) by (apply IH; intros; apply Hla; [now right | assumption]).
  destruct (tr_la tr) as [l|] eqn:E.
  - rewrite (Hla tr (or_introl eq_refl)) by (rewrite E; discriminate). rewrite lexm_false by (reflexivity || assumption). exact IH'.
  - destruct (lexm (tr_tok tr) ms n x) as [[[[]|e] m] t]; [reflexivity | exact IH' | destruct e; try reflexivity; now rewrite IH'].
Qed.
Lemma go_same pre : forall q ms n A B cs, lines_ok pre -> ptable q <> None -> st_inv q ms cs -> ~ ends_with_tags pre -> go q ms n pre A = go q ms n pre B.
Proof.
  induction pre as [|x pre IH]; intros q ms n A B cs Hl Hq Hi Ne; [reflexivity|]. inversion Hl as [|? ? Hx Hl']; subst.
  destruct (ptable q) as [st|] eqn:Eq; [|contradiction].
  assert (G : good ms) by (destruct Hi as [fr [_ [_ [M _]]]]; now apply matcher_good).
  assert (Same : scan_step q ms (S n) x (pre ++ A) = scan_step q ms (S n) x (pre ++ B)).
  { assert (Dec : Forall (skippable ms) pre \/ ~ Forall (skippable ms) pre).
    { clear. induction pre as [|y pre [IH|IH]]; [left; constructor | | right; intros H; inversion H; contradiction].
      destruct (skippable_dec ms y); [left; now constructor | right; intros H'; inversion H'; contradiction]. }
    destruct Dec as [F|F]; [|now apply (step_fixed q st)].
    assert (C : cls ms x <> TkTagLine).
    { intros C. apply Ne. apply (skippable_tail ms); auto. now apply (cls_begins ms x TkTagLine ch_at G ltac:(discriminate) ltac:(discriminate) eq_refl). }
    unfold scan_step. rewrite Eq. pose proof (ptable_basic _ _ Eq) as Hb. unfold check_basic in Hb. repeat (apply andb_true_iff in Hb as [Hb ?Hb]).
    rewrite (choose_no_tag (st_trans st) ms (S n) x (pre ++ A) (pre ++ B) G Hx); [reflexivity| |exact C].
    intros tr Hin Hn. rewrite forallb_forall in Hb. specialize (Hb tr Hin). apply orb_true_iff in Hb as [Hb|Hb]; [destruct (tr_la tr); [discriminate | contradiction] | now apply tok_eqb_spec]. }
  cbn [go]. rewrite Same. destruct (scan_step q ms (S n) x (pre ++ B)) as [evs [[q' ms']|e]] eqn:E; [|reflexivity].
  destruct (scan_step_next _ _ _ _ _ _ _ _ _ _ Eq Hi Hx E) as [Hq' [cs' Hi']].
  rewrite (IH q' ms' (S n) A B cs' Hl' Hq' Hi'); [reflexivity|]. intros H. apply Ne. now apply ends_with_tags_cons.
Qed.

(** C59, second half, unless the lines before end with tags.  In stop-at-first-error mode: a line of none of
    the listed kinds, put at that place, is unexpected as well, with the same list, whatever follows it. *)
Theorem C59_only_partial : forall lang text text' pre post y post' d names,
  supported lang -> split_lines text = pre ++ post -> split_lines text' = pre ++ y :: post' -> ~ ends_with_tags pre ->
  parse_with true false lang text = Err (EParser (unexpected_at (S (length pre)) post names)) ->
  incl names (s "#EOF" :: line_names) -> names <> [] -> in_force lang pre d -> (forall name, In name names -> ~ kind_of_line d y name) ->
  parse_with true false lang text' = Err (EParser (unexpected_line_error (S (length pre), y) names)).
Proof.
  intros lang text text' pre post y post' d names S E E' Nt H Hi Hn Hf Hno.
  pose proof (split_lines_nonempty text) as Hl. pose proof (split_lines_nonempty text') as Hl'.
  assert (H0 : In (unexpected_at (Datatypes.S (length pre)) post names) (errors_of (parse_with true false lang text))) by (rewrite H; now left).
  apply parse_error_scan in H0 as [ms [D [M [Sp [H0 [Rs Nm]]]]]]; [|exact S|destruct post; discriminate|destruct post; discriminate].
  rewrite E in Hl, H0. rewrite E' in Hl'.
  apply error_at_place in H0; [|exact M|exact Sp|exact Hl|destruct post; reflexivity|destruct post; [now right | now left]].
  destruct H0 as [q [m [st [cs [es [G1 [G2 [G3 [G4 [G5 G6]]]]]]]]]].
  assert (Hp : Forall (fun x => x <> []) post) by (apply Forall_app in Hl; apply Hl).
  assert (Hy : y <> []) by (apply Forall_app in Hl' as [_ Hl'']; now inversion Hl'').
  destruct (expected_facts q st G2) as [_ [Ne _]]. apply list_recovered in G6; auto. subst names.
  pose proof (force_unique lang ms q m pre d (matcher_good _ M) D G4 Hf) as ->.
  assert (Hi0 : exists cs, st_inv 0 ms cs).
  { exists [(RGherkinDocument, [])]. exists [(RGherkinDocument, prod RGherkinDocument)]. split; [reflexivity|]. split.
    - cbn [sinv]. split; [reflexivity|]. split; [reflexivity|]. split; [apply leaves_ok_nil|]. split; [constructor | exact I].
    - split; [exact M|]. rewrite Sp. split; reflexivity. }
  destruct Hi0 as [cs0 Hi0].
  assert (Hpre : lines_ok pre) by (apply Forall_app in Hl; apply Hl).
  pose proof (go_same pre 0 ms 0 post (y :: post') cs0 Hpre ltac:(discriminate) Hi0 Nt) as Gs.
  destruct (go_inv ms pre 0 ms 0 post cs0 [] (matcher_good _ M) Hpre ltac:(discriminate) Hi0) as [_ Lo]; [left; auto|].
  pose proof (choose_none q st m cs (Datatypes.S (length pre)) y post' G2 G3 Hy) as Cn. specialize (Cn (fun k Hk => Hno _ (in_map shown_name _ _ Hk))).
  (* the two scans *)
  pose proof (scan_go pre 0 ms 0 post) as S1. pose proof (scan_go pre 0 ms 0 (y :: post')) as S2. rewrite <- Gs in S2. cbn [Nat.add] in S1, S2.
  destruct (go 0 ms 0 pre post) as [evs r0]. cbn [fst snd] in *. subst r0.
  destruct (scan q m (length pre) post) as [e2 r2]. cbn [scan] in S2. unfold scan_step in S2. rewrite G2, Cn in S2. cbn [map app] in S2.
  destruct (scan (st_self st) m (Datatypes.S (length pre)) post') as [e3 r3].
  assert (Tr : forall lines, Forall (ev_P (fun _ => True)) (fst (scan 0 ms 0 lines))) by (intros lines; apply Forall_forall; intros [v|v] _; cbn [ev_P]; [exact I | intros _; exact I]).
  destruct (run_doc_P (fun _ => True) ms (pre ++ post) 0 M Sp Hl (Tr _)) as [es1 [b1 [R1 _]]].
  destruct (run_doc_P (fun _ => True) ms (pre ++ y :: post') 0 M Sp Hl' (Tr _)) as [es2 [b2 [R2 _]]].
  pose proof (parse_b_outcome ast_builder ast_no_composite true (ab_reset 0) ms ms _ es1 (Ok tt) b1 Rs (matcher_good _ M) Hl R1) as [O1 O1'].
  pose proof (parse_b_outcome ast_builder ast_no_composite true (ab_reset 0) ms ms _ es2 (Ok tt) b2 Rs (matcher_good _ M) Hl' R2) as [O2 _].
  cbv zeta in O1, O2. rewrite S1 in R1. rewrite S2 in R2. unfold doc_evs in R1, R2. cbn [fst snd] in R1, R2.
  rewrite <- app_assoc, app_comm_cons in R1. rewrite <- app_assoc, app_comm_cons in R2. rewrite raw_evs_app in R1, R2.
  pose proof (raw_kind (EvAct no_leaf [AStart RGherkinDocument] :: evs) (ab_reset 0)) as Rk.
  unfold parse_with in H |- *. rewrite Nm in H |- *. cbn [rbind] in H |- *. rewrite E in H. rewrite E'. unfold parse_lines in H |- *.
  destruct (raw_evs ast_builder (EvAct no_leaf [AStart RGherkinDocument] :: evs) (ab_reset 0)) as [[es0 [u|x]] b0]; [|discriminate R1]. cbn [fst] in Rk.
  match type of R1 with context [raw_evs ast_builder ?l ?b] => destruct (raw_evs ast_builder l b) as [[es1' r1'] b1'] end. injection R1 as R1 _ _.
  assert (es0 = []) as ->.
  { destruct es0 as [|e0 es0]; [reflexivity|]. exfalso. subst es1. cbn [outcome app] in O1.
    destruct (parse_b ast_builder true (ab_reset 0) ms (pre ++ post)) as [pr pc]. cbn [fst] in O1. subst pr. cbn [fst] in H. injection H as H.
    inversion Rk as [|? ? Rk0 _]; subst. destruct Rk0 as [Rk0|Rk0]; [|destruct post; discriminate Rk0].
    destruct Rk0 as [Rk0|Rk0]; [discriminate|]. rewrite Forall_forall in Lo. destruct (Lo _ Rk0) as [k [K1 K2]]. destruct post; cbn in K2; lia. }
  cbn [app raw_evs] in R2. match type of R2 with context [raw_evs ast_builder ?l ?b] => destruct (raw_evs ast_builder l b) as [[es2' r2'] b2'] end.
  injection R2 as R2 _ _. subst es2. cbn [outcome] in O2.
  destruct (parse_b ast_builder true (ab_reset 0) ms (pre ++ y :: post')) as [pr pc]. cbn [fst] in O2. subst pr. cbn [fst].
  now rewrite unexpected_line_shown.
Qed.
Print Assumptions C59_only_partial.

(** English, concretely *)
Lemma en_facts : exists ms, good ms /\ for_name (s "en") = Some (ms_dialect ms) /\
  map (fun x => cls ms (x ++ [ch_nl])) [s "Feature: f"; s "@t"; s "Scenario: s"; s " Scenario: s"; s "  Given x"; s "junk"; s "  And z"] =
  [TkFeatureLine; TkTagLine; TkScenarioLine; TkScenarioLine; TkStepLine; TkOther; TkStepLine].
Proof.
  assert (Sup : supported (s "en")) by (eexists; vm_compute; reflexivity).
  destruct (fresh_matcher (s "en") Sup) as [ms [E1 [_ [E3 _]]]]. exists ms. split; [now apply matcher_good|].
  assert (Nm : new_matcher false (s "en") = Ok ms) by exact E1. vm_compute in Nm. injection Nm as <-. split; vm_compute; reflexivity.
Qed.
Lemma en_in_force ms pre : good ms -> for_name (s "en") = Some (ms_dialect ms) -> Forall (fun x => cls ms x <> TkComment) pre -> in_force (s "en") pre (ms_dialect ms).
Proof.
  intros G D F. exists (ms_dialect ms). split; [exact D|]. right. split; [reflexivity|]. intros d' [a [h [b [name [-> [_ [L _]]]]]]].
  rewrite Forall_forall in F. apply (F h); [apply in_elt|]. now apply (cls_language ms h name G).
Qed.

(** Without that condition it is false: after tags only the lines that may follow if no scenario does are listed. *)
Theorem C59_refuted : ~ (forall lang text text' pre post y post' d names,
  supported lang -> split_lines text = pre ++ post -> split_lines text' = pre ++ y :: post' ->
  parse_with true false lang text = Err (EParser (unexpected_at (S (length pre)) post names)) ->
  incl names (s "#EOF" :: line_names) -> names <> [] -> in_force lang pre d -> (forall name, In name names -> ~ kind_of_line d y name) ->
  parse_with true false lang text' = Err (EParser (unexpected_line_error (S (length pre), y) names))).
Proof.
  intros H. destruct en_facts as [ms [G [D C]]]. cbn [map] in C. pose proof (f_equal (fun l => nth 0 l TkEOF) C) as C1; cbn [nth] in C1. pose proof (f_equal (fun l => nth 1 l TkEOF) C) as C2; cbn [nth] in C2. pose proof (f_equal (fun l => nth 2 l TkEOF) C) as C3; cbn [nth] in C3.
  specialize (H (s "en") (text_of_lines [s "Feature: f"; s "@t"; s "junk"]) (text_of_lines [s "Feature: f"; s "@t"; s "Scenario: s"])
    [s "Feature: f" ++ [ch_nl]; s "@t" ++ [ch_nl]] [s "junk" ++ [ch_nl]] (s "Scenario: s" ++ [ch_nl]) [] (ms_dialect ms) [s "#TagLine"; s "#RuleLine"; s "#Comment"; s "#Empty"]).
  assert (B : match parse_with true false (s "en") (text_of_lines [s "Feature: f"; s "@t"; s "Scenario: s"]) with Ok _ => true | Err _ => false end = true) by (vm_compute; reflexivity).
  rewrite H in B; clear H; [discriminate B | eexists; exact D | vm_compute; reflexivity | vm_compute; reflexivity | vm_compute; reflexivity | | discriminate | |].
  - intros x Hx. cbn [In line_names] in *. repeat (destruct Hx as [<-|Hx]; [tauto|]). destruct Hx.
  - apply en_in_force; [exact G | exact D|]. constructor; [rewrite C1; discriminate|]. constructor; [rewrite C2; discriminate | constructor].
  - intros name Hn K. cbn [In] in Hn. destruct Hn as [<-|[<-|[<-|[<-|[]]]]];
      [apply (kind_cls ms _ TkTagLine G) in K | apply (kind_cls ms _ TkRuleLine G) in K | apply (kind_cls ms _ TkComment G) in K | apply (kind_cls ms _ TkEmpty G) in K]; congruence.
Qed.
Print Assumptions C59_refuted.

(** Both halves apply to a step put after a step, and to other text there. *)
Example C59_case :
  let pre := [s "Feature: f" ++ [ch_nl]; s " Scenario: s" ++ [ch_nl]; s "  Given x" ++ [ch_nl]] in
  let bad := text_of_lines [s "Feature: f"; s " Scenario: s"; s "  Given x"; s "junk"; s "  And y"] in
  let names := [s "#EOF"; s "#TableRow"; s "#DocStringSeparator"; s "#StepLine"; s "#TagLine"; s "#ExamplesLine"; s "#ScenarioLine"; s "#RuleLine"; s "#Comment"; s "#Empty"] in
  parse_with true false (s "en") bad = Err (EParser (unexpected_at 4 [s "junk" ++ [ch_nl]] names)) /\
  (forall stop names' after, ~ In (unexpected_line_error (4, s "  And z" ++ [ch_nl]) names') (errors_of (parse_with stop false (s "en") (text_of_lines [s "Feature: f"; s " Scenario: s"; s "  Given x"; s "  And z"] ++ after)))) /\
  (forall after, parse_with true false (s "en") (text_of_lines [s "Feature: f"; s " Scenario: s"; s "  Given x"; s "junk"] ++ after) = Err (EParser (unexpected_line_error (4, s "junk" ++ [ch_nl]) names))).
Proof.
  intros pre bad names. destruct en_facts as [ms [G [D C]]]. cbn [map] in C. pose proof (f_equal (fun l => nth 0 l TkEOF) C) as C1; cbn [nth] in C1. pose proof (f_equal (fun l => nth 1 l TkEOF) C) as C2; cbn [nth] in C2. pose proof (f_equal (fun l => nth 2 l TkEOF) C) as C3; cbn [nth] in C3. pose proof (f_equal (fun l => nth 3 l TkEOF) C) as C4; cbn [nth] in C4. pose proof (f_equal (fun l => nth 4 l TkEOF) C) as C5; cbn [nth] in C5. pose proof (f_equal (fun l => nth 5 l TkEOF) C) as C6; cbn [nth] in C6. pose proof (f_equal (fun l => nth 6 l TkEOF) C) as C7; cbn [nth] in C7.
  assert (P : parse_with true false (s "en") bad = Err (EParser (unexpected_at 4 [s "junk" ++ [ch_nl]; s "  And y" ++ [ch_nl]] names))) by (vm_compute; reflexivity).
  assert (Sup : supported (s "en")) by (eexists; exact D).
  assert (Inc : incl names (s "#EOF" :: line_names)) by (intros x Hx; subst names; cbn [In line_names] in *; repeat (destruct Hx as [<-|Hx]; [tauto|]); destruct Hx).
  assert (Fo : in_force (s "en") pre (ms_dialect ms)) by (apply en_in_force; [exact G | exact D|]; repeat (constructor; [rewrite ?C1, ?C4, ?C5; discriminate|]); constructor).
  split; [exact P|]. split.
  - intros stop names' after.
    refine (C59_listed true stop (s "en") bad _ pre [s "junk" ++ [ch_nl]; s "  And y" ++ [ch_nl]] (s "  And z" ++ [ch_nl]) (split_lines after) (ms_dialect ms) names names' (s "#StepLine") Sup _ _ _ Inc ltac:(discriminate) Fo _ _);
      [vm_compute; reflexivity | reflexivity | rewrite P; now left | cbn; tauto | apply (cls_kind ms _ TkStepLine G); exact C7].
  - intros after.
    refine (C59_only_partial (s "en") bad _ pre [s "junk" ++ [ch_nl]; s "  And y" ++ [ch_nl]] (s "junk" ++ [ch_nl]) (split_lines after) (ms_dialect ms) names Sup _ _ _ P Inc ltac:(discriminate) Fo _);
      [vm_compute; reflexivity | reflexivity | |].
    + intros [a [x [b [E [B F]]]]]. apply (cls_begins ms x TkTagLine ch_at G ltac:(discriminate) ltac:(discriminate) eq_refl) in B.
      assert (I : In x pre) by (rewrite E; apply in_elt). destruct I as [<-|[<-|[<-|[]]]]; congruence.
    + intros name Hn K. subst names. cbn [In] in Hn.
      repeat (destruct Hn as [<-|Hn]; [first [apply (kind_cls ms _ TkEOF G) in K; exact K | apply (kind_cls ms _ TkTableRow G) in K; congruence | apply (kind_cls ms _ TkStepLine G) in K; congruence | apply (kind_cls ms _ TkTagLine G) in K; congruence
        | apply (kind_cls ms _ TkExamplesLine G) in K; congruence | apply (kind_cls ms _ TkScenarioLine G) in K; congruence | apply (kind_cls ms _ TkRuleLine G) in K; congruence
        | apply (kind_cls ms _ TkComment G) in K; congruence | apply (kind_cls ms _ TkEmpty G) in K; congruence
        | apply (kind_cls ms _ TkDocStringSeparator G) in K; destruct K as [sep [[-> | ->] K]]; vm_compute in K; discriminate K]|]).
      destruct Hn.
Qed.
