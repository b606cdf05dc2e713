(** * The patterns of the Markdown matcher *)
From Verif Require Import PyStr PyStrFacts Types Regex RegexFacts ReSem Line DialectData Matcher Classify LineSpec StepFacts LangFacts MdSpec.
Local Open Scope N_scope.

Definition not_nl (c : char) : bool := negb (c =? ch_nl).
Definition title_tail (kws : list str) (suf : str) : re :=
  RSeq (RGrp 2 (RAlts (map RLit kws))) (RSeq (RLit suf) (RGrp 3 (RStar RDot))).
Lemma title_re_tail prefix kws suf : md_title_re prefix kws suf = RSeq prefix (title_tail kws suf).
Proof. reflexivity. Qed.

Lemma exec_alts l st : l <> [] -> exec (RAlts l) st = flat_map (fun r => exec r st) l.
Proof.
  induction l as [|r l IH]; [easy|]. intros _. destruct l as [|r' l]; [cbn; now rewrite app_nil_r|].
  change (RAlts (r :: r' :: l)) with (RAlt r (RAlts (r' :: l))). rewrite exec_alt, IH by discriminate. reflexivity.
Qed.
Lemma star1_head f x : forall p caps, exists r, star1 f p x caps = mkR (lastc p (run f x)) (drop_while f x) caps :: r.
Proof.
  induction x as [|c x IH]; intros p caps; cbn [star1 drop_while]; [now exists []|].
  destruct (f c) eqn:E.
  - destruct (IH (Some c) caps) as [r ->]. rewrite run_cons, lastc_cons by exact E. eexists. reflexivity.
  - rewrite run_stop by exact E. now exists [].
Qed.
Lemma firstn_run f x : firstn (length x - length (drop_while f x)) x = run f x. Proof. reflexivity. Qed.

(** what the tail reports: the first keyword that fits, the rest up to the line feed *)
Definition tail_state (k suf : str) (y : str) (caps : list (nat * str)) (p : option char) : rst :=
  let z := skipn (length (k ++ suf)) y in
  mkR p (drop_while not_nl z) ((3%nat, run not_nl z) :: (2%nat, k) :: caps).
Lemma kw_exec k suf p y caps :
  exec (RSeq (RLit suf) (RGrp 3 (RStar RDot)))
       (mkR p (skipn (length k) y) ((2%nat, k) :: caps)) =
  if startswith suf (skipn (length k) y)
  then exec (RGrp 3 (RStar RDot)) (mkR (lastc p suf) (skipn (length suf) (skipn (length k) y)) ((2%nat, k) :: caps)) else [].
Proof. rewrite exec_seq, exec_lit. destruct (startswith suf _); cbn [flat_map]; [apply app_nil_r | reflexivity]. Qed.
Lemma startswith_app_both k suf y : startswith (k ++ suf) y = startswith k y && startswith suf (skipn (length k) y).
Proof.
  revert y. induction k as [|c k IH]; intros y; [reflexivity|]. destruct y as [|d y]; [reflexivity|].
  cbn [app startswith length skipn]. rewrite IH. now destruct (c =? d).
Qed.
Lemma skipn_length_app (k suf y : str) : skipn (length (k ++ suf)) y = skipn (length suf) (skipn (length k) y).
Proof. rewrite app_length. revert y. induction k as [|c k IH]; intros y; [reflexivity|]. destruct y; cbn [length skipn plus]; [now rewrite skipn_nil | apply IH]. Qed.
Lemma firstn_starts k y : startswith k y = true -> firstn (length y - length (skipn (length k) y)) y = k.
Proof.
  intros H. apply startswith_spec in H as [z ->]. rewrite skipn_app, skipn_all, Nat.sub_diag. cbn [skipn app].
  rewrite app_length. replace (length k + length z - length z)%nat with (length k) by lia.
  now rewrite firstn_app, firstn_all, Nat.sub_diag, app_nil_r.
Qed.
Lemma tail_exec kws suf p y caps : kws <> [] ->
  match find (fun k => startswith (k ++ suf) y) kws with
  | Some k => exists p' r, exec (title_tail kws suf) (mkR p y caps) = tail_state k suf y caps p' :: r
  | None => exec (title_tail kws suf) (mkR p y caps) = []
  end.
Proof.
  intros H. unfold title_tail. rewrite exec_seq.
  change (exec (RGrp 2 (RAlts (map RLit kws))) (mkR p y caps))
    with (map (fun st' => mkR (r_prev st') (r_rest st')
             ((2%nat, firstn (length y - length (r_rest st')) y) :: r_caps st')) (exec (RAlts (map RLit kws)) (mkR p y caps))).
  rewrite exec_alts by (destruct kws; [easy | discriminate]). clear H.
  induction kws as [|k kws IH]; [reflexivity|]. cbn [map flat_map find].
  rewrite exec_lit. rewrite startswith_app_both. destruct (startswith k y) eqn:E1.
  - cbn [map app flat_map r_prev r_rest r_caps]. rewrite firstn_starts by exact E1. rewrite kw_exec.
    destruct (startswith suf (skipn (length k) y)) eqn:E2; cbn [andb].
    + cbn [exec r_rest].
      match goal with |- context[star_go _ (length ?z) (mkR ?p1 ?z ?c1)] =>
        pose proof (exec_star_dot p1 z c1) as S; cbn [exec r_rest] in S; rewrite S; destruct (star1_head not_nl z p1 c1) as [r Er] end.
      change (fun c : char => negb (c =? ch_nl)) with not_nl. rewrite Er. cbn [map app r_prev r_rest r_caps]. rewrite firstn_run.
      eexists _, _. unfold tail_state. rewrite skipn_length_app. reflexivity.
    + cbn [app]. exact IH.
  - cbn [map app andb]. exact IH.
Qed.

Lemma search_bol a b x : re_search (RSeq (RSeq RBol a) b) x =
  match exec (RSeq a b) (rinit x) with [] => None | st :: _ => Some ([], st) end.
Proof.
  unfold re_search. assert (K : forall y p q, search_go (RSeq (RSeq RBol a) b) (Some p) y q = None).
  { induction y as [|c y IH]; intros p q; cbn [search_go exec r_prev flat_map]; [reflexivity | apply IH]. }
  destruct x as [|c x]; cbn [search_go exec r_prev flat_map rinit]; rewrite app_nil_r;
    change (rinit []) with (mkR None [] []); destruct (flat_map (exec b) _); try reflexivity. apply K.
Qed.

(** ** Headers *)
Definition header_core : re := RGrp 1 (RSeq (RAlts (map (fun n => RLit (repeat ch_hash n)) [6; 5; 4; 3; 2; 1]%nat)) (RSet false [CSpace])).
Lemma hashes_starts h c y n : c <> ch_hash -> startswith (repeat ch_hash n) (repeat ch_hash h ++ c :: y) = Nat.leb n h.
Proof.
  intros Hc. revert h. induction n as [|n IH]; intros h; [reflexivity|]. destruct h as [|h]; cbn [repeat app startswith Nat.leb].
  - destruct (ch_hash =? c) eqn:E; [|reflexivity]. apply N.eqb_eq in E. now subst.
  - rewrite N.eqb_refl. apply IH.
Qed.
Lemma hashes_skip h n y : (n <= h)%nat -> skipn n (repeat ch_hash h ++ y) = repeat ch_hash (h - n) ++ y.
Proof. revert h. induction n as [|n IH]; intros h H; [now rewrite Nat.sub_0_r|]. destruct h as [|h]; [lia|]. cbn. apply IH. lia. Qed.
Lemma exec_space p x caps : exec (RSet false [CSpace]) (mkR p x caps) = match x with c :: y => if is_space c then [mkR (Some c) y caps] else [] | [] => [] end.
Proof. cbn [exec]. unfold step1. cbn [r_rest r_caps]. destruct x as [|c y]; [reflexivity|]. unfold cset_has. cbn [existsb citem_has]. now destruct (is_space c). Qed.
Lemma exec_grp n a p x caps : exec (RGrp n a) (mkR p x caps) =
  map (fun st' => mkR (r_prev st') (r_rest st') ((n, firstn (length x - length (r_rest st')) x) :: r_caps st')) (exec a (mkR p x caps)).
Proof. reflexivity. Qed.
Lemma flat_map_one {A} (g : nat -> list A) h ns : NoDup ns -> In h ns -> (forall n, n <> h -> g n = []) -> flat_map g ns = g h.
Proof.
  intros Hd Hi Hg. induction ns as [|n ns IH]; [destruct Hi|]. inversion Hd; subst. cbn [flat_map]. destruct Hi as [->|Hi].
  - assert (E : flat_map g ns = []).
    { clear IH Hd. induction ns as [|m ns IH2]; [reflexivity|]. cbn [flat_map]. rewrite Hg, IH2; [reflexivity| |now inversion H2|]; intros E; subst; intuition. }
    now rewrite E, app_nil_r.
  - rewrite Hg by (intros ->; contradiction). apply IH; assumption.
Qed.
Lemma flat_map_map {A B C} (f : B -> list C) (g : A -> B) l : flat_map f (map g l) = flat_map (fun a => f (g a)) l.
Proof. induction l as [|a l IH]; cbn; [reflexivity | now rewrite IH]. Qed.
Lemma flat_map_flat {A B C} (f : B -> list C) (g : A -> list B) l : flat_map f (flat_map g l) = flat_map (fun a => flat_map f (g a)) l.
Proof. induction l as [|a l IH]; cbn; [reflexivity | now rewrite flat_map_app, IH]. Qed.
Lemma header_exec p h c y caps : (1 <= h <= 6)%nat -> is_space c = true ->
  exec header_core (mkR p (repeat ch_hash h ++ c :: y) caps) = [mkR (Some c) y ((1%nat, repeat ch_hash h ++ [c]) :: caps)].
Proof.
  intros Hh Hc. assert (Hn : c <> ch_hash) by (intros ->; discriminate Hc).
  unfold header_core. rewrite exec_grp, exec_seq.
  rewrite exec_alts by discriminate. rewrite flat_map_map, flat_map_flat.
  rewrite (flat_map_one _ h).
  - rewrite exec_lit, hashes_starts, Nat.leb_refl, repeat_length, hashes_skip, Nat.sub_diag by (exact Hn || lia). cbn [repeat app flat_map].
    rewrite exec_space, Hc. cbn [map app r_prev r_rest r_caps]. do 3 f_equal. f_equal.
    rewrite app_length. cbn [length]. replace (length (repeat ch_hash h) + S (length y) - length y)%nat with (length (repeat ch_hash h ++ [c])) by (rewrite app_length; cbn; lia).
    change (c :: y) with ([c] ++ y). rewrite app_assoc, firstn_app, firstn_all, Nat.sub_diag. apply app_nil_r.
  - repeat constructor; cbn; intuition discriminate.
  - cbn. lia.
  - intros n Hne. rewrite exec_lit, hashes_starts by exact Hn. destruct (Nat.leb n h) eqn:E; [|reflexivity]. apply Nat.leb_le in E.
    rewrite repeat_length, hashes_skip by exact E. cbn [flat_map]. rewrite exec_space. destruct (h - n)%nat as [|k] eqn:K; [lia|]. reflexivity.
Qed.
Lemma header_exec_inv p x caps st : In st (exec header_core (mkR p x caps)) ->
  exists h c y, (1 <= h <= 6)%nat /\ is_space c = true /\ x = repeat ch_hash h ++ c :: y.
Proof.
  unfold header_core. rewrite exec_grp, exec_seq. intros H. apply in_map_iff in H as [st1 [_ H]].
  rewrite exec_alts in H by discriminate. rewrite flat_map_map, flat_map_flat in H. apply in_flat_map in H as [h [Hh H]].
  rewrite exec_lit in H. destruct (startswith (repeat ch_hash h) x) eqn:E; [|destruct H]. apply startswith_spec in E as [z ->].
  rewrite skipn_app, skipn_all, Nat.sub_diag in H. cbn [skipn app flat_map] in H. rewrite exec_space in H.
  destruct z as [|c y]; [destruct H|]. destruct (is_space c) eqn:E; [|destruct H].
  exists h, c, y. repeat split; auto; cbn in Hh; lia.
Qed.

Lemma one_line_suffix a z : one_line (a ++ z) -> one_line z.
Proof.
  intros [y [e [E [Hy He]]]]. revert y e E Hy He. induction a as [|c a IH]; intros y e E Hy He; [now exists y, e|].
  destruct y as [|d y]; cbn in E.
  - subst e. destruct He as [He|He]; [discriminate|]. injection He as _ He. destruct a; [|discriminate]. cbn in He. subst z. exists [], []. repeat split; [easy | now left].
  - injection E as _ E. apply (IH y e E); [intros F; apply Hy; now right | exact He].
Qed.
Lemma run_line rest e : ~ In ch_nl rest -> line_end e -> run not_nl (rest ++ e) = rest /\ drop_while not_nl (rest ++ e) = e.
Proof.
  intros Hr He. induction rest as [|c rest IH].
  - destruct He as [He|He]; subst e; split; reflexivity.
  - assert (Hc : not_nl c = true). { unfold not_nl. destruct (c =? ch_nl) eqn:E; [|reflexivity]. apply N.eqb_eq in E. subst. exfalso. apply Hr. now left. }
    destruct IH as [I1 I2]; [intros F; apply Hr; now right|]. cbn [app]. rewrite run_cons by exact Hc. cbn [drop_while]. rewrite Hc, I1. auto.
Qed.
Lemma one_line_cut z : one_line z -> exists rest e, z = rest ++ e /\ ~ In ch_nl rest /\ line_end e.
Proof. exact (fun H => H). Qed.

Definition title_kws (d : dialect) : list (list str) := [d_feature d; d_rule d; d_background d; d_scenario d; d_scenarioOutline d; d_examples d].
Definition kws_ok (l : list str) : bool := match l with [] => false | _ => forallb (fun k => negb (existsb (N.eqb ch_colon) k)) l end.
Lemma title_kws_ok : forallb (fun p => forallb kws_ok (title_kws (snd p))) DIALECTS = true.
Proof. vm_compute. reflexivity. Qed.
Lemma colon_free l : kws_ok l = true -> l <> [] /\ forall k, In k l -> ~ In ch_colon k.
Proof.
  unfold kws_ok. destruct l as [|a l]; [discriminate|]. intros H. split; [discriminate|]. rewrite forallb_forall in H. intros k Hk F.
  specialize (H k Hk). apply negb_true_iff in H. apply Bool.not_true_iff_false in H. apply H. apply existsb_exists. exists ch_colon. split; [exact F|]. apply N.eqb_refl.
Qed.
Lemma colon_inj (k1 k2 y1 y2 : str) : ~ In ch_colon k1 -> ~ In ch_colon k2 -> k1 ++ s ":" ++ y1 = k2 ++ s ":" ++ y2 -> k1 = k2 /\ y1 = y2.
Proof.
  revert k2. induction k1 as [|a k1 IH]; intros k2 H1 H2 E.
  - destruct k2 as [|b k2]; cbn in E; [injection E as E1; auto|]. injection E as E1 E2. exfalso. apply H2. left. now rewrite <- E1.
  - destruct k2 as [|b k2]; cbn in E; injection E as E1 E2; [exfalso; apply H1; left; now rewrite E1|].
    destruct (IH k2) as [-> ->]; [intros F; apply H1; now right | intros F; apply H2; now right | exact E2|]. subst. auto.
Qed.
Lemma space_split (i1 i2 y1 y2 : str) : all_space i1 -> all_space i2 ->
  match y1 with [] => False | c :: _ => is_space c = false end -> match y2 with [] => False | c :: _ => is_space c = false end ->
  i1 ++ y1 = i2 ++ y2 -> i1 = i2 /\ y1 = y2.
Proof.
  revert i2. induction i1 as [|a i1 IH]; intros i2 H1 H2 N1 N2 E.
  - destruct i2 as [|b i2]; [auto|]. cbn in E. subst y1. unfold all_space in H2. cbn in H2. rewrite N1 in H2. discriminate H2.
  - destruct i2 as [|b i2]; [cbn in E; subst y2; unfold all_space in H1; cbn in H1; rewrite N2 in H1; discriminate H1|].
    cbn in E. injection E as -> E. unfold all_space in H1, H2. cbn in H1, H2. apply andb_true_iff in H1 as [_ H1], H2 as [_ H2].
    destruct (IH i2 H1 H2 N1 N2 E) as [-> ->]. auto.
Qed.
Lemma hash_split h1 h2 (c1 c2 : char) (y1 y2 : str) : c1 <> ch_hash -> c2 <> ch_hash ->
  repeat ch_hash h1 ++ c1 :: y1 = repeat ch_hash h2 ++ c2 :: y2 -> h1 = h2 /\ c1 = c2 /\ y1 = y2.
Proof.
  revert h2. induction h1 as [|h1 IH]; intros [|h2] N1 N2 E; cbn in E.
  - now injection E.
  - injection E as E1 E2. congruence.
  - injection E as E1 E2. congruence.
  - injection E as E2. destruct (IH h2 N1 N2 E2) as [-> [-> ->]]. auto.
Qed.
Lemma header_unique kws x k1 n1 c1 k2 n2 c2 : kws_ok kws = true -> header_line kws x k1 n1 c1 -> header_line kws x k2 n2 c2 -> k1 = k2 /\ n1 = n2 /\ c1 = c2.
Proof.
  intros Hk H1 H2. destruct (colon_free _ Hk) as [_ Hc].
  destruct H1 as [i1 h1 s1 k1 r1 e1 A1 B1 C1 D1 E1 F1 G1], H2 as [i2 h2 s2 k2 r2 e2 A2 B2 C2 D2 E2 F2 G2].
  rewrite G1 in G2. apply space_split in G2 as [-> G2]; [|exact A1|exact A2| |]; [|destruct h1; [lia | reflexivity]|destruct h2; [lia | reflexivity]].
  cbn [app] in G2. apply hash_split in G2 as [-> [-> G2]]; [|intros ->; discriminate C1|intros ->; discriminate C2].
  destruct (colon_inj _ _ _ _ (Hc _ D1) (Hc _ D2) G2) as [-> G3].
  destruct (run_line r1 e1 E1 F1) as [R1 _], (run_line r2 e2 E2 F2) as [R2 _]. rewrite G3, R2 in R1. subst. auto.
Qed.
Lemma header_text kws x ind h c k rest e : 
  all_space ind -> (1 <= h <= 6)%nat -> x = ind ++ repeat ch_hash h ++ [c] ++ k ++ s ":" ++ rest ++ e ->
  lstrip x = repeat ch_hash h ++ c :: k ++ s ":" ++ rest ++ e /\ (kws = kws :> list str).
Proof.
  intros Hi Hh ->. split; [|reflexivity]. unfold lstrip, lstrip_by. rewrite drop_while_app by exact Hi.
  destruct h as [|h]; [lia|]. reflexivity.
Qed.

Definition tok_is (ty : tok) (k name : str) (col : nat) (t : token) : Prop :=
  t_mtype t = Some ty /\ t_keyword t = Some k /\ t_text t = Some name /\ t_loc_col t = Some col.
Lemma g_trimmed_new x n l : t_line l = mkLine x n -> get_line_text (t_line l) (-1) = lstrip x.
Proof. intros ->. reflexivity. Qed.
Lemma header_match kws ty ms x n t : kws_ok kws = true -> one_line x -> t_line t = mkLine x n ->
  match md_match_title md_header kws [ch_colon] ty ms t with
  | (Ok true, ms', t') => ms' = ms /\ exists k name col, header_line kws x k name col /\ tok_is ty k name col t'
  | (Ok false, ms', t') => ms' = ms /\ t' = t /\ forall k name col, ~ header_line kws x k name col
  | _ => False
  end.
Proof.
  intros Hk Hx Ht. destruct (colon_free _ Hk) as [Hne Hcol].
  unfold md_match_title. rewrite (g_trimmed_new x n t Ht), title_re_tail.
  change md_header with (RSeq RBol header_core). rewrite search_bol, exec_seq.
  assert (D : {q | exists h c y, q = (h, c, y) /\ (1 <= h <= 6)%nat /\ is_space c = true /\ lstrip x = repeat ch_hash h ++ c :: y} +
              {exec header_core (rinit (lstrip x)) = []}).
  { destruct (exec header_core (rinit (lstrip x))) as [|st l] eqn:E; [now right|]. left.
    assert (Q : exists h c y, (1 <= h <= 6)%nat /\ is_space c = true /\ lstrip x = repeat ch_hash h ++ c :: y).
    { eapply header_exec_inv with (st := st). unfold rinit in E. rewrite E. now left. }
    assert (In st (exec header_core (rinit (lstrip x)))) by (rewrite E; now left).
    set (f := fix f (h : nat) (z : str) {struct z} := match z with c :: z' => if c =? ch_hash then f (S h) z' else (h, c, z') | [] => (h, 0, []) end).
    exists (f O (lstrip x)). destruct Q as [h [c [y [Q1 [Q2 Q3]]]]]. exists h, c, y. repeat split; auto; try lia. rewrite Q3.
    assert (F : forall a b, f a (repeat ch_hash b ++ c :: y) = ((a + b)%nat, c, y)).
    { intros a b. revert a. induction b as [|b IH]; intros a; cbn [repeat app f].
      - destruct (c =? ch_hash) eqn:K; [apply N.eqb_eq in K; subst; discriminate Q2|]. now rewrite Nat.add_0_r.
      - rewrite N.eqb_refl, IH. do 2 f_equal. lia. }
    rewrite F. reflexivity. }
  destruct D as [[[[h c] y] D]|D].
  - destruct D as [h0 [c0 [y0 [D0 [Hh [Hc Hl]]]]]]. injection D0 as <- <- <-. rewrite Hl. unfold rinit. rewrite header_exec by assumption.
    cbn [flat_map]. rewrite app_nil_r. match goal with |- context [exec (title_tail _ _) (mkR ?p ?y ?caps)] => pose proof (tail_exec kws [ch_colon] p y caps Hne) as T end.
    destruct (drop_while_suffix is_space x) as [ind [Ei Hi]]. change (drop_while is_space x) with (lstrip x) in Ei. rewrite Hl in Ei.
    destruct (find (fun k : list char => startswith (k ++ [ch_colon]) y) kws) as [k|] eqn:F.
    + destruct T as [p' [r ->]]. split; [reflexivity|]. apply find_some in F as [F1 F2]. apply startswith_spec in F2 as [z ->].
      assert (Hz : one_line z). { rewrite Ei in Hx. replace (ind ++ repeat ch_hash h ++ c :: (k ++ [ch_colon]) ++ z) with ((ind ++ repeat ch_hash h ++ [c] ++ k ++ [ch_colon]) ++ z) in Hx by (rewrite <- !app_assoc; reflexivity). now apply one_line_suffix in Hx. }
      destruct Hz as [rest [e [-> [Hr He]]]].
      exists k, (strip rest), (length ind + h + 2)%nat. split.
      * econstructor; eauto. rewrite Ei at 1. rewrite <- !app_assoc. reflexivity.
      * unfold tail_state. rewrite skipn_app, skipn_all, Nat.sub_diag. cbn [skipn app]. destruct (run_line rest e Hr He) as [R _].
        unfold tok_is, group. cbn [r_caps find fst Nat.eqb]. rewrite R. cbn [set_matched t_mtype t_keyword t_text t_loc_col]. rewrite rstrip_crlf_strip. repeat split.
        rewrite Ht. unfold g_indent, g_trimmed. cbn [g_text]. rewrite Hl. rewrite Ei at 1.
        f_equal. rewrite !app_length, repeat_length. cbn [length]. lia.
    + rewrite T. split; [reflexivity|]. split; [reflexivity|]. intros k name col H. destruct H as [i1 h1 c1 k rest e A1 B1 C1 D1 E1 F1 G1].
      pose proof (header_text kws x i1 h1 c1 k rest e A1 B1 G1) as [G2 _]. rewrite Hl in G2.
      apply hash_split in G2 as [-> [-> ->]]; [|intros ->; discriminate Hc|intros ->; discriminate C1].
      pose proof (find_none _ _ F k D1) as F2. cbn beta in F2. rewrite app_assoc in F2. rewrite startswith_app in F2. discriminate F2.
  - rewrite D. split; [reflexivity|]. split; [reflexivity|]. intros k name col H. destruct H as [i1 h1 c1 k rest e A1 B1 C1 D1 E1 F1 G1].
    pose proof (header_text kws x i1 h1 c1 k rest e A1 B1 G1) as [G2 _]. rewrite G2 in D. unfold rinit in D. rewrite header_exec in D by assumption. discriminate D.
Qed.

(** ** Bullets *)
Definition bullet_set : re := RSet false [CChar 42; CChar 43; CChar 45]%N.
Definition bullet_core : re := RGrp 1 (RSeq re_spaces (RSeq bullet_set re_spaces)).
Lemma visible_kws : forallb (fun p => forallb visible (all_step_keywords (snd p)) && negb (match all_step_keywords (snd p) with [] => true | _ => false end)) DIALECTS = true.
Proof. vm_compute. reflexivity. Qed.
Lemma step_kws ms : for_name (ms_name ms) = Some (ms_dialect ms) ->
  all_step_keywords (ms_dialect ms) <> [] /\ forall k, In k (all_step_keywords (ms_dialect ms)) -> visible k = true.
Proof.
  intros H. apply for_name_in in H. pose proof visible_kws as V. rewrite forallb_forall in V. specialize (V _ H). cbn [snd] in V.
  apply andb_true_iff in V as [V1 V2]. rewrite forallb_forall in V1. split; [|exact V1].
  destruct (all_step_keywords (ms_dialect ms)); [discriminate V2 | discriminate].
Qed.
Lemma exec_bullet p x caps : exec bullet_set (mkR p x caps) =
  match x with b :: z => if (b =? 42) || (b =? 43) || (b =? 45) then [mkR (Some b) z caps] else [] | [] => [] end.
Proof.
  unfold bullet_set. cbn [exec]. unfold step1. cbn [r_rest r_caps]. destruct x as [|b z]; [reflexivity|]. unfold cset_has. cbn [existsb citem_has].
  rewrite orb_false_r, orb_assoc. destruct (_ || _); reflexivity.
Qed.
Lemma cset_is_space c : cset_has false [CSpace] c = is_space c.
Proof. unfold cset_has. cbn [existsb citem_has]. now destruct (is_space c). Qed.
Lemma drop_while_ext f g (x : str) : (forall c, f c = g c) -> drop_while f x = drop_while g x.
Proof. intros H. induction x as [|c x IH]; [reflexivity|]. cbn. now rewrite H, IH. Qed.
Lemma run_ext f g (x : str) : (forall c, f c = g c) -> run f x = run g x.
Proof. intros H. unfold run. now rewrite (drop_while_ext f g). Qed.
Lemma spaces_none p x caps : match x with [] => True | c :: _ => is_space c = false end -> exec re_spaces (mkR p x caps) = [mkR p x caps].
Proof. unfold re_spaces. rewrite exec_star_set. destruct x as [|c x]; [reflexivity|]. cbn [star1]. intros H. now rewrite cset_is_space, H. Qed.
Lemma bullet_exec kws b z : kws <> [] -> (forall k, In k kws -> visible k = true) -> (b = 42 \/ b = 43 \/ b = 45) ->
  exists p, flat_map (exec (title_tail kws [])) (exec bullet_core (mkR None (b :: z) [])) =
    exec (title_tail kws []) (mkR p (drop_while is_space z) [(1%nat, b :: run is_space z)]).
Proof.
  intros Hne Hv Hb. unfold bullet_core. rewrite exec_grp, exec_seq.
  rewrite spaces_none by (destruct Hb as [H|[H|H]]; subst b; reflexivity). cbn [flat_map]. rewrite app_nil_r, exec_seq, exec_bullet.
  replace ((b =? 42) || (b =? 43) || (b =? 45)) with true by (destruct Hb as [H|[H|H]]; subst b; reflexivity).
  cbn [flat_map]. rewrite app_nil_r. unfold re_spaces. rewrite exec_star_set, flat_map_map.
  rewrite star1_greedy.
  - cbn [r_prev r_rest r_caps]. rewrite !(drop_while_ext (cset_has false [CSpace]) is_space) by apply cset_is_space.
    eexists. do 2 f_equal. f_equal. f_equal.
    cbn [length]. unfold run. rewrite Nat.sub_succ_l by apply drop_while_length. reflexivity.
  - intros p c y caps Hc. rewrite cset_is_space in Hc. cbn [r_prev r_rest r_caps].
    match goal with |- exec _ (mkR ?p ?y ?caps) = [] => pose proof (tail_exec kws [] p y caps Hne) as T end.
    destruct (find (fun k => startswith (k ++ []) (c :: y)) kws) as [k|] eqn:F; [|exact T].
    apply find_some in F as [F1 F2]. rewrite app_nil_r in F2. specialize (Hv k F1). destruct k as [|d k]; [discriminate Hv|]. cbn [startswith] in F2.
    apply andb_true_iff in F2 as [F2 _]. apply N.eqb_eq in F2. subst d. cbn [visible] in Hv. rewrite Hc in Hv. discriminate Hv.
Qed.
Lemma first_type d k : In k (all_step_keywords d) ->
  match keyword_types d k with [] => None | kt :: _ => Some kt end = Some (md_step_type d k).
Proof.
  intros H. unfold keyword_types, md_step_type.
  assert (O : forall l kt, (str_mem k l = true -> exists r, occurrences k l kt = kt :: r) /\ (str_mem k l = false -> occurrences k l kt = [])).
  { intros l kt. unfold occurrences, str_mem. induction l as [|a l [I1 I2]]; [split; [discriminate | reflexivity]|]. cbn [existsb filter].
    destruct (str_eqb k a) eqn:E; cbn [orb map]; [split; [intros _; eexists; reflexivity | discriminate] | split; assumption]. }
  destruct (str_mem k (d_given d)) eqn:E1; [destruct (proj1 (O (d_given d) KtContext) E1) as [r ->]; reflexivity|]. rewrite (proj2 (O (d_given d) KtContext) E1).
  destruct (str_mem k (d_when d)) eqn:E2; [destruct (proj1 (O (d_when d) KtAction) E2) as [r ->]; reflexivity|]. rewrite (proj2 (O (d_when d) KtAction) E2).
  destruct (str_mem k (d_then d)) eqn:E3; [destruct (proj1 (O (d_then d) KtOutcome) E3) as [r ->]; reflexivity|]. rewrite (proj2 (O (d_then d) KtOutcome) E3).
  assert (E4 : str_mem k (d_and d ++ d_but d) = true).
  { apply str_mem_spec. unfold all_step_keywords in H. rewrite !in_app_iff in H. rewrite in_app_iff.
    assert (N : forall l, str_mem k l = false -> ~ In k l) by (intros l F G; apply str_mem_spec in G; congruence).
    pose proof (N _ E1). pose proof (N _ E2). pose proof (N _ E3). tauto. }
  destruct (proj1 (O _ KtConjunction) E4) as [r ->]. reflexivity.
Qed.
Lemma gap_split (i1 i2 y1 y2 : str) : all_space i1 -> all_space i2 ->
  match y1 with [] => True | c :: _ => is_space c = false end -> match y2 with [] => True | c :: _ => is_space c = false end ->
  i1 ++ y1 = i2 ++ y2 -> i1 = i2 /\ y1 = y2.
Proof.
  revert i2. induction i1 as [|a i1 IH]; intros i2 H1 H2 N1 N2 E.
  - destruct i2 as [|b i2]; [auto|]. cbn in E. subst y1. unfold all_space in H2. cbn in H2. rewrite N1 in H2. discriminate H2.
  - destruct i2 as [|b i2]; [cbn in E; subst y2; unfold all_space in H1; cbn in H1; rewrite N2 in H1; discriminate H1|].
    cbn in E. injection E as -> E. unfold all_space in H1, H2. cbn in H1, H2. apply andb_true_iff in H1 as [_ H1], H2 as [_ H2].
    destruct (IH i2 H1 H2 N1 N2 E) as [-> ->]. auto.
Qed.
Lemma bullet_unique x i1 b1 g1 r1 i2 b2 g2 r2 : bullet_line x i1 b1 g1 r1 -> bullet_line x i2 b2 g2 r2 -> i1 = i2 /\ b1 = b2 /\ g1 = g2 /\ r1 = r2.
Proof.
  intros [A1 [B1 [C1 [D1 E1]]]] [A2 [B2 [C2 [D2 E2]]]]. rewrite E1 in E2. apply space_split in E2 as [-> E2]; auto.
  2:{ destruct B1 as [B1|[B1|B1]]; subst; reflexivity. } 2:{ destruct B2 as [B2|[B2|B2]]; subst; reflexivity. }
  cbn in E2. injection E2 as -> E2. apply gap_split in E2 as [-> ->]; auto.
Qed.
Lemma bullet_match ms x n t : for_name (ms_name ms) = Some (ms_dialect ms) -> one_line x -> t_line t = mkLine x n ->
  match md_match_StepLine ms t with
  | (Ok true, ms', t') => ms' = ms /\ exists ind b gap rest before k after y e,
      bullet_line x ind b gap rest /\ all_step_keywords (ms_dialect ms) = before ++ k :: after /\
      rest = k ++ y ++ e /\ ~ In ch_nl y /\ line_end e /\ Forall (fun k' => startswith k' rest = false) before /\
      tok_is TkStepLine k (strip y) (length ind + length gap + 2) t' /\ t_ktype t' = Some (md_step_type (ms_dialect ms) k)
  | (Ok false, ms', t') => ms' = ms /\ t' = t /\ forall ind b gap rest k, bullet_line x ind b gap rest ->
      In k (all_step_keywords (ms_dialect ms)) -> startswith k rest = false
  | _ => False
  end.
Proof.
  intros Hn Hx Ht. destruct (step_kws ms Hn) as [Hne Hv]. set (kws := all_step_keywords (ms_dialect ms)) in *.
  unfold md_match_StepLine, md_match_title. change (step_keywords (ms_dialect ms)) with kws.
  rewrite (g_trimmed_new x n t Ht), title_re_tail. change md_bullet with (RSeq RBol bullet_core). rewrite search_bol, exec_seq.
  destruct (drop_while_suffix is_space x) as [ind [Ei Hi]]. change (drop_while is_space x) with (lstrip x) in Ei.
  assert (D : (exists b z, (b = 42 \/ b = 43 \/ b = 45) /\ lstrip x = b :: z) \/
     (exec bullet_core (rinit (lstrip x)) = [] /\ forall ind b gap rest, ~ bullet_line x ind b gap rest)).
  { destruct (lstrip x) as [|b z] eqn:L.
    - right. split; [reflexivity|]. intros i b g r [A [B [_ [_ E]]]]. apply lstrip_nil in L. rewrite E in L. rewrite forallb_app in L. cbn in L.
      destruct B as [B|[B|B]]; subst b; rewrite andb_false_r in L; discriminate L.
    - destruct ((b =? 42) || (b =? 43) || (b =? 45)) eqn:B.
      + left. exists b, z. split; [|reflexivity]. apply orb_true_iff in B as [B|B]; [apply orb_true_iff in B as [B|B]|]; apply N.eqb_eq in B; auto.
      + right. split.
        * unfold bullet_core, rinit. rewrite exec_grp, exec_seq, spaces_none by (eapply lstrip_head; exact L). cbn [flat_map]. rewrite app_nil_r, exec_seq, exec_bullet, B. reflexivity.
        * intros i b' g r [A [B' [_ [_ E]]]]. rewrite Ei in E. apply space_split in E as [_ E]; auto; [|now eapply lstrip_head; exact L|destruct B' as [B'|[B'|B']]; subst; reflexivity].
          cbn in E. injection E as -> _. destruct B' as [B'|[B'|B']]; subst; discriminate B. }
  destruct D as [[b [z [Hb Hl]]]|[D1 D2]].
  - rewrite Hl in *. destruct (bullet_exec kws b z Hne Hv Hb) as [p Ep]. unfold rinit. rewrite Ep. clear Ep.
    assert (BL : bullet_line x ind b (run is_space z) (drop_while is_space z)).
    { split; [exact Hi|]. split; [exact Hb|]. split; [apply run_forall|]. split; [destruct (drop_while is_space z) eqn:F; [easy | now apply drop_while_head in F]|].
      rewrite Ei. cbn [app]. now rewrite <- run_split. }
    match goal with |- context [exec (title_tail _ _) (mkR ?p ?y ?caps)] => pose proof (tail_exec kws [] p y caps Hne) as T end.
    destruct (find (fun k : list char => startswith (k ++ []) (drop_while is_space z)) kws) as [k|] eqn:F.
    + destruct T as [p' [r ->]]. split; [reflexivity|]. apply find_split in F as [before [after [F1 [F2 F3]]]]. rewrite app_nil_r in F2.
      pose proof F2 as F2'. apply startswith_spec in F2 as [w Ew].
      assert (Hw : one_line w). { rewrite Ei in Hx. rewrite (run_split is_space z), Ew in Hx. replace (ind ++ b :: run is_space z ++ k ++ w) with ((ind ++ [b] ++ run is_space z ++ k) ++ w) in Hx by (rewrite <- !app_assoc; reflexivity). now apply one_line_suffix in Hx. }
      destruct Hw as [y [e [-> [Hy He]]]].
      exists ind, b, (run is_space z), (drop_while is_space z), before, k, after, y, e.
      split; [exact BL|]. split; [exact F1|]. split; [exact Ew|]. split; [exact Hy|]. split; [exact He|]. split.
      { eapply Forall_impl; [|exact F3]. intros k' K. cbn beta in K. now rewrite app_nil_r in K. }
      unfold tail_state. rewrite app_nil_r, Ew, skipn_app, skipn_all, Nat.sub_diag. cbn [skipn app]. destruct (run_line y e Hy He) as [R _].
      unfold tok_is, group. cbn [r_caps find fst Nat.eqb]. rewrite R. cbn [set_matched t_mtype t_keyword t_text t_loc_col t_ktype]. rewrite rstrip_crlf_strip. repeat split.
      * f_equal. rewrite Ht. unfold g_indent, g_trimmed. cbn [g_text]. rewrite Hl. rewrite Ei at 1. rewrite !app_length. cbn [length]. lia.
      * apply first_type. fold kws. rewrite F1. apply in_or_app. right. now left.
    + rewrite T. split; [reflexivity|]. split; [reflexivity|]. intros i1 b1 g1 r1 k B1 Hk.
      destruct (bullet_unique _ _ _ _ _ _ _ _ _ B1 BL) as [_ [_ [_ ->]]]. pose proof (find_none _ _ F k Hk) as Q. cbn beta in Q. now rewrite app_nil_r in Q.
  - rewrite D1. split; [reflexivity|]. split; [reflexivity|]. intros i b g r k B. exfalso. now apply (D2 i b g r).
Qed.

(** ** Table rows *)
Lemma match_M r x : (exists st, re_match r x = Some st) <-> exists p' x', M r None x p' x'.
Proof.
  unfold re_match, rinit. split.
  - intros [st H]. destruct (exec r (mkR None x [])) as [|st0 l] eqn:E; [discriminate H|].
    assert (I : In st0 (exec r (mkR None x []))) by (rewrite E; now left). apply exec_sound in I. cbn in I. eauto.
  - intros [p' [x' H]]. destruct (exec_complete r _ _ _ _ H []) as [caps I]. destruct (exec r (mkR None x [])) as [|st0 l]; [destruct I | now exists st0].
Qed.
Lemma Mseq_iff a b p x p' x' : M (RSeq a b) p x p' x' <-> exists p1 x1, M a p x p1 x1 /\ M b p1 x1 p' x'.
Proof. split; [inversion 1; subst; eauto | intros [p1 [x1 [H1 H2]]]; econstructor; eauto]. Qed.
Lemma Mbol_iff p x p' x' : M RBol p x p' x' <-> p = None /\ p' = p /\ x' = x.
Proof. split; [inversion 1; subst; auto | intros [-> [-> ->]]; constructor]. Qed.
Lemma M_opt f l p x p' x' : M (ROpt (RSet f l)) p x p' x' <-> (p' = p /\ x' = x) \/ exists c, x = c :: x' /\ p' = Some c /\ cset_has f l c = true.
Proof.
  split.
  - inversion 1; subst.
    + match goal with H : M (RSet _ _) _ _ _ _ |- _ => inversion H; subst end. right. eauto.
    + match goal with H : M REps _ _ _ _ |- _ => inversion H; subst end. auto.
  - intros [[-> ->]|[c [-> [-> H]]]]; [apply M_altr; constructor | apply M_altl; now constructor].
Qed.
Fixpoint opts (n : nat) (r : re) : re := match n with O => r | S n' => RSeq (ROpt (RSet false [CSpace])) (opts n' r) end.
Lemma opts_M n : forall p x, (exists p' x', M (opts n (RChar ch_pipe)) p x p' x') <->
  exists ind rest, all_space ind /\ (length ind <= n)%nat /\ x = ind ++ ch_pipe :: rest.
Proof.
  induction n as [|n IH]; intros p x; cbn [opts].
  - split.
    + intros [p' [x' H]]. apply M_char in H as [-> _]. exists [], x'. now repeat split.
    + intros [ind [rest [_ [L ->]]]]. destruct ind; [|cbn in L; lia]. exists (Some ch_pipe), rest. now apply M_char.
  - split.
    + intros [p' [x' H]]. apply Mseq_iff in H as [p1 [x1 [H1 H2]]].
      destruct (proj1 (IH p1 x1)) as [ind [rest [A [L ->]]]]; [eauto|]. apply M_opt in H1 as [[-> <-]|[c [-> [-> Hc]]]].
      * exists ind, rest. repeat split; [exact A | lia].
      * exists (c :: ind), rest. repeat split; [|cbn; lia]. rewrite cset_is_space in Hc. unfold all_space in *. cbn. now rewrite Hc.
    + intros [ind [rest [A [L ->]]]]. destruct ind as [|c ind].
      * destruct (proj2 (IH p (ch_pipe :: rest))) as [p' [x' H]]; [exists [], rest; split; [reflexivity|]; split; [cbn; lia | reflexivity]|].
        exists p', x'. apply Mseq_iff. exists p, (ch_pipe :: rest). split; [apply M_opt; now left | exact H].
      * unfold all_space in A. cbn in A. apply andb_true_iff in A as [A1 A2].
        destruct (proj2 (IH (Some c) (ind ++ ch_pipe :: rest))) as [p' [x' H]]; [exists ind, rest; repeat split; [exact A2 | cbn in L; lia]|].
        exists p', x'. apply Mseq_iff. exists (Some c), (ind ++ ch_pipe :: rest). split; [|exact H]. apply M_opt. right. exists c. rewrite cset_is_space. auto.
Qed.
Lemma table_re_iff x : (exists st, re_match md_table_re x = Some st) <->
  exists ind rest, all_space ind /\ (length ind <= 5)%nat /\ x = ind ++ ch_pipe :: rest.
Proof.
  rewrite match_M. change md_table_re with (RSeq RBol (opts 5 (RChar ch_pipe))). rewrite <- (opts_M 5 None). split.
  - intros [p' [x' H]]. apply Mseq_iff in H as [p1 [x1 [H1 H2]]]. apply Mbol_iff in H1 as [_ [-> ->]]. eauto.
  - intros [p' [x' H]]. exists p', x'. apply Mseq_iff. exists None, x. split; [now apply Mbol_iff | exact H].
Qed.
Lemma M_eol p x p' x' : M REol p x p' x' <-> p' = p /\ x' = x /\ line_end x.
Proof.
  split.
  - inversion 1; subst; repeat split; [now left | now right].
  - intros [-> [-> [H|H]]]; subst; constructor.
Qed.
Lemma dashes_M p x p' x' : M (RStar (RChar 45)) p x p' x' -> exists n, x = repeat 45 n ++ x'.
Proof.
  intros H. apply M_stars in H as [w [-> W]]. exists (length w). f_equal. induction w as [|c w IH]; [reflexivity|]. cbn [forallb] in W. apply andb_true_iff in W as [W1 W2].
  unfold cset_has in W1. cbn [existsb citem_has] in W1. rewrite orb_false_r in W1. cbn in W1. destruct (c =? 45) eqn:E; [|discriminate W1]. apply N.eqb_eq in E. subst. cbn. f_equal. auto.
Qed.
Lemma M_dashes n : forall p x, exists p', M (RStar (RChar 45)) p (repeat 45 n ++ x) p' x.
Proof.
  intros p x. apply stars_M. induction n as [|n IH]; [reflexivity|]. cbn [repeat forallb]. now rewrite IH.
Qed.
Lemma colon_set c : cset_has false [CChar ch_colon] c = true <-> c = ch_colon.
Proof. unfold cset_has. cbn [existsb citem_has]. rewrite orb_false_r. cbn. destruct (c =? ch_colon) eqn:E; [apply N.eqb_eq in E; tauto|]. apply N.eqb_neq in E. split; [discriminate | tauto]. Qed.
Lemma separator_re_iff v : (exists st, re_match md_separator_re v = Some st) <-> separator_cell v.
Proof.
  rewrite match_M. unfold md_separator_re, RPlus. split.
  - intros [p' [x' H]]. apply Mseq_iff in H as [p1 [x1 [H1 H]]]. apply Mbol_iff in H1 as [_ [-> ->]].
    apply Mseq_iff in H as [p2 [x2 [H2 H]]]. apply Mseq_iff in H as [p3 [x3 [H3 H]]]. apply Mseq_iff in H3 as [p4 [x4 [H4 H3]]]. apply M_char in H4 as [-> ->].
    apply dashes_M in H3 as [n ->]. apply Mseq_iff in H as [p5 [x5 [H5 H]]]. apply M_eol in H as [-> [-> H]].
    assert (B : exists b, (b = [] \/ b = s ":") /\ x3 = b ++ x5).
    { apply M_opt in H5 as [[_ ->]|[c [-> [_ Hc]]]]; [exists []; auto|]. apply colon_set in Hc. subst. exists (s ":"). auto. }
    assert (A : exists a, (a = [] \/ a = s ":") /\ v = a ++ 45 :: repeat 45 n ++ x3).
    { apply M_opt in H2 as [[_ <-]|[c [-> [_ Hc]]]]; [exists []; auto|]. apply colon_set in Hc. subst. exists (s ":"). auto. }
    destruct A as [a [A1 ->]], B as [b [B1 ->]]. exists a, (S n), b, x5. repeat split; auto. lia.
  - intros [a [n [b [e [A [Hn [B [He ->]]]]]]]]. destruct n as [|n]; [lia|]. cbn [repeat].
    destruct (M_dashes n (Some 45) (b ++ e)) as [p3 H3].
    assert (H5 : exists p5, M (ROpt (RChar ch_colon)) p3 (b ++ e) p5 e).
    { destruct B as [B|B]; subst b; [exists p3; apply M_opt; now left|]. exists (Some ch_colon). apply M_opt. right. exists ch_colon. now rewrite colon_set. }
    destruct H5 as [p5 H5]. exists p5, e. apply Mseq_iff. exists None, (a ++ 45 :: repeat 45 n ++ b ++ e). split; [now apply Mbol_iff|].
    assert (H2 : exists p2, M (ROpt (RChar ch_colon)) None (a ++ 45 :: repeat 45 n ++ b ++ e) p2 (45 :: repeat 45 n ++ b ++ e)).
    { destruct A as [A|A]; subst a; [exists None; apply M_opt; now left|]. exists (Some ch_colon). apply M_opt. right. exists ch_colon. now rewrite colon_set. }
    destruct H2 as [p2 H2]. apply Mseq_iff. exists p2, (45 :: repeat 45 n ++ b ++ e). split; [exact H2|].
    apply Mseq_iff. exists p3, (b ++ e). split.
    + apply Mseq_iff. exists (Some 45), (repeat 45 n ++ b ++ e). split; [now apply M_char | exact H3].
    + apply Mseq_iff. exists p5, e. split; [exact H5|]. now apply M_eol.
Qed.
Lemma gfm_iff cells : is_gfm_separator cells = true <-> exists i, In i cells /\ separator_cell (i_text i).
Proof.
  unfold is_gfm_separator. rewrite existsb_exists. split; intros [i [I H]]; exists i; (split; [exact I|]).
  - apply separator_re_iff. destruct (re_match md_separator_re (i_text i)) as [st|]; [now exists st | discriminate H].
  - apply separator_re_iff in H as [st ->]. reflexivity.
Qed.
