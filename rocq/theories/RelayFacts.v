(** * Laying out a text anew: lemmas for C63 (no modelled code) *)
From Verif Require Import PyStr PyStrFacts Types Regex Line DialectData Matcher Ast Parser Classify Scan LineSpec TagIff RowIff LangSpec LangFacts DocSpec LineIff CommentSpec PropLine PropParse PropDoc PropLang PropComments WriteSpec WriteRead WriteBack RelaySpec.

(** ** Lines *)
Lemma empty_blank x : without_eol x = [] -> all_space x.
Proof. intros H. destruct (without_parts x) as [w [E W]]. rewrite H in E. cbn in E. subst w. now apply crlf_all_space. Qed.
Lemma spare_quiet l : spare l -> quiet l.
Proof. intros [H|[H _]]; [left; now apply empty_blank | now right]. Qed.
Lemma spare_noise ls : Forall spare ls -> exists cs, noise_lines ls cs.
Proof. induction 1 as [|l ls [H|[H _]] F [cs IH]]; [exists []; constructor | exists cs; constructor; [now apply empty_blank | exact IH] | eexists; apply nz_comment; eauto]. Qed.
Lemma alike_lstrip x x' : alike x x' -> lstrip x' = lstrip x.
Proof. intros [-> | [H _]]; [reflexivity | exact H]. Qed.
Lemma alike_begins x x' p : alike x x' -> begins p x -> begins p x'.
Proof. unfold begins. intros H. now rewrite (alike_lstrip _ _ H). Qed.
Lemma alike_blank x x' : alike x x' -> all_space x -> all_space x'.
Proof. intros H B. apply blank_spec in B. apply blank_spec. now rewrite (alike_lstrip _ _ H). Qed.
Lemma alike_title kws x x' kw name : alike x x' -> title_line kws x kw name -> title_line kws x' kw name.
Proof. intros H. unfold title_line. now rewrite (alike_lstrip _ _ H). Qed.
Lemma alike_step d x x' kw text : alike x x' -> step_line d x kw text -> step_line d x' kw text.
Proof. intros H. unfold step_line, begins. now rewrite (alike_lstrip _ _ H). Qed.
Lemma lead x : exists ind, x = ind ++ lstrip x /\ all_space ind.
Proof.
  destruct (drop_while_suffix is_space x) as [p [H F]]. exists p. split; [exact H | exact F].
Qed.
Lemma lstrip_app ind x : all_space ind -> lstrip (ind ++ x) = lstrip x.
Proof. unfold all_space, lstrip. induction ind as [|c ind IH]; [reflexivity|]. cbn. intros H. apply andb_true_iff in H as [H1 H2]. rewrite H1. auto. Qed.
Lemma lstrip_self c x : is_space c = false -> lstrip (c :: x) = c :: x.
Proof. intros H. unfold lstrip. cbn. now rewrite H. Qed.
Lemma alike_tags l l' tags : alike (snd l) (snd l') -> tags_at_line l tags -> exists tags', tags_at_line l' tags' /\ map plain_tag tags' = map plain_tag tags.
Proof.
  intros H [items [[ind [rt [cm [E [[T1 [T2 T3]] ->]]]]] ->]]. apply alike_lstrip in H. rewrite E, (lstrip_app ind) in H by exact T1.
  destruct rt as [|t rt]; [now destruct T2|]. assert (E2 : lstrip (rtags_text (t :: rt) ++ cm) = rtags_text (t :: rt) ++ cm) by reflexivity. rewrite E2 in H.
  destruct (lead (snd l')) as [ind' [E' S']]. rewrite H in E'. eexists. split.
  - exists (rtags_at (length ind') (t :: rt)). split; [|reflexivity]. exists ind', (t :: rt), cm. split; [exact E'|]. split; [|reflexivity]. split; [exact S'|]. split; [exact T2 | exact T3].
  - rewrite !map_map. cbn [plain_tag tag_name]. unfold plain_tag. cbn [tag_name]. rewrite <- !(map_map i_text (mkTag 0 nowhere)). now rewrite !rtags_texts.
Qed.
Lemma alike_row l l' r : alike (snd l) (snd l') -> row_at_line l r -> exists r', row_at_line l' r' /\ plain_row r' = plain_row r.
Proof.
  intros H [items [[ind [raws [tl [E [T1 [T2 [T3 ->]]]]]]] ->]]. apply alike_lstrip in H. rewrite E, (lstrip_app ind) in H by exact T1.
  assert (E2 : lstrip (row_text raws ++ tl) = row_text raws ++ tl) by reflexivity. rewrite E2 in H.
  destruct (lead (snd l')) as [ind' [E' S']]. rewrite H in E'. eexists. split.
  - exists (cells_at (length ind' + 1) raws). split; [|reflexivity]. exists ind', raws, tl. auto.
  - unfold plain_row. cbn [row_cells]. f_equal. rewrite !map_map. cbn [cell_value]. rewrite <- !(map_map i_text (mkCell nowhere)). now rewrite !cells_texts.
Qed.
Lemma alike_language x x' name : alike x x' -> language_line x name -> language_line x' name.
Proof.
  intros H [a [b [c [d [e [E [A R]]]]]]]. apply alike_lstrip in H. rewrite E, (lstrip_app a) in H by exact A. change (s "#") with [ch_hash] in H. cbn [app] in H. rewrite lstrip_self in H by reflexivity.
  destruct (lead x') as [a' [E' S']]. rewrite H in E'. exists a', b, c, d, e. split; [exact E'|]. split; [exact S' | exact R].
Qed.

(** ** Splitting *)
Section Own.
Context (own : nline -> Prop).
Lemma same_alike (l l' : nline) : snd l' = snd l -> alike (snd l) (snd l'). Proof. now left. Qed.
Lemma split_at a l b ls' : ~ spare l -> relaid own (a ++ l :: b) ls' ->
  exists a' l' b', ls' = a' ++ l' :: b' /\ relaid own a a' /\ alike (snd l) (snd l') /\ relaid own b b'.
Proof.
  intros Q H. remember (a ++ l :: b) as ls eqn:E. revert a E. induction H as [gap gap' G G'|m m' ls ls' M H IH|gap gap' m m' ls ls' G G' O M H IH]; intros a E.
  - exfalso. subst gap. apply Forall_app in G as [_ G]. inversion G; subst. now apply Q.
  - destruct a as [|x a]; cbn in E; injection E as -> ->.
    + exists [], m', ls'. split; [reflexivity|]. split; [constructor; constructor|]. split; [now left | exact H].
    + destruct (IH a eq_refl) as [a' [l' [b' [-> [H1 [H2 H3]]]]]]. exists (m' :: a'), l', b'. split; [reflexivity|]. split; [now apply re_same|]. auto.
  - assert (C : (gap = a /\ m = l /\ ls = b) \/ (exists a1, a = gap ++ m :: a1 /\ ls = a1 ++ l :: b)).
    { clear - G E Q. revert a E. induction G as [|g gap Hg G IH]; intros a E.
      - destruct a as [|x a]; cbn in E; injection E as -> ->; [left; auto | right; exists a; auto].
      - destruct a as [|x a]; cbn in E; injection E as E1 E2; [exfalso; subst g; now apply Q|]. subst x.
        destruct (IH a E2) as [[-> [-> ->]]|[a1 [-> ->]]]; [left; auto | right; exists a1; auto]. }
    destruct C as [[-> [-> ->]]|[a1 [-> ->]]].
    + exists gap', m', ls'. split; [reflexivity|]. split; [now apply re_end|]. auto.
    + destruct (IH a1 eq_refl) as [a' [l' [b' [-> [H1 [H2 H3]]]]]]. exists (gap' ++ m' :: a'), l', b'. split; [now rewrite <- app_assoc|]. split; [now apply re_own|]. auto.
Qed.
Lemma loud_split a l b ls' : ~ quiet l -> relaid own (a ++ l :: b) ls' ->
  exists a' l' b', ls' = a' ++ l' :: b' /\ relaid own a a' /\ alike (snd l) (snd l') /\ relaid own b b'.
Proof. intros Q. apply split_at. intros S. apply Q. now apply spare_quiet. Qed.
(** before a line that is no element nothing changes *)
Lemma still_split c : forall l r ls', (forall x, In x (c ++ [l]) -> ~ own x) -> ~ quiet l -> relaid own (c ++ l :: r) ls' ->
  exists c' l' r', ls' = c' ++ l' :: r' /\ map snd c' = map snd c /\ snd l' = snd l /\ relaid own r r'.
Proof.
  induction c as [|x c IH]; intros l r ls' O Q H.
  - cbn [app] in *. inversion H as [gap gap' G G'|m m' ls1 ls2 M H1|gap gap' m m' ls1 ls2 G G' Om M H1]; subst.
    + exfalso. inversion G; subst. apply Q. now apply spare_quiet.
    + exists [], m', ls2. auto.
    + exfalso. destruct gap as [|g gap]; cbn in *.
      * injection H0 as -> ->. apply (O l); auto.
      * injection H0 as -> _. inversion G; subst. apply Q. now apply spare_quiet.
  - cbn [app] in *. inversion H as [gap gap' G G'|m m' ls1 ls2 M H1|gap gap' m m' ls1 ls2 G G' Om M H1]; subst.
    + exfalso. inversion G as [|? ? _ G2]; subst. apply Forall_app in G2 as [_ G2]. inversion G2; subst. apply Q. now apply spare_quiet.
    + destruct (IH l r ls2) as [c' [l' [r' [-> [A [B C]]]]]]; auto. { intros y Hy. apply O. now right. } exists (m' :: c'), l', r'. cbn. rewrite A, M. auto.
    + exfalso. destruct gap as [|g gap]; cbn in *.
      * injection H0 as -> _. apply (O x); auto.
      * injection H0 as -> E. assert (C : In m (c ++ [l]) \/ In l gap).
        { inversion G as [|? ? _ G2]; subst. clear - E. revert gap E. induction c as [|y c IH]; intros gap E; cbn in *.
          - destruct gap; cbn in E; injection E as -> _; [left; now left | right; now left].
          - destruct gap as [|z gap]; cbn in E; injection E as -> E; [left; now left|]. destruct (IH gap E); [left; now right | right; now right]. }
        destruct C as [C|C]; [apply (O m); auto|]. inversion G as [|? ? _ G2]; subst. rewrite Forall_forall in G2. apply Q, spare_quiet, G2, C.
Qed.
(** a part without elements: only the spare lines at its end may change *)
Lemma still ls ls' : (forall l, In l ls -> ~ own l) -> relaid own ls ls' ->
  exists a gap a' gap', ls = a ++ gap /\ ls' = a' ++ gap' /\ map snd a' = map snd a /\ Forall spare gap /\ Forall spare gap'.
Proof.
  intros O H. induction H as [gap gap' G G'|m m' ls ls' M H IH|gap gap' m m' ls ls' G G' Om M H IH].
  - exists [], gap, [], gap'. auto.
  - destruct IH as [a [gap [a' [gap' [-> [-> [E [G G']]]]]]]]. { intros l Hl. apply O. now right. } exists (m :: a), gap, (m' :: a'), gap'. cbn. rewrite E, M. auto.
  - exfalso. apply (O m); [apply in_elt | exact Om].
Qed.

(** ** Noise, tags, rows *)
Lemma noise_all ls cs : noise_lines ls cs <-> Forall quiet ls /\ cs = flat_map (fun l => if startswith [ch_hash] (lstrip (snd l)) then [comment_at l] else []) ls.
Proof.
  split.
  - induction 1 as [|l ls cs B H [IH1 IH2]|l ls cs B H [IH1 IH2]]; [split; [constructor | reflexivity]| |].
    + split; [constructor; [now left | exact IH1]|]. cbn. apply blank_spec in B. rewrite B. cbn. exact IH2.
    + split; [constructor; [now right | exact IH1]|]. cbn [flat_map]. unfold comment_line, begins in B. rewrite B. cbn [app]. f_equal. exact IH2.
  - intros [F ->]. induction F as [|l ls [B|B] F IH]; [constructor| |]; cbn [flat_map].
    + pose proof B as B'. apply blank_spec in B'. rewrite B'. cbn. now constructor.
    + pose proof B as B'. unfold comment_line, begins in B'. rewrite B'. cbn. now constructor.
Qed.
Lemma quiet_noise ls : Forall quiet ls -> exists cs, noise_lines ls cs.
Proof. intros H. eexists. apply noise_all. split; [exact H | reflexivity]. Qed.
Lemma alike_quiet (l l' : nline) : alike (snd l) (snd l') -> quiet l -> quiet l'.
Proof. intros A [B|B]; [left; exact (alike_blank _ _ A B) | right; exact (alike_begins _ _ _ A B)]. Qed.
Lemma spares_quiet ls : Forall spare ls -> Forall quiet ls.
Proof. apply Forall_impl. exact spare_quiet. Qed.
Lemma r_noise ls cs ls' : noise_lines ls cs -> relaid own ls ls' -> exists cs', noise_lines ls' cs'.
Proof.
  intros N H. apply quiet_noise. apply noise_quiet in N. revert N. induction H as [gap gap' G G'|m m' ls ls' M H IH|gap gap' m m' ls ls' G G' Om M H IH]; intros N.
  - now apply spares_quiet.
  - inversion N as [|? ? N1 N2]; subst. constructor; [exact (alike_quiet m m' (same_alike _ _ M) N1) | auto].
  - apply Forall_app in N as [_ N]. inversion N as [|? ? N1 N2]; subst. apply Forall_app. split; [now apply spares_quiet|]. constructor; [exact (alike_quiet m m' M N1) | auto].
Qed.
Lemma tag_gap gap : Forall spare gap -> forall ls tags cs, tag_lines (gap ++ ls) tags cs -> exists cs', tag_lines ls tags cs'.
Proof.
  induction 1 as [|g gap Hg G IH]; intros ls tags cs H; [eauto|]. cbn in H. inversion H as [|l ls0 t1 t2 c T H1|l ls0 t1 c B H1|l ls0 t1 c B H1]; subst.
  - exfalso. eapply tags_loud; eauto. now apply spare_quiet.
  - eauto.
  - eauto.
Qed.
Lemma gap_tag gap : Forall spare gap -> forall ls tags cs, tag_lines ls tags cs -> exists cs', tag_lines (gap ++ ls) tags cs'.
Proof.
  induction 1 as [|g gap Hg G IH]; intros ls tags cs H; [eauto|]. destruct (IH _ _ _ H) as [cs' H']. destruct Hg as [Hg|[Hg _]]; cbn; eexists; [apply tg_blank; [now apply empty_blank | exact H'] | apply tg_comment; eauto].
Qed.
Lemma one_tag l l' ls tags cs : alike (snd l) (snd l') -> tag_lines (l :: ls) tags cs -> exists t1 tags2 cs2, tags = t1 ++ tags2 /\ tag_lines ls tags2 cs2 /\
  forall ls' tags' cs', tag_lines ls' tags' cs' -> map plain_tag tags' = map plain_tag tags2 -> exists t1' cs1, tag_lines (l' :: ls') (t1' ++ tags') cs1 /\ map plain_tag (t1' ++ tags') = map plain_tag (t1 ++ tags2).
Proof.
  intros A H. inversion H as [|l0 ls0 t1 t2 c T H1|l0 ls0 t1 c B H1|l0 ls0 t1 c B H1]; subst.
  - exists t1, t2, cs. split; [reflexivity|]. split; [exact H1|]. intros ls' tags' cs' H' E. destruct (alike_tags _ l' _ A T) as [t1' [T' E']]. exists t1'. eexists. split; [apply tg_tags; eauto|]. rewrite !map_app. congruence.
  - exists [], tags, cs. split; [reflexivity|]. split; [exact H1|]. intros ls' tags' cs' H' E. exists []. eexists. split; [apply tg_blank; [exact (alike_blank _ _ A B) | exact H'] | exact E].
  - exists [], tags, c. split; [reflexivity|]. split; [exact H1|]. intros ls' tags' cs' H' E. exists []. eexists. split; [apply tg_comment; [exact (alike_begins _ _ _ A B) | exact H'] | exact E].
Qed.
Lemma r_tag_lines ls ls' : relaid own ls ls' -> forall tags cs, tag_lines ls tags cs -> exists tags' cs', tag_lines ls' tags' cs' /\ map plain_tag tags' = map plain_tag tags.
Proof.
  induction 1 as [gap gap' G G'|m m' ls ls' M H IH|gap gap' m m' ls ls' G G' Om M H IH]; intros tags cs T.
  - rewrite <- (app_nil_r gap) in T. destruct (tag_gap gap G _ _ _ T) as [cs1 T1]. inversion T1; subst. destruct (gap_tag gap' G' [] [] []) as [cs2 T2]; [constructor|]. rewrite app_nil_r in T2. eauto.
  - destruct (one_tag m m' ls tags cs (same_alike _ _ M) T) as [t1 [t2 [c2 [-> [T2 R]]]]]. destruct (IH _ _ T2) as [tags' [cs' [T' E']]]. destruct (R _ _ _ T' E') as [t1' [c1 [X Y]]]. eauto.
  - destruct (tag_gap gap G _ _ _ T) as [cs1 T1]. destruct (one_tag m m' ls tags cs1 M T1) as [t1 [t2 [c2 [-> [T2 R]]]]]. destruct (IH _ _ T2) as [tags' [cs' [T' E']]]. destruct (R _ _ _ T' E') as [t1' [c1 [X Y]]].
    destruct (gap_tag gap' G' _ _ _ X) as [c3 X']. eauto.
Qed.
Lemma row_no_quiet l r : row_at_line l r -> ~ quiet l.
Proof. intros R [B|B]; [|exact (row_no_comment _ _ R B)]. destruct R as [items [R _]]. apply (table_cells_iff _ 0) in R as [R _]. apply blank_spec in B. rewrite B in R. discriminate R. Qed.
Lemma row_gap gap : Forall spare gap -> forall ls rows cs, row_lines (gap ++ ls) rows cs -> exists cs', row_lines ls rows cs'.
Proof.
  induction 1 as [|g gap Hg G IH]; intros ls rows cs H; [eauto|]. cbn in H. inversion H as [|l ls0 t1 t2 c T H1|l ls0 t1 c B H1|l ls0 t1 c B H1]; subst; [|eauto|eauto].
  exfalso. eapply row_no_quiet; eauto. now apply spare_quiet.
Qed.
Lemma gap_row gap : Forall spare gap -> forall ls rows cs, row_lines ls rows cs -> exists cs', row_lines (gap ++ ls) rows cs'.
Proof.
  induction 1 as [|g gap Hg G IH]; intros ls rows cs H; [eauto|]. destruct (IH _ _ _ H) as [cs' H']. destruct Hg as [Hg|[Hg _]]; cbn; eexists; [apply rw_blank; [now apply empty_blank | exact H'] | apply rw_comment; eauto].
Qed.
Lemma one_row l l' ls rows cs : alike (snd l) (snd l') -> row_lines (l :: ls) rows cs -> exists t1 rows2 cs2, rows = t1 ++ rows2 /\ row_lines ls rows2 cs2 /\
  forall ls' rows' cs', row_lines ls' rows' cs' -> map plain_row rows' = map plain_row rows2 -> exists t1' cs1, row_lines (l' :: ls') (t1' ++ rows') cs1 /\ map plain_row (t1' ++ rows') = map plain_row (t1 ++ rows2).
Proof.
  intros A H. inversion H as [|l0 ls0 t1 t2 c T H1|l0 ls0 t1 c B H1|l0 ls0 t1 c B H1]; subst.
  - exists [t1], t2, cs. split; [reflexivity|]. split; [exact H1|]. intros ls' rows' cs' H' E. destruct (alike_row _ l' _ A T) as [t1' [T' E']]. exists [t1']. eexists. split; [apply rw_row; eauto|]. cbn [map app]. congruence.
  - exists [], rows, cs. split; [reflexivity|]. split; [exact H1|]. intros ls' rows' cs' H' E. exists []. eexists. split; [apply rw_blank; [exact (alike_blank _ _ A B) | exact H'] | exact E].
  - exists [], rows, c. split; [reflexivity|]. split; [exact H1|]. intros ls' rows' cs' H' E. exists []. eexists. split; [apply rw_comment; [exact (alike_begins _ _ _ A B) | exact H'] | exact E].
Qed.
Lemma r_row_lines ls ls' : relaid own ls ls' -> forall rows cs, row_lines ls rows cs -> exists rows' cs', row_lines ls' rows' cs' /\ map plain_row rows' = map plain_row rows.
Proof.
  induction 1 as [gap gap' G G'|m m' ls ls' M H IH|gap gap' m m' ls ls' G G' Om M H IH]; intros rows cs T.
  - rewrite <- (app_nil_r gap) in T. destruct (row_gap gap G _ _ _ T) as [cs1 T1]. inversion T1; subst. destruct (gap_row gap' G' [] [] []) as [cs2 T2]; [constructor|]. rewrite app_nil_r in T2. eauto.
  - destruct (one_row m m' ls rows cs (same_alike _ _ M) T) as [t1 [t2 [c2 [-> [T2 R]]]]]. destruct (IH _ _ T2) as [rows' [cs' [T' E']]]. destruct (R _ _ _ T' E') as [t1' [c1 [X Y]]]. eauto.
  - destruct (row_gap gap G _ _ _ T) as [cs1 T1]. destruct (one_row m m' ls rows cs1 M T1) as [t1 [t2 [c2 [-> [T2 R]]]]]. destruct (IH _ _ T2) as [rows' [cs' [T' E']]]. destruct (R _ _ _ T' E') as [t1' [c1 [X Y]]].
    destruct (gap_row gap' G' _ _ _ X) as [c3 X']. eauto.
Qed.

(** ** Descriptions *)
Lemma kind_loud d l k : dialect_ok d = true -> cls (mkMs false [] [] d 0 None false) (snd l) = k -> k <> TkComment -> k <> TkEmpty -> ~ quiet l.
Proof.
  intros D C K K' [B|B]; [|now apply (kind_no_comment d l k D C K)]. assert (G : Scan.good (mkMs false [] [] d 0 None false)) by (split; [reflexivity | exact D]).
  apply (cls_blank _ _ G) in B. congruence.
Qed.
Lemma any_title_loud d k l kw name : dialect_ok d = true -> title_kind k = true -> title_line (keywords_of d k) (snd l) kw name -> ~ quiet l.
Proof.
  intros D K T. assert (G : Scan.good (mkMs false [] [] d 0 None false)) by (split; [reflexivity | exact D]).
  apply (kind_loud d l k D); [|destruct k; discriminate|destruct k; discriminate]. apply (cls_title _ (snd l) k G K). exists kw, name. exact T.
Qed.
Lemma step_loud d l kw text : dialect_ok d = true -> step_line d (snd l) kw text -> ~ quiet l.
Proof.
  intros D T. assert (G : Scan.good (mkMs false [] [] d 0 None false)) by (split; [reflexivity | exact D]).
  apply (kind_loud d l TkStepLine D); [|discriminate|discriminate]. apply (cls_step _ (snd l) G). exists kw, text. exact T.
Qed.
Lemma sep_loud sep l : separator sep -> begins sep (snd l) -> ~ quiet l.
Proof. intros S B [Q|Q]; [|exact (sep_no_comment _ _ S B Q)]. apply blank_spec in Q. unfold begins in B. rewrite Q in B. destruct S as [-> | ->]; discriminate B. Qed.
Lemma empty_continues d p (l : nline) : dialect_ok d = true -> without_eol (snd l) = [] -> ~ ends_description d p (snd l).
Proof.
  intros D E. assert (Q : quiet l) by (left; now apply empty_blank). apply empty_blank in E. apply blank_spec in E.
  assert (T : forall k, title_kind k = true -> ~ is_title (keywords_of d k) (snd l)) by (intros k K [kw [name X]]; exact (any_title_loud d k l kw name D K X Q)).
  assert (St : ~ is_step d (snd l)) by (intros [kw [text X]]; exact (step_loud d l kw text D X Q)).
  unfold ends_description, begins. rewrite E. intros [H|[H|[H|[H|H]]]]; try discriminate H; [exact (T TkScenarioLine eq_refl H) | exact (T TkRuleLine eq_refl H) |].
  destruct p; try (destruct H as [H|H]); try discriminate H; try (now apply St); [exact (T TkBackgroundLine eq_refl H) | exact (T TkExamplesLine eq_refl H) | exact (T TkExamplesLine eq_refl H)].
Qed.
Lemma description_add d p ls desc cs g : dialect_ok d = true -> spare g -> description_block d p ls desc cs -> exists cs', description_block d p (ls ++ [g]) desc cs'.
Proof.
  intros D G [b [m [r [-> [B [M [T [N R]]]]]]]]. destruct r as [|r0 r].
  - destruct G as [G|[G _]].
    + destruct m as [|m0 m].
      * exists []. exists (b ++ [g]), [], []. rewrite !app_nil_r. split; [reflexivity|]. split; [apply Forall_app; split; [exact B|]; constructor; [now apply empty_blank | constructor]|]. repeat split; [constructor | exact T | constructor].
      * exists []. exists b, ((m0 :: m) ++ [g]), []. rewrite !app_nil_r. split; [now rewrite app_assoc|]. split; [exact B|]. split; [apply Forall_app; split; [exact M|]; constructor; [now apply empty_continues | constructor]|].
        split; [|split; [constructor | exact I]]. cbn [app]. destruct T as [T1 [body [last [em [T2 [T3 [T4 T5]]]]]]]. split; [exact T1|]. exists body, last, (em ++ [[]]). split; [|split; [exact T3|]; split; [apply Forall_app; split; [exact T4 | now constructor] | exact T5]].
        change (m0 :: m ++ [g]) with ((m0 :: m) ++ [g]). etransitivity; [apply map_app|]. etransitivity; [exact (f_equal2 (@app str) T2 eq_refl)|]. cbn [map]. rewrite G. now rewrite <- !app_assoc.
    + exists [comment_at g]. exists b, m, [g]. rewrite app_nil_r. split; [now rewrite <- app_assoc|]. split; [exact B|]. split; [exact M|]. split; [exact T|]. split; [repeat constructor; exact G | exact G].
  - assert (Q : Forall quiet ((r0 :: r) ++ [g])) by (apply Forall_app; split; [now apply noise_quiet in N | constructor; [now apply spare_quiet | constructor]]).
    apply quiet_noise in Q as [cs' Q]. exists cs'. exists b, m, ((r0 :: r) ++ [g]). split; [now rewrite <- !app_assoc|]. split; [exact B|]. split; [exact M|]. split; [exact T|]. split; [exact Q | exact R].
Qed.
Lemma description_drop d p ls desc cs g : spare g -> description_block d p (ls ++ [g]) desc cs -> exists cs', description_block d p ls desc cs'.
Proof.
  intros G [b [m [r [E [B [M [T [N R]]]]]]]]. destruct r as [|r0 r _] using rev_ind.
  - clear R. rewrite app_nil_r in E. destruct m as [|m0 m _] using rev_ind.
    + rewrite app_nil_r in E. subst b. apply Forall_app in B as [B _]. exists []. exists ls, [], []. rewrite !app_nil_r. repeat split; [exact B | constructor | exact T | constructor].
    + rewrite app_assoc in E. apply app_inj_tail in E as [-> <-]. apply Forall_app in M as [M Mg]. inversion Mg as [|? ? Mg' _]; subst. 
      assert (Ge : without_eol (snd g) = []) by (destruct G as [G|[G _]]; [exact G | exfalso; apply Mg'; now left]).
      exists []. exists b, m, []. rewrite app_nil_r. split; [reflexivity|]. split; [exact B|]. split; [exact M|]. split; [|split; [constructor | exact I]].
      destruct m as [|m1 m]; cbn [app] in T.
      * exfalso. destruct T as [T _]. apply T. now apply empty_blank.
      * destruct T as [T1 [body [last [em [T2 [T3 [T4 T5]]]]]]]. split; [exact T1|]. assert (T6 : map (fun l : nline => without_eol (snd l)) (m1 :: m) ++ [[]] = body ++ [last] ++ em) by (rewrite <- T2; change (m1 :: m ++ [g]) with ((m1 :: m) ++ [g]); etransitivity; [|symmetry; apply map_app]; cbn [map]; now rewrite Ge). clear T2. rename T6 into T2.
        destruct em as [|e em _] using rev_ind.
        -- exfalso. rewrite app_nil_r in T2. apply app_inj_tail in T2 as [_ T2]. now apply T3.
        -- rewrite !app_assoc in T2. apply app_inj_tail in T2 as [T2 _]. apply Forall_app in T4 as [T4 _]. exists body, last, em. rewrite <- app_assoc in T2. auto.
  - rewrite !app_assoc in E. apply app_inj_tail in E as [-> <-]. apply noise_quiet in N. apply Forall_app in N as [N _]. apply quiet_noise in N as [cs' N]. exists cs'. exists b, m, r. rewrite <- app_assoc. split; [reflexivity|]. split; [exact B|]. split; [exact M|]. split; [exact T|]. split; [exact N|]. destruct r; [exact I | exact R].
Qed.
Lemma description_adds d p gap : dialect_ok d = true -> Forall spare gap -> forall ls desc cs, description_block d p ls desc cs -> exists cs', description_block d p (ls ++ gap) desc cs'.
Proof.
  intros D. induction 1 as [|g gap G F IH]; intros ls desc cs H; [rewrite app_nil_r; eauto|]. destruct (description_add d p ls desc cs g D G H) as [cs1 H1]. destruct (IH _ _ _ H1) as [cs2 H2]. rewrite <- app_assoc in H2. eauto.
Qed.
Lemma description_drops d p gap : Forall spare gap -> forall ls desc cs, description_block d p (ls ++ gap) desc cs -> exists cs', description_block d p ls desc cs'.
Proof.
  induction gap as [|g gap IH] using rev_ind; intros F ls desc cs H; [rewrite app_nil_r in H; eauto|]. apply Forall_app in F as [F G]. inversion G; subst. rewrite app_assoc in H. apply description_drop in H as [cs1 H]; [|assumption]. eauto.
Qed.
Lemma map_snd_forall (P : str -> Prop) : forall (a a' : list nline), map snd a' = map snd a -> Forall (fun l => P (snd l)) a -> Forall (fun l => P (snd l)) a'.
Proof. induction a as [|x a IH]; intros [|x' a'] E F; try discriminate E; [constructor|]. cbn in E. injection E as E1 E2. inversion F; subst. constructor; [now rewrite E1 | auto]. Qed.
Lemma map_snd_split : forall (a b c : list nline), map snd c = map snd (a ++ b) -> exists a' b', c = a' ++ b' /\ map snd a' = map snd a /\ map snd b' = map snd b.
Proof.
  induction a as [|x a IH]; intros b c E; [exists [], c; auto|]. destruct c as [|y c]; [discriminate E|]. cbn in E. injection E as E1 E2. destruct (IH b c E2) as [a' [b' [-> [H1 H2]]]]. exists (y :: a'), b'. cbn. rewrite E1, H1. auto.
Qed.
Lemma description_same d p ls desc cs ls' : map snd ls' = map snd ls -> description_block d p ls desc cs -> exists cs', description_block d p ls' desc cs'.
Proof.
  intros E [b [m [r [-> [B [M [T [N R]]]]]]]]. destruct (map_snd_split _ _ _ E) as [b' [x [-> [E1 E2]]]]. destruct (map_snd_split _ _ _ E2) as [m' [r' [-> [E3 E4]]]].
  assert (Q : Forall quiet r') by (apply (map_snd_forall (fun x => all_space x \/ begins [ch_hash] x) r r' E4); now apply noise_quiet in N). apply quiet_noise in Q as [cs' Q].
  exists cs'. exists b', m', r'. split; [reflexivity|]. split; [exact (map_snd_forall all_space b b' E1 B)|]. split; [exact (map_snd_forall (fun x => ~ ends_description d p x) m m' E3 M)|]. split; [|split; [exact Q|]].
  - destruct m as [|m0 m], m' as [|m0' m']; try discriminate E3; [exact T|]. destruct T as [T1 T2]. cbn in E3. injection E3 as E5 E6. unfold blank_line in *. rewrite E5. split; [exact T1|]. unfold description_text in *.
    assert (X : map (fun l => without_eol (snd l)) (m0' :: m') = map (fun l => without_eol (snd l)) (m0 :: m)) by (rewrite <- !(map_map snd without_eol); cbn [map]; now rewrite E5, E6). rewrite X. exact T2.
  - destruct r as [|r0 r], r' as [|r0' r']; try discriminate E4; [exact R|]. cbn in E4. injection E4 as E5 _. unfold comment_line in *. now rewrite E5.
Qed.
Lemma r_description d p ls desc cs ls' : dialect_ok d = true -> (forall l, In l ls -> ~ own l) -> description_block d p ls desc cs -> relaid own ls ls' -> exists cs', description_block d p ls' desc cs'.
Proof.
  intros D O H R. destruct (still _ _ O R) as [a [gap [a' [gap' [-> [-> [E [G G']]]]]]]]. apply (description_drops _ _ _ G) in H as [c1 H]. apply (description_same _ _ _ _ _ _ E) in H as [c2 H]. eapply description_adds; eauto.
Qed.
End Own.
