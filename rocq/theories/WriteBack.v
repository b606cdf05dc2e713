(** * What the parser returns can be written: lemmas for C54 *)
From Verif Require Import PropLine PyStr PyStrFacts Types Regex Line DialectData Matcher Ast LineSpec LineFacts StepFacts LangSpec DocSpec LineIff Parts PropDocString WriteSpec WriteRead.
Local Open Scope N_scope.

(** ** Escaping a line of a doc string once more *)
Section Twice.
Context (q : char) (Hq : q <> ch_bslash).
Let sep : str := [q; q; q].
Let esc : str := [ch_bslash; q; ch_bslash; q; ch_bslash; q].
Let U (x : str) : str := replace_go esc sep 0 x.
Let E (x : str) : str := replace_go sep esc 0 x.
Lemma E_sep z : E (q :: q :: q :: z) = ch_bslash :: q :: ch_bslash :: q :: ch_bslash :: q :: E z.
Proof. unfold E, sep. cbn [replace_go startswith]. rewrite !N.eqb_refl. reflexivity. Qed.
Lemma E_other c z : startswith sep (c :: z) = false -> E (c :: z) = c :: E z.
Proof. intros H. unfold E. cbn [replace_go]. now rewrite H. Qed.
Lemma U_esc z : U (ch_bslash :: q :: ch_bslash :: q :: ch_bslash :: q :: z) = q :: q :: q :: U z.
Proof. unfold U, esc. cbn [replace_go startswith]. rewrite !N.eqb_refl. reflexivity. Qed.
Lemma U_other c z : startswith esc (c :: z) = false -> U (c :: z) = c :: U z.
Proof. intros H. unfold U. cbn [replace_go]. now rewrite H. Qed.
Lemma U_q z : U (q :: z) = q :: U z.
Proof. apply U_other. now apply no_bslash_esc. Qed.
Lemma is_sep x : startswith sep x = true -> exists z, x = q :: q :: q :: z.
Proof. now apply (starts_sep q Hq). Qed.
Lemma is_esc x : startswith esc x = true -> exists z, x = ch_bslash :: q :: ch_bslash :: q :: ch_bslash :: q :: z.
Proof. intros H. apply startswith_spec in H as [z ->]. now exists z. Qed.
Lemma U_cases x c v : U x = c :: v -> (exists z, x = ch_bslash :: q :: ch_bslash :: q :: ch_bslash :: q :: z /\ c = q /\ v = q :: q :: U z) \/
  (exists z, x = c :: z /\ startswith esc x = false /\ v = U z).
Proof.
  destruct x as [|a x]; [discriminate|]. destruct (startswith esc (a :: x)) eqn:S.
  - apply is_esc in S as [z ->]. rewrite U_esc. intros H. injection H as <- <-. left. eauto.
  - rewrite U_other by exact S. intros H. injection H as <- <-. right. eauto.
Qed.
Lemma E_cases v c w : E v = c :: w -> (exists z, v = q :: q :: q :: z /\ c = ch_bslash /\ w = q :: ch_bslash :: q :: ch_bslash :: q :: E z) \/
  (exists z, v = c :: z /\ startswith sep v = false /\ w = E z).
Proof.
  destruct v as [|a v]; [discriminate|]. destruct (startswith sep (a :: v)) eqn:S.
  - apply is_sep in S as [z ->]. rewrite E_sep. intros H. injection H as <- <-. left. eauto.
  - rewrite E_other by exact S. intros H. injection H as <- <-. right. eauto.
Qed.
Lemma E_q v w : E v = q :: w -> exists z, v = q :: z /\ startswith sep v = false /\ w = E z.
Proof. intros H. apply E_cases in H as [[z [_ [Z _]]]|H]; [now elim Hq | exact H]. Qed.
(** an [E v] that begins with a backslash and a quote: [v] begins so too, unless it begins with the separator *)
Lemma E_b v w : E v = ch_bslash :: w -> startswith sep (q :: v) = false -> (exists z, v = q :: q :: q :: z) \/ (exists z, v = ch_bslash :: z /\ w = E z).
Proof. intros H _. apply E_cases in H as [[z [-> _]]|[z [-> [_ ->]]]]; eauto. Qed.
Lemma sep4 v z : v = q :: q :: q :: z -> startswith sep (q :: v) = true.
Proof. intros ->. unfold sep. cbn. now rewrite !N.eqb_refl. Qed.
(** the unescaped text after an unescaped [c], if it reads as an escaped separator *)
Lemma no_new_esc x z : x = ch_bslash :: z -> startswith esc x = false -> startswith sep (ch_bslash :: U z) = false ->
  startswith esc (ch_bslash :: E (U z)) = true -> False.
Proof.
  intros -> Hx _ H. apply is_esc in H as [w H]. injection H as H.
  apply E_q in H as [r1 [E1 [S1 H]]]. symmetry in H.
  apply E_cases in H as [[y [Y _]]|[r2 [-> [_ H]]]]; [rewrite E1 in S1; rewrite (sep4 _ _ Y) in S1; discriminate|]. symmetry in H.
  apply E_q in H as [r3 [-> [S2 H]]]. symmetry in H.
  apply E_cases in H as [[y [Y _]]|[r4 [-> [_ H]]]]; [rewrite (sep4 _ _ Y) in S2; discriminate|]. symmetry in H.
  apply E_q in H as [r5 [-> [S3 H]]].
  apply U_cases in E1 as [[y [_ [_ Y]]]|[z1 [-> [_ E1]]]]; [injection Y as Y _; now elim Hq|]. symmetry in E1.
  apply U_cases in E1 as [[y [_ [Y _]]]|[z2 [-> [_ E1]]]]; [now elim Hq|]. symmetry in E1.
  apply U_cases in E1 as [[y [_ [_ Y]]]|[z3 [-> [_ E1]]]]; [injection Y as Y _; now elim Hq|]. symmetry in E1.
  apply U_cases in E1 as [[y [_ [Y _]]]|[z4 [-> [_ E1]]]]; [now elim Hq|]. symmetry in E1.
  apply U_cases in E1 as [[y [_ [_ Y]]]|[z5 [-> [_ E1]]]]; [rewrite Y in S3; unfold sep in S3; cbn in S3; rewrite !N.eqb_refl in S3; discriminate|].
  unfold esc in Hx. cbn in Hx. rewrite !N.eqb_refl in Hx. discriminate.
Qed.
Lemma UEU n : forall x, (length x <= n)%nat -> U (E (U x)) = U x.
Proof.
  induction n as [|n IH]; intros x Hn.
  - destruct x; [reflexivity | cbn in Hn; lia].
  - destruct x as [|c z]; [reflexivity|]. destruct (startswith esc (c :: z)) eqn:Sx.
    + apply is_esc in Sx as [y Ey]. rewrite Ey. rewrite U_esc, E_sep, U_esc, IH; [reflexivity|]. apply (f_equal (@length _)) in Ey. cbn in Ey, Hn. lia.
    + rewrite U_other by exact Sx. destruct (startswith sep (c :: U z)) eqn:Ss.
      * apply is_sep in Ss as [w Ew]. rewrite Ew, E_sep, U_esc. injection Ew as -> Ew.
        assert (Q : exists y, w = U y /\ (length y <= n)%nat).
        { cbn [length] in Hn. apply U_cases in Ew as [[y [-> [_ Ew]]]|[z1 [-> [_ Ew]]]].
          - injection Ew as ->. exists (q :: y). rewrite U_q. split; [reflexivity | cbn in *; lia].
          - symmetry in Ew. apply U_cases in Ew as [[y [-> [_ ->]]]|[z2 [-> [_ ->]]]].
            + exists (q :: q :: y). rewrite !U_q. split; [reflexivity | cbn in *; lia].
            + exists z2. split; [reflexivity | cbn in *; lia]. }
        destruct Q as [y [-> Ly]]. now rewrite IH.
      * rewrite E_other by exact Ss. destruct (startswith esc (c :: E (U z))) eqn:Sy.
        { exfalso. assert (c = ch_bslash) as -> by (apply is_esc in Sy as [w Ew]; now injection Ew). now apply (no_new_esc (ch_bslash :: z) z). }
        rewrite U_other by exact Sy. f_equal. apply IH. cbn in Hn. lia.
Qed.
End Twice.
Lemma escape_again sep x : separator sep -> replace (escaped sep) sep (escape_line sep (replace (escaped sep) sep x)) = replace (escaped sep) sep x.
Proof. intros Hs. destruct (sep_char sep Hs) as [q [-> [Hb _]]]. exact (UEU q Hb (length x) x (le_n _)). Qed.

(** ** Lines of a text *)
Definition one_line (x : str) : Prop := exists y, no_nl y /\ (x = y \/ x = eol y).
Lemma split_lines_one text : Forall one_line (split_lines text).
Proof.
  induction text as [|c x IH]; [constructor|]. cbn [split_lines]. destruct (N.eqb_spec c ch_nl) as [->|Hc].
  - constructor; [|exact IH]. exists []. split; [intros [] | now right].
  - destruct IH as [|l ls [y [Y1 Y2]] IH].
    + repeat constructor. exists [c]. split; [intros [X|[]]; congruence | now left].
    + constructor; [|exact IH]. exists (c :: y). split; [intros [X|X]; [congruence | now apply Y1]|]. destruct Y2 as [-> | ->]; [now left | now right].
Qed.
Lemma one_line_suffix a : forall b, one_line (a ++ b) -> one_line b.
Proof.
  induction a as [|c a IH]; intros b H; [exact H|]. apply IH. destruct H as [y [Y1 Y2]]. destruct y as [|d y].
  - destruct Y2 as [Y2|Y2]; [discriminate Y2|]. injection Y2 as -> Y2. rewrite Y2. exists []. split; [intros [] | now left].
  - exists y. split; [intros X; apply Y1; now right|]. destruct Y2 as [Y2|Y2]; injection Y2 as -> Y2; [now left | right; exact Y2].
Qed.
Lemma lstrip_suffix x : exists a, x = a ++ lstrip x.
Proof. destruct (drop_while_suffix is_space x) as [p [H _]]. now exists p. Qed.
Lemma one_line_lstrip x : one_line x -> one_line (lstrip x).
Proof. intros H. destruct (lstrip_suffix x) as [a Ha]. rewrite Ha in H. now apply one_line_suffix in H. Qed.
Lemma one_line_skip n x : one_line x -> one_line (skipn n x).
Proof. intros H. rewrite <- (firstn_skipn n x) in H. now apply one_line_suffix in H. Qed.
Lemma strip_part x : forall c, In c (strip x) -> In c x.
Proof.
  intros c H. unfold strip, rstrip in H. destruct (rstrip_by_prefix is_space (lstrip x)) as [p [Hp _]]. destruct (lstrip_suffix x) as [a Ha]. rewrite Ha, in_app_iff. right. rewrite Hp, in_app_iff. now left.
Qed.
Lemma one_line_strip x : one_line x -> no_nl (strip x).
Proof. intros [y [Y [-> | ->]]]; unfold eol; rewrite ?strip_eol; intros X; apply strip_part in X; auto. Qed.
Lemma strip_again x : strip (strip x) = strip x.
Proof.
  unfold strip. destruct (lstrip x) as [|c y] eqn:Ex; [reflexivity|]. assert (Hc : is_space c = false) by (eapply lstrip_head; exact Ex).
  assert (Q : exists z, rstrip (c :: y) = c :: z). { unfold rstrip. rewrite rstrip_by_cons, Hc. destruct (forallb is_space y); eauto. }
  destruct Q as [z Q]. rewrite Q, lstrip_id by exact Hc. rewrite <- Q. apply rstrip_by_idem.
Qed.
Lemma one_line_trimmed x : one_line x -> trimmed (strip x).
Proof. intros H. split; [now apply one_line_strip | apply strip_again]. Qed.
Lemma without_parts x : exists w, x = without_eol x ++ w /\ crlf w.
Proof. unfold without_eol, rstrip_crlf. destruct (rstrip_by_prefix is_crlf x) as [p H]. now exists p. Qed.
Lemma without_again x : without_eol (without_eol x) = without_eol x.
Proof. apply rstrip_by_idem. Qed.
Lemma without_part x c : In c (without_eol x) -> In c x.
Proof. destruct (without_parts x) as [w [E _]]. intros H. rewrite E, in_app_iff. now left. Qed.
Lemma one_line_without x : one_line x -> no_nl (without_eol x).
Proof. intros [y [Y [-> | ->]]]; rewrite ?without_eol_eol; intros X; apply without_part in X; auto. Qed.

(** ** Elements *)
Lemma b_title kws x k n : one_line x -> title_line kws x k n -> title_ok kws (Some k) (Some n).
Proof.
  intros H [I [rest [E ->]]]. exists k, (strip rest). split; [reflexivity|]. split; [reflexivity|]. split; [exact I|]. apply one_line_trimmed. apply one_line_lstrip in H. rewrite E in H.
  change (k ++ ch_colon :: rest) with (k ++ [ch_colon] ++ rest) in H. rewrite app_assoc in H. now apply one_line_suffix in H.
Qed.
Definition good (ls : list nline) : Prop := Forall (fun l => one_line (snd l)) ls.
Lemma good_app a b : good (a ++ b) <-> good a /\ good b. Proof. apply Forall_app. Qed.
Lemma good_cons l b : good (l :: b) <-> one_line (snd l) /\ good b.
Proof. unfold good. split; [intros H; inversion H; auto | intros [H1 H2]; now constructor]. Qed.
Lemma b_description name d p ls desc cs : for_name name = Some d -> good ls -> description_block d p ls desc cs -> description_ok d p desc.
Proof.
  intros D G [blanks [lines [rest [-> [_ [H1 [H2 _]]]]]]]. rewrite !good_app in G. destruct G as [_ [G _]]. destruct lines as [|l lines]; [now left|]. right. destruct H2 as [B [body [lst [empties [Em [L1 [_ ->]]]]]]].
  assert (P : Forall (fun x => no_nl x /\ without_eol x = x /\ ~ ends_description d p x) (map (fun l => without_eol (snd l)) (l :: lines))).
  { apply Forall_map, Forall_forall. intros x Hx. unfold good in G. rewrite Forall_forall in G, H1. specialize (G x Hx). specialize (H1 x Hx). split; [now apply one_line_without|]. split; [apply without_again|]. intros X. apply H1. destruct (without_parts (snd x)) as [w [E W]]. rewrite E. now apply (ends_tail name). }
  rewrite Em in P. rewrite app_assoc in P. apply Forall_app in P as [P _].
  rewrite join_split_on; [|now destruct body | eapply Forall_impl; [|exact P]; intros x [X _]; exact X]. split; [eapply Forall_impl; [|exact P]; intros x [_ X]; exact X|]. split; [|now rewrite last_last].
  assert (E : hd [] (body ++ [lst]) = without_eol (snd l)). { destruct body as [|b body]; cbn [app map] in *; injection Em as Em _; now symmetry. }
  rewrite E. intros X. apply B. unfold blank_line. destruct (without_parts (snd l)) as [w [E2 W]]. rewrite E2. now apply blank_tail.
Qed.
Lemma rtags_names pos l : Forall rtag_ok l -> Forall (fun i => exists name, i_text i = ch_at :: name /\ tag_name_ok name) (rtags_at pos l).
Proof. intros H. revert pos. induction H as [|t l [_ [_ [H _]]] H0 IH]; intros pos; [constructor|]. cbn [rtags_at]. constructor; [exists (rt_name t); auto | apply IH]. Qed.
Lemma b_tag_line l tags : tags_at_line l tags -> Forall tag_ok tags.
Proof.
  intros [items [[ind [l' [comment [_ [[_ [_ [T _]]] ->]]]]] ->]]. apply Forall_map. eapply Forall_impl; [|now apply rtags_names]. intros i H. exact H.
Qed.
Lemma b_tag_lines ls tags cs : tag_lines ls tags cs -> Forall tag_ok tags.
Proof. induction 1; auto. apply Forall_app. split; [now apply (b_tag_line l) | assumption]. Qed.
Lemma b_tags ls tags cs : tags_block ls tags cs -> Forall tag_ok tags.
Proof.
  intros [[_ [-> _]]|[l [ls' [t1 [t2 [_ [H1 [H2 ->]]]]]]]]; [constructor|]. apply Forall_app. split; [now apply (b_tag_line l) | now apply (b_tag_lines ls' t2 cs)].
Qed.
Lemma blank_nl : blank ch_nl = false. Proof. reflexivity. Qed.
Lemma rtrim_last v : rstrip_by blank (rtrim_cell v) = rtrim_cell v.
Proof. unfold rtrim_cell. destruct (endswith [ch_nl] v); [now apply rstrip_by_id | apply rstrip_by_idem]. Qed.
Lemma trim_ok v : cell_ok (trim_cell v).
Proof.
  unfold cell_ok, trim_cell. split; [|apply rtrim_last]. destruct (drop_while blank v) as [|c y] eqn:E; [reflexivity|]. assert (Hc : blank c = false) by (eapply drop_while_head; exact E).
  destruct (rtrim_head c y Hc) as [z Hz]. rewrite Hz. now apply drop_while_id.
Qed.
Lemma b_row l r : row_at_line l r -> row_ok r.
Proof.
  intros [items [[ind [raws [tail [_ [_ [_ [_ ->]]]]]]] ->]]. unfold row_ok. cbn [row_cells]. apply Forall_map. generalize (length ind + 1)%nat. induction raws as [|x raws IH]; intros pos; [constructor|]. cbn [cells_at]. constructor; [apply trim_ok | apply IH].
Qed.
Lemma b_rows ls rows cs : row_lines ls rows cs -> Forall row_ok rows.
Proof. induction 1; auto. constructor; [now apply (b_row l) | assumption]. Qed.
Lemma b_table ls rows cs : table_block ls rows cs -> rows <> [] /\ rows_ok rows.
Proof. intros [[l [ls' [r [rs [-> [H1 [H2 ->]]]]]]] R]. split; [discriminate|]. split; [|exact R]. constructor; [now apply (b_row l) | now apply (b_rows ls' rs cs)]. Qed.
Lemma replace_no_nl sep x : separator sep -> no_nl x -> no_nl (replace (escaped sep) sep x).
Proof.
  intros Hs H X. destruct (sep_char sep Hs) as [q [-> [_ [_ [Hn _]]]]]. revert X. unfold replace. generalize 0%nat. induction x as [|c y IH]; intros k; [auto|]. cbn [replace_go].
  assert (IH' : forall k, ~ In ch_nl (replace_go (escaped [q; q; q]) [q; q; q] k y)) by (intros k0 X0; apply (IH (fun X => H (or_intror X)) k0 X0)).
  destruct k; [|apply IH']. destruct (startswith (escaped [q; q; q]) (c :: y)).
  - rewrite in_app_iff. intros [X|X]; [|now apply IH' in X]. cbn in X. intuition.
  - intros [X|X]; [|now apply IH' in X]. apply H. now left.
Qed.
Lemma replace_tail pat by_ x w : no_crlf pat -> crlf w -> replace pat by_ (x ++ w) = replace pat by_ x ++ w.
Proof.
  intros [P1 P2] Hw. revert x. induction w as [|c w IH]; intros x; [now rewrite !app_nil_r|]. unfold crlf in Hw. cbn [forallb] in Hw. apply andb_true_iff in Hw as [Hc Hw].
  change (x ++ c :: w) with (x ++ [c] ++ w). rewrite app_assoc, IH by exact Hw.
  unfold replace at 1. rewrite replace_snoc; [now rewrite <- app_assoc | | exact P1 | lia]. intros X. rewrite forallb_forall in P2. apply P2 in X. rewrite Hc in X. discriminate.
Qed.
Lemma sep_no_crlf sep : separator sep -> no_crlf sep /\ no_crlf (escaped sep).
Proof. intros [-> | ->]; repeat split; discriminate. Qed.
Lemma content_ok k sep x : separator sep -> one_line x ->
  no_nl (content_line k sep x) /\ without_eol (content_line k sep x) = content_line k sep x /\ replace (escaped sep) sep (escape_line sep (content_line k sep x)) = content_line k sep x.
Proof.
  intros Hs H.
  assert (G : forall y, one_line y -> no_nl (without_eol (replace (escaped sep) sep y)) /\ without_eol (without_eol (replace (escaped sep) sep y)) = without_eol (replace (escaped sep) sep y) /\
    replace (escaped sep) sep (escape_line sep (without_eol (replace (escaped sep) sep y))) = without_eol (replace (escaped sep) sep y)).
  2:{ apply G. destruct (k <=? indent_of x)%nat; [now apply one_line_skip | now apply one_line_lstrip]. }
  clear H. intros y Hy. destruct (sep_no_crlf sep Hs) as [N1 N2]. split; [|split; [apply without_again|]].
  - destruct Hy as [z [Z1 Z2]]. destruct Z2 as [-> | ->].
    + intros X. apply without_part in X. now apply (replace_no_nl sep z Hs Z1) in X.
    + unfold eol. rewrite replace_tail by (auto; reflexivity). rewrite crlf_eol. intros X. apply without_part in X. now apply (replace_no_nl sep z Hs Z1) in X.
  - destruct (without_parts (replace (escaped sep) sep y)) as [w [E W]]. pose proof (escape_again sep y Hs) as A. rewrite E in A. unfold escape_line in *. rewrite !replace_tail in A by auto. now apply app_inv_tail in A.
Qed.
Lemma b_doc ls ds cs : good ls -> doc_block ls ds cs -> doc_ok ds.
Proof.
  intros G [sep [open [content [close [rest [media [-> [S1 [_ [_ [_ [-> [_ ->]]]]]]]]]]]]]. rewrite good_cons, good_app in G. destruct G as [G1 [G2 _]]. exists sep. cbn [ds_delimiter ds_content ds_media]. split; [reflexivity|]. split; [exact S1|]. split.
  - destruct content as [|l content].
    + cbn. constructor; [|constructor]. split; reflexivity.
    + assert (P : Forall (fun x => no_nl x /\ without_eol x = x /\ replace (escaped sep) sep (escape_line sep x) = x) (map (fun l => content_line (indent_of (snd open)) sep (snd l)) (l :: content))).
      { apply Forall_map. eapply Forall_impl; [|exact G2]. intros x Hx. now apply content_ok. }
      rewrite join_split_on; [|discriminate | eapply Forall_impl; [|exact P]; intros x [X _]; exact X]. eapply Forall_impl; [|exact P]. intros x [_ X]. exact X.
  - destruct (strip (skipn (length sep) (lstrip (snd open)))) eqn:E; [exact I|]. rewrite <- E. split; [rewrite E; discriminate|]. apply one_line_trimmed, one_line_skip, one_line_lstrip, G1.
Qed.
Lemma b_arg ls a cs : good ls -> argument_block ls a cs -> arg_ok a.
Proof.
  intros G [[_ [-> _]]|[[l [ls' [rows [_ [H ->]]]]]|[ds [H ->]]]]; cbn [arg_ok dt_rows]; [exact I | now apply b_table in H | now apply b_doc in H].
Qed.
Lemma b_step d ls x cs : good ls -> step_block d ls x cs -> step_ok d x.
Proof.
  intros G [l [noise [arg [kw [text [a [cs1 [cs2 [-> [[before [after [rest [E [F [L ->]]]]]] [_ [A [_ ->]]]]]]]]]]]]]. rewrite good_cons, good_app in G. destruct G as [G1 [_ G2]]. split; [|now apply (b_arg arg a cs2)].
  cbn [st_keyword st_text st_ktype]. exists kw, (strip rest), before, after. split; [reflexivity|]. split; [reflexivity|]. split; [reflexivity|]. split; [|split; [exact E|]].
  - apply one_line_trimmed. apply one_line_lstrip in G1. rewrite L in G1. now apply one_line_suffix in G1.
  - eapply Forall_impl; [|exact F]. intros k Hk. unfold begins in Hk. rewrite L in Hk. destruct (startswith k kw) eqn:S; [|reflexivity]. elim Hk. apply startswith_spec in S as [y ->]. rewrite <- app_assoc. apply startswith_app.
Qed.
Lemma b_blocks {A} (block : list nline -> A -> list comment -> Prop) (ok : A -> Prop) : (forall ls x cs, good ls -> block ls x cs -> ok x) ->
  forall ls xs cs, good ls -> blocks block ls xs cs -> Forall ok xs.
Proof. intros H ls xs cs G B. induction B as [|ls1 x cs1 ls2 xs cs2 B1 B2 IH]; [constructor|]. apply good_app in G as [G1 G2]. constructor; eauto. Qed.
Lemma b_maybe {A} (block : list nline -> A -> list comment -> Prop) (ok : A -> Prop) : (forall ls x cs, good ls -> block ls x cs -> ok x) ->
  forall ls o cs, good ls -> maybe block ls o cs -> opt_ok ok o.
Proof. intros H ls [x|] cs G; cbn; [eauto | auto]. Qed.
Section Large.
Context (name : str) (d : dialect) (D : for_name name = Some d).
Lemma b_background ls x cs : good ls -> background_block d ls x cs -> background_ok d x.
Proof.
  intros G [l [dl [sl [kw [nm [desc [steps [cs1 [cs2 [-> [T [De [B [_ ->]]]]]]]]]]]]]]. rewrite good_cons, good_app in G. destruct G as [G1 [G2 G3]].
  split; [now apply (b_title _ (snd l))|]. split; [now apply (b_description name d _ dl desc cs1)|]. exact (b_blocks _ _ (b_step d) sl steps cs2 G3 B).
Qed.
Lemma b_examples ls x cs : good ls -> examples_block d ls x cs -> examples_ok d x.
Proof.
  intros G [tl [l [dl [rl [tags [kw [nm [desc [rows [cs0 [cs1 [cs2 [-> [Tg [T [De [B [_ ->]]]]]]]]]]]]]]]]]]. rewrite good_app, good_cons, good_app in G. destruct G as [_ [G1 [G2 _]]].
  split; [now apply (b_title _ (snd l))|]. split; [now apply (b_description name d _ dl desc cs1)|]. split; [now apply (b_tags tl tags cs0)|]. cbn [ex_header ex_body]. destruct rows as [rows|]; [|reflexivity]. cbn [maybe] in B. apply b_table in B as [B1 B2]. destruct rows; [contradiction | exact B2].
Qed.
Lemma b_scenario ls x cs : good ls -> scenario_block d ls x cs -> scenario_ok d x.
Proof.
  intros G [tl [l [dl [sl [el [tags [kw [nm [desc [steps [exs [cs0 [cs1 [cs2 [cs3 [-> [Tg [T [De [B1 [B2 [_ ->]]]]]]]]]]]]]]]]]]]]]]. rewrite good_app, good_cons, !good_app in G. destruct G as [_ [G1 [G2 [G3 G4]]]].
  split; [now apply (b_title _ (snd l))|]. split; [now apply (b_description name d _ dl desc cs1)|]. split; [now apply (b_tags tl tags cs0)|]. split; [exact (b_blocks _ _ (b_step d) sl steps cs2 G3 B1) | exact (b_blocks _ _ b_examples el exs cs3 G4 B2)].
Qed.
Lemma b_rule ls x cs : good ls -> rule_block d ls x cs -> rule_ok d x.
Proof.
  intros G [tl [l [dl [bl [sl [tags [kw [nm [desc [bg [scs [cs0 [cs1 [cs2 [cs3 [-> [Tg [T [De [B1 [B2 [_ ->]]]]]]]]]]]]]]]]]]]]]]. rewrite good_app, good_cons, !good_app in G. destruct G as [_ [G1 [G2 [G3 G4]]]].
  split; [now apply (b_title _ (snd l))|]. split; [now apply (b_description name d _ dl desc cs1)|]. split; [now apply (b_tags tl tags cs0)|]. split; [exact (b_maybe _ _ b_background bl bg cs2 G3 B1) | exact (b_blocks _ _ b_scenario sl scs cs3 G4 B2)].
Qed.
Lemma b_feature ls x cs : good ls -> feature_block d name ls x cs -> writable x.
Proof.
  intros G [tl [l [dl [bl [sl [rl [tags [kw [nm [desc [bg [scs [rus [cs0 [cs1 [cs2 [cs3 [cs4 [-> [Tg [T [De [B1 [B2 [B3 [_ ->]]]]]]]]]]]]]]]]]]]]]]]]]]. rewrite good_app, good_cons, !good_app in G. destruct G as [_ [G1 [G2 [G3 [G4 G5]]]]].
  exists name, d. split; [reflexivity|]. split; [exact D|].
  split; [now apply (b_title _ (snd l))|]. split; [now apply (b_description name d _ dl desc cs1)|]. split; [now apply (b_tags tl tags cs0)|]. split; [exact (b_maybe _ _ b_background bl bg cs2 G3 B1)|]. split; [exact (b_blocks _ _ b_scenario sl scs cs3 G4 B2) | exact (b_blocks _ _ b_rule rl rus cs4 G5 B3)].
Qed.
End Large.
Lemma good_text text : good (numbered_lines (split_lines text)).
Proof.
  unfold good. apply Forall_forall. intros [n x] H. unfold numbered_lines in H. apply in_combine_r in H. cbn [snd]. pose proof (split_lines_one text) as S. rewrite Forall_forall in S. auto.
Qed.
Theorem stands_writable default text f cs : stands_for default (numbered_lines (split_lines text)) (mkGdoc (Some f) cs) -> writable f.
Proof.
  intros H. pose proof (good_text text) as G. destruct H as [[cs' [_ E]]|[[pre [fl [d [f' [cs0 [cs1 [E [_ [D [F E2]]]]]]]]]]|[pre [h [mid [fl [name [d [f' [cs0 [cs1 [cs2 [E [_ [_ [D [_ [F E2]]]]]]]]]]]]]]]]]]; [discriminate E| |]; injection E2 as <- _; rewrite E in G.
  - apply good_app in G as [_ G]. now apply (b_feature default d D fl f cs1).
  - rewrite good_app, good_cons, good_app in G. destruct G as [_ [_ [_ G]]]. now apply (b_feature name d D fl f cs2).
Qed.
