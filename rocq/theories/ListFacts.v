(** * The parser follows the token listing (for C66) *)
From Verif Require Import PyStr PyStrFacts Types Regex Line DialectData Matcher Ast ParserTable Parser Classify Table Scan Grammar Deriv Cert LineSpec StepFacts Cst Report Eval LangSpec LangFacts Complete DocSpec Erase Den LineIff Means DocRun ListSpec.

(** ** The positions of the parser states *)
Inductive mode := MStart | MText (r : rule) (begun : bool) | MQuotes | MElse.
Definition mode_of (q : nat) : mode :=
  match q, cert q, ptable q with
  | 0, _, _ => MStart
  | _, Some ((RDescription, _) :: (r, _) :: _), _ => MText r true
  | _, Some ((r, res) :: fr), Some st =>
      if docopen ((r, res) :: fr) then MQuotes
      else if existsb (fun tr => tok_eqb (tr_tok tr) TkOther) (st_trans st) then MText r false else MElse
  | _, _, _ => MElse
  end.
Definition mode_eqb (a b : mode) : bool :=
  match a, b with
  | MStart, MStart | MQuotes, MQuotes | MElse, MElse => true
  | MText r b1, MText r' b2 => rule_eqb r r' && Bool.eqb b1 b2
  | _, _ => false
  end.
Lemma mode_eqb_spec a b : mode_eqb a b = true -> a = b.
Proof. destruct a, b; try discriminate; auto. cbn. intros H. apply andb_true_iff in H as [H1 H2]. apply rule_eqb_spec in H1. apply eqb_prop in H2. congruence. Qed.
Definition is_place (r : rule) : bool := match place_of r with Some _ => true | None => false end.
Definition ends_at (m : mode) (k : tok) : bool :=
  match m with MText r _ => tok_in k (stop r) && is_place r | MQuotes => false | _ => true end.
Definition place_eqb (a b : place) : bool :=
  match a, b with InHeader, InHeader | InBackground, InBackground | InScenario, InScenario | InExamples, InExamples => true | _, _ => false end.
Lemma place_eqb_spec a b : place_eqb a b = true -> a = b.
Proof. destruct a, b; easy. Qed.
Definition title_place (k : tok) : option place :=
  match k with
  | TkFeatureLine | TkRuleLine => Some InHeader | TkBackgroundLine => Some InBackground
  | TkScenarioLine => Some InScenario | TkExamplesLine => Some InExamples | _ => None
  end.
Definition opens (k : tok) (m : mode) : bool :=
  match m, title_place k with
  | MText r false, Some p => match place_of r with Some p' => place_eqb p p' | None => false end
  | _, _ => false
  end.
Definition mode_at (m : mode) (before : list trans) (tr : trans) : bool :=
  let k := tr_tok tr in let m' := mode_of (tr_next tr) in
  match k with
  | TkEOF => true
  | TkEmpty => match m with MQuotes | MText _ true => false | _ => mode_eqb m' m end
  | TkComment => ends_at m k && match m with MStart => mode_eqb m' MStart && tries TkLanguage before | _ => mode_eqb m' MElse end
  | TkLanguage => mode_eqb m MStart && mode_eqb m' MElse
  | TkFeatureLine | TkRuleLine | TkBackgroundLine | TkScenarioLine | TkExamplesLine => ends_at m k && opens k m'
  | TkStepLine | TkTagLine | TkTableRow => ends_at m k && mode_eqb m' MElse
  | TkDocStringSeparator => (mode_eqb m MElse && mode_eqb m' MQuotes) || (mode_eqb m MQuotes && mode_eqb m' MElse)
  | TkOther =>
      match m with
      | MText r b => is_place r && forallb (fun k => tries k before) (stop r) && (b || tries TkEmpty before) && mode_eqb m' (MText r true)
      | MQuotes => mode_eqb m' MQuotes && tries TkDocStringSeparator before
      | _ => false
      end
  end.
Fixpoint mode_go (m : mode) (before trs : list trans) : bool :=
  match trs with [] => true | tr :: after => mode_at m before tr && mode_go m (before ++ [tr]) after end.
Lemma modes_ok : all_states (fun q st => mode_go (mode_of q) [] (st_trans st)) = true.
Proof. vm_compute. reflexivity. Qed.
Lemma mode_go_split m trs : forall before, mode_go m before trs = true -> forall b tr c, trs = b ++ tr :: c -> mode_at m (before ++ b) tr = true.
Proof.
  induction trs as [|tr0 trs IH]; intros before H b tr c E; [destruct b; discriminate|].
  cbn in H. apply andb_true_iff in H as [H1 H2]. destruct b as [|b0 b]; cbn in E; injection E as -> ->.
  - now rewrite app_nil_r.
  - specialize (IH _ H2 b tr c eq_refl). now rewrite <- app_assoc in IH.
Qed.

(** ** The entry of a token *)
Lemma keywords_full_ok : forallb (fun p => forallb (fun k : str => match k with [] => false | _ => true end) (title_keywords (snd p) ++ all_step_keywords (snd p))) DIALECTS = true.
Proof. vm_compute. reflexivity. Qed.
Lemma keyword_full name d k : for_name name = Some d -> In k (title_keywords d ++ all_step_keywords d) -> exists c k', k = c :: k'.
Proof.
  intros H I. pose proof keywords_full_ok as F. rewrite forallb_forall in F. unfold for_name in H.
  assert (Hd : exists p, In p DIALECTS /\ snd p = d).
  { destruct (find (fun p => str_eqb (fst p) name) DIALECTS) as [[n d0]|] eqn:E; [|discriminate H]. exists (n, d0). split; [eapply (proj1 (find_some _ _ E)) | now injection H]. }
  destruct Hd as [p [P1 <-]]. specialize (F _ P1). rewrite forallb_forall in F. specialize (F _ I). destruct k; [discriminate | eauto].
Qed.
Lemma format_entry ms x n ty text kw kt ind items : x <> [] ->
  format_token (set_matched ms (new_token x n) (Some ty) text kw kt ind items) =
  entry n (match ind with Some i => i + 1 | None => first_col (n, x) end) (tok_name ty)
    (match kw with Some ((_ :: _) as k) => s "(" ++ (match kt with Some kt => type_name kt | None => [] end) ++ s ")" ++ k | _ => [] end)
    (match text with Some y => rstrip_crlf y | None => [] end) (items_entry items).
Proof.
  intros Hx. unfold format_token, set_matched, entry, items_entry, t_eof, g_bool, first_col, new_token. cbn [t_line t_loc_line t_loc_col t_mtype t_keyword t_ktype t_text t_items g_text fst snd].
  destruct x as [|c x]; [contradiction|]. cbn [negb]. destruct ind, kw as [[|]|], kt as [[]|], text; reflexivity.
Qed.
Lemma name_text name : name <> [] -> forallb name_char name = true -> rstrip_crlf name = name.
Proof.
  intros H1 H2. unfold rstrip_crlf, rstrip_by. destruct (rev name) as [|c y] eqn:E; [|].
  - apply (f_equal (@rev char)) in E. rewrite rev_involutive in E. contradiction.
  - cbn [drop_while]. assert (I : In c name) by (apply in_rev; rewrite E; now left). rewrite forallb_forall in H2. specialize (H2 _ I).
    assert (F : is_crlf c = false).
    { destruct (is_crlf c) eqn:F; [|reflexivity]. unfold is_crlf in F. apply orb_true_iff in F as [F|F]; apply N.eqb_eq in F; subst c; discriminate H2. }
    match goal with |- context [if ?b then _ else _] => replace b with false by (symmetry; exact F) end. rewrite <- E. apply rev_involutive.
Qed.

(** ** One line *)
Definition at_pos (m : mode) (ms : mstate) (pos : position) : Prop :=
  match m with
  | MStart => pos = AtStart /\ ms_sep ms = None
  | MText r b => ms_sep ms = None /\ exists p, place_of r = Some p /\ pos = AfterTitle p b
  | MQuotes => exists sep, ms_sep ms = Some sep /\ pos = InQuotes (ms_indent ms) sep
  | MElse => pos = Elsewhere /\ ms_sep ms = None
  end.
Lemma at_sep m ms pos : at_pos m ms pos -> m <> MQuotes -> ms_sep ms = None.
Proof. destruct m; cbn; tauto. Qed.
Lemma at_free m ms pos k n x ms' t : good ms -> at_pos m ms pos -> ends_at m k = true -> plain k = true -> lexm k ms n x = (Ok true, ms', t) -> free (ms_dialect ms) pos x.
Proof.
  intros G A E P L. pose proof (lexm_cls k ms n x ms' t G P L) as C. destruct m; cbn in A, E; try discriminate E.
  - destruct A as [-> _]. exact I.
  - destruct A as [_ [p [Hp ->]]]. apply andb_true_iff in E as [E _]. cbn. apply (ends_spec ms r p x G Hp). rewrite C.
    apply existsb_exists in E as [k' [K1 K2]]. apply tok_eqb_spec in K2. now subst.
  - destruct A as [-> _]. exact I.
Qed.
Lemma at_quotes m k : ends_at m k = true -> m <> MQuotes.
Proof. now intros H ->. Qed.
Lemma opens_at k m ms p : opens k m = true -> title_place k = Some p -> ms_sep ms = None -> at_pos m ms (AfterTitle p false).
Proof.
  unfold opens. destruct m as [|r []| |]; try discriminate. intros H E Hs. rewrite E in H. destruct (place_of r) as [p'|] eqn:F; [|discriminate]. apply place_eqb_spec in H. subst p'.
  cbn. eauto.
Qed.
Lemma titles_of d k p : title_place k = Some p -> titles d (tok_name k) (keywords_of d k) p.
Proof. destruct k; try discriminate; intros H; injection H as <-; constructor. Qed.
Lemma keywords_in d k kw : In kw (keywords_of d k) -> In kw (title_keywords d ++ all_step_keywords d).
Proof. intros H. apply in_or_app. left. unfold title_keywords. rewrite !in_app_iff. destruct k; cbn in H; try contradiction; unfold scenario_keywords in H; rewrite ?in_app_iff in H; tauto. Qed.

Lemma listed_step q st ms n x rest tr t ms' pos : x <> [] -> matcher_ok ms -> ptable q = Some st -> at_pos (mode_of q) ms pos ->
  choose (st_trans st) ms n x rest = ([], CTrans tr t ms') ->
  exists pos', listed (ms_dialect ms) pos (n, x) (format_token t) (ms_dialect ms') pos' /\ at_pos (mode_of (tr_next tr)) ms' pos' /\ matcher_ok ms'.
Proof.
  intros Hx Hm Hq A C. pose proof (matcher_good _ Hm) as G.
  destruct (choose_split _ _ _ _ _ _ _ _ _ C) as [before [after [E [R L]]]].
  pose proof (all_states_spec _ modes_ok q st Hq) as M. pose proof (mode_go_split _ _ _ M before tr after E) as At. cbn [app] in At. clear M.
  pose proof (proj1 (lexm_next _ _ _ _ _ _ L Hm)) as Hm'.
  assert (Hd : exists name, for_name name = Some (ms_dialect ms)) by (exists (ms_name ms); exact (proj2 (mo_classic _ Hm))). destruct Hd as [lname Hd].
  unfold mode_at in At. set (m := mode_of q) in *. set (m' := mode_of (tr_next tr)) in *.
  assert (Title : forall p, title_place (tr_tok tr) = Some p -> title_kind (tr_tok tr) = true -> plain (tr_tok tr) = true -> ends_at m (tr_tok tr) && opens (tr_tok tr) m' = true ->
     exists pos', listed (ms_dialect ms) pos (n, x) (format_token t) (ms_dialect ms') pos' /\ at_pos m' ms' pos' /\ matcher_ok ms').
  { intros p Hp Hk Hpl B. apply andb_true_iff in B as [B1 B2]. pose proof L as L0. apply (lex_title _ _ _ _ _ _ Hk Hm Hx) in L as [-> [kw [name [T ->]]]].
    exists (AfterTitle p false). split; [|split; [|exact Hm]].
    - apply li_formed; [eapply at_free; eauto|]. pose proof T as [I [rest' [_ N]]]. destruct (keyword_full _ _ _ Hd (keywords_in _ _ _ I)) as [c [kw' Ek]].
      unfold title_token. cbn [fst snd]. rewrite format_entry by exact Hx. rewrite N, rstrip_crlf_strip, Ek. rewrite <- Ek, <- N. eapply (fo_title _ (n, x)); [apply titles_of; exact Hp | exact T].
    - eapply opens_at; eauto. eapply at_sep; [exact A | eapply at_quotes; eauto]. }
  assert (Form : plain (tr_tok tr) = true -> ends_at m (tr_tok tr) && mode_eqb m' MElse = true -> ms' = ms -> formed (ms_dialect ms) (n, x) (format_token t) Elsewhere ->
     exists pos', listed (ms_dialect ms) pos (n, x) (format_token t) (ms_dialect ms') pos' /\ at_pos m' ms' pos' /\ matcher_ok ms').
  { intros Hpl B -> F. apply andb_true_iff in B as [B1 B2]. apply mode_eqb_spec in B2. exists Elsewhere. split; [|split; [|exact Hm]].
    - apply li_formed; [eapply at_free; eauto | exact F].
    - rewrite B2. cbn. split; [reflexivity|]. eapply at_sep; [exact A | eapply at_quotes; eauto]. }
  destruct (tr_tok tr) eqn:K; try (eapply Title; [reflexivity | reflexivity | reflexivity | exact At]); clear Title.
  - (* EOF *) apply lexm_eof_nil in L. contradiction.
  - (* Empty *) clear Form. apply lex_empty in L as [-> [B ->]]; [|exact Hx]. exists pos. rewrite format_entry by exact Hx.
    destruct m as [|r []| |] eqn:Em; try discriminate At; apply mode_eqb_spec in At; rewrite At; (split; [|auto]); cbn in A.
    + apply (li_blank _ _ (n, x)); [exact B | left; tauto].
    + destruct A as [_ [p [_ ->]]]. apply (li_blank _ _ (n, x)); [exact B | right; right; eauto].
    + apply (li_blank _ _ (n, x)); [exact B | right; left; tauto].
  - (* Comment *) clear Form. pose proof L as L0. apply lex_comment in L as [-> [B ->]]; [|exact Hx]. apply andb_true_iff in At as [A1 A2].
    exists (match pos with AtStart => AtStart | _ => Elsewhere end). rewrite format_entry by exact Hx. split; [|split; [|exact Hm]].
    + apply (li_comment _ _ (n, x)); [exact B | eapply at_free; eauto; reflexivity|]. intros -> name Hl.
      destruct m as [|r b| |] eqn:Em; cbn in A; try (destruct A as [A _]; discriminate A); [|destruct A as [_ [p [_ A]]]; discriminate A | destruct A as [? [_ A]]; discriminate A].
      apply andb_true_iff in A2 as [_ A2]. destruct (for_name name) as [d'|] eqn:D.
      * destruct (tries_refuses _ _ _ _ _ _ R A2) as [Q|[e Q]]; rewrite (lexm_lang_true _ _ _ _ _ Hx Hl D) in Q; discriminate Q.
      * destruct (choose_noerr _ _ _ _ _ _ _ _ C) as [b [a [E' [_ F]]]]. pose proof (all_states_spec _ modes_ok q st Hq) as M. pose proof (mode_go_split _ _ _ M b tr a E') as At'. cbn [app] in At'.
        unfold mode_at in At'. rewrite K in At'. fold m in At'. rewrite Em in At'. apply andb_true_iff in At' as [_ At']. apply andb_true_iff in At' as [_ T].
        apply existsb_exists in T as [u [U1 U2]]. apply andb_true_iff in U2 as [U2 _]. apply tok_eqb_spec in U2. rewrite Forall_forall in F. specialize (F u U1). rewrite U2 in F.
        rewrite (lexm_lang_err _ _ _ _ Hx Hl D) in F. eapply F. reflexivity.
    + destruct m as [|r b| |]; cbn in A; [| |discriminate A1|].
      * destruct A as [-> A]. apply andb_true_iff in A2 as [A2 _]. apply mode_eqb_spec in A2. rewrite A2. cbn. auto.
      * destruct A as [A [p [_ ->]]]. apply mode_eqb_spec in A2. rewrite A2. cbn. auto.
      * destruct A as [-> A]. apply mode_eqb_spec in A2. rewrite A2. cbn. auto.
  - (* tags *) pose proof L as L0. apply lex_tags in L as [-> [items [T ->]]]; [|exact Hx]. apply Form; [reflexivity | exact At | reflexivity|].
    unfold items_token. cbn [fst snd]. rewrite format_entry by exact Hx. now apply (fo_tags _ (n, x)).
  - (* step *) apply lex_step in L as [-> [kw [text [T ->]]]]; [|exact Hx]. apply Form; [reflexivity | exact At | reflexivity|].
    pose proof T as [b [a [rest' [I [_ [_ N]]]]]]. assert (Ik : In kw (title_keywords (ms_dialect ms) ++ all_step_keywords (ms_dialect ms))) by (apply in_or_app; right; rewrite I; apply in_elt).
    destruct (keyword_full _ _ _ Hd Ik) as [c [kw' Ek]]. unfold step_token. cbn [fst snd]. rewrite format_entry by exact Hx. rewrite (ktype_spec _ _ kw Hd), N, rstrip_crlf_strip, <- N.
    replace (match kw with [] => [] | _ :: _ => _ end) with (s "(" ++ type_name (step_type (ms_dialect ms) kw) ++ s ")" ++ kw) by now rewrite Ek.
    now apply (fo_step _ (n, x)).
  - (* separator *) clear Form. destruct (ms_sep ms) as [sep|] eqn:Es.
    + destruct m as [|r b| |]; cbn in A; try (exfalso; destruct A; congruence). destruct A as [sep' [A ->]]. rewrite Es in A. injection A as <-.
      apply (lex_close _ _ _ _ _ _ Hx Es) in L as [B [-> ->]]. exists Elsewhere. rewrite format_entry by exact Hx. cbn [orb andb] in At. apply mode_eqb_spec in At. rewrite At. split; [|cbn; auto].
      assert (Hsep : exists c y, sep = c :: y) by (destruct (mo_sep _ Hm) as [F|[F|F]]; rewrite Es in F; [discriminate | injection F as ->; cbn; eauto ..]). destruct Hsep as [c [y ->]].
      apply (li_close _ _ _ (n, x)). exact B.
    + apply (lex_open _ _ _ _ _ Hx Es) in L as [sep [S [B [-> ->]]]]. exists (InQuotes (indent_of x) sep).
      destruct m as [|r b| |]; cbn [mode_eqb orb andb] in At; try discriminate At; [cbn in A; destruct A as [? [A _]]; congruence|].
      rewrite orb_false_r in At. apply mode_eqb_spec in At. rewrite At. split; [|split; [cbn; eauto | exact Hm']].
      destruct A as [-> _]. apply li_formed; [exact I|]. rewrite format_entry by exact Hx. rewrite rstrip_crlf_strip.
      assert (Hsep : exists c y, sep = c :: y) by (destruct S as [-> | ->]; cbn; eauto). destruct Hsep as [c [y Ec]].
      replace (match sep with [] => [] | _ :: _ => _ end) with (s "()" ++ sep) by now rewrite Ec. apply (fo_open _ (n, x)); [exact S | exact B | reflexivity].
  - (* row *) pose proof L as L0. apply lex_row in L as [-> [items [T ->]]]; [|exact Hx]. apply Form; [reflexivity | exact At | reflexivity|].
    unfold items_token. cbn [fst snd]. rewrite format_entry by exact Hx. now apply (fo_row _ (n, x)).
  - (* language *) clear Form. apply andb_true_iff in At as [A1 A2]. apply mode_eqb_spec in A1, A2. rewrite A2. rewrite A1 in A. cbn in A. destruct A as [-> As].
    destruct (lexm_lang_inv _ _ _ _ _ L) as [name [d' [Hl [D [-> ->]]]]]. exists Elsewhere. split; [|split; [cbn; auto | exact Hm']]. rewrite format_entry by exact Hx.
    pose proof Hl as [? [? [? [? [? [_ [_ [_ [_ [_ [_ [N1 N2]]]]]]]]]]]]. rewrite (name_text _ N1 N2). now apply (li_language _ (n, x)).
  - (* other *) clear Form. pose proof L as L0. apply lex_other in L as [-> _]; [|exact Hx].
    destruct m as [|r b| |] eqn:Em; try discriminate At; cbn in A.
    + destruct A as [As [p [Hp ->]]]. pose proof (other_text _ _ _ _ _ Hx Hm As L0) as Tx. apply lex_other in L0 as [_ ->]; [|exact Hx].
      apply andb_true_iff in At as [At A4]. apply andb_true_iff in At as [At A3]. apply andb_true_iff in At as [_ At]. apply mode_eqb_spec in A4. rewrite A4. rewrite forallb_forall in At.
      exists (AfterTitle p true). split; [|split; [cbn; eauto | exact Hm]]. rewrite format_entry by exact Hx. cbn in Tx. injection Tx as Tx. rewrite Tx. apply (li_description _ _ _ (n, x)); [|].
      * cbn [snd]. intros F. apply (ends_spec ms r p x G Hp) in F. refine (cls_tried _ _ _ _ _ _ G Hx R (At _ F) _ eq_refl).
        destruct r; cbn in F; repeat (destruct F as [F|F]; [rewrite <- F; reflexivity|]); destruct F.
      * intros -> F. cbn in A3. apply (cls_blank ms x G) in F. exact (cls_tried _ _ _ _ _ TkEmpty G Hx R A3 eq_refl F).
    + destruct A as [sep [As ->]]. apply andb_true_iff in At as [A1 A2]. apply mode_eqb_spec in A1. rewrite A1.
      assert (Hsep : separator sep) by (destruct (mo_sep _ Hm) as [F|[F|F]]; rewrite As in F; [discriminate | injection F as ->; left; reflexivity | injection F as ->; right; reflexivity]).
      pose proof (docstring_text _ _ _ _ _ _ Hx Hsep As L0) as Tx. apply lex_other in L0 as [_ ->]; [|exact Hx]. exists (InQuotes (ms_indent ms) sep). split; [|split; [cbn; eauto | exact Hm]].
      rewrite format_entry by exact Hx. cbn in Tx. injection Tx as Tx. rewrite Tx. apply (li_content _ _ _ (n, x)).
      cbn [snd]. apply (lex_not_close ms n x sep Hx As). destruct (tries_refuses _ _ _ _ _ _ R A2) as [-> | [e ->]]; discriminate.
Qed.

(** ** All lines *)
Lemma scan_listing lines : forall q ms n pos evs, lines_ok lines -> ptable q <> None -> matcher_ok ms -> at_pos (mode_of q) ms pos ->
  (exists cs, st_inv q ms cs) -> scan q ms n lines = (evs, Ok tt) -> clean evs ->
  listing (ms_dialect ms) pos (lines_from n lines) (map (fun a => format_token (lf_t a)) (ev_leaves evs)).
Proof.
  induction lines as [|x rest IH]; intros q ms n pos evs Hl Hq Hm A [cs I]; cbn [scan lines_from]; (destruct (ptable q) as [st|] eqn:Eq; [|contradiction]).
  - destruct (scan_step q ms (S n) [] []) as [ev1 r1] eqn:E. intros H Cl. assert (ev1 = evs /\ exists y, r1 = Ok y) as [-> [[q' ms'] ->]] by (destruct r1; [|discriminate]; injection H as <-; eauto).
    destruct (scan_step_sound _ _ _ _ _ _ _ _ _ Eq I E) as [_ [cs' [_ [_ [_ D]]]]].
    destruct D as [[e D]|[tr [t [-> [_ [_ D]]]]]]; [exfalso; exact (Cl e D)|]. cbn. pose proof (lexm_nonempty _ _ _ _ _ _ D eq_refl) as K. rewrite K in D.
    assert (F : format_token t = s "EOF"); [|rewrite F; constructor]. unfold format_token. assert (G : t_eof t = true); [|now rewrite G].
    unfold lexm in D. cbn in D. unfold match_EOF in D. cbn in D. injection D as _ <-. reflexivity.
  - destruct (scan_step q ms (S n) x rest) as [ev1 r1] eqn:E. inversion Hl as [|? ? Hx Hl']; subst. intros H Cl.
    destruct r1 as [[q' ms']|e]; [|discriminate]. destruct (scan q' ms' (S n) rest) as [ev2 r2] eqn:E2. injection H as <- ->. apply clean_app in Cl as [C1 C2].
    destruct (scan_step_sound _ _ _ _ _ _ _ _ _ Eq I E) as [_ [cs' [_ [I' [P _]]]]].
    unfold scan_step in E. rewrite Eq in E. destruct (choose (st_trans st) ms (S n) x rest) as [es c] eqn:C. destruct c as [tr t ms2| |e].
    + assert (es = [] /\ ev1 = [EvAct (mkLeaf ms (S n) x t) (tr_acts tr)] /\ q' = tr_next tr /\ ms' = ms2) as [-> [-> [-> ->]]].
      { destruct es as [|e es]; cbn [map app] in E; injection E as <- <- <-; [auto|]. exfalso. apply (C1 e). now left. }
      destruct (listed_step _ _ _ _ _ _ _ _ _ _ Hx Hm Eq A C) as [pos' [L [A' Hm']]].
      cbn [app ev_leaves flat_map map lf_t]. econstructor; [exact L|]. exact (IH _ _ _ _ _ Hl' (P Hx) Hm' A' (ex_intro _ _ I') E2 C2).
    + exfalso. injection E as <- _ _. eapply C1. apply in_elt.
    + discriminate E.
Qed.
