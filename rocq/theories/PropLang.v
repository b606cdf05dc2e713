(** * The language header: C15, C16 *)
From Verif Require Import PyStr PyStrFacts Types Regex Line DialectData Matcher Ast ParserTable Parser Classify Table Scan Grammar Deriv Cert LineSpec TagIff RowIff StepFacts Cst Report Eval LangSpec LangFacts Complete DocSpec Erase Den LineIff Means Layout Texts DocStr Blocks DocRun FeatureDoc DocMeans PropLine PropParse PropDoc PartsSpec Parts PropPlaces.

(** ** Lines that are neither blank nor comments *)
Definition quiet (l : nline) : Prop := blank_line l \/ comment_line l.
Lemma noise_quiet ls cs : noise_lines ls cs -> Forall quiet ls.
Proof. induction 1; constructor; auto; [now left | now right]. Qed.
Lemma blank_not_comment l : blank_line l -> ~ comment_line l.
Proof. unfold blank_line, comment_line, begins. intros B C. apply blank_spec in B. rewrite B in C. discriminate C. Qed.
Lemma noise_fun ls cs : noise_lines ls cs -> forall cs', noise_lines ls cs' -> cs' = cs.
Proof.
  induction 1 as [|l ls cs B H IH|l ls cs C H IH]; intros cs' N; inversion N; subst; auto.
  - now destruct (blank_not_comment l B).
  - now destruct (blank_not_comment l ltac:(assumption)).
  - f_equal. auto.
Qed.
Lemma title_loud d l kws kw name : dialect_ok d = true -> (kws = d_feature d) -> title_line kws (snd l) kw name -> ~ quiet l.
Proof.
  intros D -> T. set (ms := mkMs false [] [] d 0 None false). assert (G : good ms) by (split; [reflexivity | exact D]).
  assert (C : cls ms (snd l) = TkFeatureLine) by (apply (cls_title ms (snd l) TkFeatureLine G eq_refl); exists kw, name; exact T).
  intros [B|B].
  - apply (cls_blank ms _ G) in B. congruence.
  - assert (C' : cls ms (snd l) = TkComment) by (apply (cls_begins ms (snd l) TkComment ch_hash G); [discriminate | discriminate | reflexivity | exact B]). congruence.
Qed.
Lemma tags_loud l tags : tags_at_line l tags -> ~ quiet l.
Proof.
  intros [items [H _]] Q. apply (g_tags_iff _ 0) in H as [H _]. destruct Q as [B|B].
  - apply blank_spec in B. rewrite B in H. discriminate H.
  - unfold comment_line, begins in B. destruct (lstrip (snd l)) as [|c y]; [discriminate H|]. cbn [startswith] in H, B. apply andb_true_iff in H as [H _], B as [B _]. apply N.eqb_eq in H, B. rewrite <- H in B. discriminate B.
Qed.
Lemma feature_loud d name ls f cs : dialect_ok d = true -> feature_block d name ls f cs -> exists l rest, ls = l :: rest /\ ~ quiet l.
Proof.
  intros D [tl [l [dl [bl [sl [rl [tags [kw [nm [desc [bg [scs [rus [cs0 [cs1 [cs2 [cs3 [cs4 [-> [T [H _]]]]]]]]]]]]]]]]]]]]].
  destruct T as [[-> _]|[l0 [ls' [t1 [t2 [-> [T _]]]]]]].
  - exists l. eexists. split; [reflexivity|]. eapply title_loud; eauto.
  - exists l0. eexists. split; [reflexivity|]. eapply tags_loud; eauto.
Qed.
Lemma split_first (P : nline -> Prop) a : forall x b a' x' b', a ++ x :: b = a' ++ x' :: b' -> Forall P a -> ~ P x -> Forall P a' -> ~ P x' -> a = a' /\ x = x' /\ b = b'.
Proof.
  induction a as [|y a IH]; intros x b [|y' a'] x' b' E H1 H2 H3 H4; cbn in E; injection E as E1 E2; subst; auto.
  - inversion H3; contradiction.
  - inversion H1; contradiction.
  - inversion H1; inversion H3; subst. destruct (IH _ _ _ _ _ E2) as [-> [-> ->]]; auto.
Qed.

(** C15.  The first line that is not blank and not an ordinary comment is a language header naming a
    supported language: the text is accepted exactly if blank lines, comments and a feature in that
    language follow, and what it says does not depend on the default language. *)
Theorem C15_header : forall stop lang text pre h rest cs0 name d doc, supported lang ->
  numbered_lines (split_lines text) = pre ++ h :: rest -> preamble pre cs0 -> language_line (snd h) name -> for_name name = Some d ->
  ((exists d', parse_with stop false lang text = Ok d' /\ no_ids d' = doc) <->
   (exists mid fl f cs1 cs2, rest = mid ++ fl /\ noise_lines mid cs1 /\ feature_block d name fl f cs2 /\ doc = mkGdoc (Some f) (cs0 ++ cs1 ++ cs2))).
Proof.
  intros stop lang text pre h rest cs0 name d doc S En P Lh D. rewrite (C04_parse_iff stop lang text doc S), En. clear En text stop S.
  assert (NL : ~ (forall nm, ~ language_line (snd h) nm)) by (intros X; exact (X _ Lh)). destruct P as [P1 P2].
  split.
  - intros [[cs [[_ F] _]]|[[pre' [fl [d' [f [c0 [c1 [E [[Q1 Q2] [D' [F ->]]]]]]]]]]|[pre' [h' [mid [fl [nm [d' [f [c0 [c1 [c2 [E [[Q1 Q2] [L' [D' [N [F ->]]]]]]]]]]]]]]]]]].
    + exfalso. rewrite Forall_forall in F. apply NL. apply F. apply in_elt.
    + exfalso. destruct (feature_loud _ _ _ _ _ (for_name_ok _ _ D') F) as [l [r [-> Hl]]].
      assert (Qh : quiet h) by (right; exact (language_hash _ _ Lh)).
      apply noise_quiet in P1. apply noise_quiet in Q1.
      assert (X : forall pre pre' : list nline, pre ++ h :: rest = pre' ++ l :: r -> Forall quiet pre -> Forall (fun l => forall name, ~ language_line (snd l) name) pre' -> False).
      { clear -Hl Qh NL. induction pre as [|y pre IH]; intros [|y' pre'] E F1 F2; cbn in E; injection E as E1 E2; subst.
        - contradiction.
        - inversion F2; contradiction.
        - inversion F1; contradiction.
        - inversion F1; inversion F2; subst. eapply IH; eauto. }
      exact (X _ _ E P1 Q2).
    + destruct (split_first (fun l => forall name, ~ language_line (snd l) name) _ _ _ _ _ _ E P2 NL Q2) as [-> [-> ->]]; [intros X; exact (X _ L')|].
      rewrite (noise_fun _ _ P1 _ Q1). pose proof (language_unique _ _ _ L' Lh) as ->. assert (d' = d) as -> by congruence. exists mid, fl, f, c1, c2. auto.
  - intros [mid [fl [f [cs1 [cs2 [-> [N [F ->]]]]]]]]. right. right. exists pre, h, mid, fl, name, d, f, cs0, cs1, cs2. repeat split; auto.
Qed.
Print Assumptions C15_header.
Theorem C15_language_reported : forall stop lang text pre h rest cs0 name doc, supported lang ->
  numbered_lines (split_lines text) = pre ++ h :: rest -> preamble pre cs0 -> language_line (snd h) name -> supported name ->
  parse_with stop false lang text = Ok doc -> exists f, gd_feature doc = Some f /\ fe_language f = Some name.
Proof.
  intros stop lang text pre h rest cs0 name doc S En P L [d D] Pa.
  destruct (proj1 (C15_header stop lang text pre h rest cs0 name d (no_ids doc) S En P L D)) as [mid [fl [f [c1 [c2 [_ [_ [F E]]]]]]]]; [eauto|].
  unfold no_ids in E. destruct (gd_feature doc) as [f0|]; [|discriminate E]. cbn in E. injection E as E _. exists f0. split; [reflexivity|].
  destruct F as [tl [l [dl [bl [sl [rl [tags [kw [nm [desc [bg [scs [rus [b0 [b1 [b2 [b3 [b4 [_ [_ [_ [_ [_ [_ [_ [_ ->]]]]]]]]]]]]]]]]]]]]]]]]]].
  unfold no_id_feature in E. injection E. auto.
Qed.
Print Assumptions C15_language_reported.
Theorem C15_default_irrelevant : forall stop lang1 lang2 text pre h rest cs0 name doc1, supported lang1 -> supported lang2 ->
  numbered_lines (split_lines text) = pre ++ h :: rest -> preamble pre cs0 -> language_line (snd h) name -> supported name ->
  parse_with stop false lang1 text = Ok doc1 -> exists doc2, parse_with stop false lang2 text = Ok doc2 /\ no_ids doc2 = no_ids doc1.
Proof.
  intros stop l1 l2 text pre h rest cs0 name doc1 S1 S2 En P L [d D] Pa.
  apply (C15_header stop l2 text pre h rest cs0 name d _ S2 En P L D). apply (C15_header stop l1 text pre h rest cs0 name d _ S1 En P L D). eauto.
Qed.
Print Assumptions C15_default_irrelevant.
Definition c15_text : str := text_of_lines [s ""; s " # note"; s "  #language : de  "; s "# second"; s "Funktion: f"; s "  Szenario: s"; s "    Angenommen x"].
Example C15_case : exists pre h rest cs0 doc, numbered_lines (split_lines c15_text) = pre ++ h :: rest /\ preamble pre cs0 /\
  language_line (snd h) (s "de") /\ supported (s "de") /\ length pre = 2 /\
  parse c15_text = Ok doc /\ option_map fe_language (gd_feature doc) = Some (Some (s "de")) /\ length (gd_comments doc) = 2.
Proof.
  exists [(1, s "" ++ [ch_nl]); (2, s " # note" ++ [ch_nl])], (3, s "  #language : de  " ++ [ch_nl]). do 3 eexists. split; [vm_compute; reflexivity|].
  assert (NL : forall x, re_match LANGUAGE_RE (lstrip x) = None -> forall name, ~ language_line x name) by (intros x H; pose proof (language_re x) as R; now rewrite H in R).
  split; [|split; [|split; [eexists; vm_compute; reflexivity | split; [reflexivity | split; [vm_compute; reflexivity | vm_compute; auto]]]]].
  - split; [apply nz_blank; [reflexivity|]; apply nz_comment; [reflexivity | constructor]|]. repeat constructor; apply NL; vm_compute; reflexivity.
  - exists (s "  "), [], (s " "), (s " "), (s "  " ++ [ch_nl]). repeat split. discriminate.
Qed.

(** ** C16 *)
Lemma scan_act q ms n x rest a acts q' ms' : scan_step q ms (S n) x rest = ([EvAct a acts], Ok (q', ms')) ->
  scan q ms n (x :: rest) = (EvAct a acts :: fst (scan q' ms' (S n) rest), snd (scan q' ms' (S n) rest)).
Proof. intros H. cbn [scan]. rewrite H. destruct (scan q' ms' (S n) rest). reflexivity. Qed.
Lemma lex0_no ms n x k : good ms -> x <> [] -> plain k = true -> cls ms x <> k -> lexm k ms n x = (Ok false, ms, new_token x n).
Proof. intros G X P C. now apply lexm_false. Qed.
Lemma step_quiet ms n x rest : good ms -> x <> [] -> quiet (n, x) -> (forall name, ~ language_line x name) ->
  exists a, scan_step 0 ms n x rest = ([EvAct a [ABuild]], Ok (0, ms)).
Proof.
  intros G X Q L. unfold scan_step. cbn [ptable]. unfold state_0. cbn [st_trans choose tr_tok tr_la].
  rewrite lexm_eof_false by exact X. rewrite lexm_lang_false by assumption. destruct Q as [Q|Q].
  - apply (cls_blank ms _ G) in Q. cbn [snd] in Q. rewrite !(lex0_no ms n x) by (auto; congruence).
    assert (Lx := proj2 (lex_empty ms n x ms (set_matched ms (new_token x n) (Some TkEmpty) None None None (Some 0%nat) []) X)). rewrite Lx.
    + eexists. reflexivity.
    + split; [reflexivity|]. split; [now apply (cls_blank ms x G) | reflexivity].
  - assert (C : cls ms x = TkComment) by (apply (cls_begins ms x TkComment ch_hash G); [discriminate | discriminate | reflexivity | exact Q]).
    rewrite !(lex0_no ms n x) by (auto; congruence).
    assert (Lx := proj2 (lex_comment ms n x ms (set_matched ms (new_token x n) (Some TkComment) (Some x) None None (Some 0%nat) []) X)). rewrite Lx.
    + eexists. reflexivity.
    + split; [reflexivity|]. split; [exact Q | reflexivity].
Qed.
Lemma step_nolang ms n x rest name e : good ms -> x <> [] -> language_line x name -> for_name name = None -> no_such_language name (here (n, x)) = EParser e ->
  exists evs r, scan_step 0 ms n x rest = (EvErr e :: evs, r).
Proof.
  intros G X L D E. unfold scan_step. cbn [ptable]. unfold state_0. cbn [st_trans]. cbn [choose tr_tok tr_la].
  rewrite lexm_eof_false by exact X. rewrite (lexm_lang_err ms n x name X L D).
  change (mkLoc n (Some (g_indent (mkLine x n) + 1))) with (here (n, x)). unfold no_such_language in *. injection E as <-.
  destruct (match lexm TkTagLine ms n x with (Ok true, ms', t') => _ | (Ok false, _, _) => _ | (Err (EParser e), _, _) => _ | (Err _, _, _) => _ end) as [es ch].
  destruct ch; eexists; eexists; reflexivity.
Qed.
(** after the error, the line is taken as a comment, at column 1 (see [add_error] in Parser.v) *)
Lemma nolang_comment ms n x rest name e : good ms -> x <> [] -> language_line x name -> for_name name = None -> no_such_language name (here (n, x)) = EParser e ->
  exists a, scan_step 0 ms n x rest = ([EvErr e; EvAct a [ABuild]], Ok (0, ms)) /\ t_mtype (lf_t a) = Some TkComment /\ t_location (lf_t a) = mkLoc n (Some 1).
Proof.
  intros G X L D E. unfold scan_step. cbn [ptable]. unfold state_0. cbn [st_trans]. cbn [choose tr_tok tr_la].
  rewrite lexm_eof_false by exact X. rewrite (lexm_lang_err ms n x name X L D).
  change (mkLoc n (Some (g_indent (mkLine x n) + 1))) with (here (n, x)). unfold no_such_language in *. injection E as <-.
  pose proof (language_hash x name L) as Q.
  assert (C : cls ms x = TkComment) by (apply (cls_begins ms x TkComment ch_hash G); [discriminate | discriminate | reflexivity | exact Q]).
  rewrite !(lex0_no ms n x) by (auto; congruence).
  assert (Lx := proj2 (lex_comment ms n x ms (set_matched ms (new_token x n) (Some TkComment) (Some x) None None (Some 0%nat) []) X)). rewrite Lx.
  - eexists. split; [reflexivity|]. split; reflexivity.
  - split; [reflexivity|]. split; [exact Q | reflexivity].
Qed.
Lemma scan_until ms lines : forall n pre h rest name e, good ms -> lines_ok lines -> lines_from n lines = pre ++ h :: rest ->
  Forall quiet pre -> Forall (fun l => forall nm, ~ language_line (snd l) nm) pre -> language_line (snd h) name -> for_name name = None -> no_such_language name (here h) = EParser e ->
  exists als evs, fst (scan 0 ms n lines) = map (fun a => EvAct a [ABuild]) als ++ EvErr e :: evs.
Proof.
  induction lines as [|x lines IH]; intros n pre h rest name e G Hl En Q N L D E; [destruct pre; discriminate En|].
  inversion Hl as [|? ? Hx Hl']; subst. change (lines_from n (x :: lines)) with ((S n, x) :: lines_from (S n) lines) in En.
  destruct pre as [|y pre]; cbn in En; injection En as <- En.
  - cbn [snd] in L. destruct (step_nolang ms (S n) x lines name e G Hx L D E) as [evs [r Es]]. exists []. cbn [scan]. rewrite Es.
    destruct r as [[q' ms']|]; [destruct (scan q' ms' (S n) lines)|]; eexists; reflexivity.
  - inversion Q as [|? ? Q1 Q2]; inversion N as [|? ? N1 N2]; subst. destruct (step_quiet ms (S n) x lines G Hx Q1 N1) as [a Es].
    rewrite (scan_act _ _ _ _ _ _ _ _ _ Es). cbn [fst]. destruct (IH (S n) pre h rest name e G Hl' En Q2 N2 L D E) as [als [evs Es']]. rewrite Es'. exists (a :: als), evs. reflexivity.
Qed.
Lemma raw_until als e evs : forall b es r b', ab_stack b <> [] -> raw_evs ast_builder (map (fun a => EvAct a [ABuild]) als ++ EvErr e :: evs) b = (es, r, b') -> exists es', es = e :: es'.
Proof.
  induction als as [|a als IH]; intros b es r b' Hb H; cbn [map app raw_evs] in H.
  - destruct (raw_evs ast_builder evs b) as [[es1 r1] b1]. injection H as <- _ _. eauto.
  - cbn [raw_acts bact bd_build ast_builder] in H. unfold ab_build in H. destruct (ab_stack b) as [|nd st] eqn:Eb; [contradiction|].
    destruct (t_mtype (lf_t a)) as [[]|]; cbn [app] in H;
      (match type of H with context [raw_evs _ _ ?b0] => destruct (raw_evs ast_builder (map (fun a => EvAct a [ABuild]) als ++ EvErr e :: evs) b0) as [[es1 r1] b1] eqn:R end;
       injection H as <- _ _; eapply IH; [|exact R]; cbn; rewrite ?Eb; discriminate).
Qed.
Lemma feed_keeps es : forall errs full errs', feed es errs = (full, errs') -> exists more, errs' = errs ++ more.
Proof.
  induction es as [|e es IH]; intros errs full errs' H; cbn [feed] in H.
  - injection H as _ <-. exists []. now rewrite app_nil_r.
  - destruct (existsb _ errs); [eauto|]. destruct (Nat.ltb 10 _).
    + injection H as _ <-. eauto.
    + apply IH in H as [more ->]. exists (settled e :: more). now rewrite <- app_assoc.
Qed.

(** the report of an unsupported language on line [h] *)
Definition language_error (h : nline) (name : str) : perr :=
  mkPErr KNoSuchLanguage (s "(" ++ str_of_nat (fst h) ++ s ":" ++ str_of_nat (indent_of (snd h) + 1) ++ s "): Language not supported: " ++ name) (here h).
(** the same, as it stands in a collected list: the column of its location is 1 (see C60) *)
Definition collected_language_error (h : nline) (name : str) : perr :=
  mkPErr KNoSuchLanguage (pe_msg (language_error h name)) (mkLoc (fst h) (Some 1)).
(** C16.  The first line that is not blank and not an ordinary comment names an unsupported language:
    that is the (first) error reported, unless a line that crashes the scanner follows. *)
Theorem C16_unsupported : forall stop lang text pre h rest cs0 name, supported lang ->
  numbered_lines (split_lines text) = pre ++ h :: rest -> preamble pre cs0 -> language_line (snd h) name -> ~ supported name ->
  match parse_with stop false lang text with
  | Err (EParser e) => stop = true /\ e = language_error h name
  | Err (EComposite es) => stop = false /\ exists es', es = collected_language_error h name :: es'
  | Err EAttributeError => stop = false /\ exists x, In x (map snd rest) /\ bad_tags x
  | Err ERuntimeError => stop = false /\ exists x, In x (map snd rest) /\ bad_row x
  | _ => False
  end.
Proof.
  intros stop lang text pre h rest cs0 name S En [P1 P2] L NS.
  assert (D : for_name name = None) by (destruct (for_name name) as [d|] eqn:X; [destruct NS; now exists d | reflexivity]).
  pose proof (C01_defined_outcome stop lang text S) as C1.
  destruct (fresh_matcher lang S) as [ms [E1 [E2 [E3 [E4 _]]]]]. pose proof (split_lines_nonempty text) as Hl.
  destruct (run_doc ms (split_lines text) 0 E3 E4 Hl) as [es [b' [R [_ Le]]]].
  assert (He : no_such_language name (here h) = EParser (language_error h name)) by (unfold no_such_language, mk_perr, language_error, here; cbn [l_line l_col]; now rewrite <- ?app_assoc).
  destruct (scan_until ms (split_lines text) 0 pre h rest name _ (matcher_good _ E3) Hl En (noise_quiet _ _ P1) P2 L D He) as [als [evs Ev]].
  assert (Q : exists es', es = language_error h name :: es').
  { unfold doc_evs in R. rewrite Ev in R. cbn [raw_evs no_leaf lf_t] in R. cbn [raw_acts bact bd_start ast_builder ab_start_rule app] in R. rewrite <- app_assoc in R. cbn [app] in R.
    match type of R with context [raw_evs _ ?e0 ?b0] => destruct (raw_evs ast_builder e0 b0) as [[es1 r1] b1] eqn:R1 end. injection R as <- _ _. eapply raw_until; [|exact R1]. discriminate. }
  destruct Q as [es' ->].
  pose proof (parse_b_outcome ast_builder ast_no_composite stop (ab_reset 0) ms ms _ _ (Ok tt) b' E2 (matcher_good _ E3) Hl R) as [O1 _]. cbv zeta in O1.
  unfold parse_with in *. rewrite E1 in *. cbn [rbind] in *. unfold parse_lines in *. destruct (parse_b ast_builder stop (ab_reset 0) ms (split_lines text)) as [rr c]. cbn [fst snd] in *. subst rr.
  unfold outcome in *. destruct stop; [cbn; auto|].
  destruct (feed (language_error h name :: es') []) as [full errs] eqn:Fe. assert (Fe' := Fe). cbn [feed existsb app length Nat.ltb Nat.leb] in Fe'. apply feed_keeps in Fe' as [more ->].
  destruct full; [cbn; eauto|]. cbn [app] in *. destruct (snd (scan 0 ms 0 (split_lines text))) as [u|x]; [cbn; eauto|]. cbn [rbind] in *.
  assert (Hx : x = EAttributeError \/ x = ERuntimeError) by (destruct Le as [y [_ Le]]; apply raise_at_spec in Le as [[-> _]|[-> _]]; auto).
  assert (In' : forall y, In y (split_lines text) -> (startswith [ch_at] (lstrip y) = true \/ startswith [ch_pipe] (lstrip y) = true) -> In y (map snd rest)).
  { assert (Em : split_lines text = map snd pre ++ snd h :: map snd rest).
    { transitivity (map snd (numbered_lines (split_lines text))); [|rewrite En, map_app; reflexivity]. unfold numbered_lines. generalize 1. generalize (split_lines text). clear. induction l as [|a l IH]; intros n; [reflexivity|]. cbn. f_equal. apply IH. }
    assert (Nq : forall l, quiet l -> ~ (startswith [ch_at] (lstrip (snd l)) = true \/ startswith [ch_pipe] (lstrip (snd l)) = true)).
    { clear. intros [n x] [B|B]; unfold blank_line, comment_line, begins in B; cbn [snd] in *.
      - apply blank_spec in B. rewrite B. intros [H|H]; discriminate H.
      - destruct (lstrip x) as [|c y]; [discriminate B|]. cbn [startswith] in *. apply andb_true_iff in B as [B _]. apply N.eqb_eq in B. subst c. intros [H|H]; discriminate H. }
    intros y Hy Hc. rewrite Em in Hy. apply in_app_or in Hy as [Hy|[<-|Hy]]; [| |exact Hy]; exfalso.
    - apply in_map_iff in Hy as [l [<- Hy]]. apply noise_quiet in P1. rewrite Forall_forall in P1. exact (Nq l (P1 l Hy) Hc).
    - exact (Nq h (or_intror (language_hash _ _ L)) Hc). }
  destruct Hx as [-> | ->]; destruct C1 as [x [X1 X2]]; (split; [reflexivity|]); exists x; (split; [|exact X2]); apply In'; auto; destruct X2; auto.
Qed.
Print Assumptions C16_unsupported.
Example C16_case : exists pre h rest cs0 es, numbered_lines (split_lines (text_of_lines [s ""; s "# language: xx"; s "Feature: f"; s "Given:"; s "Rule"])) = pre ++ h :: rest /\ preamble pre cs0 /\
  language_line (snd h) (s "xx") /\ ~ supported (s "xx") /\ fst h = 2 /\
  parse (text_of_lines [s ""; s "# language: xx"; s "Feature: f"; s "Given:"; s "Rule"]) = Err (EComposite (collected_language_error h (s "xx") :: es)).
Proof.
  exists [(1, s "" ++ [ch_nl])], (2, s "# language: xx" ++ [ch_nl]). do 3 eexists. split; [vm_compute; reflexivity|]. split; [|split; [|split; [|split; [reflexivity | vm_compute; reflexivity]]]].
  - split; [apply nz_blank; [reflexivity | constructor]|]. repeat constructor. intros name. now apply blank_not_lang.
  - exists [], (s " "), [], (s " "), [ch_nl]. repeat split. discriminate.
  - intros [d H]. vm_compute in H. discriminate H.
Qed.
