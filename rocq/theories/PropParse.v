(** * Parsing: C01, C02, C03, C06, C10, C17, C18 *)
From Verif Require Import PyStr PyStrFacts Types Regex Line DialectData Matcher Ast ParserTable Parser Classify Table Scan Grammar Deriv Cert LineSpec TagIff RowIff PropLine Cst Report Eval IdSpec Rel Ids.

(** ** Specification *)

Definition supported (lang : str) : Prop := exists d, for_name lang = Some d.
(** a line with a tag that contains white space *)
Definition bad_tags (x : str) : Prop := startswith [ch_at] (lstrip x) = true /\ ~ exists items, tags_line x items.
(** a table row that ends in an unpaired backslash *)
Definition bad_row (x : str) : Prop := startswith [ch_pipe] (lstrip x) = true /\ unpaired (strip x) = true.
(** the lines of a text, numbered from 1, and the end of the file *)
Fixpoint numbered (n : nat) (lines : list str) : list gline :=
  match lines with [] => [mkLine [] n] | x :: rest => mkLine x n :: numbered (S n) rest end.

(** ** The matcher at the start *)
Lemma fresh_matcher lang : supported lang -> exists ms, new_matcher false lang = Ok ms /\ ms_reset ms = Ok ms /\
  matcher_ok ms /\ ms_sep ms = None /\ minv false lang ms.
Proof.
  intros [d Hd]. unfold new_matcher. rewrite Hd. unfold ms_reset. cbn.
  assert (R : str_eqb lang lang = true) by now apply str_eqb_spec. rewrite R. cbn. eexists. split; [reflexivity|]. cbn. rewrite R. cbn.
  split; [reflexivity|]. split; [|split; [reflexivity|]; repeat split; cbn; auto]. constructor; cbn; auto. split; cbn; auto.
Qed.
Lemma parse_with_outcome stop lang text : supported lang -> exists ms0 c, new_matcher false lang = Ok ms0 /\
  parse_outcome stop 0 ms0 (split_lines text) (parse_with stop false lang text, c).
Proof.
  intros H. destruct (fresh_matcher lang H) as [ms [E1 [E2 [E3 [E4 _]]]]].
  pose proof (parse_lines_outcome stop 0 ms ms (split_lines text) E2 E3 E4 (split_lines_nonempty text)) as P.
  exists ms. unfold parse_with. rewrite E1. cbn [rbind]. destruct (parse_lines stop 0 ms (split_lines text)) as [r c]. exists c. split; [reflexivity | exact P].
Qed.
Lemma raise_at_spec x e : raise_at x e <-> (e = EAttributeError /\ bad_tags x) \/ (e = ERuntimeError /\ bad_row x).
Proof.
  unfold raise_at, bad_tags, bad_row. split.
  - intros [[-> [H1 H2]]|[-> [H1 H2]]]; [left | right]; (split; [reflexivity|]); (split; [exact H1|]).
    + now apply (g_tags_err x 0) in H2 as [_ H2].
    + now apply (table_cells_err x 0) in H2 as [_ H2].
  - intros [[-> [H1 H2]]|[-> [H1 H2]]]; [left | right]; (split; [reflexivity|]); (split; [exact H1|]).
    + apply (g_tags_err x 0); auto.
    + apply (table_cells_err x 0); auto.
Qed.

(** C01.  For every text and every supported language, in both modes, parse terminates (it never runs
    out of the fuel that bounds the model's loop) with one of these outcomes. *)
Theorem C01_defined_outcome : forall stop lang text, supported lang ->
  match parse_with stop false lang text with
  | Ok d => True
  | Err (EComposite es) => stop = false
  | Err (EParser e) => stop = true
  | Err EAttributeError => exists x, In x (split_lines text) /\ bad_tags x
  | Err ERuntimeError => exists x, In x (split_lines text) /\ bad_row x
  | Err _ => False
  end.
Proof.
  intros stop lang text H. destruct (parse_with_outcome stop lang text H) as [ms0 [c [_ P]]].
  inversion P as [| | |e ? L]; subst; auto.
  destruct L as [x [L1 L2]]. apply raise_at_spec in L2 as [[-> L2]|[-> L2]]; eauto.
Qed.
Print Assumptions C01_defined_outcome.
(* all four outcomes occur *)
Example C01_cases :
  supported (s "en") /\
  (exists d, parse (text_of_lines [s "Feature: f"]) = Ok d) /\
  (exists es, parse (text_of_lines [s "Oops"]) = Err (EComposite es)) /\
  (exists e, parse_with true false (s "en") (text_of_lines [s "Oops"]) = Err (EParser e)) /\
  parse (text_of_lines [s "@two words"; s "Feature: f"]) = Err EAttributeError.
Proof. split; [eexists; vm_compute; reflexivity|]. repeat split; try (eexists; vm_compute; reflexivity). Qed.

(** C10.  Exactly which lines the scanner rejects, and with what. *)
Theorem C10_tag_lines : forall ms x n e, ms_md ms = false ->
  (fst (recognise TkTagLine ms x n) = Err e <-> e = EAttributeError /\ bad_tags x).
Proof.
  intros ms x n e Hm. unfold recognise, do_match. rewrite Hm. cbn [classic_match]. unfold c_match_TagLine, bad_tags, g_startswith, g_trimmed. cbn [t_line new_token g_text].
  destruct (startswith [ch_at] (lstrip x)) eqn:E; cbn [negb].
  - pose proof (g_tags_err x n e E) as G. destruct (g_tags (mkLine x n)) eqn:F; cbn [fst].
    + split; [discriminate|]. intros [-> [_ H]]. now rewrite (proj2 (g_tags_err x n EAttributeError E) (conj eq_refl H)) in F.
    + split; [intros H; injection H as ->; destruct (proj1 G eq_refl); auto|]. intros [-> [_ H]]. f_equal. now apply (g_tags_err x n e0 E) in F.
  - split; [discriminate|]. intros [_ [H _]]. discriminate.
Qed.
Print Assumptions C10_tag_lines.
Theorem C10_table_rows : forall ms x n e, ms_md ms = false ->
  (fst (recognise TkTableRow ms x n) = Err e <-> e = ERuntimeError /\ bad_row x).
Proof.
  intros ms x n e Hm. unfold recognise, do_match. rewrite Hm. cbn [classic_match]. unfold c_match_TableRow, bad_row, g_startswith, g_trimmed. cbn [t_line new_token g_text].
  destruct (startswith [ch_pipe] (lstrip x)) eqn:E; cbn [negb].
  - pose proof (table_cells_err x n e E) as G. destruct (table_cells (mkLine x n)) eqn:F; cbn [fst].
    + split; [discriminate|]. intros [-> [_ H]]. rewrite (proj2 (table_cells_err x n ERuntimeError E) (conj eq_refl H)) in F. discriminate.
    + split; [intros H; injection H as ->; destruct (proj1 G eq_refl); auto|]. intros [-> [_ H]]. f_equal. now apply (table_cells_err x n e0 E) in F.
  - split; [discriminate|]. intros [_ [H _]]. discriminate.
Qed.
Print Assumptions C10_table_rows.
(** conversely, every other line that begins with @ or | is read as tags or cells, exactly as specified *)
Theorem C10_well_formed_lines_partial : forall ms x n items, ms_md ms = false ->
  (tags_line x items <-> exists t, recognise TkTagLine ms x n = (Ok true, t) /\ t_items t = items) /\
  (row_line x items <-> exists t, recognise TkTableRow ms x n = (Ok true, t) /\ t_items t = items).
Proof.
  intros ms x n items Hm. unfold recognise, do_match. rewrite Hm. cbn [classic_match]. unfold c_match_TagLine, c_match_TableRow, g_startswith, g_trimmed. cbn [t_line new_token g_text]. split.
  - rewrite <- (g_tags_iff x n). split.
    + intros [H1 H2]. rewrite H1. cbn [negb]. rewrite H2. eexists. split; reflexivity.
    + intros [t [H1 H2]]. destruct (startswith [ch_at] (lstrip x)); [|discriminate H1]. cbn [negb] in H1.
      destruct (g_tags (mkLine x n)) eqn:F; [|discriminate H1]. injection H1 as <-. cbn in H2. subst. auto.
  - rewrite <- (table_cells_iff x n). split.
    + intros [H1 H2]. rewrite H1. cbn [negb]. rewrite H2. eexists. split; reflexivity.
    + intros [t [H1 H2]]. destruct (startswith [ch_pipe] (lstrip x)); [|discriminate H1]. cbn [negb] in H1.
      destruct (table_cells (mkLine x n)) eqn:F; [|discriminate H1]. injection H1 as <-. cbn in H2. subst. auto.
Qed.
Print Assumptions C10_well_formed_lines_partial.
Example C10_bad_lines : bad_row (s " |a|\ ") /\ bad_tags (s "@a b").
Proof.
  split; [split; reflexivity|]. split; [reflexivity|]. intros [items H]. apply (g_tags_iff _ 0) in H as [_ H]. vm_compute in H. discriminate.
Qed.

(** C17.  Every error is at a line of the text, with a column, or, without a column, at the end. *)
Definition error_place (text : str) (l : location) : Prop :=
  1 <= l_line l <= length (split_lines text) + 1 /\ (l_line l <= length (split_lines text) -> exists c, l_col l = Some c).
Theorem C17_error_reports : forall lang text es, supported lang ->
  parse_with false false lang text = Err (EComposite es) ->
  1 <= length es <= 11 /\ NoDup (map pe_msg es) /\
  Forall (fun e => error_place text (pe_loc e)) es.
Proof.
  intros lang text es H E. destruct (parse_with_outcome false lang text H) as [ms0 [c [_ P]]]. rewrite E in P.
  inversion P as [|? ? ? H1 H2 H3| |e ? L]; subst; auto.
  destruct L as [x [_ L]]. apply raise_at_spec in L as [[L _]|[L _]]; discriminate.
Qed.
Print Assumptions C17_error_reports.
Theorem C17_first_error_located : forall lang text e, supported lang ->
  parse_with true false lang text = Err (EParser e) -> error_place text (pe_loc e).
Proof.
  intros lang text e H E. destruct (parse_with_outcome true lang text H) as [ms0 [c [_ P]]]. rewrite E in P.
  inversion P as [| |? ? H1 H2|e' ? L]; subst; auto.
  destruct L as [x [_ L]]. apply raise_at_spec in L as [[L _]|[L _]]; discriminate.
Qed.
Print Assumptions C17_first_error_located.
(* the bound is reached: eleven errors from a text with twelve bad lines *)
Example C17_case : exists es, parse (text_of_lines (map (fun n => str_of_nat n) (seq 1 12))) = Err (EComposite es) /\ length es = 11.
Proof. eexists. vm_compute. auto. Qed.

(** C03. *)
(** leaving out symbols, in the grammar and in a word *)
Definition cat' (a b : gx) : gx := match a, b with GEps, b' => b' | a', GEps => a' | a', b' => GCat a' b' end.
Definition alt' (a b : gx) : gx := match a, b with GEps, GEps => GEps | a', b' => GAlt a' b' end.
Definition star' (a : gx) : gx := match a with GEps => GEps | GAlt b GEps => GStar b | a' => GStar a' end.
Fixpoint drop (p : sym -> bool) (g : gx) : gx :=
  match g with
  | GSym x => if p x then GEps else g
  | GCat a b => cat' (drop p a) (drop p b)
  | GAlt a b => alt' (drop p a) (drop p b)
  | GStar a => star' (drop p a)
  | _ => g
  end.
Lemma eps_only w : matches GEps w -> w = [].
Proof. now inversion 1. Qed.
Lemma star_inv a w : matches (GStar a) w -> exists l, w = concat l /\ Forall (matches a) l.
Proof.
  intros H. remember (GStar a) as g eqn:E. induction H; try discriminate; injection E as ->.
  - exists []. split; [reflexivity | constructor].
  - destruct (IHmatches2 eq_refl) as [l [-> Hl]]. exists (u :: l). split; [reflexivity | now constructor].
Qed.
Lemma star_intro a l : Forall (matches a) l -> matches (GStar a) (concat l).
Proof. induction 1; [constructor | cbn; now constructor]. Qed.
Lemma star_alt b l : Forall (matches (GAlt b GEps)) l -> matches (GStar b) (concat l).
Proof.
  induction 1 as [|w l H Hl IH]; [constructor|]. cbn. inversion H; subst; [now constructor|]. match goal with Hx : matches GEps _ |- _ => apply eps_only in Hx as -> end. exact IH.
Qed.
Lemma star_drop a' l : Forall (matches a') l -> matches (star' a') (concat l).
Proof.
  intros H. assert (D : matches (GStar a') (concat l)) by now apply star_intro.
  destruct a' as [| | | | b c|]; try exact D.
  - clear D. cbn. induction H as [|w l Hw Hl IH]; [constructor|]. apply eps_only in Hw as ->. exact IH.
  - destruct c; try exact D. now apply star_alt.
Qed.
Lemma cat_drop a' b' u v : matches a' u -> matches b' v -> matches (cat' a' b') (u ++ v).
Proof.
  intros H1 H2. assert (D : matches (GCat a' b') (u ++ v)) by now constructor.
  destruct a'; try (apply eps_only in H1 as ->; exact H2); destruct b'; try exact D; apply eps_only in H2 as ->; rewrite app_nil_r; exact H1.
Qed.
Lemma alt_drop a' b' u : matches (GAlt a' b') u -> matches (alt' a' b') u.
Proof. intros D. destruct a'; try exact D. destruct b'; try exact D. inversion D; subst; assumption. Qed.
Lemma filter_concat {A} (p : A -> bool) l : filter p (concat l) = concat (map (filter p) l).
Proof. induction l as [|x l IH]; [reflexivity|]. cbn. now rewrite filter_app, IH. Qed.
Lemma drop_ok p g : forall w, matches g w -> matches (drop p g) (filter (fun x => negb (p x)) w).
Proof.
  induction g as [| |x|a IHa b IHb|a IHa b IHb|a IHa]; intros w H.
  - inversion H.
  - apply eps_only in H as ->. constructor.
  - inversion H; subst. cbn. destruct (p x); cbn; constructor.
  - inversion H; subst. rewrite filter_app. cbn [drop]. apply cat_drop; auto.
  - cbn [drop]. apply alt_drop. inversion H; subst; [apply m_altl | apply m_altr]; auto.
  - apply star_inv in H as [l [-> Hl]]. rewrite filter_concat. cbn [drop]. apply star_drop. apply Forall_map. eapply Forall_impl; [|exact Hl]. auto.
Qed.
Definition all_rules : list rule := [RNone; RGherkinDocument; RFeature; RFeatureHeader; RRule; RRuleHeader; RBackground; RScenarioDefinition;
  RScenario; RExamplesDefinition; RExamples; RExamplesTable; RStep; RDataTable; RDocString; RTags; RDescription].
Lemma prod_published r w : matches (prod r) w -> matches (published r) (filter (fun x => negb (ignored x)) w).
Proof.
  intros H. apply (drop_ok ignored) in H.
  assert (C : forallb (fun r => gx_eqb (drop ignored (prod r)) (published r)) all_rules = true) by (vm_compute; reflexivity).
  rewrite forallb_forall in C. assert (I : In r all_rules) by (destruct r; cbn; tauto). specialize (C r I). apply gx_eqb_spec in C. now rewrite <- C.
Qed.
Lemma conforms_map p t : ok_tree p t -> wf_published lkind t.
Proof.
  revert p. induction t as [a|r l IH] using tree_ind'; intros p H; [constructor|]. inversion H as [|? ? H1 H2 H3]; subst. constructor; [now apply prod_published|].
  rewrite Forall_forall in *. intros t Ht. eapply IH; eauto.
Qed.
Lemma lchain_numbered ms n lines ls : lchain ms n lines ls -> map (fun a => t_line (lf_t a)) ls = numbered (S n) lines.
Proof.
  induction 1 as [ms n t ms' H|ms n x rest t ms' k ls Hx H Hc IH]; cbn; apply lexm_line in H as [-> _]; [reflexivity | now rewrite IH].
Qed.
Lemma yield_map {A B} (f : A -> B) (t : tree A) : yield (tree_map f t) = map f (yield t).
Proof.
  induction t as [a|r l IH] using tree_ind'; [reflexivity|]. cbn. induction IH as [|t l Ht Hl IHl]; [reflexivity|]. cbn. now rewrite map_app, Ht, IHl.
Qed.
Lemma syms_map {A B} (k : B -> tok) (f : A -> B) (l : list (tree A)) : syms k (map (tree_map f) l) = syms (fun a => k (f a)) l.
Proof. unfold syms. rewrite map_map. apply map_ext. now intros []. Qed.
Lemma published_map {A B} (k : B -> tok) (f : A -> B) (t : tree A) : wf_published (fun a => k (f a)) t -> wf_published k (tree_map f t).
Proof.
  induction t as [a|r l IH] using tree_ind'; intros H; [constructor|]. inversion H as [|? ? H1 H2]; subst. constructor; [now rewrite syms_map|].
  apply Forall_map. rewrite Forall_forall in *. intros t Ht. now apply IH, H2.
Qed.

(** The document an accepted text has: there is a syntax tree of tokens for the published grammar
    whose leaves are the lines of the text, in order, with the end of the file; its document is the
    one returned. *)
Definition tree_document (t : tree token) (d : gdoc) : Prop :=
  exists l, t = Node RGherkinDocument (map (tree_map lf_t) l) /\ doc_of 0 l d (snd (evals l 0)).
Theorem C03_follows_the_grammar : forall stop lang text d, supported lang ->
  parse_with stop false lang text = Ok d ->
  exists t : tree token,
    wf_published tok_kind t /\
     map t_line (yield t) = numbered 1 (split_lines text) /\
     tree_document t d.
Proof.
  intros stop lang text d H E. destruct (parse_with_outcome stop lang text H) as [ms0 [c [_ P]]]. rewrite E in P.
  inversion P as [l d' ids' ? [T Ch] D I| | |]; subst.
  exists (tree_map lf_t (Node RGherkinDocument l)). split; [|split].
  - apply (published_map tok_kind lf_t). eapply conforms_map; eauto.
  - rewrite yield_map, map_map. cbn [yield]. apply lchain_numbered in Ch. exact Ch.
  - exists l. split; [reflexivity|]. destruct D as [subs [D1 D2]]. exists subs. split; [|exact D2]. now rewrite D1.
Qed.
Print Assumptions C03_follows_the_grammar.

(** C06 and C18: one Parser and one TokenMatcher used for a list of texts *)
Fixpoint session (stop : bool) (ids : nat) (ms : mstate) (texts : list str) : list (result gdoc) :=
  match texts with
  | [] => []
  | x :: rest => let (r, c) := parse_lines stop ids ms (split_lines x) in r :: session stop (ab_ids (c_b c)) (c_ms c) rest
  end.
Definition run_session (stop md : bool) (lang : str) (texts : list str) : result (list (result gdoc)) :=
  rbind (new_matcher md lang) (fun ms => Ok (session stop 0 ms texts)).
Definition shift_result (k : nat) (r : result gdoc) : result gdoc := match r with Ok d => Ok (sh_doc k d) | Err e => Err e end.

Lemma parse_same_reset stop ids ms ms' m0 lines : ms_reset ms = Ok m0 -> ms_reset ms' = Ok m0 -> parse_lines stop ids ms lines = parse_lines stop ids ms' lines.
Proof. intros H1 H2. unfold parse_lines, parse_b. now rewrite H1, H2. Qed.
Lemma fresh_reset md lang : supported lang -> exists ms, new_matcher md lang = Ok ms /\ ms_reset ms = Ok ms /\ minv md lang ms.
Proof.
  intros [d Hd]. unfold new_matcher. rewrite Hd. unfold ms_reset. cbn.
  assert (R : str_eqb lang lang = true) by now apply str_eqb_spec. rewrite R. cbn. eexists. split; [reflexivity|]. cbn. rewrite R. cbn.
  split; [reflexivity|]. repeat split; cbn; auto.
Qed.
Lemma session_spec stop md lang texts : supported lang -> forall ids ms, minv md lang ms ->
  exists ks, length ks = length texts /\
     session stop ids ms texts = map (fun p => shift_result (fst p) (parse_with stop md lang (snd p))) (combine ks texts).
Proof.
  intros H. destruct (fresh_reset md lang H) as [m0 [E1 [E2 E3]]]. induction texts as [|x texts IH]; intros ids ms J; [exists []; auto|].
  cbn [session]. assert (R : ms_reset ms = Ok m0) by (rewrite (reset_fresh md lang ms J), E1; exact E2).
  pose proof (parse_b_minv ast_builder md lang stop (ab_reset ids) ms (split_lines x) J) as J'.
  assert (Jc : minv md lang (c_ms (snd (parse_lines stop ids ms (split_lines x))))).
  { unfold parse_lines. destruct (parse_b ast_builder stop (ab_reset ids) ms (split_lines x)). exact J'. }
  assert (P : fst (parse_lines stop ids ms (split_lines x)) = shift_result ids (parse_with stop md lang x)).
  { rewrite (parse_same_reset stop ids ms m0 m0 _ R E2). unfold parse_with. rewrite E1. cbn [rbind]. exact (proj1 (parse_shift ids stop 0 m0 (split_lines x))). }
  destruct (parse_lines stop ids ms (split_lines x)) as [r c]. cbn [fst snd] in *. destruct (IH (ab_ids (c_b c)) (c_ms c) Jc) as [ks [K1 K2]].
  exists (ids :: ks). split; [cbn; congruence|]. cbn. now rewrite P, K2.
Qed.
(** C18.  Whatever was parsed before (successfully or not, with the classic or the Markdown matcher), the
    result for each text is that of a new parser with a new matcher, except that a number is added to
    all identifiers. *)
Theorem C18_reuse : forall stop md lang texts, supported lang ->
  exists rs ks, run_session stop md lang texts = Ok rs /\ length ks = length texts /\
     rs = map (fun p => shift_result (fst p) (parse_with stop md lang (snd p))) (combine ks texts).
Proof.
  intros stop md lang texts H. destruct (fresh_reset md lang H) as [m0 [E1 [E2 E3]]]. unfold run_session. rewrite E1. cbn [rbind].
  destruct (session_spec stop md lang texts H 0 m0 E3) as [ks [K1 K2]]. exists (session stop 0 m0 texts), ks. auto.
Qed.
Print Assumptions C18_reuse.
(* a text in another language, a text that fails in a doc string, and a text in the default language *)
Example C18_case : exists d1 es d2, run_session false false (s "en")
  [text_of_lines [s "# language: de"; s "Funktion: f"; s "Szenario: a"]; text_of_lines [s "Feature: f"; s "Scenario: a"; s "Given x"; s "``` y"];
   text_of_lines [s "Feature: f"; s "Scenario: a"]] = Ok [Ok d1; Err (EComposite es); Ok d2] /\ doc_ids d1 = [0] /\ doc_ids d2 = [1].
Proof. vm_compute. eauto 10. Qed.

(** C06: the theorem for a whole session is in PropMdParse.v *)
(** the identifier strings are different, too: stream/id_generator.py:7 returns [str(n)] *)
Theorem C06_id_strings : forall a b, str_of_nat a = str_of_nat b -> a = b.
Proof. exact str_of_nat_inj. Qed.
Print Assumptions C06_id_strings.
(** C02. *)
Definition ev_errs (evs : list ev) : list perr := flat_map (fun e => match e with EvErr e => [e] | EvAct _ _ => [] end) evs.
Lemma fmt_acts t acts b : raw_acts fmt_builder t acts b = ([], Ok tt, b ++ map (fun _ => t) (builds acts)).
Proof.
  revert b. induction acts as [|a acts IH]; intros b; cbn [raw_acts]; [cbn; now rewrite app_nil_r|].
  destruct a; cbn [bact fmt_builder bd_start bd_end bd_build builds filter act_eqb map]; rewrite IH; try reflexivity. cbn. now rewrite <- app_assoc.
Qed.
Lemma fmt_evs evs : (forall e, In e evs -> exists n, ev_at n e) -> forall b, raw_evs fmt_builder evs b = (ev_errs evs, Ok tt, b ++ map lf_t (ev_leaves evs)).
Proof.
  induction evs as [|[e|a acts] evs IH]; intros H b; cbn [raw_evs]; [cbn; now rewrite app_nil_r| |].
  - rewrite IH by (intros; apply H; now right). reflexivity.
  - rewrite fmt_acts, IH by (intros; apply H; now right). destruct (H _ (or_introl eq_refl)) as [n [_ [_ Bd]]]. rewrite Bd. cbn. now rewrite <- app_assoc.
Qed.
Lemma fmt_no_composite : no_composite fmt_builder.
Proof. intros t a b es. destruct a; discriminate. Qed.
(** When the parser accepts a text, the tokens it hands to its builder are exactly the lines of the
    text, each once, in order, numbered from 1, and the end of the file. *)
Theorem C02_every_line_once : forall stop lang text out, supported lang ->
  parse_tokens stop false lang text = Ok out ->
  exists ts : list token, out = join [ch_nl] (map format_token ts) /\ map t_line ts = numbered 1 (split_lines text) /\
     Forall (fun t => exists k, t_mtype t = Some k) ts.
Proof.
  intros stop lang text out H E. destruct (fresh_matcher lang H) as [m0 [E1 [E2 [E3 [E4 E5]]]]]. unfold parse_tokens in E. rewrite E1 in E. cbn [rbind] in E.
  set (lines := split_lines text) in *.
  destruct (scan 0 m0 0 lines) as [evs r] eqn:Es.
  assert (Inv : st_inv 0 m0 [(RGherkinDocument, [])]).
  { exists [(RGherkinDocument, prod RGherkinDocument)]. split; [reflexivity|]. split.
    - cbn [sinv]. split; [reflexivity|]. split; [reflexivity|]. split; [apply leaves_ok_nil|]. split; [constructor | exact I].
    - split; [exact E3|]. rewrite E4. split; reflexivity. }
  destruct (scan_sound lines 0 m0 0 _ evs r (split_lines_nonempty text) ltac:(discriminate) Inv Es) as [Lo [cs' [q' [ms' [Run [_ Fin]]]]]].
  assert (RE : raw_evs fmt_builder (doc_evs (scan 0 m0 0 lines)) [] = (ev_errs evs, Ok tt, map lf_t (ev_leaves evs))).
  { rewrite Es. unfold doc_evs. cbn [fst snd raw_evs raw_acts bact fmt_builder bd_start]. rewrite raw_evs_app.
    rewrite fmt_evs by (intros e He; rewrite Forall_forall in Lo; destruct (Lo e He) as [m [_ M]]; eauto).
    destruct r; cbn; now rewrite ?app_nil_r. }
  destruct (parse_b_outcome fmt_builder fmt_no_composite stop [] m0 m0 lines _ _ _ E2 (matcher_good _ E3) (split_lines_nonempty text) RE) as [O1 O2].
  rewrite Es in O1. cbn [snd] in O1. cbv zeta in O1.
  destruct (parse_b fmt_builder stop [] m0 lines) as [res c]. cbn [fst snd] in *. destruct res; [|discriminate E]. injection E as <-.
  assert (Z : ev_errs evs = [] /\ r = Ok tt).
  { unfold outcome in O1. destruct stop; [destruct (ev_errs evs); [destruct r as [[]|]; [auto | discriminate] | discriminate]|].
    destruct (feed (ev_errs evs) []) as [[] errs] eqn:F; [discriminate|].
    destruct errs; [|destruct r; discriminate O1]. split; [|destruct r as [[]|]; [reflexivity | discriminate]].
    destruct (feed_inv (fun _ => True) (fun _ x => x) _ _ _ _ F) as [_ [_ [_ [_ [A _]]]]]; [constructor | cbn; lia | constructor | apply Forall_forall; auto | auto]. }
  destruct Z as [Z ->]. rewrite (O2 Z) in *. exists (map lf_t (ev_leaves evs)). split; [reflexivity|].
  destruct Fin as [[e Fin]|[_ Ch]].
  { exfalso. assert (In e (ev_errs evs)) by (apply in_flat_map; exists (EvErr e); split; [exact Fin | now left]). rewrite Z in *. contradiction. }
  rewrite map_map. split; [apply lchain_numbered in Ch; exact Ch|]. clear -Ch. apply Forall_map.
  induction Ch as [ms n t ms' L|ms n x rest t ms' k ls Hx L Hc IH]; [repeat constructor; cbn|constructor; [cbn | exact IH]]; eexists; eapply lexm_kind; eauto.
Qed.
Print Assumptions C02_every_line_once.
(* the lookahead at the second tag line crosses a blank line and a comment *)
Example C02_case : match parse_tokens false false (s "en") (text_of_lines
    [s "Feature: f"; s " Scenario: a"; s "  Given x"; s " @t1"; s ""; s " # c"; s " @t2"; s " Scenario: b"]) with
  | Ok out => out = join [ch_nl] [s "(1:1)FeatureLine:()Feature/f/"; s "(2:2)ScenarioLine:()Scenario/a/"; s "(3:3)StepLine:(Context)Given /x/";
      s "(4:2)TagLine://2:@t1"; s "(5:1)Empty://"; s "(6:1)Comment:/ # c/"; s "(7:2)TagLine://2:@t2"; s "(8:2)ScenarioLine:()Scenario/b/"; s "EOF"]
  | Err _ => False end.
Proof. vm_compute. reflexivity. Qed.
