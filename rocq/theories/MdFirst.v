(** * The beginning of a Markdown text *)
From Verif Require Import PyStr PyStrFacts Types Regex Line DialectData Matcher Ast ParserTable Parser Classify Table Scan Grammar Deriv Cert LineSpec StepFacts Cst Report Eval Ids IdSpec PickleSpec WfDoc MdSpec MdFacts MdRun AnyRun WeakTree WeakEval AstRun MdTree RowIff PropParse PropMdParse EolMd MdTags.

(** ** The builder, with the leaves it has seen *)
Section Seen.
Context (ids : nat) (F : token -> Prop) (Lq : location -> Prop) (X : exn -> Prop).
Context (H_place : forall t, F t -> Lq (t_location t)).
Definition seen_as (Y : list leaf) (q : nat) (b : astb) (es : list perr) : Prop :=
  exists cs fr, cert q = Some fr /\ winv F [] fr cs /\ image ids cs b es /\ Forall (rowP (fun p => Lq (pe_loc p))) (cyield cs) /\ cyield cs = Y.
Lemma wsteps_yield a acts cs cs' : wsteps F a acts cs cs' -> cyield cs' = cyield cs ++ map (fun _ => a) (builds acts).
Proof.
  induction 1 as [|x xs c1 c2 c3 H1 H2 IH]; [cbn; now rewrite app_nil_r|].
  rewrite IH. destruct H1; cbn [builds filter act_eqb map].
  - rewrite cyield_cons. cbn. now rewrite app_nil_r.
  - rewrite !cyield_cons, yields_app. cbn. rewrite app_nil_r. fold (yields l). now rewrite !app_assoc.
  - rewrite !cyield_cons, yields_app. cbn. now rewrite <- !app_assoc.
Qed.
Lemma seen_acts Y q st before tr after t b es : ptable q = Some st -> st_trans st = before ++ tr :: after ->
  (forall tr0, In tr0 before -> tr_la tr0 = None -> t_eof t = false -> wrefused (tr_tok tr0) (t_line t)) ->
  seen_as Y q b es -> wmatched F (tr_tok tr) t ->
  match raw_acts ast_builder t (tr_acts tr) b with
  | (es1, r, b') => Forall (fun p => Lq (pe_loc p)) es1 /\ match r with Ok _ => seen_as (Y ++ [wrap t]) (tr_next tr) b' (es ++ es1) | Err e => X e end
  end.
Proof.
  intros Hq E R [cs [fr [C [W [Im [Y1 Y2]]]]]] P.
  destruct (trans_weak F q st before tr after t fr cs Hq E R C W P) as [fr' [cs' [T1 [T2 T3]]]].
  assert (Ft : F t) by apply P.
  destruct (wsim_steps F (fun p => Lq (pe_loc p)) ids (wrap t) _ _ _ T2 (fun _ => H_place t Ft) b es Im Y1) as [es1 [b' [S1 [S2 [S3 S4]]]]].
  change (lf_t (wrap t)) with t in S1. rewrite S1. split; [exact S3|]. exists cs', fr'. repeat (split; [assumption|]).
  rewrite (wsteps_yield _ _ _ _ T2), Y2. rewrite (order_builds q st tr Hq) by (rewrite E; apply in_elt). reflexivity.
Qed.
Lemma seen_start : seen_as [] 0 (mkAb [mkNode RGherkinDocument []; mkNode RNone []] [] ids) [].
Proof.
  exists [(RGherkinDocument, [])], [(RGherkinDocument, prod RGherkinDocument)]. split; [reflexivity|]. split; [|split; [split; reflexivity | split; [constructor | reflexivity]]].
  cbn [winv]. split; [reflexivity|]. split; [reflexivity|]. split; [apply wleaves_nil|]. split; [constructor | exact Logic.I].
Qed.
Lemma seen_end Y q b es : seen_as Y q b es ->
  match bd_end ast_builder RGherkinDocument b with (Ok _, _) => True | (Err (EParser p), _) => Lq (pe_loc p) | (Err e, _) => X e end.
Proof.
  intros [cs [fr [C [W [Im [Y1 _]]]]]]. destruct (wsim_end F (fun p => Lq (pe_loc p)) q fr ids cs b es C W Im Y1) as [es1 [b' [R [A _]]]].
  cbn [raw_acts bact] in R. destruct (bd_end ast_builder RGherkinDocument b) as [[u|e] b2]; [exact Logic.I|].
  destruct e; try discriminate R. injection R as <- _. now inversion A.
Qed.
Lemma seen_done Y q b : seen_as Y q b [] -> eof_reached q -> forall b', bd_end ast_builder RGherkinDocument b = (Ok tt, b') ->
  exists l d, wtree F (Node RGherkinDocument l) /\ yields l = Y /\ ab_get_result b' = Ok d /\ doc_of ids l d (ab_ids b').
Proof.
  intros [cs [fr [C [W [Im [Y1 Y2]]]]]] E b' B. destruct (wclosed F q fr cs C W E) as [l [-> T]].
  destruct (wsim_end F (fun p => Lq (pe_loc p)) q fr ids _ b [] C W Im Y1) as [es1 [b1 [R [_ A]]]]. destruct (A l eq_refl) as [-> [subs [A1 A2]]].
  cbn [raw_acts bact] in R. rewrite B in R. injection R as <-. unfold ab_get_result. rewrite A2. cbn.
  exists l. eexists. split; [exact T|]. split; [|split; [reflexivity|]].
  - rewrite cyield_cons in Y2. exact Y2.
  - exists subs. split; [exact A1 | reflexivity].
Qed.
End Seen.

(** ** One line whose transition is known *)
Lemma skip_nth (l : list str) : forall n, n < length l -> skipn n l = nth n l [] :: skipn (S n) l.
Proof. induction l as [|a l IH]; intros n H; cbn in H; [lia|]. destruct n; [reflexivity|]. cbn [skipn nth]. rewrite IH by lia. reflexivity. Qed.
Definition fresh (x : str) (n : nat) : token := new_token x (S n).
Section First.
Context (lines : list str) (Hl : lines_ok lines) (Ho : Forall one_line lines).
Context (ids : nat) (tags : list str) (x : str) (rest : list str) (El : lines = tags ++ x :: rest).
Context (Ht : Forall has_md_tag tags) (Hx : ~ has_md_tag x).
Context (ms0 : mstate) (R0 : md_ready ms0) (F0 : ms_feature ms0 = false).
Notation line_no n := (nth n lines []).
Definition tagtok (n : nat) : token := t_of (md_match_TagLine ms0 (fresh (line_no n) n)).
Definition nx : nat := length tags.
Definition ft : token := t_of (md_match_FeatureLine ms0 (fresh x nx)).
Definition ms1 : mstate := ms_of (md_match_FeatureLine ms0 (fresh x nx)).
Definition F (t : token) : Prop := md_leaf lines t /\ (t_mtype t = Some TkFeatureLine -> t = ft).
Notation Lq := (err_at (length lines)).
Notation X := (md_exn lines).
Notation Lp := (fun p => Lq (pe_loc p)).
Definition I2 (ms : mstate) : Prop := md_ready ms /\ ms_feature ms = true.
Lemma F_place t : F t -> Lq (t_location t).
Proof. intros [[P [n [H1 [H2 H3]]]] _]. unfold t_location. rewrite H3. apply of_line_place; [exact H1|]. intros _. exact P. Qed.
Lemma X_ok : forall e, X e -> match e with EParser _ | EComposite _ => False | _ => True end.
Proof. intros e [-> _]. exact I. Qed.
Lemma unexpected_place0 t ks : of_line lines t -> Lq (pe_loc (unexpected t ks)).
Proof.
  intros [n [H1 [H2 H3]]]. pose proof (unexpected_line t ks) as U. destruct (pe_loc (unexpected t ks)) as [l c] eqn:E. cbn in U. subst l. rewrite H3. apply of_line_place; [exact H1|].
  intros L. assert (Te : t_eof t = false). { unfold t_eof. rewrite H2. unfold g_bool. cbn [g_text]. pose proof (proj1 (Forall_forall _ _) Hl _ (nth_In lines [] L)) as Hl1. cbn beta in Hl1. destruct (nth n lines []); [congruence | reflexivity]. }
  pose proof (unexpected_col t ks Te) as C. rewrite E in C. exact C.
Qed.
Lemma unexpected_place q st t : ptable q = Some st -> of_line lines t -> (t_eof t = true -> forall tr, In tr (st_trans st) -> tr_tok tr <> TkEOF) ->
  (forall tr, In tr (st_trans st) -> tr_la tr = None -> t_eof t = false -> wrefused (tr_tok tr) (t_line t)) -> Lq (pe_loc (unexpected t (st_expected st))).
Proof. intros _ H _ _. now apply unexpected_place0. Qed.
Lemma line_ne n : n < length lines -> line_no n <> [].
Proof. intros L. exact (proj1 (Forall_forall _ _) Hl _ (nth_In lines [] L)). Qed.
Lemma fresh_of n : n <= length lines -> of_line lines (fresh (line_no n) n).
Proof. intros H. exists n. auto. Qed.
Lemma fresh_eof n : n < length lines -> t_eof (fresh (line_no n) n) = false.
Proof. intros H. unfold fresh, t_eof, g_bool. cbn. pose proof (line_ne n H). now destruct (line_no n). Qed.
Lemma line_x : line_no nx = x.
Proof. rewrite El. unfold nx. rewrite app_nth2 by lia. now rewrite Nat.sub_diag. Qed.
Lemma nx_lt : nx < length lines.
Proof. rewrite El. unfold nx. rewrite app_length. cbn. lia. Qed.
Lemma tag_line n : n < nx -> has_md_tag (line_no n).
Proof. intros H. rewrite El, app_nth1 by exact H. rewrite Forall_forall in Ht. apply Ht. now apply nth_In. Qed.
Lemma tag_call n : n < nx -> md_match_TagLine ms0 (fresh (line_no n) n) = (Ok true, ms0, tagtok n).
Proof.
  intros H. pose proof (proj2 (tag_line_iff ms0 (fresh (line_no n) n)) (tag_line n H)) as T. unfold tagtok. unfold md_match_TagLine in *. destruct (md_tags_go _ _ _ _); [discriminate T | reflexivity].
Qed.
Lemma feature_call : md_match_FeatureLine ms0 (fresh x nx) = (Ok true, ms1, ft) /\ ms_feature ms1 = true /\ md_ready ms1.
Proof.
  assert (A : out (md_match_FeatureLine ms0 (fresh x nx)) = Ok true /\ ms_feature ms1 = true).
  { unfold ms1. unfold md_match_FeatureLine. rewrite F0.
    destruct R0 as [_ R2]. pose proof (for_name_in _ _ R2) as Hd.
    assert (K : kws_ok (d_feature (ms_dialect ms0)) = true). { pose proof title_kws_ok as T. rewrite forallb_forall in T. specialize (T _ Hd). cbn [snd title_kws forallb] in T. now apply andb_true_iff in T as [T _]. }
    assert (O : one_line x). { rewrite Forall_forall in Ho. apply Ho. rewrite El. apply in_elt. }
    pose proof (header_match (d_feature (ms_dialect ms0)) TkFeatureLine ms0 x (S nx) (fresh x nx) K O eq_refl) as M.
    destruct (md_match_title _ _ _ _ _ _) as [[[[|]|] m] t]; [| |destruct M]; auto. }
  destruct A as [A1 A2]. split; [|split; [exact A2|]].
  - unfold ms1, ft. destruct (md_match_FeatureLine ms0 (fresh x nx)) as [[r m] t]. cbn in A1. now subst r.
  - destruct (kept_feature ms0 (fresh x nx)) as [K1 K2 K3 K4 K5 _ _]. fold ms1 in K3, K4, K5. destruct R0. split; congruence.
Qed.

(** a transition that is taken: every earlier one refuses the token, and this one matches it *)
Lemma match_false k t (c : ctx astb) : md_ready (c_ms c) -> md_match k (c_ms c) t = (Ok false, c_ms c, t) -> match_tok k t c = (Ok (false, t), c).
Proof.
  intros [M _] E. unfold match_tok. destruct (negb _ && _); [reflexivity|]. unfold do_match. rewrite M, E. cbn. unfold handle_external. destruct c as [? ? ? ? ? ? st]. cbn. now destruct st.
Qed.
Lemma match_true k t (c : ctx astb) ms t' : md_ready (c_ms c) -> t_eof t = false -> md_match k (c_ms c) t = (Ok true, ms, t') -> match_tok k t c = (Ok (true, t'), set_ms c ms).
Proof.
  intros [M _] Te E. unfold match_tok. rewrite Te, andb_false_r. unfold do_match. rewrite M, E. cbn. unfold handle_external. destruct c as [? ? ? ? ? ? st]. cbn. now destruct st.
Qed.
Lemma try_known before tr after t (c : ctx astb) ms t' : md_ready (c_ms c) -> t_eof t = false ->
  (forall tr0, In tr0 before -> md_match (tr_tok tr0) (c_ms c) t = (Ok false, c_ms c, t)) ->
  md_match (tr_tok tr) (c_ms c) t = (Ok true, ms, t') -> tr_la tr = None ->
  try_trans ast_builder (before ++ tr :: after) t c =
    match do_acts ast_builder t' (tr_acts tr) (set_ms c ms) with (Err e, c3) => (Err e, c3) | (Ok _, c3) => (Ok (Some (tr_next tr), t'), c3) end.
Proof.
  intros M Te B E La. induction before as [|tr0 before IH]; cbn [app try_trans].
  - rewrite (match_true _ _ _ _ _ M Te E), La. reflexivity.
  - rewrite (match_false _ _ _ M (B tr0 (or_introl eq_refl))). apply IH. intros tr1 H. apply B. now right.
Qed.
Definition at_line (n : nat) (ms : mstate) (Y : list leaf) (q : nat) (c : ctx astb) : Prop :=
  c_lines c = skipn n lines /\ c_lineno c = n /\ c_queue c = [] /\ c_ms c = ms /\ errs_ok Lp c /\ st_ok (seen_as ids F Lq Y) q c.
Lemma known_line n q st before tr after ms t' Y (c : ctx astb) : n < length lines -> ptable q = Some st -> st_trans st = before ++ tr :: after -> tr_la tr = None ->
  (forall tr0, In tr0 before -> md_match (tr_tok tr0) ms0 (fresh (line_no n) n) = (Ok false, ms0, fresh (line_no n) n) /\ tr_tok tr0 <> TkEmpty) ->
  md_match (tr_tok tr) ms0 (fresh (line_no n) n) = (Ok true, ms, t') -> md_ready ms -> wmatched F (tr_tok tr) t' ->
  at_line n ms0 Y q c -> forall fuel,
  match parse_loop ast_builder (S fuel) q c with
  | r => (exists c', at_line (S n) ms (Y ++ [wrap t']) (tr_next tr) c' /\ c_stop c' = c_stop c /\ (c_errors c' = [] -> c_errors c = []) /\ r = parse_loop ast_builder fuel (tr_next tr) c') \/
         (exists e c', r = (Err e, c') /\ ends Lp X (c_stop c) e)
  end.
Proof.
  intros L Hq Es La B E Rm W [A1 [A2 [A3 [A4 [A5 A6]]]]] fuel. cbn [parse_loop]. unfold read_token. rewrite A3, A1, A2.
  rewrite (skip_nth lines n L). cbn [hd tl]. change (new_token (line_no n) (S n)) with (fresh (line_no n) n). rewrite (fresh_eof n L).
  set (c1 := mkCtx (skipn (S n) lines) (S n) [] (c_errors c) (c_ms c) (c_b c) (c_stop c)).
  unfold match_token. rewrite Hq, Es.
  assert (C1 : c_ms c1 = ms0) by exact A4.
  rewrite (try_known before tr after (fresh (line_no n) n) c1 ms t'); rewrite ?C1; auto; [|now apply fresh_eof|intros tr0 H; now apply B].
  destruct A6 as [es [S1 S2]].
  assert (Tl : t_line t' = t_line (fresh (line_no n) n)). { pose proof (kp_line _ _ _ (kept_match (tr_tok tr) ms0 (fresh (line_no n) n))) as K. rewrite E in K. exact K. }
  pose proof (seen_acts ids F Lq X F_place Y q st before tr after t' (c_b c) es Hq Es) as A.
  specialize (A ltac:(intros tr0 H1 H2 H3 H4; exfalso; now apply (B tr0 H1)) S1 W).
  destruct (raw_acts ast_builder t' (tr_acts tr) (c_b c)) as [[es1 r] b'] eqn:Er. destruct A as [G1 G2].
  assert (Sr : AnyRun.src lines md_ready (of_line lines) Lp true (set_ms c1 ms)).
  { constructor; cbn; auto. - intros _. lia. }
  pose proof (do_acts_any ast_builder lines md_ready (of_line lines) (wmatched F) Lp X ltac:(intros t0 P0; now apply P0) (settled_at (length lines)) ast_no_composite true t' (tr_acts tr) (set_ms c1 ms) es1 r b' Sr Er G1 ltac:(intros e ->; exact G2)) as D.
  pose proof (do_acts_eqv ast_builder t' (tr_acts tr) (set_ms c1 ms) (set_ms c1 ms) (eqv_refl _)) as [_ Sc].
  destruct (do_acts ast_builder t' (tr_acts tr) (set_ms c1 ms)) as [[u|e] c3]; [left|right; exists e, c3; split; [reflexivity | exact D]].
  destruct D as [-> [D1 [D2 [D3 [D4 D5]]]]]. exists c3. unfold scn in Sc. cbn [snd] in Sc. injection Sc as U1 U2 U3 U4 U5.
  split; [|split; [exact D2 | split; [intros H; now apply D5 in H | reflexivity]]].
  repeat (split; [first [now rewrite U1 | now rewrite U2 | now rewrite U3 | now rewrite U4 | apply D3]|]).
  exists (es ++ es1). rewrite D1. split; [exact G2|]. intros H. destruct (D5 H) as [D6 ->]. now rewrite (S2 D6).
Qed.

(** ** The tag lines, the feature line, and the rest *)
Lemma as_F k t : wmatched (md_leaf lines) k t -> (k = TkFeatureLine -> t = ft) -> wmatched F k t.
Proof.
  intros [W1 [W2 [W3 [W4 [W5 [W6 W7]]]]]] H. repeat (split; [assumption|]). intros E. apply H. congruence.
Qed.
Lemma tag_matched n : n < nx -> wmatched F TkTagLine (tagtok n).
Proof.
  intros H. apply as_F; [|discriminate]. pose proof nx_lt as L.
  pose proof (md_step lines Ho TkTagLine ms0 (fresh (line_no n) n) R0 (fresh_of n ltac:(lia)) (or_intror (fresh_eof n ltac:(lia)))) as M.
  unfold do_match in M. rewrite (proj1 R0) in M. cbn [md_match] in M. rewrite (tag_call n H) in M. apply M.
Qed.
Lemma feature_matched : wmatched F TkFeatureLine ft.
Proof.
  apply as_F; [|reflexivity]. pose proof nx_lt as L.
  pose proof (md_step lines Ho TkFeatureLine ms0 (fresh (line_no nx) nx) R0 (fresh_of nx ltac:(lia)) (or_intror (fresh_eof nx L))) as M.
  unfold do_match in M. rewrite (proj1 R0) in M. cbn [md_match] in M. rewrite line_x in M. rewrite (proj1 feature_call) in M. apply M.
Qed.
Lemma eof_not n : n < length lines -> match_EOF ms0 (fresh (line_no n) n) = (Ok false, ms0, fresh (line_no n) n).
Proof. intros H. unfold match_EOF. now rewrite (fresh_eof n H). Qed.
Lemma x_not_tag : md_match_TagLine ms0 (fresh (line_no nx) nx) = (Ok false, ms0, fresh (line_no nx) nx).
Proof. apply tag_line_not. rewrite line_x. exact Hx. Qed.
Definition pre (n : nat) : list leaf := map (fun k => wrap (tagtok k)) (seq 0 n).
Definition start_state (n : nat) : nat := match n with O => 0 | S _ => 2 end.
Definition heads : list leaf := pre nx ++ [wrap ft].
Definition begun (q : nat) (b : astb) (es : list perr) : Prop := exists r, seen_as ids F Lq (heads ++ r) q b es.
Lemma step2 k ms t : I2 ms -> of_line lines t -> k = TkEOF \/ t_eof t = false ->
  match do_match k ms t with
  | (r, ms', t') => I2 ms' /\ (r = Ok true /\ k = TkEOF \/ of_line lines t') /\ t_line t' = t_line t /\
      match r with
      | Ok true => wmatched F k t'
      | Ok false => wrefused k (t_line t)
      | Err (EParser p) => Lp p /\ wrefused k (t_line t)
      | Err e => X e
      end
  end.
Proof.
  intros [Hr Hf] Hq Hk. pose proof (md_step lines Ho k ms t Hr Hq Hk) as M. pose proof (kp_feature _ _ _ (kept_match k ms t) Hf) as Kf.
  unfold do_match in *. rewrite (proj1 Hr) in *. destruct (md_match k ms t) as [[r ms'] t'] eqn:E. cbn in Kf.
  destruct M as [M1 [M2 [M3 M4]]]. split; [split; assumption|]. split; [now right|]. split; [exact M3|].
  destruct r as [[|]|e]; [|exact M4|exact M4]. apply as_F; [exact M4|]. intros ->.
  pose proof (feature_once ms t Hf) as O. rewrite E in O. discriminate O.
Qed.
Definition finished (c : ctx astb) (r : result unit * ctx astb) : Prop :=
  match r with
  | (Ok _, c') => errs_ok Lp c' /\ c_stop c' = c_stop c /\ (c_errors c' = [] -> c_errors c = []) /\
      exists q', st_ok begun q' c' /\ (c_errors c' = [] -> eof_reached q')
  | (Err e, _) => ends Lp X (c_stop c) e
  end.
Lemma run_rest c fuel : at_line (S nx) ms1 heads 3 c -> length lines - S nx < fuel -> finished c (parse_loop ast_builder fuel 3 c).
Proof.
  intros [A1 [A2 [A3 [A4 [A5 A6]]]]] Hf. pose proof nx_lt as L.
  assert (Sr : AnyRun.src lines I2 (of_line lines) Lp true c).
  { constructor; rewrite ?A2, ?A3, ?A4; cbn; auto; [intros; lia|]. split; apply feature_call. }
  assert (Ok0 : st_ok begun 3 c). { destruct A6 as [es [S1 S2]]. exists es. split; [|exact S2]. exists []. now rewrite app_nil_r. }
  pose proof (parse_loop_any ast_builder lines I2 (of_line lines) (wmatched F) wrefused Lp X begun Hl X_ok (fun n H => fresh_of n H) step2
    ltac:(intros t P; now apply P) unexpected_place (settled_at (length lines)) ast_no_composite) as M.
  assert (HA : forall q st before tr after t b es, ptable q = Some st -> st_trans st = before ++ tr :: after ->
    (forall tr0, In tr0 before -> tr_la tr0 = None -> t_eof t = false -> wrefused (tr_tok tr0) (t_line t)) ->
    begun q b es -> wmatched F (tr_tok tr) t -> tr_tok tr = TkEOF \/ of_line lines t ->
    match raw_acts ast_builder t (tr_acts tr) b with
    | (es1, r, b') => Forall Lp es1 /\ match r with Ok _ => begun (tr_next tr) b' (es ++ es1) | Err e => X e end end).
  { intros q st before tr after t b es Hq E R [r S1] P Hq2. pose proof (seen_acts ids F Lq X F_place (heads ++ r) q st before tr after t b es Hq E R S1 P) as A.
    destruct (raw_acts ast_builder t (tr_acts tr) b) as [[es1 rr] b']. destruct A as [A7 A8]. split; [exact A7|]. destruct rr; [|exact A8]. exists (r ++ [wrap t]). now rewrite app_assoc. }
  specialize (M HA fuel 3 c ltac:(discriminate) Sr Ok0 ltac:(unfold pend, real; rewrite A2, A3; cbn; lia)).
  unfold finished. destruct (parse_loop ast_builder fuel 3 c) as [[u|e] c']; exact M.
Qed.
Lemma finished_trans c c' r : c_stop c' = c_stop c -> (c_errors c' = [] -> c_errors c = []) -> finished c' r -> finished c r.
Proof.
  intros H1 H2. unfold finished. destruct r as [[u|e] c2]; rewrite H1; [|auto]. intros [A [B [C D]]]. repeat (split; [auto|]). exact D.
Qed.
Lemma run_first k : forall n c fuel, n + k = nx -> at_line n ms0 (pre n) (start_state n) c -> length lines - n < fuel ->
  finished c (parse_loop ast_builder fuel (start_state n) c).
Proof.
  pose proof nx_lt as L. induction k as [|k IH]; intros n c fuel En A Hf; (destruct fuel as [|fuel]; [lia|]).
  - assert (n = nx) as -> by lia. pose proof (proj1 feature_call) as Fc. rewrite <- line_x in Fc at 1.
    assert (G : forall st before tr after, ptable (start_state nx) = Some st -> st_trans st = before ++ tr :: after -> tr_la tr = None -> tr_tok tr = TkFeatureLine -> tr_next tr = 3 ->
      (forall tr0, In tr0 before -> tr_tok tr0 = TkEOF \/ tr_tok tr0 = TkLanguage \/ tr_tok tr0 = TkTagLine) -> finished c (parse_loop ast_builder (S fuel) (start_state nx) c)).
    { intros st before tr after Hq Es La Tk Nx B.
      pose proof (known_line nx (start_state nx) st before tr after ms1 ft (pre nx) c L Hq Es La) as K. rewrite Tk in K. cbn [md_match] in K.
      specialize (K ltac:(intros tr0 H; specialize (B tr0 H); destruct B as [-> |[-> | ->]]; (split; [|discriminate]); [now apply eof_not | reflexivity | exact x_not_tag]) Fc (proj2 (proj2 feature_call)) feature_matched A fuel).
      destruct K as [[c' [K1 [K2 [K3 ->]]]]|[e [c' [-> K]]]]; [|exact K]. apply (finished_trans c c' _ K2 K3). rewrite Nx in *. apply run_rest; [exact K1 | lia]. }
    destruct nx as [|m]; cbn [start_state] in *.
    + apply (G state_0 [mkTr TkEOF None [ABuild] 42; mkTr TkLanguage None [AStart RFeature; AStart RFeatureHeader; ABuild] 1; mkTr TkTagLine None [AStart RFeature; AStart RFeatureHeader; AStart RTags; ABuild] 2] (mkTr TkFeatureLine None [AStart RFeature; AStart RFeatureHeader; ABuild] 3) (skipn 4 (st_trans state_0))); try reflexivity.
      intros tr0 [<-|[<-|[<-|[]]]]; auto.
    + apply (G state_2 [mkTr TkTagLine None [ABuild] 2] (mkTr TkFeatureLine None [AEnd RTags; ABuild] 3) (skipn 2 (st_trans state_2))); try reflexivity.
      intros tr0 [<-|[]]; auto.
  - assert (Hn : n < nx) by lia. pose proof (tag_call n Hn) as Tc.
    assert (G : forall st before tr after, ptable (start_state n) = Some st -> st_trans st = before ++ tr :: after -> tr_la tr = None -> tr_tok tr = TkTagLine -> tr_next tr = 2 ->
      (forall tr0, In tr0 before -> tr_tok tr0 = TkEOF \/ tr_tok tr0 = TkLanguage) -> finished c (parse_loop ast_builder (S fuel) (start_state n) c)).
    { intros st before tr after Hq Es La Tk Nx B.
      pose proof (known_line n (start_state n) st before tr after ms0 (tagtok n) (pre n) c ltac:(lia) Hq Es La) as K. rewrite Tk in K. cbn [md_match] in K.
      specialize (K ltac:(intros tr0 H; specialize (B tr0 H); destruct B as [-> | ->]; (split; [|discriminate]); [apply eof_not; lia | reflexivity]) Tc R0 (tag_matched n Hn) A fuel).
      destruct K as [[c' [K1 [K2 [K3 ->]]]]|[e [c' [-> K]]]]; [|exact K]. apply (finished_trans c c' _ K2 K3). rewrite Nx in *.
      apply (IH (S n) c' fuel); [lia| |lia]. replace (pre (S n)) with (pre n ++ [wrap (tagtok n)]); [exact K1|]. unfold pre. rewrite seq_S, map_app. reflexivity. }
    destruct n as [|m]; cbn [start_state] in *.
    + apply (G state_0 [mkTr TkEOF None [ABuild] 42; mkTr TkLanguage None [AStart RFeature; AStart RFeatureHeader; ABuild] 1] (mkTr TkTagLine None [AStart RFeature; AStart RFeatureHeader; AStart RTags; ABuild] 2) (skipn 3 (st_trans state_0))); try reflexivity.
      intros tr0 [<-|[<-|[]]]; auto.
    + apply (G state_2 [] (mkTr TkTagLine None [ABuild] 2) (skipn 1 (st_trans state_2))); try reflexivity. intros tr0 [].
Qed.
End First.
