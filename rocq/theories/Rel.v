(** * Two runs of the parser side by side

    [parse_b_rel]: the parser looks at its builder only through what the methods raise; so builders
    in related states give the same outcome and end in related states.  [parse_b_minv]: a parse keeps
    the class and the default language of the matcher, whatever happens. *)
From Verif Require Import PyStr PyStrFacts Types Regex Line DialectData Matcher Ast ParserTable Parser.

Section Rel.
Context {B : Type} (bd : builder B) (RB : B -> B -> Prop).
Implicit Types c : ctx B.
Definition resp (f : B -> result unit * B) : Prop :=
  forall b1 b2, RB b1 b2 -> fst (f b1) = fst (f b2) /\ RB (snd (f b1)) (snd (f b2)).
Context (Hstart : forall r, resp (bd_start bd r)) (Hend : forall r, resp (bd_end bd r)) (Hbuild : forall t, resp (bd_build bd t)).

Definition RC (c1 c2 : ctx B) : Prop :=
  c_lines c1 = c_lines c2 /\ c_lineno c1 = c_lineno c2 /\ c_queue c1 = c_queue c2 /\
  c_errors c1 = c_errors c2 /\ c_ms c1 = c_ms c2 /\ c_stop c1 = c_stop c2 /\ RB (c_b c1) (c_b c2).
Definition RR {A} (x y : result A * ctx B) : Prop := fst x = fst y /\ RC (snd x) (snd y).

Ltac dc := match goal with H : RC ?a ?b |- _ => let H1 := fresh in let H2 := fresh in let H3 := fresh in let H4 := fresh in let H5 := fresh in let H6 := fresh in let H7 := fresh in
  destruct a, b; destruct H as [H1 [H2 [H3 [H4 [H5 [H6 H7]]]]]]; cbn in *; subst end.
Ltac rc := repeat split; cbn; auto.

Lemma add_error_rel e c1 c2 : RC c1 c2 -> RR (add_error e c1) (add_error e c2).
Proof. intros H. dc. unfold add_error. cbn [c_errors]. match goal with |- context [existsb ?f ?l] => destruct (existsb f l) end; [rc|]. match goal with |- context [Nat.ltb ?a ?b] => destruct (Nat.ltb a b) end; rc. Qed.
Lemma add_errors_rel es : forall c1 c2, RC c1 c2 -> RR (add_errors es c1) (add_errors es c2).
Proof.
  induction es as [|e es IH]; intros c1 c2 H; [split; [reflexivity | exact H]|]. cbn [add_errors].
  pose proof (add_error_rel e _ _ H) as [E1 E2]. destruct (add_error e c1) as [r1 d1], (add_error e c2) as [r2 d2]. cbn in E1, E2. subst r2.
  destruct r1; [now apply IH | split; auto].
Qed.
Lemma handle_rel {A} (x : A) (p q : result A * ctx B) : RR p q -> RR (handle_external x p) (handle_external x q).
Proof.
  destruct p as [r1 c1], q as [r2 c2]. intros [E H]. cbn in E. subst r2. cbn in H. unfold handle_external.
  assert (S : c_stop c1 = c_stop c2) by apply H. rewrite S. destruct (c_stop c2); [split; auto|].
  destruct r1 as [a|[e|es| | | | | | | | |]]; try (split; auto; fail).
  - pose proof (add_error_rel e _ _ H) as [E1 E2]. destruct (add_error e c1) as [r1 d1], (add_error e c2) as [r2 d2]. cbn in E1, E2. subst r2. split; auto.
  - pose proof (add_errors_rel es _ _ H) as [E1 E2]. destruct (add_errors es c1) as [r1 d1], (add_errors es c2) as [r2 d2]. cbn in E1, E2. subst r2. split; auto.
Qed.
Lemma do_act_rel t a c1 c2 : RC c1 c2 -> RR (do_act bd t a c1) (do_act bd t a c2).
Proof.
  intros H. unfold do_act. apply handle_rel. pose proof H as Hb. destruct Hb as [_ [_ [_ [_ [_ [_ Hb]]]]]].
  set (f := match a with AStart r => bd_start bd r | AEnd r => bd_end bd r | ABuild => bd_build bd t end).
  assert (F : resp f) by (unfold f; destruct a; auto).
  assert (X : forall b, match a with AStart r => bd_start bd r b | AEnd r => bd_end bd r b | ABuild => bd_build bd t b end = f b) by (destruct a; reflexivity).
  rewrite !X. destruct (F _ _ Hb) as [E1 E2]. destruct (f (c_b c1)) as [r1 b1], (f (c_b c2)) as [r2 b2]. cbn in E1, E2. subst r2.
  split; [reflexivity|]. cbn. dc. rc.
Qed.
Lemma do_acts_rel t l : forall c1 c2, RC c1 c2 -> RR (do_acts bd t l c1) (do_acts bd t l c2).
Proof.
  induction l as [|a l IH]; intros c1 c2 H; [split; auto|]. cbn [do_acts].
  pose proof (do_act_rel t a _ _ H) as [E1 E2]. destruct (do_act bd t a c1) as [r1 d1], (do_act bd t a c2) as [r2 d2]. cbn in E1, E2. subst r2.
  destruct r1; [now apply IH | split; auto].
Qed.
Lemma read_token_rel c1 c2 : RC c1 c2 -> fst (read_token c1) = fst (read_token c2) /\ RC (snd (read_token c1)) (snd (read_token c2)).
Proof. intros H. dc. unfold read_token. cbn. destruct c_queue0; cbn; rc. Qed.
Lemma match_tok_rel k t c1 c2 : RC c1 c2 -> RR (match_tok k t c1) (match_tok k t c2).
Proof.
  intros H. unfold match_tok. destruct (_ && _); [split; auto|]. assert (E : c_ms c1 = c_ms c2) by apply H. rewrite E.
  destruct (do_match k (c_ms c2) t) as [[r ms] t']. apply handle_rel. split; [reflexivity|]. cbn. clear E. dc. rc.
Qed.
Lemma match_any_rel ks : forall t c1 c2, RC c1 c2 -> RR (match_any ks t c1) (match_any ks t c2).
Proof.
  induction ks as [|k ks IH]; intros t c1 c2 H; [split; auto|]. cbn [match_any].
  pose proof (match_tok_rel k t _ _ H) as [E1 E2]. destruct (match_tok k t c1) as [r1 d1], (match_tok k t c2) as [r2 d2]. cbn in E1, E2. subst r2.
  destruct r1 as [[[] t1]|e]; [split; auto | now apply IH | split; auto].
Qed.
Lemma lookahead_rel k fuel : forall acc c1 c2, RC c1 c2 -> RR (lookahead_go k fuel acc c1) (lookahead_go k fuel acc c2).
Proof.
  induction fuel as [|f IH]; intros acc c1 c2 H; [split; auto|]. cbn [lookahead_go].
  pose proof (read_token_rel _ _ H) as [E1 E2]. destruct (read_token c1) as [t c1'], (read_token c2) as [t2 c2']. cbn in E1, E2. subst t2. clear H.
  pose proof (match_tok_rel k t _ _ E2) as [F1 F2]. destruct (match_tok k t c1') as [r1 d1], (match_tok k t c2') as [r2 d2]. cbn in F1, F2. subst r2.
  destruct r1 as [[[] t1]|e]; [split; [reflexivity|]; cbn; clear E2; dc; rc | | split; auto].
  pose proof (match_any_rel [TkEmpty; TkComment; TkTagLine] t1 _ _ F2) as [G1 G2].
  destruct (match_any _ t1 d1) as [r1 e1], (match_any _ t1 d2) as [r2 e2]. cbn in G1, G2. subst r2.
  destruct r1 as [[[] t2]|e]; [now apply IH | split; [reflexivity|]; cbn; clear E2 F2; dc; rc | split; auto].
Qed.
Lemma do_lookahead_rel l c1 c2 : RC c1 c2 -> RR (do_lookahead l c1) (do_lookahead l c2).
Proof.
  intros H. destruct l as [l|]; [|split; auto]. cbn [do_lookahead].
  assert (E1 : c_queue c1 = c_queue c2) by apply H. assert (E2 : c_lines c1 = c_lines c2) by apply H. rewrite E1, E2. now apply lookahead_rel.
Qed.
Lemma try_trans_rel trs : forall t c1 c2, RC c1 c2 -> RR (try_trans bd trs t c1) (try_trans bd trs t c2).
Proof.
  induction trs as [|tr trs IH]; intros t c1 c2 H; [split; auto|]. cbn [try_trans].
  pose proof (match_tok_rel (tr_tok tr) t _ _ H) as [E1 E2]. destruct (match_tok _ t c1) as [r1 d1], (match_tok _ t c2) as [r2 d2]. cbn in E1, E2. subst r2. clear H.
  destruct r1 as [[[] t1]|e]; [|now apply IH | split; auto].
  pose proof (do_lookahead_rel (tr_la tr) _ _ E2) as [F1 F2]. destruct (do_lookahead _ d1) as [r1 e1], (do_lookahead _ d2) as [r2 e2]. cbn in F1, F2. subst r2. clear E2.
  destruct r1 as [[]|e]; [|now apply IH | split; auto].
  pose proof (do_acts_rel t1 (tr_acts tr) _ _ F2) as [G1 G2]. destruct (do_acts bd t1 _ e1) as [r1 f1], (do_acts bd t1 _ e2) as [r2 f2]. cbn in G1, G2. subst r2.
  destruct r1; split; auto.
Qed.
Lemma match_token_rel q t c1 c2 : RC c1 c2 -> RR (match_token bd q t c1) (match_token bd q t c2).
Proof.
  intros H. unfold match_token. destruct (ptable q) as [st|]; [|split; auto].
  pose proof (try_trans_rel (st_trans st) t _ _ H) as [E1 E2]. destruct (try_trans bd _ t c1) as [r1 d1], (try_trans bd _ t c2) as [r2 d2]. cbn in E1, E2. subst r2.
  destruct r1 as [[[n|] t1]|e]; [split; auto | | split; auto].
  assert (S : c_stop d1 = c_stop d2) by apply E2. rewrite S. destruct (c_stop d2); [split; auto|].
  pose proof (add_error_rel (unexpected t1 (st_expected st)) _ _ E2) as [F1 F2].
  destruct (add_error _ d1) as [r1 e1], (add_error _ d2) as [r2 e2]. cbn in F1, F2. subst r2. destruct r1; split; auto.
Qed.
Lemma parse_loop_rel fuel : forall q c1 c2, RC c1 c2 -> RR (parse_loop bd fuel q c1) (parse_loop bd fuel q c2).
Proof.
  induction fuel as [|f IH]; intros q c1 c2 H; [split; auto|]. cbn [parse_loop].
  pose proof (read_token_rel _ _ H) as [E1 E2]. destruct (read_token c1) as [t c1'], (read_token c2) as [t2 c2']. cbn in E1, E2. subst t2.
  pose proof (match_token_rel q t _ _ E2) as [F1 F2]. destruct (match_token bd q t c1') as [r1 d1], (match_token bd q t c2') as [r2 d2]. cbn in F1, F2. subst r2.
  destruct r1; [|split; auto]. destruct (t_eof t); [split; auto | now apply IH].
Qed.
Theorem parse_b_rel stop b1 b2 ms lines : RB b1 b2 -> RR (parse_b bd stop b1 ms lines) (parse_b bd stop b2 ms lines).
Proof.
  intros Hb. unfold parse_b. destruct (ms_reset ms) as [ms0|e]; [|split; [reflexivity|]; rc].
  assert (H : RC (init_ctx stop b1 ms0 lines) (init_ctx stop b2 ms0 lines)) by rc.
  pose proof (do_act_rel (new_token [] 0) (AStart RGherkinDocument) _ _ H) as [E1 E2].
  destruct (do_act bd _ _ (init_ctx stop b1 ms0 lines)) as [r1 d1], (do_act bd _ _ (init_ctx stop b2 ms0 lines)) as [r2 d2]. cbn in E1, E2. subst r2.
  destruct r1; [|split; auto].
  pose proof (parse_loop_rel (S (length lines)) 0 _ _ E2) as [F1 F2].
  destruct (parse_loop bd _ 0 d1) as [r1 e1], (parse_loop bd _ 0 d2) as [r2 e2]. cbn in F1, F2. subst r2. destruct r1; [|split; auto].
  pose proof (do_act_rel (new_token [] 0) (AEnd RGherkinDocument) _ _ F2) as [G1 G2].
  destruct (do_act bd _ _ e1) as [r1 f1], (do_act bd _ _ e2) as [r2 f2]. cbn in G1, G2. subst r2. destruct r1; [|split; auto].
  assert (S : c_errors f1 = c_errors f2) by apply G2. rewrite S. destruct (c_errors f2); split; auto.
Qed.
End Rel.

(** ** The matcher keeps its class, its default language, and the dialect that belongs to its language *)
Definition minv (md : bool) (lang : str) (ms : mstate) : Prop :=
  ms_md ms = md /\ ms_default ms = lang /\ for_name (ms_name ms) = Some (ms_dialect ms).

Section Minv.
Context {B : Type} (bd : builder B) (md : bool) (lang : str).
Implicit Types c : ctx B.
Notation J := (minv md lang).
Notation Jm r := (J (snd (fst r))).

Lemma title_minv ms t k kws : J ms -> Jm (match_title ms t k kws).
Proof. intros H. unfold match_title. destruct (find _ _); exact H. Qed.
Lemma or_minv r k : Jm r -> (forall ms t, J ms -> Jm (k ms t)) -> Jm (m_or r k).
Proof. destruct r as [[[[]|e] ms] t]; cbn; auto. Qed.
Lemma sep_minv nt sep op ms t : J ms -> Jm (match_separator nt sep op ms t).
Proof.
  intros H. unfold match_separator. destruct (negb _); [exact H|]. cbn. exact H.
Qed.
Lemma eof_minv ms t : J ms -> Jm (match_EOF ms t).
Proof. intros H. unfold match_EOF. destruct (negb _); exact H. Qed.
Lemma row_minv ms t : J ms -> Jm (c_match_TableRow ms t).
Proof. intros H. unfold c_match_TableRow. destruct (negb _); [exact H|]. destruct (table_cells _); exact H. Qed.
Lemma tag_minv ms t : J ms -> Jm (c_match_TagLine ms t).
Proof. intros H. unfold c_match_TagLine. destruct (negb _); [exact H|]. destruct (g_tags _); exact H. Qed.
Lemma lang_minv ms t : J ms -> Jm (c_match_Language ms t).
Proof.
  intros H. unfold c_match_Language. destruct (re_match _ _); [|exact H]. unfold change_dialect.
  match goal with |- context [for_name ?x] => destruct (for_name x) eqn:E end; [|exact H]. destruct H as [H1 [H2 H3]]. repeat split; assumption.
Qed.
Lemma classic_minv k ms t : J ms -> Jm (classic_match k ms t).
Proof.
  intros H. destruct k; cbn [classic_match]; auto using title_minv, eof_minv, row_minv, tag_minv, lang_minv.
  - unfold c_match_Empty. destruct (negb _); exact H.
  - unfold c_match_Comment. destruct (negb _); exact H.
  - apply or_minv; intros; now apply title_minv.
  - unfold c_match_StepLine. destruct (find _ _); exact H.
  - unfold c_match_DocStringSeparator. destruct (ms_sep ms); [now apply sep_minv | apply or_minv; intros; now apply sep_minv].
Qed.
Lemma mdtitle_minv p kws sf ty ms t : J ms -> Jm (md_match_title p kws sf ty ms t).
Proof. intros H. unfold md_match_title. destruct (re_search _ _) as [[? ?]|]; exact H. Qed.
Lemma mdfeature_minv ms t : J ms -> Jm (md_match_FeatureLine ms t).
Proof.
  intros H. unfold md_match_FeatureLine. destruct (ms_feature ms); [exact H|].
  pose proof (mdtitle_minv md_header (d_feature (ms_dialect ms)) [ch_colon] TkFeatureLine ms t H) as T.
  destruct (md_match_title _ _ _ _ ms t) as [[[[]|e] ms1] t1]; exact T.
Qed.
Lemma mdrow_minv ms t : J ms -> Jm (md_match_TableRow ms t).
Proof. intros H. unfold md_match_TableRow. destruct (re_match _ _); [|exact H]. destruct (table_cells _); [|exact H]. destruct (is_gfm_separator _); exact H. Qed.
Lemma mdcomment_minv ms t : J ms -> Jm (md_match_Comment ms t).
Proof. intros H. unfold md_match_Comment. destruct (g_startswith _ _); [|exact H]. destruct (table_cells _); exact H. Qed.
Lemma mdtag_minv ms t : J ms -> Jm (md_match_TagLine ms t).
Proof. intros H. unfold md_match_TagLine. destruct (md_tags_go _ _ _ _); exact H. Qed.
Lemma mdsep_minv ms t : J ms -> Jm (md_match_DocStringSeparator ms t).
Proof.
  intros H. unfold md_match_DocStringSeparator. destruct (ms_sep ms); [now apply sep_minv|].
  apply or_minv; [apply or_minv|]; intros; now apply sep_minv.
Qed.
Lemma mdscenario_minv ms t : J ms -> Jm (md_match_ScenarioLine ms t).
Proof. intros H. unfold md_match_ScenarioLine. apply or_minv; intros; now apply mdtitle_minv. Qed.
Lemma mdempty_minv ms t : J ms -> Jm (md_match_Empty ms t).
Proof.
  intros H. unfold md_match_Empty.
  set (any := m_or _ _). assert (A : Jm any).
  { unfold any. repeat (apply or_minv; [|intros; first [now apply mdfeature_minv | now apply mdscenario_minv | now apply mdrow_minv | now apply mdcomment_minv
      | now apply mdsep_minv | now apply eof_minv | now apply mdtitle_minv | assumption]]). now apply mdtag_minv. }
  destruct any as [[[m|e] ms1] t1]; [|exact A].
  destruct (_ || _); exact A.
Qed.
Lemma do_match_minv k ms t : J ms -> Jm (do_match k ms t).
Proof.
  intros H. unfold do_match. destruct (ms_md ms); [|now apply classic_minv].
  destruct k; cbn [md_match]; auto using eof_minv, mdempty_minv, mdcomment_minv, mdtag_minv, mdfeature_minv, mdscenario_minv, mdrow_minv, mdsep_minv;
    try (now apply mdtitle_minv).
Qed.

Notation Jc r := (J (c_ms (snd r))).
Lemma add_error_ms e c : c_ms (snd (add_error e c)) = c_ms c.
Proof. unfold add_error. destruct (existsb _ _); [reflexivity|]. destruct (Nat.ltb _ _); reflexivity. Qed.
Lemma add_errors_ms es : forall c, c_ms (snd (add_errors es c)) = c_ms c.
Proof.
  induction es as [|e es IH]; intros c; [reflexivity|]. cbn [add_errors]. pose proof (add_error_ms e c) as E.
  destruct (add_error e c) as [[] c1]; cbn in E; [now rewrite IH | exact E].
Qed.
Lemma handle_ms {A} (x : A) (p : result A * ctx B) : c_ms (snd (handle_external x p)) = c_ms (snd p).
Proof.
  destruct p as [r c]. unfold handle_external. destruct (c_stop c); [reflexivity|].
  destruct r as [a|[e|es| | | | | | | | |]]; try reflexivity.
  - pose proof (add_error_ms e c) as E. destruct (add_error e c); exact E.
  - pose proof (add_errors_ms es c) as E. destruct (add_errors es c); exact E.
Qed.
Lemma do_act_ms t a c : c_ms (snd (do_act bd t a c)) = c_ms c.
Proof. unfold do_act. rewrite handle_ms. destruct (match a with AStart r => _ | AEnd r => _ | ABuild => _ end). reflexivity. Qed.
Lemma do_acts_ms t l : forall c, c_ms (snd (do_acts bd t l c)) = c_ms c.
Proof.
  induction l as [|a l IH]; intros c; [reflexivity|]. cbn [do_acts]. pose proof (do_act_ms t a c) as E.
  destruct (do_act bd t a c) as [[] c1]; cbn in E; [now rewrite IH | exact E].
Qed.
Lemma match_tok_minv k t c : J (c_ms c) -> Jc (match_tok k t c).
Proof.
  intros H. unfold match_tok. destruct (_ && _); [exact H|]. pose proof (do_match_minv k _ t H) as D.
  destruct (do_match k (c_ms c) t) as [[r ms] t']. rewrite handle_ms. exact D.
Qed.
Lemma match_any_minv ks : forall t c, J (c_ms c) -> Jc (match_any ks t c).
Proof.
  induction ks as [|k ks IH]; intros t c H; [exact H|]. cbn [match_any]. pose proof (match_tok_minv k t c H) as E.
  destruct (match_tok k t c) as [[[[] t1]|e] c1]; cbn in E; auto.
Qed.
Lemma read_ms c : c_ms (snd (read_token c)) = c_ms c.
Proof. unfold read_token. destruct (c_queue c); reflexivity. Qed.
Lemma lookahead_minv k fuel : forall acc c, J (c_ms c) -> Jc (lookahead_go k fuel acc c).
Proof.
  induction fuel as [|f IH]; intros acc c H; [exact H|]. cbn [lookahead_go]. pose proof (read_ms c) as E. rewrite <- E in H.
  destruct (read_token c) as [t c1]. cbn in H. pose proof (match_tok_minv k t c1 H) as E2.
  destruct (match_tok k t c1) as [[[[] t1]|e] c2]; cbn in E2; [exact E2 | | exact E2].
  pose proof (match_any_minv [TkEmpty; TkComment; TkTagLine] t1 c2 E2) as E3.
  destruct (match_any _ t1 c2) as [[[[] t2]|e] c3]; cbn in E3; [now apply IH | exact E3 | exact E3].
Qed.
Lemma do_lookahead_minv l c : J (c_ms c) -> Jc (do_lookahead l c).
Proof. intros H. destruct l; [|exact H]. now apply lookahead_minv. Qed.
Lemma try_trans_minv trs : forall t c, J (c_ms c) -> Jc (try_trans bd trs t c).
Proof.
  induction trs as [|tr trs IH]; intros t c H; [exact H|]. cbn [try_trans]. pose proof (match_tok_minv (tr_tok tr) t c H) as E.
  destruct (match_tok _ t c) as [[[[] t1]|e] c1]; cbn in E; [|now apply IH | exact E].
  pose proof (do_lookahead_minv (tr_la tr) c1 E) as E2. destruct (do_lookahead _ c1) as [[[]|e] c2]; cbn in E2; [|now apply IH | exact E2].
  pose proof (do_acts_ms t1 (tr_acts tr) c2) as E3. destruct (do_acts bd t1 _ c2) as [[] c3]; cbn in E3; cbn; now rewrite E3.
Qed.
Lemma match_token_minv q t c : J (c_ms c) -> Jc (match_token bd q t c).
Proof.
  intros H. unfold match_token. destruct (ptable q) as [st|]; [|exact H]. pose proof (try_trans_minv (st_trans st) t c H) as E.
  destruct (try_trans bd _ t c) as [[[[n|] t1]|e] c1]; cbn in E; try exact E.
  destruct (c_stop c1); [exact E|]. pose proof (add_error_ms (unexpected t1 (st_expected st)) c1) as E2.
  destruct (add_error _ c1) as [[] c2]; cbn in E2; cbn; now rewrite E2.
Qed.
Lemma parse_loop_minv fuel : forall q c, J (c_ms c) -> Jc (parse_loop bd fuel q c).
Proof.
  induction fuel as [|f IH]; intros q c H; [exact H|]. cbn [parse_loop]. pose proof (read_ms c) as E. rewrite <- E in H.
  destruct (read_token c) as [t c1]. cbn in H. pose proof (match_token_minv q t c1 H) as E2.
  destruct (match_token bd q t c1) as [[q'|e] c2]; cbn in E2; [|exact E2]. destruct (t_eof t); [exact E2 | now apply IH].
Qed.
Lemma reset_minv ms ms0 : J ms -> ms_reset ms = Ok ms0 -> J ms0.
Proof.
  intros [H1 [H2 H3]]. unfold ms_reset. destruct (str_eqb _ _); cbn; [intros H; injection H as <-; repeat split; assumption|].
  unfold change_dialect. destruct (for_name (ms_default ms)) eqn:E; [|discriminate]. cbn. intros H. injection H as <-. repeat split; assumption.
Qed.
Theorem parse_b_minv stop b ms lines : J ms -> Jc (parse_b bd stop b ms lines).
Proof.
  intros H. unfold parse_b. destruct (ms_reset ms) as [ms0|e] eqn:E; [|exact H]. apply reset_minv in E; [|exact H].
  pose proof (do_act_ms (new_token [] 0) (AStart RGherkinDocument) (init_ctx stop b ms0 lines)) as E1.
  destruct (do_act bd _ _ _) as [[u|e] c1]; cbn in E1; [|cbn; now rewrite E1]. rewrite <- E1 in E.
  pose proof (parse_loop_minv (S (length lines)) 0 c1 E) as E2. destruct (parse_loop bd _ 0 c1) as [[u1|e] c2]; cbn in E2; [|exact E2].
  pose proof (do_act_ms (new_token [] 0) (AEnd RGherkinDocument) c2) as E3.
  destruct (do_act bd _ _ c2) as [[u2|e] c3]; cbn in E3; [|cbn; now rewrite E3]. destruct (c_errors c3); cbn; now rewrite E3.
Qed.
(** after that, a reset gives the matcher a new one would be *)
Lemma reset_fresh ms : J ms -> ms_reset ms = rbind (new_matcher md lang) ms_reset.
Proof.
  intros [H1 [H2 H3]]. unfold new_matcher. destruct (str_eqb (ms_name ms) (ms_default ms)) eqn:E.
  - unfold ms_reset at 1. rewrite E. cbn. apply str_eqb_spec in E. rewrite E, H2 in H3. rewrite H3.
    unfold ms_reset. cbn. assert (R : str_eqb lang lang = true) by now apply str_eqb_spec. rewrite R. cbn. rewrite R. cbn. now rewrite H1, H2, E, H2.
  - unfold ms_reset at 1. rewrite E. unfold change_dialect. rewrite H2. destruct (for_name lang) as [d|] eqn:F; [|cbn; reflexivity].
    unfold ms_reset. cbn. assert (R : str_eqb lang lang = true) by now apply str_eqb_spec. rewrite R. cbn. rewrite R. cbn. now rewrite H1.
Qed.
End Minv.
