(** * Queue elimination

    With the classic matcher the parser of Parser.v (token queue, lookahead that
    puts tokens back, tokens mutated by failing match attempts) does the same as
    a machine that reads the list of lines from left to right ([scan]).  The
    machine yields a list of events, which do not depend on the builder. *)
From Verif Require Import PyStr PyStrFacts Types Regex Line DialectData Matcher Ast ParserTable Parser Classify Table.

(** a usable classic matcher state *)
Definition good (ms : mstate) : Prop := ms_md ms = false /\ dialect_ok (ms_dialect ms) = true.

Definition cls (ms : mstate) (x : str) : tok := classify (ms_dialect ms) (lstrip x).

(** pure lookahead: the first line that is not blank, a comment or a tag line has class [k] *)
Fixpoint la (k : tok) (ms : mstate) (lines : list str) : result bool :=
  match lines with
  | [] => Ok false
  | x :: rest =>
      if tok_eqb (cls ms x) k then Ok true
      else match cls ms x with
           | TkEmpty | TkComment => la k ms rest
           | TkTagLine => match g_tags (mkLine x 0) with Ok _ => la k ms rest | Err e => Err e end
           | _ => Ok false
           end
  end.

(** one match attempt on the fresh token of line [x] (number [n]); [x = []] is the end of the file *)
Definition lexm (k : tok) (ms : mstate) (n : nat) (x : str) : mret :=
  if negb (tok_eqb k TkEOF) && (match x with [] => true | _ => false end)
  then (Ok false, ms, new_token x n)
  else classic_match k ms (new_token x n).

Inductive choice := CTrans (tr : trans) (t : token) (ms : mstate) | CNone | CExn (e : exn).
Fixpoint choose (trs : list trans) (ms : mstate) (n : nat) (x : str) (rest : list str)
  : list perr * choice :=
  match trs with
  | [] => ([], CNone)
  | tr :: trs' =>
      match lexm (tr_tok tr) ms n x with
      | (Err (EParser e), _, _) => let (es, c) := choose trs' ms n x rest in (e :: es, c)
      | (Err e, _, _) => ([], CExn e)
      | (Ok false, _, _) => choose trs' ms n x rest
      | (Ok true, ms', t') =>
          match tr_la tr with
          | None => ([], CTrans tr t' ms')
          | Some l =>
              match la (la_tok l) ms rest with
              | Ok true => ([], CTrans tr t' ms')
              | Ok false => choose trs' ms n x rest
              | Err e => ([], CExn e)
              end
          end
      end
  end.

(** a line that was accepted: the matcher before, the line number, the text, the token *)
Record leaf := mkLeaf { lf_ms : mstate; lf_n : nat; lf_x : str; lf_t : token }.
Inductive ev := EvErr (e : perr) | EvAct (l : leaf) (acts : list act).

Definition scan_step (q : nat) (ms : mstate) (n : nat) (x : str) (rest : list str)
  : list ev * result (nat * mstate) :=
  match ptable q with
  | None => ([], Err ERuntimeError)
  | Some st =>
      let (es, ch) := choose (st_trans st) ms n x rest in
      match ch with
      | CExn e => (map EvErr es, Err e)
      | CNone => (map EvErr es ++ [EvErr (unexpected (new_token x n) (st_expected st))], Ok (st_self st, ms))
      | CTrans tr t ms' => (map EvErr es ++ [EvAct (mkLeaf ms n x t) (tr_acts tr)], Ok (tr_next tr, ms'))
      end
  end.
Fixpoint scan (q : nat) (ms : mstate) (n : nat) (lines : list str) : list ev * result unit :=
  match lines with
  | [] => match scan_step q ms (S n) [] [] with
          | (evs, Ok _) => (evs, Ok tt)
          | (evs, Err e) => (evs, Err e)
          end
  | x :: rest =>
      match scan_step q ms (S n) x rest with
      | (evs, Ok (q', ms')) => let (evs', r) := scan q' ms' (S n) rest in (evs ++ evs', r)
      | (evs, Err e) => (evs, Err e)
      end
  end.

(** ** Classic match attempts in terms of the class of the line *)

Definition lines_ok (lines : list str) : Prop := Forall (fun x => x <> []) lines.

Section Lex.
Variable ms : mstate.
Hypothesis Hg : good ms.
Let d := ms_dialect ms.
Let Hok : dialect_ok d = true. Proof. exact (proj2 Hg). Qed.

Lemma cls_has k x : k <> TkEmpty -> k <> TkOther -> has d k (lstrip x) = tok_eqb (cls ms x) k.
Proof.
  intros H1 H2. destruct (has d k (lstrip x)) eqn:E.
  - apply (has_classify d Hok) in E as [E _]. unfold cls. fold d. rewrite E. symmetry. apply tok_eqb_refl.
  - destruct (tok_eqb (cls ms x) k) eqn:F; [|easy]. apply tok_eqb_spec in F.
    assert (has d k (lstrip x) = true) by (apply (has_classify d Hok); auto). congruence.
Qed.

Lemma cls_empty x : cls ms x = TkEmpty <-> lstrip x = [].
Proof. apply classify_empty. Qed.

Lemma title_find_none l kws :
  existsb (fun p => startswith p (g_trimmed l)) (with_colon kws) = false ->
  find (startswith_title_keyword l) kws = None.
Proof.
  rewrite has_cons_title. induction kws as [|k kws IH]; cbn; [easy|].
  intros [H1 H2]%orb_false_iff. unfold startswith_title_keyword at 1. rewrite H1. auto.
Qed.
Lemma title_find_some l kws :
  existsb (fun p => startswith p (g_trimmed l)) (with_colon kws) = true ->
  exists k, find (startswith_title_keyword l) kws = Some k.
Proof.
  rewrite has_cons_title. induction kws as [|k kws IH]; cbn; [easy|].
  unfold startswith_title_keyword at 1.
  destruct (startswith (k ++ [ch_colon]) (g_trimmed l)); eauto.
Qed.

(** the kinds decided by the class of the line alone *)
Definition plain (k : tok) : bool :=
  match k with TkEOF | TkOther | TkLanguage | TkDocStringSeparator => false | _ => true end.

Lemma classic_false k t x n :
  plain k = true -> t_line t = mkLine x n -> cls ms x <> k -> classic_match k ms t = (Ok false, ms, t).
Proof.
  intros Hp Ht Hc.
  assert (HT : g_trimmed (t_line t) = lstrip x) by (rewrite Ht; reflexivity).
  assert (Hh : k <> TkEmpty -> has d k (g_trimmed (t_line t)) = false)
    by (intros He; rewrite HT; apply has_false; assumption).
  destruct k; try discriminate Hp; cbn [classic_match];
    try (assert (Hf := Hh ltac:(discriminate)); unfold has in Hf; cbn [starts existsb] in Hf).
  - unfold c_match_Empty, g_is_empty. rewrite HT. destruct (lstrip x) eqn:E; [|reflexivity].
    exfalso; apply Hc; now apply cls_empty.
  - unfold c_match_Comment, g_startswith. apply orb_false_iff in Hf as [Hf _]. now rewrite Hf.
  - unfold c_match_TagLine, g_startswith. apply orb_false_iff in Hf as [Hf _]. now rewrite Hf.
  - unfold match_title. now rewrite title_find_none.
  - unfold match_title. now rewrite title_find_none.
  - unfold match_title. now rewrite title_find_none.
  - unfold with_colon in Hf. rewrite map_app, existsb_app in Hf. apply orb_false_iff in Hf as [H1 H2].
    fold (with_colon (d_scenario d)) in H1. fold (with_colon (d_scenarioOutline d)) in H2.
    unfold match_title. fold d. rewrite (title_find_none _ _ H1). cbn. now rewrite (title_find_none _ _ H2).
  - unfold match_title. now rewrite title_find_none.
  - unfold c_match_StepLine. fold d. rewrite (proj2 (find_none_iff _ _)); [reflexivity | exact Hf].
  - unfold c_match_TableRow, g_startswith. apply orb_false_iff in Hf as [Hf _]. now rewrite Hf.
Qed.

Lemma classic_true k t x n :
  plain k = true -> t_line t = mkLine x n -> cls ms x = k ->
  match k with
  | TkTagLine => match g_tags (mkLine x 0) with
                 | Ok _ => exists t', classic_match k ms t = (Ok true, ms, t')
                 | Err e => classic_match k ms t = (Err e, ms, t)
                 end
  | TkTableRow => match table_cells (mkLine x 0) with
                 | Ok _ => exists t', classic_match k ms t = (Ok true, ms, t')
                 | Err e => classic_match k ms t = (Err e, ms, t)
                 end
  | _ => exists t', classic_match k ms t = (Ok true, ms, t')
  end.
Proof.
  intros Hp Ht Hc.
  assert (HT : g_trimmed (t_line t) = lstrip x) by (rewrite Ht; reflexivity).
  assert (Hh : k <> TkEmpty -> has d k (g_trimmed (t_line t)) = true).
  { intros He; rewrite HT. apply (has_classify d Hok). repeat split; auto. intros ->; discriminate Hp. }
  destruct k; try discriminate Hp; cbn [classic_match];
    try (assert (Hf := Hh ltac:(discriminate)); unfold has in Hf; cbn [starts existsb] in Hf).
  - unfold c_match_Empty, g_is_empty. rewrite HT. apply cls_empty in Hc. rewrite Hc. cbn. eauto.
  - unfold c_match_Comment, g_startswith. rewrite orb_false_r in Hf. rewrite Hf. cbn. eauto.
  - unfold c_match_TagLine, g_startswith. rewrite orb_false_r in Hf. rewrite Hf. cbn [negb].
    rewrite Ht. change (g_tags (mkLine x n)) with (g_tags (mkLine x 0)).
    destruct (g_tags (mkLine x 0)); eauto.
  - unfold match_title; fold d. destruct (title_find_some _ _ Hf) as [k' ->]. eauto.
  - unfold match_title; fold d. destruct (title_find_some _ _ Hf) as [k' ->]. eauto.
  - unfold match_title; fold d. destruct (title_find_some _ _ Hf) as [k' ->]. eauto.
  - unfold with_colon in Hf. rewrite map_app, existsb_app in Hf. apply orb_true_iff in Hf as [H1|H1];
      fold (with_colon (d_scenario d)) in H1; fold (with_colon (d_scenarioOutline d)) in H1;
      unfold match_title; fold d; destruct (title_find_some _ _ H1) as [k' Hk'].
    + rewrite Hk'. cbn. eauto.
    + destruct (find _ (d_scenario d)); cbn; eauto. fold d. rewrite Hk'. eauto.
  - unfold match_title; fold d. destruct (title_find_some _ _ Hf) as [k' ->]. eauto.
  - unfold c_match_StepLine. fold d. destruct (find (g_startswith (t_line t)) (step_keywords d)) eqn:E; [eauto|].
    exfalso. apply existsb_exists in Hf as [p [H1 H2]].
    pose proof (find_none _ _ E _ H1) as F. unfold g_startswith in F. cbn in F. congruence.
  - unfold c_match_TableRow, g_startswith. rewrite orb_false_r in Hf. rewrite Hf. cbn [negb].
    rewrite Ht. change (table_cells (mkLine x n)) with (table_cells (mkLine x 0)).
    destruct (table_cells (mkLine x 0)); eauto.
Qed.
End Lex.

(** ** What a match attempt leaves behind *)

Definition tkok (ms : mstate) (x : str) (n : nat) (t : token) : Prop :=
  t_line t = mkLine x n /\ t_loc_line t = n /\
  (t_loc_col t = None \/
   x <> [] /\ (t_loc_col t = Some (g_indent (mkLine x n) + 1) \/ cls ms x = TkEmpty \/ cls ms x = TkComment)).

Lemma tkok_new ms x n : tkok ms x n (new_token x n).
Proof. repeat split. now left. Qed.
Lemma tkok_same ms x n t : tkok ms x n t -> same t (new_token x n).
Proof. intros [A [B _]]. split; cbn; congruence. Qed.

Lemma tkok_eof ms x n t : tkok ms x n t -> t_eof t = match x with [] => true | _ => false end.
Proof. intros [A _]. unfold t_eof, g_bool. rewrite A. cbn. now destruct x. Qed.

Lemma unexpected_fresh ms x n t exp :
  tkok ms x n t -> cls ms x <> TkEmpty -> cls ms x <> TkComment ->
  unexpected t exp = unexpected (new_token x n) exp.
Proof.
  intros [A [B C]] H1 H2. destruct t as [tl tn tc tm tx ti tk tkt tin td]. cbn [t_line t_loc_line t_loc_col] in A, B, C. subst tl tn.
  unfold unexpected, t_eof, t_location, token_value, t_eof. cbn [t_line t_loc_line t_loc_col g_bool g_text new_token].
  destruct C as [-> | [Hx [-> | [C|C]]]]; try contradiction; [reflexivity|].
  destruct x as [|c x]; [easy|]. unfold g_bool; cbn [negb g_text].
  generalize (g_indent (mkLine (c :: x) n)). intros i. rewrite Nat.add_1_r. reflexivity.
Qed.

(** shapes of the results of classic matchers *)
Lemma classic_shape k ms t :
  match classic_match k ms t with
  | (Ok true, ms', t') => same t' t /\ (k <> TkDocStringSeparator -> k <> TkLanguage -> ms' = ms) /\
        (g_bool (t_line t) = true -> k <> TkEmpty -> k <> TkComment -> k <> TkOther -> t_loc_col t' = Some (g_indent (t_line t) + 1))
  | (Ok false, ms', t') => ms' = ms /\ t' = t
  | (Err (EParser e), ms', t') => k = TkLanguage /\ ms' = ms /\ same t' t /\
        (g_bool (t_line t) = true -> t_loc_col t' = Some (g_indent (t_line t) + 1))
  | (Err e, ms', t') => ms' = ms /\ t' = t /\ (forall es, e <> EComposite es) /\
        (k = TkTagLine /\ e = EAttributeError \/ k = TkTableRow /\ e = ERuntimeError)
  end.
Proof.
  assert (Hsm : forall m ty text kw kt items, g_bool (t_line t) = true ->
     t_loc_col (set_matched m t ty text kw kt None items) = Some (g_indent (t_line t) + 1)).
  { intros. unfold set_matched. cbn. now rewrite H. }
  assert (Htitle : forall ty kws, match match_title ms t ty kws with
     | (Ok true, ms', t') => same t' t /\ ms' = ms /\ (g_bool (t_line t) = true -> t_loc_col t' = Some (g_indent (t_line t) + 1))
     | (Ok false, ms', t') => ms' = ms /\ t' = t
     | _ => False end).
  { intros. unfold match_title. destruct (find _ kws); [|easy]. repeat split. apply Hsm. }
  assert (Hsep : forall nt sep op, match match_separator nt sep op ms t with
     | (Ok true, ms', t') => same t' t /\ (g_bool (t_line t) = true -> t_loc_col t' = Some (g_indent (t_line t) + 1))
     | (Ok false, ms', t') => ms' = ms /\ t' = t
     | _ => False end).
  { intros. unfold match_separator. destruct (negb _); [easy|]. split; [easy|]. apply Hsm. }
  destruct k; cbn [classic_match].
  - unfold match_EOF. destruct (negb (t_eof t)); [easy|]. repeat split. intros; now apply Hsm.
  - unfold c_match_Empty. destruct (negb _); [easy|]. repeat split. intros; congruence.
  - unfold c_match_Comment. destruct (negb _); [easy|]. repeat split. intros; congruence.
  - unfold c_match_TagLine. destruct (negb _); [easy|].
    destruct (g_tags (t_line t)) as [a|e] eqn:E.
    + repeat split. intros; now apply Hsm.
    + assert (e = EAttributeError).
      { unfold g_tags in E. revert E. generalize (g_indent (t_line t) + 1).
        generalize (tl (split_on ch_at (strip (uncomment (strip (g_trimmed (t_line t))))))).
        intros l. induction l as [|a l IH]; cbn [tags_go]; [discriminate|].
        intros n. destruct (re_search _ _); [congruence|].
        destruct (tags_go l _) eqn:F; cbn; [discriminate|]. intros H. eapply IH. rewrite <- H. exact F. }
      subst e. repeat split; try discriminate. auto.
  - specialize (Htitle TkFeatureLine (d_feature (ms_dialect ms))).
    destruct (match_title _ _ _ _) as [[[[]|] m] t']; intuition.
  - specialize (Htitle TkRuleLine (d_rule (ms_dialect ms))).
    destruct (match_title _ _ _ _) as [[[[]|] m] t']; intuition.
  - specialize (Htitle TkBackgroundLine (d_background (ms_dialect ms))).
    destruct (match_title _ _ _ _) as [[[[]|] m] t']; intuition.
  - pose proof (Htitle TkScenarioLine (d_scenario (ms_dialect ms))) as H1.
    pose proof (Htitle TkScenarioLine (d_scenarioOutline (ms_dialect ms))) as H2.
    destruct (match_title _ _ _ _) as [[[[]|] m] t'] eqn:E; cbn; [intuition| |intuition].
    destruct H1 as [-> ->].
    destruct (match_title _ _ _ (d_scenarioOutline _)) as [[[[]|] m] t'']; intuition.
  - specialize (Htitle TkExamplesLine (d_examples (ms_dialect ms))).
    destruct (match_title _ _ _ _) as [[[[]|] m] t']; intuition.
  - unfold c_match_StepLine. destruct (find _ _); [|easy]. repeat split. intros; now apply Hsm.
  - unfold c_match_DocStringSeparator. destruct (ms_sep ms).
    + specialize (Hsep None s false). destruct (match_separator _ _ _ _ _) as [[[[]|] m] t']; intuition.
    + pose proof (Hsep None sep_quotes true) as H1. pose proof (Hsep None sep_ticks true) as H2.
      destruct (match_separator _ _ _ _ _) as [[[[]|] m] t'] eqn:E; cbn [m_or]; [intuition| |intuition].
      destruct H1 as [-> ->].
      destruct (match_separator _ sep_ticks _ _ _) as [[[[]|] m] t'']; intuition.
  - unfold c_match_TableRow. destruct (negb _); [easy|].
    destruct (table_cells (t_line t)) as [a|e] eqn:E.
    + repeat split. intros; now apply Hsm.
    + assert (e = ERuntimeError).
      { unfold table_cells, split_table_cells in E.
        destruct (split_cells_go _ 0 1 [] true) eqn:F; cbn in E; [discriminate|]. injection E as ->.
        revert F. generalize (strip (g_trimmed (t_line t))), 0, 1, (@nil char), true.
        intros row. assert (forall k, length row <= k -> forall n n0 l b, split_cells_go row n n0 l b = Err e -> e = ERuntimeError).
        { intros k. revert row. induction k as [|k IH]; intros [|c row] Hl n n0 l b; cbn [split_cells_go]; try discriminate; cbn in Hl; [lia|].
          destruct (c =? ch_pipe)%N.
          - destruct b; [apply IH; lia|]. destruct (split_cells_go row _ _ _ _) eqn:F; cbn; [discriminate|].
            intros H. eapply IH with (row := row); [lia|]. rewrite <- H. exact F.
          - destruct (c =? ch_bslash)%N; [|apply IH; lia].
            destruct row as [|c2 row]; [congruence|]. cbn in Hl.
            destruct (c2 =? ch_n)%N; [apply IH; lia|].
            destruct ((c2 =? ch_pipe)%N || (c2 =? ch_bslash)%N); apply IH; lia. }
        eauto. }
      subst e. repeat split; try discriminate. auto.
  - unfold c_match_Language. destruct (re_match _ _); [|easy].
    unfold change_dialect. destruct (for_name _); cbn.
    + split; [easy|]. split; [congruence|]. intros Hb _ _ _. unfold set_matched; cbn [t_loc_col]; now rewrite Hb.
    + repeat split. intros Hb. unfold set_matched; cbn [t_loc_col]; now rewrite Hb.
  - repeat split. intros; congruence.
Qed.

Section Generic.
Context {B : Type} (bd : builder B).
Implicit Types c : ctx B.

Lemma set_ms_id c : set_ms c (c_ms c) = c.
Proof. now destruct c. Qed.

(** one match attempt of the parser, on a token that may have been touched before *)
Lemma match_tok_lexm k ms x n t c :
  tkok ms x n t -> c_ms c = ms -> good ms ->
  match lexm k ms n x with
  | (Ok true, ms', t') =>
      match_tok k t c = (Ok (true, t'), set_ms c ms') /\
      (plain k = true -> ms' = ms /\ (cls ms x = k -> tkok ms x n t'))
  | (Ok false, ms', t') => ms' = ms /\ exists t'', match_tok k t c = (Ok (false, t''), c) /\ tkok ms x n t''
  | (Err (EParser e), ms', t') =>
      k = TkLanguage /\
      exists t'', tkok ms x n t'' /\
      match_tok k t c =
        (if c_stop c then (Err (EParser e), c)
         else let (r, c') := add_error e c in (rbind r (fun _ => Ok (false, t'')), c'))
  | (Err e, ms', t') => match_tok k t c = (Err e, c)
  end.
Proof.
  intros Ht Hc Hg. unfold lexm, match_tok.
  rewrite (tkok_eof _ _ _ _ Ht).
  destruct (negb (tok_eqb k TkEOF) && match x with [] => true | _ => false end) eqn:Eg.
  { split; [easy|]. eauto. }
  unfold do_match. rewrite Hc, (proj1 Hg).
  pose proof (classic_match_rel k ms t (new_token x n) (tkok_same _ _ _ _ Ht)) as [R1 [R2 [R3 R4]]].
  pose proof (classic_shape k ms t) as S1.
  pose proof (classic_shape k ms (new_token x n)) as S2.
  destruct (classic_match k ms t) as [[r1 m1] t1].
  destruct (classic_match k ms (new_token x n)) as [[r2 m2] t2]. cbn [fst snd] in *. subst r1 m1.
  unfold handle_external.
  assert (Hcs : set_ms c ms = c) by (rewrite <- Hc; apply set_ms_id).
  destruct Ht as [T1 [T2 T3]].
  assert (Hnx : k <> TkEOF -> x <> []).
  { intros Hk ->. destruct k; cbn in Eg; congruence. }
  destruct r2 as [[]|e].
  - rewrite (R3 eq_refl). destruct S2 as [S21 [S22 S23]]. cbn [rbind].
    split; [destruct (c_stop (set_ms c m2)); reflexivity|]. intros Hp. split.
    + apply S22; intros ->; discriminate Hp.
    + intros Hcls. destruct S21 as [A1 A2]. split; [exact A1|]. split; [exact A2|].
      right. assert (x <> []) by (apply Hnx; intros ->; discriminate Hp). split; [easy|].
      destruct k; try discriminate Hp; auto; left; (rewrite S23; [reflexivity | destruct x; easy | discriminate ..]).
  - destruct S2 as [-> ->], S1 as [_ ->]. split; [easy|]. cbn [rbind]. rewrite Hcs.
    exists t. split; [destruct (c_stop c); reflexivity | repeat split; auto].
  - destruct e; try (destruct S2 as [-> [-> S2]]; cbn [rbind]; rewrite Hcs; destruct (c_stop c);
      try reflexivity; exfalso; eapply (proj1 S2); reflexivity).
    destruct S2 as [-> [-> [S23 S24]]]. destruct S1 as [_ [_ [S13 S14]]]. split; [easy|].
    exists t1. cbn [rbind]. rewrite Hcs. split; [|destruct (c_stop c); reflexivity].
    destruct S13 as [A1 A2]. split; [congruence|]. split; [congruence|]. right.
    assert (x <> []) by (apply Hnx; discriminate). split; [easy|]. left.
    rewrite T1 in S14. apply S14. destruct x; easy.
Qed.

(** ** The queue *)
Definition skips (ms : mstate) (x : str) : bool :=
  match cls ms x with TkEmpty | TkComment | TkTagLine => true | _ => false end.

(** the queue [q], then the physical lines [ph] (already read: [ln]) stand for the lines
    [lines], numbered from [S n] *)
Inductive qrep (ms : mstate) : list token -> nat -> list str -> list str -> nat -> Prop :=
| qr_nil n lines : qrep ms [] n lines lines n
| qr_eof t n : tkok ms [] (S n) t -> qrep ms [t] n [] [] (S n)
| qr_last t n x lines : tkok ms x (S n) t -> skips ms x = false -> qrep ms [t] n (x :: lines) lines (S n)
| qr_cons t q n x lines ph ln :
    tkok ms x (S n) t -> skips ms x = true -> q <> [] -> qrep ms q (S n) lines ph ln ->
    qrep ms (t :: q) n (x :: lines) ph ln.

Definition rep (ms : mstate) (n : nat) (lines : list str) c : Prop :=
  c_ms c = ms /\ qrep ms (c_queue c) n lines (c_lines c) (c_lineno c).

(** contexts that agree on what matters for the outcome *)
Definition eqv c c' : Prop := c_b c = c_b c' /\ c_errors c = c_errors c' /\ c_stop c = c_stop c'.

Lemma read_token_rep ms n lines c :
  rep ms n lines c ->
  exists t c', read_token c = (t, c') /\ tkok ms (hd [] lines) (S n) t /\ eqv c c' /\ c_ms c' = ms /\
    (lines = [] -> c_queue c' = []) /\
    (lines <> [] -> rep ms (S n) (tl lines) c') /\
    (skips ms (hd [] lines) = false -> c_queue c' = []).
Proof.
  intros [Hm Hq]. unfold read_token. destruct c as [ls ln q es m b st]. cbn in *.
  inversion Hq; subst; cbn.
  - eexists _, _. split; [reflexivity|]. split; [apply tkok_new|]. repeat split; auto. constructor.
  - eexists _, _. split; [reflexivity|]. repeat split; auto; try apply H. easy.
  - eexists _, _. split; [reflexivity|]. repeat split; auto; try apply H. constructor.
  - eexists _, _. split; [reflexivity|]. repeat split; auto; try apply H; try easy. congruence.
Qed.

Lemma lexm_nil k ms n : k <> TkEOF -> lexm k ms n [] = (Ok false, ms, new_token [] n).
Proof. intros H. unfold lexm. destruct k; try reflexivity. congruence. Qed.
Lemma lexm_ne k ms n x : x <> [] -> lexm k ms n x = classic_match k ms (new_token x n).
Proof. intros H. unfold lexm. destruct x; [easy|]. now rewrite andb_false_r. Qed.
Lemma lexm_false k ms n x : good ms -> x <> [] -> plain k = true -> cls ms x <> k ->
  lexm k ms n x = (Ok false, ms, new_token x n).
Proof. intros. rewrite lexm_ne by easy. eapply classic_false; eauto. reflexivity. Qed.
Lemma lexm_true k ms n x : good ms -> x <> [] -> plain k = true -> cls ms x = k ->
  k <> TkTagLine -> k <> TkTableRow -> exists t', lexm k ms n x = (Ok true, ms, t').
Proof.
  intros Hg Hx Hp Hc H1 H2. rewrite lexm_ne by easy.
  pose proof (classic_true ms Hg k (new_token x n) x n Hp eq_refl Hc) as H.
  destruct k; try discriminate Hp; try contradiction; exact H.
Qed.
Lemma lexm_tag ms n x : good ms -> x <> [] -> cls ms x = TkTagLine ->
  match g_tags (mkLine x 0) with
  | Ok _ => exists t', lexm TkTagLine ms n x = (Ok true, ms, t')
  | Err e => lexm TkTagLine ms n x = (Err e, ms, new_token x n) /\ forall p, e <> EParser p
  end.
Proof.
  intros Hg Hx Hc. rewrite lexm_ne by easy.
  pose proof (classic_true ms Hg TkTagLine (new_token x n) x n eq_refl eq_refl Hc) as H. cbv beta iota in H.
  pose proof (classic_shape TkTagLine ms (new_token x n)) as S.
  destruct (g_tags (mkLine x 0)); [exact H|]. split; [exact H|]. rewrite H in S.
  intros p ->. destruct S as [S _]. discriminate S.
Qed.

Lemma eqv_refl c : eqv c c. Proof. easy. Qed.
Lemma eqv_trans c1 c2 c3 : eqv c1 c2 -> eqv c2 c3 -> eqv c1 c3.
Proof. unfold eqv. intuition congruence. Qed.
Lemma eqv_sym c1 c2 : eqv c1 c2 -> eqv c2 c1.
Proof. unfold eqv. intuition congruence. Qed.

Lemma match_any_false ms x n ks : forall t c,
  tkok ms x n t -> c_ms c = ms -> good ms ->
  (forall k, In k ks -> exists m t0, lexm k ms n x = (Ok false, m, t0)) ->
  exists t', match_any ks t c = (Ok (false, t'), c) /\ tkok ms x n t'.
Proof.
  induction ks as [|k ks IH]; intros t c Ht Hc Hg H; cbn [match_any]; [eauto|].
  pose proof (match_tok_lexm k ms x n t c Ht Hc Hg) as M.
  destruct (H k) as [m [t0 E]]; [now left|]. rewrite E in M.
  destruct M as [_ [t'' [M1 M2]]]. rewrite M1. apply IH; auto. intros k' Hk'. apply H. now right.
Qed.
Lemma match_any_true ms x n k ks1 ks2 t' : forall t c,
  tkok ms x n t -> c_ms c = ms -> good ms ->
  (forall k, In k ks1 -> exists m t0, lexm k ms n x = (Ok false, m, t0)) ->
  plain k = true -> cls ms x = k -> lexm k ms n x = (Ok true, ms, t') ->
  match_any (ks1 ++ k :: ks2) t c = (Ok (true, t'), c) /\ tkok ms x n t'.
Proof.
  induction ks1 as [|k1 ks1 IH]; intros t c Ht Hc Hg H Hp Hcl E; cbn [match_any app].
  - pose proof (match_tok_lexm k ms x n t c Ht Hc Hg) as M. rewrite E in M.
    destruct M as [M1 M2]. rewrite M1. specialize (M2 Hp) as [_ M2].
    rewrite <- Hc, set_ms_id. split; [reflexivity|]. rewrite Hc. auto.
  - pose proof (match_tok_lexm k1 ms x n t c Ht Hc Hg) as M.
    destruct (H k1) as [m [t0 E1]]; [now left|]. rewrite E1 in M.
    destruct M as [_ [t'' [M1 M2]]]. rewrite M1. apply IH; auto. intros k' Hk'. apply H. now right.
Qed.

Lemma lookahead_rep k ms : good ms -> k = TkScenarioLine \/ k = TkExamplesLine ->
  forall fuel lines n acc c, rep ms n lines c -> length lines < fuel -> lines_ok lines ->
  exists c', lookahead_go k fuel acc c = (la k ms lines, c') /\ eqv c c' /\ c_ms c' = ms /\
   (forall b, la k ms lines = Ok b ->
      exists q', c_queue c' = acc ++ q' /\ q' <> [] /\ qrep ms q' n lines (c_lines c') (c_lineno c')).
Proof.
  intros Hg Hk. assert (Hp : plain k = true) by (destruct Hk; subst; reflexivity).
  assert (Hke : k <> TkEOF) by (destruct Hk; subst; discriminate).
  induction fuel as [|f IH]; intros lines n acc c Hr Hf Hl; [lia|]. cbn [lookahead_go].
  destruct (read_token_rep ms n lines c Hr) as [t [c1 [R1 [R2 [R3 [R4 [R5 [R6 R7]]]]]]]].
  rewrite R1. destruct lines as [|x rest].
  - (* end of file *)
    cbn [hd] in R2. pose proof (match_tok_lexm k ms [] (S n) t c1 R2 R4 Hg) as M.
    rewrite lexm_nil in M by easy. destruct M as [_ [t1 [M1 M2]]]. rewrite M1.
    destruct (match_any_false ms [] (S n) [TkEmpty; TkComment; TkTagLine] t1 c1 M2 R4 Hg) as [t2 [A1 A2]].
    { intros k' Hk'. rewrite lexm_nil; [eauto|]. intros ->. cbn in Hk'. intuition discriminate. }
    rewrite A1. cbn [la]. eexists. split; [reflexivity|].
    rewrite (R5 eq_refl). split; [exact R3|]. split; [exact R4|]. intros b _. exists [t2].
    split; [reflexivity|]. split; [discriminate|].
    destruct Hr as [Hr1 Hr2]. clear - Hr2 R1 A2. destruct c as [ls ln q es m bb st]. cbn in *.
    unfold read_token in R1. cbn in R1. inversion Hr2; subst; cbn in R1; injection R1 as <- <-; cbn; now constructor.
  - cbn [hd] in R2, R7. cbn [la].
    assert (Hx : x <> []) by now inversion Hl. assert (Hl' : lines_ok rest) by now inversion Hl.
    specialize (R6 ltac:(discriminate)). cbn [tl] in R6.
    pose proof (match_tok_lexm k ms x (S n) t c1 R2 R4 Hg) as M.
    assert (Hend : forall t1 c2, c2 = set_queue c1 ([] ++ acc ++ [t1]) -> tkok ms x (S n) t1 -> skips ms x = false ->
       c_queue c2 = acc ++ [t1] /\ [t1] <> [] /\ qrep ms [t1] n (x :: rest) (c_lines c2) (c_lineno c2)).
    { intros t1 c2 -> Ht1 Hs. split; [reflexivity|]. split; [discriminate|]. cbn.
      destruct R6 as [_ R6]. rewrite (R7 Hs) in R6. inversion R6; subst. now constructor. }
    destruct (tok_eqb (cls ms x) k) eqn:Ek.
    { (* found *)
      apply tok_eqb_spec in Ek.
      destruct (lexm_true k ms (S n) x Hg Hx Hp Ek) as [t' E]; [destruct Hk; subst; rewrite Ek in *; discriminate ..|].
      rewrite E in M. destruct M as [M1 M2]. rewrite M1. destruct (M2 Hp) as [_ M3]. specialize (M3 Ek).
      assert (Hs : skips ms x = false) by (unfold skips; rewrite Ek; destruct Hk as [Hk|Hk]; rewrite Hk; reflexivity).
      assert (Hcs : set_ms c1 ms = c1) by (rewrite <- R4; apply set_ms_id). rewrite Hcs. rewrite (R7 Hs).
      eexists. split; [reflexivity|]. split; [exact R3|]. split; [exact R4|]. intros b _.
      exists [t']. now apply Hend. }
    assert (Hne : cls ms x <> k) by (intros H; rewrite H, tok_eqb_refl in Ek; discriminate).
    rewrite (lexm_false k ms (S n) x Hg Hx Hp Hne) in M. destruct M as [_ [t1 [M1 M2]]]. rewrite M1.
    assert (Hgo : forall t2, tkok ms x (S n) t2 -> skips ms x = true ->
      exists c', lookahead_go k f (acc ++ [t2]) c1 = (la k ms rest, c') /\ eqv c c' /\ c_ms c' = ms /\
        (forall b, la k ms rest = Ok b -> exists q', c_queue c' = acc ++ q' /\ q' <> [] /\
           qrep ms q' n (x :: rest) (c_lines c') (c_lineno c'))).
    { intros t2 Ht2 Hs. destruct (IH rest (S n) (acc ++ [t2]) c1 R6) as [c' [I1 [I2 [I3 I4]]]]; [cbn in Hf; lia | easy|].
      exists c'. split; [exact I1|]. split; [eapply eqv_trans; eauto|]. split; [exact I3|].
      intros b Hb. destruct (I4 b Hb) as [q' [Q1 [Q2 Q3]]]. exists (t2 :: q').
      split; [rewrite Q1; now rewrite <- app_assoc|]. split; [discriminate|]. now constructor. }
    assert (F : forall k', plain k' = true -> cls ms x <> k' -> exists m t0, lexm k' ms (S n) x = (Ok false, m, t0)).
    { intros k' Hp' Hc'. rewrite lexm_false by easy. eauto. }
    destruct (skips ms x) eqn:Es; unfold skips in Es.
    + destruct (cls ms x) eqn:Ec; try discriminate Es.
      * destruct (lexm_true TkEmpty ms (S n) x Hg Hx eq_refl Ec) as [t' E]; [discriminate ..|].
        destruct (match_any_true ms x (S n) TkEmpty [] [TkComment; TkTagLine] t' t1 c1 M2 R4 Hg) as [A1 A2]; auto.
        cbn [app] in A1. rewrite A1. apply Hgo; auto. 
      * destruct (lexm_true TkComment ms (S n) x Hg Hx eq_refl Ec) as [t' E]; [discriminate ..|].
        destruct (match_any_true ms x (S n) TkComment [TkEmpty] [TkTagLine] t' t1 c1 M2 R4 Hg) as [A1 A2]; auto.
        { intros k' [<-|[]]. apply F; [easy | discriminate]. }
        cbn [app] in A1. rewrite A1. apply Hgo; auto. 
      * pose proof (lexm_tag ms (S n) x Hg Hx Ec) as T. 
        destruct (g_tags (mkLine x 0)) as [tg|e] eqn:Etag.
        -- destruct T as [t' E].
           destruct (match_any_true ms x (S n) TkTagLine [TkEmpty; TkComment] [] t' t1 c1 M2 R4 Hg) as [A1 A2]; auto.
           { intros k' [<-|[<-|[]]]; apply F; (easy || discriminate). }
           cbn [app] in A1. rewrite A1. apply Hgo; auto. 
        -- destruct T as [E Enp].
           cbn [match_any].
           pose proof (match_tok_lexm TkEmpty ms x (S n) t1 c1 M2 R4 Hg) as M'.
           rewrite lexm_false in M' by (easy || (rewrite Ec; discriminate)).
           destruct M' as [_ [t2 [M1' M2']]]. rewrite M1'. clear M1'.
           pose proof (match_tok_lexm TkComment ms x (S n) t2 c1 M2' R4 Hg) as M'.
           rewrite lexm_false in M' by (easy || (rewrite Ec; discriminate)).
           destruct M' as [_ [t3 [M1'' M2'']]]. rewrite M1''. clear M1''.
           pose proof (match_tok_lexm TkTagLine ms x (S n) t3 c1 M2'' R4 Hg) as M'. rewrite E in M'.
           assert (M3 : match_tok TkTagLine t3 c1 = (Err e, c1)) by (destruct e; auto; exfalso; eapply Enp; reflexivity).
           rewrite M3. eexists. split; [reflexivity|]. split; [exact R3|]. split; [exact R4|]. discriminate.
    + destruct (match_any_false ms x (S n) [TkEmpty; TkComment; TkTagLine] t1 c1 M2 R4 Hg) as [t2 [A1 A2]].
      { intros k' Hk'. apply F.
        - cbn in Hk'. intuition (subst; reflexivity).
        - intros Heq. rewrite Heq in Es. cbn in Hk'. destruct Hk' as [<-|[<-|[<-|[]]]]; discriminate. }
      rewrite A1. rewrite (R7 eq_refl).
      assert (Hla : match cls ms x with TkEmpty | TkComment => la k ms rest
           | TkTagLine => match g_tags (mkLine x 0) with Ok _ => la k ms rest | Err e => Err e end
           | _ => Ok false end = Ok false) by (destruct (cls ms x); easy).
      rewrite Hla. eexists. split; [reflexivity|]. split; [exact R3|]. split; [exact R4|]. intros b _.
      exists [t2]. now apply Hend.
Qed.

(** ** Running events *)
Fixpoint run_evs (evs : list ev) c : result unit * ctx B :=
  match evs with
  | [] => (Ok tt, c)
  | EvErr e :: evs' =>
      if c_stop c then (Err (EParser e), c)
      else match add_error e c with
           | (Ok _, c1) => run_evs evs' c1
           | (Err x, c1) => (Err x, c1)
           end
  | EvAct l acts :: evs' =>
      match do_acts bd (lf_t l) acts c with
      | (Ok _, c1) => run_evs evs' c1
      | (Err x, c1) => (Err x, c1)
      end
  end.
Lemma run_evs_app l1 l2 c : run_evs (l1 ++ l2) c =
  match run_evs l1 c with (Ok _, c1) => run_evs l2 c1 | (Err e, c1) => (Err e, c1) end.
Proof.
  revert c. induction l1 as [|[e|t acts] l1 IH]; intros c; cbn [run_evs app]; [easy| |].
  - destruct (c_stop c); [easy|]. destruct (add_error e c) as [[u|x] c1]; [apply IH | easy].
  - destruct (do_acts bd (lf_t t) acts c) as [[u|x] c1]; [apply IH | easy].
Qed.

(** the parts that the builder calls and errors do not touch *)
Definition scn c := (c_lines c, c_lineno c, c_queue c, c_ms c, c_stop c).
(** same outcome, same builder and errors *)
Definition out_eq {A} (r1 r2 : result A * ctx B) : Prop := fst r1 = fst r2 /\ eqv (snd r1) (snd r2).

Lemma eqv_ext c1 c2 : eqv c1 c2 -> exists l n q m, c2 = mkCtx l n q (c_errors c1) m (c_b c1) (c_stop c1).
Proof. intros [A [E S]]. destruct c2. cbn in *. subst. eauto 10. Qed.

Lemma add_error_eqv e c1 c2 : eqv c1 c2 ->
  out_eq (add_error e c1) (add_error e c2) /\ scn (snd (add_error e c2)) = scn c2.
Proof.
  intros H. destruct (eqv_ext _ _ H) as [l [n [q [m ->]]]]. unfold add_error. cbn [c_errors].
  destruct (existsb _ (c_errors c1)); [repeat split|].
  destruct (Nat.ltb 10 _); repeat split.
Qed.
Lemma add_errors_eqv es : forall c1 c2, eqv c1 c2 ->
  out_eq (add_errors es c1) (add_errors es c2) /\ scn (snd (add_errors es c2)) = scn c2.
Proof.
  induction es as [|e es IH]; intros c1 c2 H; cbn [add_errors]; [easy|].
  destruct (add_error_eqv e _ _ H) as [[A1 A2] A3].
  destruct (add_error e c1) as [[u|x] d1], (add_error e c2) as [[u'|x'] d2]; cbn [fst snd] in *; try discriminate.
  - destruct (IH _ _ A2) as [B1 B2]. split; [exact B1 | congruence].
  - injection A1 as <-. easy.
Qed.
Lemma do_act_eqv t a c1 c2 : eqv c1 c2 ->
  out_eq (do_act bd t a c1) (do_act bd t a c2) /\ scn (snd (do_act bd t a c2)) = scn c2.
Proof.
  intros H. pose proof H as [A [E S]]. unfold do_act, handle_external.
  assert (G : forall rb : result unit * B,
     out_eq (let (r, c) := (let (r, b) := rb in (r, set_b c1 b)) in
             if c_stop c then (r, c) else match r with
               | Err (EComposite es) => let (r', c') := add_errors es c in (rbind r' (fun _ => Ok tt), c')
               | Err (EParser e) => let (r', c') := add_error e c in (rbind r' (fun _ => Ok tt), c')
               | _ => (r, c) end)
            (let (r, c) := (let (r, b) := rb in (r, set_b c2 b)) in
             if c_stop c then (r, c) else match r with
               | Err (EComposite es) => let (r', c') := add_errors es c in (rbind r' (fun _ => Ok tt), c')
               | Err (EParser e) => let (r', c') := add_error e c in (rbind r' (fun _ => Ok tt), c')
               | _ => (r, c) end) /\
     scn (snd (let (r, c) := (let (r, b) := rb in (r, set_b c2 b)) in
             if c_stop c then (r, c) else match r with
               | Err (EComposite es) => let (r', c') := add_errors es c in (rbind r' (fun _ => Ok tt), c')
               | Err (EParser e) => let (r', c') := add_error e c in (rbind r' (fun _ => Ok tt), c')
               | _ => (r, c) end)) = scn c2).
  { intros [r b]. cbv beta iota.
    assert (Hb : eqv (set_b c1 b) (set_b c2 b)) by (repeat split; cbn; congruence).
    assert (Hs : scn (set_b c2 b) = scn c2) by reflexivity.
    assert (Est : c_stop (set_b c1 b) = c_stop (set_b c2 b)) by exact S.
    rewrite Est. destruct (c_stop (set_b c2 b)); [now repeat split|].
    destruct r as [u|x]; [now repeat split|].
    destruct x; try (now repeat split).
    - destruct (add_error_eqv e _ _ Hb) as [[A1 A2] A3].
      destruct (add_error e (set_b c1 b)), (add_error e (set_b c2 b)). cbn [fst snd] in *. subst. repeat split; auto; apply A2.
    - destruct (add_errors_eqv es _ _ Hb) as [[A1 A2] A3].
      destruct (add_errors es (set_b c1 b)), (add_errors es (set_b c2 b)). cbn [fst snd] in *. subst. repeat split; auto; apply A2. }
  rewrite <- A. apply G.
Qed.
Lemma do_acts_eqv t l : forall c1 c2, eqv c1 c2 ->
  out_eq (do_acts bd t l c1) (do_acts bd t l c2) /\ scn (snd (do_acts bd t l c2)) = scn c2.
Proof.
  induction l as [|a l IH]; intros c1 c2 H; cbn [do_acts]; [easy|].
  destruct (do_act_eqv t a _ _ H) as [[A1 A2] A3].
  destruct (do_act bd t a c1) as [[u|x] d1], (do_act bd t a c2) as [[u'|x'] d2]; cbn [fst snd] in *; try discriminate.
  - destruct (IH _ _ A2) as [B1 B2]. split; [exact B1 | congruence].
  - injection A1 as <-. easy.
Qed.
Lemma run_evs_eqv evs : forall c1 c2, eqv c1 c2 ->
  out_eq (run_evs evs c1) (run_evs evs c2) /\ scn (snd (run_evs evs c2)) = scn c2.
Proof.
  induction evs as [|[e|t acts] evs IH]; intros c1 c2 H; cbn [run_evs]; [easy| |].
  - pose proof H as [A [E S]]. rewrite S. destruct (c_stop c2); [split; [split; [reflexivity | exact H] | reflexivity]|].
    destruct (add_error_eqv e c1 c2 H) as [[A1 A2] A3].
    destruct (add_error e c1) as [[u|x] d1], (add_error e c2) as [[u'|x'] d2]; cbn [fst snd] in *; try discriminate.
    + destruct (IH _ _ A2) as [B1 B2]. split; [exact B1 | congruence].
    + injection A1 as <-. repeat split; auto; apply A2.
  - destruct (do_acts_eqv (lf_t t) acts _ _ H) as [[A1 A2] A3].
    destruct (do_acts bd (lf_t t) acts c1) as [[u|x] d1], (do_acts bd (lf_t t) acts c2) as [[u'|x'] d2]; cbn [fst snd] in *; try discriminate.
    + destruct (IH _ _ A2) as [B1 B2]. split; [exact B1 | congruence].
    + injection A1 as <-. repeat split; auto; apply A2.
Qed.

Definition qr (ms : mstate) (n : nat) (lines : list str) c : Prop :=
  qrep ms (c_queue c) n lines (c_lines c) (c_lineno c).
Lemma rep_scn ms n lines c c' : scn c' = scn c -> rep ms n lines c -> rep ms n lines c'.
Proof. intros H [A C]. unfold scn in H. injection H as E1 E2 E3 E4 E5. split; congruence. Qed.
Lemma qr_scn ms n lines c c' : scn c' = scn c -> qr ms n lines c -> qr ms n lines c'.
Proof. intros H A. unfold scn in H. injection H as E1 E2 E3 E4 E5. unfold qr in *. congruence. Qed.

Lemma qrep_len ms q n lines ph ln : qrep ms q n lines ph ln -> length lines <= length q + length ph.
Proof. induction 1; cbn in *; lia. Qed.
Lemma do_lookahead_rep l ms lines n c : good ms -> rep ms n lines c -> lines_ok lines ->
  exists c', do_lookahead (Some l) c = (la (la_tok l) ms lines, c') /\ eqv c c' /\ c_ms c' = ms /\
   (forall b, la (la_tok l) ms lines = Ok b -> rep ms n lines c').
Proof.
  intros Hg Hr Hl. cbn [do_lookahead].
  pose proof (qrep_len _ _ _ _ _ _ (proj2 Hr)) as L.
  destruct (lookahead_rep (la_tok l) ms Hg ltac:(destruct l; auto)
    (S (length (c_queue c) + length (c_lines c))) lines n [] c Hr) as [c' [A1 [A2 [A3 A4]]]]; [lia | easy |].
  exists c'. split; [exact A1|]. split; [exact A2|]. split; [exact A3|].
  intros b Hb. destruct (A4 b Hb) as [q' [Q1 [Q2 Q3]]]. split; [exact A3|]. cbn in Q1. now rewrite Q1.
Qed.

(** ** One line *)
(** the context after the current token was read; at the end of the file nothing is left to read *)
Definition after (ms : mstate) (n : nat) (x : str) (rest : list str) c : Prop :=
  x <> [] -> qr ms n rest c.

Definition la_tag (trs : list trans) : Prop :=
  forall tr, In tr trs -> tr_la tr = None \/ tr_tok tr = TkTagLine.

Lemma try_trans_choose ms n x rest trs : good ms -> lines_ok rest -> la_tag trs ->
  forall t c c0, tkok ms x n t -> c_ms c = ms -> after ms n x rest c -> eqv c0 c ->
  let (es, ch) := choose trs ms n x rest in
  match run_evs (map EvErr es) c0 with
  | (Err e, c1) => exists c', try_trans bd trs t c = (Err e, c') /\ eqv c1 c'
  | (Ok _, c1) =>
      match ch with
      | CExn e => exists c', try_trans bd trs t c = (Err e, c') /\ eqv c1 c'
      | CNone => exists t' c', try_trans bd trs t c = (Ok (None, t'), c') /\ tkok ms x n t' /\
                   eqv c1 c' /\ c_ms c' = ms /\ after ms n x rest c'
      | CTrans tr t1 ms' =>
          match run_evs [EvAct (mkLeaf ms n x t1) (tr_acts tr)] c1 with
          | (Err e, c2) => exists c', try_trans bd trs t c = (Err e, c') /\ eqv c2 c'
          | (Ok _, c2) => exists t' c', try_trans bd trs t c = (Ok (Some (tr_next tr), t'), c') /\
                   eqv c2 c' /\ c_ms c' = ms' /\ after ms n x rest c'
          end
      end
  end.
Proof.
  intros Hg Hl. induction trs as [|tr trs IH]; intros Hla t c c0 Ht Hm Ha He; cbn [choose try_trans].
  - cbn [map run_evs]. eauto 10.
  - assert (Hla' : la_tag trs) by (intros tr' H'; apply Hla; now right).
    specialize (IH Hla').
    pose proof (match_tok_lexm (tr_tok tr) ms x n t c Ht Hm Hg) as M.
    destruct (lexm (tr_tok tr) ms n x) as [[[[]|e] ms'] t'] eqn:E.
    + (* matched *)
      destruct M as [M1 M2]. rewrite M1.
      assert (Fin : forall c1, qr ms n rest c1 \/ x = [] -> c_ms c1 = ms' -> eqv c0 c1 ->
         match run_evs [EvAct (mkLeaf ms n x t') (tr_acts tr)] c0 with
         | (Err e, c2) => exists c', match do_acts bd t' (tr_acts tr) c1 with
              | (Err e, c3) => (Err e, c3) | (Ok _, c3) => (Ok (Some (tr_next tr), t'), c3) end = (Err e, c') /\ eqv c2 c'
         | (Ok _, c2) => exists t1 c', match do_acts bd t' (tr_acts tr) c1 with
              | (Err e, c3) => (Err e, c3) | (Ok _, c3) => (Ok (Some (tr_next tr), t'), c3) end
               = (Ok (Some (tr_next tr), t1), c') /\ eqv c2 c' /\ c_ms c' = ms' /\ after ms n x rest c'
         end).
      { intros c1 Hq Hms He1. cbn [run_evs lf_t].
        destruct (do_acts_eqv t' (tr_acts tr) c0 c1 He1) as [[A1 A2] A3].
        destruct (do_acts bd t' (tr_acts tr) c0) as [[u|e1] d1], (do_acts bd t' (tr_acts tr) c1) as [[u'|e1'] d2];
          cbn [fst snd] in *; try discriminate.
        - eexists t', d2. split; [reflexivity|]. split; [exact A2|]. split.
          + unfold scn in A3. congruence.
          + intros Hx. destruct Hq as [Hq|Hq]; [|contradiction]. eapply qr_scn; eauto.
        - injection A1 as <-. eexists. split; [reflexivity | exact A2]. }
      destruct (Hla tr (or_introl eq_refl)) as [Hn|Htag].
      * rewrite Hn. cbn [do_lookahead map run_evs]. apply Fin; auto.
        destruct x as [|a x]; [now right | left]. unfold qr. cbn. apply Ha. discriminate.
      * rewrite Htag in E. assert (Hx : x <> []) by (intros ->; rewrite lexm_nil in E by discriminate; discriminate).
        assert (Hc : cls ms x = TkTagLine).
        { destruct (tok_eqb (cls ms x) TkTagLine) eqn:Q; [now apply tok_eqb_spec|].
          rewrite lexm_false in E; try easy. intros H; rewrite H in Q; discriminate. }
        rewrite Htag in M2. destruct (M2 eq_refl) as [-> M3]. specialize (M3 Hc).
        assert (Hcs : set_ms c ms = c) by (rewrite <- Hm; apply set_ms_id). rewrite Hcs.
        destruct (tr_la tr) as [l|].
        2:{ cbn [do_lookahead map run_evs]. apply Fin; auto. }
        destruct (do_lookahead_rep l ms rest n c Hg (conj Hm (Ha Hx)) Hl) as [c2 [L1 [L2 [L3 L4]]]].
        rewrite L1. destruct (la (la_tok l) ms rest) as [[]|e].
        -- cbn [map run_evs]. apply Fin; auto; [|eapply eqv_trans; eauto]. left. exact (proj2 (L4 true eq_refl)).
        -- apply IH; auto; [|eapply eqv_trans; eauto]. intros _. exact (proj2 (L4 false eq_refl)).
        -- cbn [map run_evs]. eexists. split; [reflexivity | eapply eqv_trans; eauto].
    + (* not matched *)
      destruct M as [-> [t'' [M1 M2]]]. rewrite M1. apply IH; auto.
    + destruct e; try (rewrite M; cbn [map run_evs]; eexists; split; [reflexivity | exact He]).
      destruct M as [Hk [t'' [M1 M2]]]. rewrite M2.
      destruct (choose trs ms n x rest) as [es ch] eqn:Ech. cbn [map run_evs].
      pose proof He as [He1 [He2 He3]]. rewrite He3.
      destruct (c_stop c) eqn:Est.
      * eexists. split; [reflexivity | exact He].
      * destruct (add_error_eqv e c0 c He) as [[A1 A2] A3].
        destruct (add_error e c0) as [[u|x0] d1], (add_error e c) as [[u'|x0'] d2]; cbn [fst snd rbind] in *; try discriminate.
        -- specialize (IH t'' d2 d1). apply IH; auto.
           ++ unfold scn in A3. congruence.
           ++ intros Hx. eapply qr_scn; eauto.
        -- injection A1 as <-. eexists. split; [reflexivity | exact A2].
Qed.

(** ** Changing the matcher state *)
Lemma cls_common ms ms' x k : good ms -> good ms' -> k = TkEmpty \/ k = TkComment \/ k = TkTagLine ->
  cls ms x = k -> cls ms' x = k.
Proof.
  intros [_ G] [_ G'] Hk H. destruct Hk as [->|Hk].
  - apply classify_empty. now apply classify_empty in H.
  - assert (Hh : has (ms_dialect ms) k (lstrip x) = true).
    { apply (has_classify _ G). split; [exact H|]. split; destruct Hk as [Hk|Hk]; rewrite Hk; discriminate. }
    apply (has_classify _ G'). destruct Hk as [Hk|Hk]; rewrite Hk in *; exact Hh.
Qed.
Lemma tkok_change ms ms' x n t : good ms -> good ms' -> tkok ms x n t -> tkok ms' x n t.
Proof.
  intros G G' [A [C D]]. split; [exact A|]. split; [exact C|].
  destruct D as [D|[D1 [D2|[D2|D2]]]]; [now left | right..]; split; auto.
  - right; left. eapply (cls_common ms); eauto.
  - right; right. eapply (cls_common ms); eauto.
Qed.
Lemma skips_change ms ms' x : good ms -> good ms' -> skips ms x = true -> skips ms' x = true.
Proof.
  intros G G' H. unfold skips in *. destruct (cls ms x) eqn:E; try discriminate H;
  (rewrite (fun h => cls_common ms ms' x _ G G' h E)); auto.
Qed.
Lemma qrep_change ms ms' q n lines ph ln : good ms -> good ms' ->
  qrep ms q n lines ph ln -> qrep ms' q n lines ph ln.
Proof.
  intros G G'. induction 1.
  - constructor.
  - constructor. now apply (tkok_change ms).
  - constructor; [now apply (tkok_change ms)|].
    destruct (skips ms' x) eqn:E; [|reflexivity]. rewrite (skips_change ms' ms x G' G E) in H0. discriminate H0.
  - constructor; auto; [now apply (tkok_change ms) | now apply (skips_change ms)].
Qed.

Lemma change_dialect_good ms name loc ms' : good ms -> change_dialect ms name loc = Ok ms' -> good ms'.
Proof.
  intros [G1 G2] H. unfold change_dialect in H. destruct (for_name name) as [d|] eqn:E; [|discriminate].
  injection H as <-. split; [exact G1 | cbn; eapply for_name_ok; eauto].
Qed.
Lemma classic_good k ms t ms' t' : good ms -> classic_match k ms t = (Ok true, ms', t') -> good ms'.
Proof.
  intros G H. pose proof (classic_shape k ms t) as S. rewrite H in S. destruct S as [_ [S _]].
  assert (Hsep : forall nt sep op m u, match_separator nt sep op ms t = (Ok true, m, u) -> good m).
  { intros nt sep op m u E. unfold match_separator in E. destruct (negb _); [discriminate|].
    injection E as <- _. exact G. }
  destruct k; try (rewrite S by discriminate; exact G).
  - cbn in H. unfold c_match_DocStringSeparator in H. destruct (ms_sep ms).
    + eapply Hsep; eauto.
    + unfold m_or in H. destruct (match_separator None sep_quotes true ms t) as [[[[]|] m] u] eqn:E; try discriminate H.
      * injection H as <- _. eapply Hsep; eauto.
      * assert (m = ms /\ u = t) as [-> ->].
        { unfold match_separator in E. destruct (negb _); [injection E as <- <-; auto | discriminate]. }
        eapply Hsep; eauto.
  - cbn in H. unfold c_match_Language in H. destruct (re_match _ _); [|discriminate].
    destruct (change_dialect _ _ _) eqn:E; [|discriminate]. injection H as <- _.
    eapply change_dialect_good; eauto.
Qed.
Lemma lexm_good k ms n x ms' t' : good ms -> lexm k ms n x = (Ok true, ms', t') -> good ms'.
Proof.
  intros G H. unfold lexm in H. destruct (_ && _); [discriminate|]. eapply classic_good; eauto.
Qed.
Lemma choose_good trs ms n x rest es tr t ms' : good ms ->
  choose trs ms n x rest = (es, CTrans tr t ms') ->
  good ms' /\ In tr trs /\ lexm (tr_tok tr) ms n x = (Ok true, ms', t).
Proof.
  intros G. revert es. induction trs as [|tr0 trs IH]; intros es; cbn [choose]; [discriminate|].
  destruct (lexm (tr_tok tr0) ms n x) as [[[[]|e] m] t0] eqn:E.
  - destruct (tr_la tr0).
    + destruct (la _ _ _) as [[]|]; intros H; try discriminate.
      * injection H as <- <- <- <-. split; [eapply lexm_good; eauto|]. split; [now left | exact E].
      * destruct (IH _ H) as [A [C D]]. split; [exact A|]. split; [now right | exact D].
    + intros H. injection H as <- <- <- <-. split; [eapply lexm_good; eauto|]. split; [now left | exact E].
  - intros H. destruct (IH _ H) as [A [C D]]. split; [exact A|]. split; [now right | exact D].
  - destruct e; try discriminate.
    destruct (choose trs ms n x rest) as [es' ch]. intros H. injection H as <- ->.
    destruct (IH _ eq_refl) as [A [C D]]. split; [exact A|]. split; [now right | exact D].
Qed.

Lemma choose_none trs ms n x rest es : good ms -> x <> [] -> choose trs ms n x rest = (es, CNone) ->
  forall tr, In tr trs -> tr_la tr = None -> plain (tr_tok tr) = true \/ tr_tok tr = TkOther ->
  tr_tok tr <> TkOther /\ (tr_tok tr <> TkTagLine -> tr_tok tr <> TkTableRow -> cls ms x <> tr_tok tr).
Proof.
  intros G Hx. revert es. induction trs as [|tr0 trs IH]; intros es; cbn [choose]; [easy|].
  intros H tr [<-|Hin] Hn Hk.
  - rewrite Hn in H.
    destruct (lexm (tr_tok tr0) ms n x) as [[[[]|e] m] t0] eqn:E; [discriminate| |].
    + split.
      * intros Ho. rewrite Ho, lexm_ne in E by easy. discriminate E.
      * intros H1 H2 Hc. destruct Hk as [Hk|Hk]; [|rewrite Hk, lexm_ne in E by easy; discriminate E].
        destruct (lexm_true _ ms n x G Hx Hk Hc H1 H2) as [t' E']. congruence.
    + destruct e; try discriminate H.
      rewrite lexm_ne in E by easy. pose proof (classic_shape (tr_tok tr0) ms (new_token x n)) as S.
      rewrite E in S. destruct S as [S _]. rewrite S in Hk. destruct Hk; discriminate.
  - destruct (lexm (tr_tok tr0) ms n x) as [[[[]|e] m] t0] eqn:E.
    + destruct (tr_la tr0); [|discriminate]. destruct (la _ _ _) as [[]|]; try discriminate. eapply IH; eauto.
    + eapply IH; eauto.
    + destruct e; try discriminate. destruct (choose trs ms n x rest) as [es' ch]. injection H as <- ->.
      eapply IH; eauto.
Qed.

Lemma accepts_spec k st : accepts k st = true -> exists tr, In tr (st_trans st) /\ tr_tok tr = k /\ tr_la tr = None.
Proof.
  unfold accepts. intros [tr [H1 H2]]%existsb_exists. apply andb_true_iff in H2 as [H2 H3].
  exists tr. split; [exact H1|]. split; [now apply tok_eqb_spec|]. destruct (tr_la tr); [discriminate | reflexivity].
Qed.

(** ** A line of the parser = a line of the machine *)
Lemma scan_step_ok q ms n x rest t c c0 :
  good ms -> lines_ok rest -> tkok ms x n t -> c_ms c = ms -> after ms n x rest c -> eqv c0 c ->
  let (evs, r) := scan_step q ms n x rest in
  match run_evs evs c0 with
  | (Err e, c1) => exists c', match_token bd q t c = (Err e, c') /\ eqv c1 c'
  | (Ok _, c1) =>
      match r with
      | Err e => exists c', match_token bd q t c = (Err e, c') /\ eqv c1 c'
      | Ok (q', ms') => exists c', match_token bd q t c = (Ok q', c') /\ eqv c1 c' /\
                          c_ms c' = ms' /\ good ms' /\ after ms' n x rest c'
      end
  end.
Proof.
  intros Hg Hl Ht Hm Ha He. unfold scan_step, match_token.
  destruct (ptable q) as [st|] eqn:Eq.
  2:{ cbn [run_evs]. eauto. }
  pose proof (ptable_basic _ _ Eq) as Hb. unfold check_basic in Hb.
  repeat (apply andb_true_iff in Hb as [Hb ?Hx]).
  assert (Hla : la_tag (st_trans st)).
  { intros tr Htr. rewrite forallb_forall in Hb. specialize (Hb tr Htr).
    apply orb_true_iff in Hb as [Hb|Hb]; [left; destruct (tr_la tr); easy | right; now apply tok_eqb_spec]. }
  pose proof (try_trans_choose ms n x rest (st_trans st) Hg Hl Hla t c c0 Ht Hm Ha He) as T.
  destruct (choose (st_trans st) ms n x rest) as [es ch] eqn:Ech.
  destruct ch as [tr t1 ms'| |e].
  - destruct (choose_good _ _ _ _ _ _ _ _ _ Hg Ech) as [Hg' _].
    rewrite run_evs_app. destruct (run_evs (map EvErr es) c0) as [[u|e1] c1].
    + destruct (run_evs [EvAct (mkLeaf ms n x t1) (tr_acts tr)] c1) as [[u2|e2] c2].
      * destruct T as [t' [c' [T1 [T2 [T3 T4]]]]]. rewrite T1. exists c'. repeat split; auto; try apply T2; try apply Hg'.
        intros Hx'. unfold qr. eapply qrep_change; [exact Hg | exact Hg' | exact (T4 Hx')].
      * destruct T as [c' [T1 T2]]. rewrite T1. eauto.
    + destruct T as [c' [T1 T2]]. rewrite T1. eauto.
  - rewrite run_evs_app. destruct (run_evs (map EvErr es) c0) as [[u|e1] c1].
    + destruct T as [t' [c' [T1 [T2 [T3 [T4 T5]]]]]]. rewrite T1.
      assert (Hu : unexpected t' (st_expected st) = unexpected (new_token x n) (st_expected st)).
      { destruct x as [|a x].
        - destruct T2 as [T21 [T22 [T23|[T23 _]]]]; [|easy].
          unfold unexpected, t_eof, t_location. rewrite T21, T22, T23. reflexivity.
        - assert (Hnone : forall k, accepts k st = true -> plain k = true \/ k = TkOther ->
              k <> TkOther /\ (k <> TkTagLine -> k <> TkTableRow -> cls ms (a :: x) <> k)).
          { intros k Hk Hp. destruct (accepts_spec _ _ Hk) as [tr [A1 [A2 A3]]]. subst k.
            eapply choose_none; eauto. discriminate. }
          assert (Hno : accepts TkOther st = false).
          { destruct (accepts TkOther st) eqn:Q; [|easy]. destruct (Hnone _ Q) as [F _]; auto. congruence. }
          rewrite Hno, orb_false_r in Hx3. apply andb_true_iff in Hx3 as [HE HC].
          eapply unexpected_fresh; eauto.
          + apply (Hnone _ HE); [now left | discriminate ..].
          + apply (Hnone _ HC); [now left | discriminate ..]. }
      cbn [run_evs]. rewrite Hu. pose proof T3 as [E1 [E2 E3]]. rewrite E3. destruct (c_stop c') eqn:Es.
      * eexists. split; [reflexivity | exact T3].
      * destruct (add_error_eqv (unexpected (new_token x n) (st_expected st)) c1 c' T3) as [[A1 A2] A3].
        destruct (add_error _ c1) as [[u1|x0] d1], (add_error _ c') as [[u1'|x0'] d2]; cbn [fst snd] in *; try discriminate.
        -- exists d2. split; [reflexivity|]. split; [exact A2|]. split; [unfold scn in A3; congruence|].
           split; [exact Hg|]. intros Hx'. eapply qr_scn; [exact A3 | exact (T5 Hx')].
        -- injection A1 as <-. eexists. split; [reflexivity | exact A2].
    + destruct T as [c' [T1 T2]]. rewrite T1. eauto.
  - destruct (run_evs (map EvErr es) c0) as [[u|e1] c1]; destruct T as [c' [T1 T2]]; rewrite T1; eauto.
Qed.

Definition run_scan (sr : list ev * result unit) c : result unit * ctx B :=
  match run_evs (fst sr) c with
  | (Err e, c1) => (Err e, c1)
  | (Ok _, c1) => (snd sr, c1)
  end.

Lemma eof_tk ms x n t : tkok ms x n t -> x <> [] -> t_eof t = false.
Proof. intros H Hx. rewrite (tkok_eof _ _ _ _ H). now destruct x. Qed.

Theorem parse_loop_scan : forall lines fuel q ms n c c0,
  good ms -> lines_ok lines -> rep ms n lines c -> eqv c0 c -> length lines < fuel ->
  out_eq (parse_loop bd fuel q c) (run_scan (scan q ms n lines) c0).
Proof.
  induction lines as [|x rest IH]; intros fuel q ms n c c0 Hg Hl Hr He Hf;
    (destruct fuel as [|fuel]; [cbn in Hf; lia|]); cbn [parse_loop scan];
    destruct (read_token_rep ms n _ c Hr) as [t [c1 [R1 [R2 [R3 [R4 [R5 [R6 R7]]]]]]]]; rewrite R1; cbn [hd tl] in *.
  - assert (Hc : after ms (S n) [] [] c1) by (intros F; congruence).
    pose proof (scan_step_ok q ms (S n) [] [] t c1 c0 Hg Hl R2 R4 Hc (eqv_trans _ _ _ He R3)) as St.
    unfold run_scan.
    destruct (scan_step q ms (S n) [] []) as [evs [[q' ms']|e]]; cbn [fst snd].
    + destruct (run_evs evs c0) as [[u|e1] d1].
      * destruct St as [c' [S1 [S2 _]]]. rewrite S1. rewrite (tkok_eof _ _ _ _ R2).
        split; [now destruct u | now apply eqv_sym].
      * destruct St as [c' [S1 S2]]. rewrite S1. split; [reflexivity | now apply eqv_sym].
    + destruct (run_evs evs c0) as [[u|e1] d1]; destruct St as [c' [S1 S2]]; rewrite S1; (split; [reflexivity | now apply eqv_sym]).
  - assert (Hx : x <> []) by now inversion Hl. assert (Hl' : lines_ok rest) by now inversion Hl.
    specialize (R6 ltac:(discriminate)).
    assert (Hc : after ms (S n) x rest c1) by (intros _; exact (proj2 R6)).
    pose proof (scan_step_ok q ms (S n) x rest t c1 c0 Hg Hl' R2 R4 Hc (eqv_trans _ _ _ He R3)) as St.
    unfold run_scan.
    destruct (scan_step q ms (S n) x rest) as [evs [[q' ms']|e]]; cbn [fst snd].
    + destruct (scan q' ms' (S n) rest) as [evs' r] eqn:Esc. cbn [fst snd]. rewrite run_evs_app.
      destruct (run_evs evs c0) as [[u|e1] d1].
      * destruct St as [c' [S1 [S2 [S3 [S4 S5]]]]]. rewrite S1. rewrite (eof_tk _ _ _ _ R2 Hx).
        specialize (IH fuel q' ms' (S n) c' d1 S4 Hl' (conj S3 (S5 Hx)) S2 ltac:(cbn in Hf; lia)).
        unfold run_scan in IH. rewrite Esc in IH. cbn [fst snd] in IH. exact IH.
      * destruct St as [c' [S1 S2]]. rewrite S1. split; [reflexivity | now apply eqv_sym].
    + destruct (run_evs evs c0) as [[u|e1] d1]; destruct St as [c' [S1 S2]]; rewrite S1; (split; [reflexivity | now apply eqv_sym]).
Qed.
End Generic.
