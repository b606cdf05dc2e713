(** * Line classes

    In every dialect the classic line predicates are mutually exclusive.  The finite
    part (keywords of the 79 dialects) is checked by computation. *)
From Verif Require Import PyStr PyStrFacts Types Regex Line DialectData Matcher.
Local Open Scope N_scope.

(** The texts with which a line of class [k] starts (after white space). *)
Definition with_colon (l : list str) : list str := map (fun k => k ++ [ch_colon]) l.
Definition starts (d : dialect) (k : tok) : list str :=
  match k with
  | TkComment => [[ch_hash]]
  | TkTagLine => [[ch_at]]
  | TkTableRow => [[ch_pipe]]
  | TkDocStringSeparator => [sep_quotes; sep_ticks]
  | TkFeatureLine => with_colon (d_feature d)
  | TkRuleLine => with_colon (d_rule d)
  | TkBackgroundLine => with_colon (d_background d)
  | TkScenarioLine => with_colon (d_scenario d ++ d_scenarioOutline d)
  | TkExamplesLine => with_colon (d_examples d)
  | TkStepLine => step_keywords d
  | _ => []
  end.
Definition start_kinds : list tok :=
  [TkComment; TkTagLine; TkTableRow; TkDocStringSeparator; TkFeatureLine; TkRuleLine;
   TkBackgroundLine; TkScenarioLine; TkExamplesLine; TkStepLine].

Definition has (d : dialect) (k : tok) (x : str) : bool :=
  existsb (fun p => startswith p x) (starts d k).

(** the class of a line with trimmed text [x] *)
Definition classify (d : dialect) (x : str) : tok :=
  match x with
  | [] => TkEmpty
  | _ => match find (fun k => has d k x) start_kinds with Some k => k | None => TkOther end
  end.

(** ** The finite check *)
Definition apart (p q : str) : bool := negb (startswith p q) && negb (startswith q p).
Definition visible (p : str) : bool := match p with [] => false | c :: _ => negb (is_space c) end.
Definition dialect_ok (d : dialect) : bool :=
  forallb (fun k => forallb visible (starts d k)) start_kinds &&
  forallb (fun k1 => forallb (fun k2 =>
     tok_eqb k1 k2 || forallb (fun p => forallb (apart p) (starts d k2)) (starts d k1)) start_kinds) start_kinds.

Lemma dialects_ok : forallb (fun p => dialect_ok (snd p)) DIALECTS = true.
Proof. vm_compute. reflexivity. Qed.

Lemma for_name_ok name d : for_name name = Some d -> dialect_ok d = true.
Proof.
  unfold for_name. destruct (find _ DIALECTS) as [[n d']|] eqn:E; [|discriminate].
  intros H; injection H as <-. apply find_some in E as [E _].
  pose proof dialects_ok as H. rewrite forallb_forall in H. exact (H _ E).
Qed.

Lemma tok_eqb_spec a b : tok_eqb a b = true <-> a = b.
Proof. destruct a, b; cbn; split; congruence. Qed.
Lemma tok_eqb_refl a : tok_eqb a a = true.
Proof. now apply tok_eqb_spec. Qed.

Lemma starts_kinds d k p : In p (starts d k) -> In k start_kinds.
Proof. destruct k; cbn; tauto. Qed.

Section Ok.
Variable d : dialect.
Hypothesis Hok : dialect_ok d = true.

Lemma ok_visible k p : In p (starts d k) -> visible p = true.
Proof.
  intros H. pose proof (starts_kinds _ _ _ H) as Hk.
  unfold dialect_ok in Hok. apply andb_true_iff in Hok as [H1 _].
  rewrite forallb_forall in H1. specialize (H1 _ Hk). rewrite forallb_forall in H1. auto.
Qed.
Lemma ok_apart k1 k2 p q :
  In p (starts d k1) -> In q (starts d k2) -> k1 <> k2 ->
  startswith p q = false /\ startswith q p = false.
Proof.
  intros H1 H2 Hne. pose proof (starts_kinds _ _ _ H1) as Hk1. pose proof (starts_kinds _ _ _ H2) as Hk2.
  unfold dialect_ok in Hok. apply andb_true_iff in Hok as [_ H].
  rewrite forallb_forall in H. specialize (H _ Hk1). rewrite forallb_forall in H. specialize (H _ Hk2).
  apply orb_true_iff in H as [H|H]; [now apply tok_eqb_spec in H|].
  rewrite forallb_forall in H. specialize (H _ H1). rewrite forallb_forall in H. specialize (H _ H2).
  unfold apart in H. apply andb_true_iff in H as [Ha Hb]. now apply negb_true_iff in Ha, Hb.
Qed.

Lemma has_exclusive k1 k2 x : has d k1 x = true -> has d k2 x = true -> k1 = k2.
Proof.
  unfold has. intros [p [Hp1 Hp2]]%existsb_exists [q [Hq1 Hq2]]%existsb_exists.
  destruct (tok_eqb k1 k2) eqn:E; [now apply tok_eqb_spec in E|].
  assert (Hne : k1 <> k2) by (intros ->; now rewrite tok_eqb_refl in E).
  destruct (ok_apart _ _ _ _ Hp1 Hq1 Hne) as [A B].
  destruct (startswith_both _ _ _ Hp2 Hq2) as [C|C]; congruence.
Qed.

Lemma has_nonempty k x : has d k x = true -> x <> [].
Proof.
  unfold has. intros [p [Hp1 Hp2]]%existsb_exists ->. pose proof (ok_visible _ _ Hp1) as V.
  destruct p; [discriminate V | discriminate Hp2].
Qed.

Lemma has_kind k x : has d k x = true -> In k start_kinds.
Proof. unfold has. intros [p [Hp1 _]]%existsb_exists. eapply starts_kinds; eauto. Qed.

Lemma has_classify k x : has d k x = true <-> classify d x = k /\ k <> TkEmpty /\ k <> TkOther.
Proof.
  split.
  - intros H. pose proof (has_nonempty _ _ H) as Hn. pose proof (has_kind _ _ H) as Hk.
    unfold classify. destruct x as [|c x]; [easy|].
    destruct (find (fun k => has d k (c :: x)) start_kinds) as [k'|] eqn:E.
    + apply find_some in E as [_ E]. rewrite (has_exclusive _ _ _ E H).
      split; [easy|]. split; intros ->; cbn in Hk; intuition discriminate.
    + pose proof (find_none _ _ E _ Hk) as F. cbn in F. rewrite H in F. discriminate.
  - intros [H [H1 H2]]. unfold classify in H. destruct x as [|c x]; [congruence|].
    destruct (find (fun k => has d k (c :: x)) start_kinds) as [k'|] eqn:E; [|congruence].
    apply find_some in E as [_ E]. cbn in E. congruence.
Qed.

Lemma has_false k x : classify d x <> k -> has d k x = false.
Proof.
  intros H. destruct (has d k x) eqn:E; [|easy]. apply has_classify in E as [E _]. congruence.
Qed.

Lemma classify_empty x : classify d x = TkEmpty <-> x = [].
Proof.
  split; [|now intros ->]. unfold classify. destruct x as [|c x]; [easy|].
  destruct (find _ start_kinds) as [k|] eqn:E; [|discriminate].
  apply find_some in E as [E _]. intros ->. cbn in E. intuition discriminate.
Qed.
Lemma classify_not_special x : classify d x <> TkEOF /\ classify d x <> TkLanguage.
Proof.
  unfold classify. destruct x as [|c x]; [easy|].
  destruct (find _ start_kinds) as [k|] eqn:E; [|easy].
  apply find_some in E as [E _]. cbn in E. intuition (subst; discriminate).
Qed.
End Ok.

(** ** The matchers in terms of [has] *)
Lemma has_cons_title kws x : existsb (fun p => startswith p x) (with_colon kws)
  = existsb (fun k => startswith (k ++ [ch_colon]) x) kws.
Proof. unfold with_colon. induction kws as [|k kws IH]; cbn; [easy|]. now rewrite IH. Qed.

(** tokens that differ at most in what the matcher has written *)
Definition same (t u : token) : Prop := t_line t = t_line u /\ t_loc_line t = t_loc_line u.
Lemma same_refl t : same t t. Proof. easy. Qed.
Lemma same_trans t u v : same t u -> same u v -> same t v.
Proof. intros [A B] [C D]; split; congruence. Qed.
Lemma same_sym t u : same t u -> same u t.
Proof. intros [A B]; split; congruence. Qed.
Lemma same_eof t u : same t u -> t_eof t = t_eof u.
Proof. intros [A _]. unfold t_eof. now rewrite A. Qed.

Lemma set_matched_same_arg ms t u ty text kw kt ind items :
  same t u -> set_matched ms t ty text kw kt ind items = set_matched ms u ty text kw kt ind items.
Proof. intros [A B]. unfold set_matched. now rewrite A, B. Qed.
Lemma set_matched_same ms t ty text kw kt ind items : same (set_matched ms t ty text kw kt ind items) t.
Proof. easy. Qed.

(** what a classic matcher call does, given a fresh token *)
Definition mrel (r1 r2 : mret) : Prop :=
  fst (fst r1) = fst (fst r2) /\ snd (fst r1) = snd (fst r2) /\
  (fst (fst r1) = Ok true -> snd r1 = snd r2) /\ same (snd r1) (snd r2).

Lemma mrel_true ms t u ty text kw kt ind items :
  same t u -> mrel (Ok true, ms, set_matched ms t ty text kw kt ind items)
                   (Ok true, ms, set_matched ms u ty text kw kt ind items).
Proof. intros H. rewrite (set_matched_same_arg _ _ _ _ _ _ _ _ _ H). now repeat split. Qed.
Lemma mrel_other r ms t u : same t u -> r <> Ok true -> mrel (r, ms, t) (r, ms, u).
Proof. intros H N. split; [easy|]. split; [easy|]. split; [easy | exact H]. Qed.

Lemma match_title_rel ms t u ty kws : same t u -> mrel (match_title ms t ty kws) (match_title ms u ty kws).
Proof.
  intros H. unfold match_title. destruct H as [A B]. rewrite A.
  destruct (find _ kws); [apply mrel_true | apply mrel_other]; easy.
Qed.
Lemma m_or_rel r1 r2 k1 k2 :
  mrel r1 r2 -> (forall ms t u, same t u -> mrel (k1 ms t) (k2 ms u)) ->
  mrel (m_or r1 k1) (m_or r2 k2).
Proof.
  destruct r1 as [[r1 m1] t1], r2 as [[r2 m2] t2]. intros [A [B [C D]]] H. cbn in *. subst.
  destruct r2 as [[]|]; cbn.
  - repeat split; auto; apply D.
  - now apply H.
  - repeat split; auto; apply D.
Qed.
Lemma match_separator_rel nt sep op ms t u :
  same t u -> mrel (match_separator nt sep op ms t) (match_separator nt sep op ms u).
Proof.
  intros H. unfold match_separator. destruct H as [A B]. rewrite A.
  destruct (g_startswith (t_line u) sep); cbn [negb]; [|now apply mrel_other].
  apply mrel_true. easy.
Qed.

Lemma classic_match_rel k ms t u : same t u -> mrel (classic_match k ms t) (classic_match k ms u).
Proof.
  intros H. pose proof H as [A B].
  destruct k; cbn [classic_match]; try (now apply match_title_rel).
  - unfold match_EOF. rewrite (same_eof _ _ H). destruct (t_eof u); cbn [negb];
      [now apply mrel_true | now apply mrel_other].
  - unfold c_match_Empty. rewrite A. destruct (g_is_empty (t_line u)); cbn [negb];
      [now apply mrel_true | now apply mrel_other].
  - unfold c_match_Comment. rewrite A. destruct (g_startswith (t_line u) _); cbn [negb];
      [now apply mrel_true | now apply mrel_other].
  - unfold c_match_TagLine. rewrite A. destruct (g_startswith (t_line u) _); cbn [negb];
      [|now apply mrel_other].
    destruct (g_tags (t_line u)); [now apply mrel_true | now apply mrel_other].
  - apply m_or_rel; [now apply match_title_rel|]. intros. now apply match_title_rel.
  - unfold c_match_StepLine. rewrite A. destruct (find _ _); [now apply mrel_true | now apply mrel_other].
  - unfold c_match_DocStringSeparator. destruct (ms_sep ms); [now apply match_separator_rel|].
    apply m_or_rel; [now apply match_separator_rel|]. intros. now apply match_separator_rel.
  - unfold c_match_TableRow. rewrite A. destruct (g_startswith (t_line u) _); cbn [negb];
      [|now apply mrel_other].
    destruct (table_cells (t_line u)); [now apply mrel_true | now apply mrel_other].
  - unfold c_match_Language. rewrite A. destruct (re_match _ _) as [st|]; [|now apply mrel_other].
    rewrite (set_matched_same_arg _ _ _ _ _ _ _ _ _ H).
    destruct (change_dialect _ _ _); repeat split; auto.
  - unfold match_Other. rewrite A. now apply mrel_true.
Qed.

(** whether a classic matcher call succeeds, on a line of the text *)
Definition line_has (d : dialect) (k : tok) (l : gline) : bool :=
  match k with
  | TkEmpty => match g_trimmed l with [] => true | _ => false end
  | TkOther => true
  | TkEOF => negb (g_bool l)
  | _ => has d k (g_trimmed l)
  end.
