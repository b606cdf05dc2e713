(** * File iteration (no modelled code) *)
From Verif Require Import PyStr PyStrFacts Types Regex Glob GlobSpec GlobFacts Robot FilesSpec.

Section EntryInd.
Context (P : entry -> Prop) (Hf : P EFile) (Hn : P (EDir None)) (Hd : forall l, Forall (fun ne => P (snd ne)) l -> P (EDir (Some l))).
Fixpoint entry_ind' (e : entry) : P e :=
  match e with
  | EFile => Hf
  | EDir None => Hn
  | EDir (Some l) => Hd l ((fix go l := match l return Forall (fun ne => P (snd ne)) l with [] => Forall_nil _ | ne :: l' => Forall_cons ne (entry_ind' (snd ne)) (go l') end) l)
  end.
End EntryInd.

(** patterns that are valid *)
Definition pats_ok (l : list str) : Prop := Forall (fun pat => exists r, glob_compile pat = Ok r) l.
Definition m1 (pat : str) (p : list str) : bool := match glob_matches pat (path_str p) with Ok b => b | Err _ => false end.
Definition mb (l : list str) (p : list str) : bool := existsb (fun pat => m1 pat p) l.
Lemma any_match_ok l p : pats_ok l -> any_match l p = Ok (mb l p).
Proof.
  unfold any_match, mb. induction 1 as [|pat l [r Hr] H IH]; [reflexivity|]. cbn [fold_right existsb].
  assert (E : glob_matches pat (path_str p) = Ok (m1 pat p)) by (unfold m1, glob_matches; rewrite Hr; reflexivity).
  rewrite E. cbn [rbind]. destruct (m1 pat p); [reflexivity | exact IH].
Qed.
Lemma mb_spec l p : mb l p = true <-> matches_one l p.
Proof.
  unfold mb, matches_one. rewrite existsb_exists. split; intros [pat [H1 H2]]; exists pat; (split; [exact H1|]); unfold m1 in *.
  - destruct (glob_matches pat (path_str p)) as [[]|]; [reflexivity | discriminate..].
  - now rewrite H2.
Qed.
Definition wanted (patterns : option (list str)) (p : list str) : bool := match patterns with None => true | Some l => mb l p end.
Definition ignored (ignore : option (list str)) (p : list str) : bool := match ignore with None => false | Some l => mb l p end.
Definition opt_ok (l : option (list str)) : Prop := match l with None => True | Some l => pats_ok l end.

Section Iter.
Context (patterns ignore : option (list str)).
Fixpoint files_e (p : list str) (e : entry) : list (list str) :=
  if ignored ignore p then []
  else match e with
       | EFile => if wanted patterns p then [p] else []
       | EDir None => []
       | EDir (Some l) => flat_map (fun ne => files_e (p ++ [fst ne]) (snd ne)) l
       end.
Definition files_l (p : list str) (l : list (str * entry)) : list (list str) := flat_map (fun ne => files_e (p ++ [fst ne]) (snd ne)) l.
Context (Hp : opt_ok patterns) (Hi : opt_ok ignore).
Lemma iter_entry_ok e : forall p, iter_entry patterns ignore p e = Ok (files_e p e).
Proof.
  assert (I : forall p, (match ignore with None => Ok false | Some l => any_match l p end) = Ok (ignored ignore p)).
  { intros p. unfold ignored. destruct ignore; [now apply any_match_ok | reflexivity]. }
  assert (W : forall p, (match patterns with None => Ok true | Some l => any_match l p end) = Ok (wanted patterns p)).
  { intros p. unfold wanted. destruct patterns; [now apply any_match_ok | reflexivity]. }
  induction e as [| |l IH] using entry_ind'; intros p; cbn [iter_entry files_e]; rewrite I; cbn [rbind]; destruct (ignored ignore p); try reflexivity.
  - rewrite W. reflexivity.
  - induction IH as [|[n e] l H1 H2 IH]; [reflexivity|]. cbn [snd fst flat_map] in *. rewrite H1. cbn [rbind]. rewrite IH. reflexivity.
Qed.
Lemma iter_list_ok p l : iter_list patterns ignore p l = Ok (files_l p l).
Proof.
  induction l as [|[n e] l IH]; [reflexivity|]. cbn [iter_list files_l flat_map fst snd]. rewrite iter_entry_ok. cbn [rbind]. rewrite IH. reflexivity.
Qed.
Lemma compile_all_ok l : opt_ok l -> compile_all l = Ok tt.
Proof.
  destruct l as [l|]; [|reflexivity]. unfold compile_all, opt_ok. induction 1 as [|pat l [r Hr] H IH]; [reflexivity|]. cbn [fold_right]. rewrite Hr. exact IH.
Qed.
Lemma iter_files_ok l : iter_files patterns ignore (Some l) = Ok (files_l [] l).
Proof. unfold iter_files. rewrite !compile_all_ok by assumption. apply iter_list_ok. Qed.
End Iter.
Lemma compile_all_inv l : compile_all l = Ok tt -> opt_ok l.
Proof.
  destruct l as [l|]; [|easy]. unfold compile_all, opt_ok. induction l as [|pat l IH]; cbn [fold_right]; intros H; [constructor|].
  destruct (glob_compile pat) as [r|] eqn:E; [|discriminate]. constructor; [eauto | now apply IH].
Qed.

Section Mem.
Context (patterns ignore : option (list str)).
Definition reached (base : list str) (p : list str) : Prop :=
  wanted patterns (base ++ p) = true /\ forall q, on_the_way q p -> ignored ignore (base ++ q) = false.
(* [base] itself is checked by the caller *)
Lemma way_cons n q p : on_the_way q (n :: p) -> q = [n] \/ exists q', q = n :: q' /\ on_the_way q' p.
Proof. intros [H [r E]]. destruct q as [|m q]; [contradiction|]. injection E as <- ->. destruct q; [now left | right]. eexists. split; [reflexivity|]. split; [discriminate | eauto]. Qed.
Lemma files_l_in : forall l base p, In p (files_l patterns ignore base l) <-> exists q, p = base ++ q /\ file_at l q /\ reached base q.
Proof.
  assert (G : forall e base p, In p (files_e patterns ignore base e) <->
    ignored ignore base = false /\ ((e = EFile /\ p = base /\ wanted patterns base = true) \/
      exists l, e = EDir (Some l) /\ exists q, p = base ++ q /\ file_at l q /\ reached base q)).
  { induction e as [| |l IH] using entry_ind'; intros base p; cbn [files_e]; destruct (ignored ignore base) eqn:I; try (split; [intros []|intros [X _]; discriminate X]).
    - split.
      + destruct (wanted patterns base) eqn:W; [|intros []]. intros [<-|[]]. auto.
      + intros [_ [[_ [-> ->]]|[l [X _]]]]; [now left | discriminate].
    - split; [intros []|]. intros [_ [[X _]|[l [X _]]]]; discriminate.
    - rewrite Forall_forall in IH. split.
      + intros H. split; [reflexivity|]. right. exists l. split; [reflexivity|]. apply in_flat_map in H as [[n e] [H1 H2]]. cbn [fst snd] in H2. apply (IH _ H1) in H2 as [I1 H2]. destruct H2 as [[He [-> W]]|[c [He [q [-> [F [R1 R2]]]]]]]; cbn [snd] in He; subst e.
        * exists [n]. split; [reflexivity|]. split; [now constructor|]. split; [exact W|]. intros q Hq. apply way_cons in Hq as [->|[q' [_ [X [r E]]]]]; [exact I1|]. symmetry in E. apply app_eq_nil in E as [-> _]. contradiction.
        * exists (n :: q). rewrite <- app_assoc. split; [reflexivity|]. split; [eapply fa_below; eauto|]. rewrite <- app_assoc in R1. split; [exact R1|]. intros q0 Hq. apply way_cons in Hq as [->|[q' [-> Hq]]]; [exact I1|].
          specialize (R2 _ Hq). now rewrite <- app_assoc in R2.
      + intros [_ [[X _]|[l2 [X [q [-> [F [R1 R2]]]]]]]]; [discriminate|]. injection X as <-. apply in_flat_map. destruct F as [l0 n H1|l0 n c q H1 F].
        * exists (n, EFile). split; [exact H1|]. apply (IH _ H1). cbn [fst snd]. split; [apply R2; split; [discriminate | exists []; reflexivity]|]. left. auto.
        * exists (n, EDir (Some c)). split; [exact H1|]. apply (IH _ H1). cbn [fst snd]. split; [apply R2; split; [discriminate | exists q; reflexivity]|]. right. exists c. split; [reflexivity|].
          exists q. rewrite <- app_assoc. split; [reflexivity|]. split; [exact F|]. split; [rewrite <- app_assoc; exact R1|]. intros q0 [Q1 [r ->]]. rewrite <- app_assoc. apply R2. split; [discriminate|]. exists r. reflexivity. }
  intros l base p. unfold files_l. split.
  - intros H. apply in_flat_map in H as [[n e] [H1 H2]]. apply G in H2 as [I1 H2]. cbn [fst snd] in *. destruct H2 as [[-> [-> W]]|[c [-> [q [-> [F [R1 R2]]]]]]].
    + exists [n]. split; [reflexivity|]. split; [now constructor|]. split; [exact W|]. intros q Hq. apply way_cons in Hq as [->|[q' [_ [X [r E]]]]]; [exact I1|]. symmetry in E. apply app_eq_nil in E as [-> _]. contradiction.
    + exists (n :: q). rewrite <- app_assoc. split; [reflexivity|]. split; [eapply fa_below; eauto|]. rewrite <- app_assoc in R1. split; [exact R1|]. intros q0 Hq. apply way_cons in Hq as [->|[q' [-> Hq]]]; [exact I1|].
      specialize (R2 _ Hq). now rewrite <- app_assoc in R2.
  - intros [q [-> [F [R1 R2]]]]. apply in_flat_map. destruct F as [l n H1|l n c q H1 F].
    + exists (n, EFile). split; [exact H1|]. apply G. cbn [fst snd]. split; [apply R2; split; [discriminate | exists []; reflexivity]|]. left. auto.
    + exists (n, EDir (Some c)). split; [exact H1|]. apply G. cbn [fst snd]. split; [apply R2; split; [discriminate | exists q; reflexivity]|]. right. exists c. split; [reflexivity|].
      exists q. rewrite <- app_assoc. split; [reflexivity|]. split; [exact F|]. split; [rewrite <- app_assoc; exact R1|]. intros q0 [Q1 [r ->]]. rewrite <- app_assoc. apply R2. split; [discriminate|]. exists r. reflexivity.
Qed.
Lemma NoDup_flat {A B} (f : A -> list B) l : NoDup l -> (forall a, In a l -> NoDup (f a)) -> (forall a a' b, In a l -> In a' l -> In b (f a) -> In b (f a') -> a = a') -> NoDup (flat_map f l).
Proof.
  induction 1 as [|a l Ha Hl IH]; intros H1 H2; [constructor|]. cbn [flat_map].
  assert (D : forall x y : list B, NoDup x -> NoDup y -> (forall b, In b x -> In b y -> False) -> NoDup (x ++ y)).
  { clear. induction x as [|b x IH]; intros y Hx Hy D; [exact Hy|]. inversion Hx; subst. cbn. constructor; [|apply IH; auto; intros; eapply D; eauto; now right].
    intros I. apply in_app_iff in I as [I|I]; [contradiction|]. eapply D; [now left | exact I]. }
  apply D; [apply H1; now left | apply IH; intros; [apply H1; now right | eapply H2; eauto; now right]|].
  intros b B1 B2. apply in_flat_map in B2 as [a' [B2 B3]]. assert (a = a') by (eapply H2; eauto; [now left | now right]). subst. contradiction.
Qed.
Lemma files_l_nodup l : dir_ok l -> forall base, NoDup (files_l patterns ignore base l).
Proof.
  intros H. induction H as [l N1 N2 N3 IH]. intros base. unfold files_l. apply NoDup_flat.
  - now apply NoDup_map_inv in N1.
  - intros [n e] He. cbn [fst snd]. destruct e as [|[c|]]; cbn [files_e]; destruct (ignored ignore _); try constructor.
    + destruct (wanted patterns _); constructor; [intros []|constructor].
    + apply (IH n c He).
  - intros [n e] [n' e'] p H1 H2 P1 P2. cbn [fst snd] in *.
    assert (X : forall e p base, In p (files_e patterns ignore base e) -> exists q, p = base ++ q).
    { clear. intros e p base H. destruct e as [|[c|]]; cbn [files_e] in H; destruct (ignored ignore base); try contradiction.
      - destruct (wanted patterns base); [|contradiction]. destruct H as [<-|[]]. exists []. now rewrite app_nil_r.
      - change (In p (files_l patterns ignore base c)) in H. apply files_l_in in H as [q [-> _]]. eauto. }
    apply X in P1 as [q1 E1]. apply X in P2 as [q2 E2]. rewrite E1 in E2. rewrite <- !app_assoc in E2. apply app_inv_head in E2. injection E2 as -> _.
    f_equal. clear -N1 H1 H2. induction l as [|[m f] l IH]; [contradiction|]. inversion N1; subst. cbn [fst] in *. destruct H1 as [H1|H1], H2 as [H2|H2].
    + congruence.
    + injection H1 as -> ->. exfalso. apply H3. apply (in_map fst) in H2. exact H2.
    + injection H2 as -> ->. exfalso. apply H3. apply (in_map fst) in H1. exact H1.
    + auto.
Qed.
End Mem.

(** ** Sorting *)
Lemma leb_spec a : forall b, str_leb a b = true <-> a = b \/ str_before a b.
Proof.
  induction a as [|x a IH]; intros [|y b]; cbn [str_leb].
  - split; auto. - split; [intros _; right; constructor | reflexivity].
  - split; [discriminate|]. intros [H|H]; [discriminate | inversion H].
  - destruct (x <? y)%N eqn:E1; [split; [intros _; right; constructor; now apply N.ltb_lt | reflexivity]|].
    destruct (y <? x)%N eqn:E2.
    + split; [discriminate|]. apply N.ltb_lt in E2. intros [H|H]; [injection H as -> ->; lia | inversion H; subst; lia].
    + apply N.ltb_ge in E1, E2. assert (x = y) as -> by lia. rewrite IH. split; [intros [->|H]; [now left | right; now constructor]|].
      intros [H|H]; [injection H as ->; now left | right]. inversion H; subst; [lia | assumption].
Qed.
Lemma before_irrefl a : ~ str_before a a.
Proof. induction a as [|x a IH]; intros H; inversion H; subst; [lia | auto]. Qed.
Lemma before_trans a b c : str_before a b -> str_before b c -> str_before a c.
Proof.
  intros H. revert c. induction H as [d y|c d x y L|c x y H IH]; intros z Hz; inversion Hz as [|d1 e1 x1 y1 L1|d1 x1 y1 B1]; subst.
  - apply sb_nil. - apply sb_nil. - apply sb_lt; lia. - apply sb_lt; assumption. - apply sb_lt; assumption. - apply sb_eq; auto.
Qed.
Lemma before_total a : forall b, a = b \/ str_before a b \/ str_before b a.
Proof.
  induction a as [|x a IH]; intros [|y b]; [now left | right; left; constructor | right; right; constructor|].
  destruct (N.lt_trichotomy x y) as [L|[->|L]]; [right; left; now constructor | | right; right; now constructor].
  destruct (IH b) as [->|[H|H]]; [now left | right; left; now constructor | right; right; now constructor].
Qed.
Lemma insert_in x l : forall y, In y (insert_sorted x l) <-> y = x \/ In y l.
Proof.
  induction l as [|z l IH]; intros y; cbn [insert_sorted]; [cbn; intuition|]. destruct (str_leb x z); [cbn; intuition|]. cbn [In]. rewrite IH. intuition.
Qed.
Lemma sorted_in l : forall y, In y (sorted l) <-> In y l.
Proof. unfold sorted. induction l as [|x l IH]; intros y; [reflexivity|]. cbn [fold_right]. rewrite insert_in, IH. cbn. intuition. Qed.
Lemma ascending_cons x l : ascending (x :: l) <-> (forall y, In y l -> str_before x y) /\ ascending l.
Proof.
  split.
  - revert x. induction l as [|y l IH]; intros x [H1 H2]; [split; [intros ? []|exact I]|]. split; [|exact H2]. intros z [<-|Hz]; [exact H1|].
    eapply before_trans; [exact H1|]. apply (proj1 (IH y H2)). exact Hz.
  - intros [H1 H2]. split; [|exact H2]. destruct l; [exact I | apply H1; now left].
Qed.
Lemma insert_ascending x l : ascending l -> ~ In x l -> ascending (insert_sorted x l).
Proof.
  induction l as [|y l IH]; intros H N; [cbn; auto|]. cbn [insert_sorted]. apply ascending_cons in H as [H1 H2]. destruct (str_leb x y) eqn:E.
  - apply leb_spec in E as [->|E]; [exfalso; apply N; now left|]. apply ascending_cons. split; [|now apply ascending_cons]. intros z [<-|Hz]; [exact E | eapply before_trans; eauto].
  - apply ascending_cons. split; [|apply IH; [exact H2 | intros X; apply N; now right]]. intros z Hz. apply insert_in in Hz as [->|Hz]; [|auto].
    destruct (before_total y x) as [->|[B|B]]; [exfalso; apply N; now left | exact B|]. assert (str_leb x y = true) by (apply leb_spec; now right). congruence.
Qed.
Lemma sorted_ascending l : NoDup l -> ascending (sorted l).
Proof. unfold sorted. induction 1 as [|x l H1 H2 IH]; [exact I|]. cbn [fold_right]. apply insert_ascending; [exact IH|]. intros X. apply (sorted_in l) in X. contradiction. Qed.
Lemma ascending_unique l : forall l', ascending l -> ascending l' -> (forall x, In x l <-> In x l') -> l = l'.
Proof.
  induction l as [|x l IH]; intros [|y l'] A B H; [reflexivity | exfalso; now apply (H y); left | exfalso; now apply (H x); left|].
  apply ascending_cons in A as [A1 A2]. apply ascending_cons in B as [B1 B2].
  assert (x = y).
  { destruct (proj1 (H x) (or_introl eq_refl)) as [->|X]; [reflexivity|]. destruct (proj2 (H y) (or_introl eq_refl)) as [->|Y]; [reflexivity|].
    exfalso. apply (before_irrefl x). eapply before_trans; eauto. }
  subst y. f_equal. apply IH; auto. intros z. split; intros Hz.
  - destruct (proj1 (H z) (or_intror Hz)) as [->|X]; [|exact X]. exfalso. now apply (before_irrefl z), A1.
  - destruct (proj2 (H z) (or_intror Hz)) as [->|X]; [|exact X]. exfalso. now apply (before_irrefl z), B1.
Qed.
Lemma ascending_nodup l : ascending l -> NoDup l.
Proof. induction l as [|x l IH]; intros H; [constructor|]. apply ascending_cons in H as [H1 H2]. constructor; [|auto]. intros X. now apply (before_irrefl x), H1. Qed.

(** ** Paths *)
Lemma join_cons2 sep a b l : join sep (a :: b :: l) = a ++ sep ++ join sep (b :: l). Proof. reflexivity. Qed.
Lemma app_slash_inv (a : str) : forall b x y, ~ In ch_slash a -> ~ In ch_slash b -> a ++ ch_slash :: x = b ++ ch_slash :: y -> a = b /\ x = y.
Proof.
  induction a as [|c a IH]; intros [|d b] x y Ha Hb H; cbn in H.
  - injection H as ->. auto.
  - injection H as <- _. exfalso. apply Hb. now left.
  - injection H as -> _. exfalso. apply Ha. now left.
  - injection H as -> H. apply IH in H as [-> ->]; auto; intros I; [apply Ha | apply Hb]; now right.
Qed.
Lemma path_str_inj p : forall q, Forall (fun n => ~ In ch_slash n) p -> Forall (fun n => ~ In ch_slash n) q -> p <> [] -> q <> [] -> path_str p = path_str q -> p = q.
Proof.
  unfold path_str. induction p as [|a p IH]; intros [|b q] Hp Hq Np Nq E; try contradiction. inversion Hp; inversion Hq; subst.
  destruct p as [|a2 p], q as [|b2 q].
  - cbn in E. now subst.
  - rewrite join_cons2 in E. cbn [join] in E. exfalso. apply H1. rewrite E. apply in_or_app. right. now left.
  - rewrite join_cons2 in E. cbn [join] in E. exfalso. apply H5. rewrite <- E. apply in_or_app. right. now left.
  - rewrite !join_cons2 in E. apply app_slash_inv in E as [-> E]; auto. f_equal. apply IH; auto; discriminate.
Qed.
Lemma file_at_names l p : dir_ok l -> file_at l p -> Forall (fun n => n <> [] /\ ~ In ch_slash n) p /\ p <> [].
Proof.
  intros D F. induction F as [l n H|l n c p H F IH]; inversion D as [? N1 N2 N3]; subst.
  - split; [|discriminate]. constructor; [eapply N2; eauto | constructor].
  - destruct IH as [IH _]; [eapply N3; eauto|]. split; [|discriminate]. constructor; [eapply N2; eauto | exact IH].
Qed.
