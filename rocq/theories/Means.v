(** * Relations that read lines without changing the matcher, and what they mean *)
From Verif Require Import PyStr PyStrFacts Types Regex Line DialectData Matcher Ast ParserTable Parser Classify Table Scan Grammar Deriv Cert LineSpec Cst Report Eval LangSpec LangFacts Complete DocSpec Erase Den LineIff.

Definition nonempty (nls : list nline) : Prop := Forall (fun l => snd l <> []) nls.
Definition idle (ms : mstate) : Prop := matcher_ok ms /\ ms_sep ms = None.
Definition bl (A : Type) := list nline -> A -> list comment -> Prop.
(** [P], started in [ms], leaves [ms] as it is and reads exactly the lines described by [S], of which it
    makes [G] *)
Definition means {A} (P : rel) (ms : mstate) (S : bl A) (G : A -> list (key * item) -> Prop) : Prop :=
  (forall nls ms' subs cs, P ms nls ms' subs cs -> ms' = ms /\ exists a, S nls a cs /\ G a subs) /\
  (forall nls a cs, nonempty nls -> S nls a cs -> exists subs, P ms nls ms subs cs /\ G a subs).

Lemma means_map {A B} P ms (S : bl A) G (S' : bl B) G' : means P ms S G ->
  (forall nls a cs subs, S nls a cs -> G a subs -> exists b, S' nls b cs /\ G' b subs) ->
  (forall nls b cs, S' nls b cs -> exists a, S nls a cs /\ forall subs, G a subs -> G' b subs) -> means P ms S' G'.
Proof.
  intros [F B1] H1 H2. split.
  - intros nls ms' subs cs H. destruct (F _ _ _ _ H) as [-> [a [Ha Hg]]]. split; [reflexivity|]. eapply H1; eauto.
  - intros nls b cs Hn Hb. destruct (H2 _ _ _ Hb) as [a [Ha Hg]]. destruct (B1 _ _ _ Hn Ha) as [subs [Hs Hg']]. exists subs. auto.
Qed.
Lemma means_rel {A} (P P' : rel) ms (S : bl A) G : (forall nls ms' subs cs, P ms nls ms' subs cs <-> P' ms nls ms' subs cs) -> means P ms S G -> means P' ms S G.
Proof.
  intros E [F B1]. split.
  - intros nls ms' subs cs H. apply E in H. eauto.
  - intros nls b cs Hn Hb. destruct (B1 _ _ _ Hn Hb) as [subs [Hs Hg]]. exists subs. split; [now apply E | exact Hg].
Qed.

(** ** Sequence, option, alternative *)
Definition cat_S {A B} (S1 : bl A) (S2 : bl B) : bl (A * B) := fun nls p cs =>
  exists n1 n2 c1 c2, nls = n1 ++ n2 /\ cs = c1 ++ c2 /\ S1 n1 (fst p) c1 /\ S2 n2 (snd p) c2.
Definition cat_G {A B} (G1 : A -> list (key * item) -> Prop) (G2 : B -> list (key * item) -> Prop) (p : A * B) (subs : list (key * item)) : Prop :=
  exists s1 s2, subs = s1 ++ s2 /\ G1 (fst p) s1 /\ G2 (snd p) s2.
Lemma means_cat {A B} r g1 g2 ms (S1 : bl A) G1 (S2 : bl B) G2 : means (V r g1) ms S1 G1 -> means (V r g2) ms S2 G2 ->
  means (V r (GCat g1 g2)) ms (cat_S S1 S2) (cat_G G1 G2).
Proof.
  intros [F1 B1] [F2 B2]. split.
  - intros nls ms' subs cs H. apply V_cat in H as [n1 [n2 [ms1 [s1 [s2 [c1 [c2 [-> [-> [-> [H1 H2]]]]]]]]]]].
    destruct (F1 _ _ _ _ H1) as [-> [a [Ha Hga]]]. destruct (F2 _ _ _ _ H2) as [-> [b [Hb Hgb]]]. split; [reflexivity|].
    exists (a, b). split; [exists n1, n2, c1, c2; auto | exists s1, s2; auto].
  - intros nls [a b] cs Hn [n1 [n2 [c1 [c2 [-> [-> [H1 H2]]]]]]]. apply Forall_app in Hn as [N1 N2]. cbn in *.
    destruct (B1 _ _ _ N1 H1) as [s1 [X1 Y1]]. destruct (B2 _ _ _ N2 H2) as [s2 [X2 Y2]]. exists (s1 ++ s2). split; [|exists s1, s2; auto].
    apply V_cat. exists n1, n2, ms, s1, s2, c1, c2. auto.
Qed.
Definition opt_G {A} (G : A -> list (key * item) -> Prop) (o : option A) (subs : list (key * item)) : Prop :=
  match o with Some a => G a subs | None => subs = [] end.
Lemma means_opt {A} r g ms (S : bl A) G : means (V r g) ms S G -> means (V r (gopt g)) ms (maybe S) (opt_G G).
Proof.
  intros [F B]. split.
  - intros nls ms' subs cs H. apply V_opt in H as [H|[-> [-> [-> ->]]]].
    + destruct (F _ _ _ _ H) as [-> [a [Ha Hga]]]. split; [reflexivity|]. exists (Some a). auto.
    + split; [reflexivity|]. exists None. split; [split|]; reflexivity.
  - intros nls [a|] cs Hn H; cbn in H.
    + destruct (B _ _ _ Hn H) as [s [X Y]]. exists s. split; [|exact Y]. apply V_opt. now left.
    + destruct H as [-> ->]. exists []. split; [|reflexivity]. apply V_opt. right. auto.
Qed.
Lemma means_alt {A} r g1 g2 ms (S1 S2 : bl A) G : means (V r g1) ms S1 G -> means (V r g2) ms S2 G ->
  means (V r (GAlt g1 g2)) ms (fun nls a cs => S1 nls a cs \/ S2 nls a cs) G.
Proof.
  intros [F1 B1] [F2 B2]. split.
  - intros nls ms' subs cs H. apply V_alt in H as [H|H]; [destruct (F1 _ _ _ _ H) as [-> [a [Ha Hg]]] | destruct (F2 _ _ _ _ H) as [-> [a [Ha Hg]]]]; eauto.
  - intros nls a cs Hn [H|H]; [destruct (B1 _ _ _ Hn H) as [s [X Y]] | destruct (B2 _ _ _ Hn H) as [s [X Y]]]; exists s; (split; [apply V_alt; auto | exact Y]).
Qed.

(** ** Repetition *)
(** values are lists that add up *)
Inductive gather {A} (S : bl (list A)) : bl (list A) :=
| ga_nil : gather S [] [] []
| ga_cons n1 a c1 n2 b c2 : S n1 a c1 -> gather S n2 b c2 -> gather S (n1 ++ n2) (a ++ b) (c1 ++ c2).
Lemma means_gather {A} r g ms (S : bl (list A)) G : means (V r g) ms S G -> G [] [] -> (forall a b s1 s2, G a s1 -> G b s2 -> G (a ++ b) (s1 ++ s2)) ->
  means (V r (GStar g)) ms (gather S) G.
Proof.
  intros [F B] G0 G1. split.
  - intros nls ms' subs cs H. apply V_star in H. assert (H' : exists m, m = ms /\ starred (V r g) m nls ms' subs cs) by eauto. clear H. destruct H' as [m [Em H]].
    induction H as [m|m n1 ms1 s1 c1 n2 ms2 s2 c2 H1 H2 IH]; subst m; [split; [reflexivity|]; exists []; split; [constructor | exact G0]|].
    destruct (F _ _ _ _ H1) as [-> [a [Ha Hg]]]. destruct (IH eq_refl) as [-> [b [Hb Hgb]]]. split; [reflexivity|]. exists (a ++ b). split; [now constructor | auto].
  - intros nls a cs Hn H. induction H as [|n1 a c1 n2 b c2 H1 H2 IH].
    + exists []. split; [|exact G0]. apply V_star. constructor.
    + apply Forall_app in Hn as [N1 N2]. destruct (B _ _ _ N1 H1) as [s1 [X1 Y1]]. destruct (IH N2) as [s2 [X2 Y2]]. exists (s1 ++ s2). split; [|auto].
      apply V_star. econstructor; [exact X1 | now apply V_star].
Qed.
(** each value is one child node *)
Definition node_G {A} (r : rule) (inj : A -> item) (a : A) (subs : list (key * item)) : Prop := subs = [(KRule r, inj a)].
Definition nodes_G {A} (r : rule) (inj : A -> item) (l : list A) (subs : list (key * item)) : Prop := subs = map (fun a => (KRule r, inj a)) l.
Lemma means_nodes {A} r r' ms (S : bl A) inj : means (V r (R r')) ms S (node_G r' inj) -> means (V r (GStar (R r'))) ms (blocks S) (nodes_G r' inj).
Proof.
  intros [F B]. split.
  - intros nls ms' subs cs H. apply V_star in H. assert (H' : exists m, m = ms /\ starred (V r (R r')) m nls ms' subs cs) by eauto. clear H. destruct H' as [m [Em H]].
    induction H as [m|m n1 ms1 s1 c1 n2 ms2 s2 c2 H1 H2 IH]; subst m; [split; [reflexivity|]; exists []; split; [constructor | reflexivity]|].
    destruct (F _ _ _ _ H1) as [-> [a [Ha Hg]]]. destruct (IH eq_refl) as [-> [b [Hb Hgb]]]. split; [reflexivity|]. exists (a :: b). split; [now constructor|].
    unfold node_G, nodes_G in *. subst. reflexivity.
  - intros nls a cs Hn H. induction H as [|n1 a c1 n2 b c2 H1 H2 IH].
    + exists []. split; [|reflexivity]. apply V_star. constructor.
    + apply Forall_app in Hn as [N1 N2]. destruct (B _ _ _ N1 H1) as [s1 [X1 Y1]]. destruct (IH N2) as [s2 [X2 Y2]]. exists (s1 ++ s2).
      split; [|unfold node_G, nodes_G in *; subst; reflexivity].
      apply V_star. econstructor; [exact X1 | now apply V_star].
Qed.

(** ** Nodes *)
Lemma finish0_erased r x subs es : finish0 r x = (subs, es) -> no_id_subs subs = subs.
Proof.
  destruct x as [s e]. unfold finish0. destruct (transform_node (mkNode r s) [] 0) as [[i|x] id]; cbn [fst no_id_res].
  - intros H. injection H as <- _. cbn. unfold no_id_sub. cbn. now rewrite item_idem.
  - destruct x; intros H; injection H as <- _; reflexivity.
Qed.
Lemma eval0_erased t subs es : eval0 t = (subs, es) -> no_id_subs subs = subs.
Proof.
  destruct t as [a|r l]; [|rewrite eval0_node; apply finish0_erased]. cbn [eval0]. intros H. injection H as <- <-. now destruct (tok_eqb (lkind a) TkComment).
Qed.
Lemma evals0_erased l : forall subs es, evals0 l = (subs, es) -> no_id_subs subs = subs.
Proof.
  induction l as [|t l IH]; intros subs es H; [now injection H as <- <-|]. rewrite evals0_cons in H. destruct (eval0 t) as [s1 e1] eqn:E1. destruct (evals0 l) as [s2 e2].
  injection H as <- <-. rewrite no_id_subs_app, (eval0_erased _ _ _ E1). f_equal. eapply IH. reflexivity.
Qed.
Lemma V_erased r g ms nls ms' subs cs : V r g ms nls ms' subs cs -> no_id_subs subs = subs.
Proof. intros [l [_ [H _]]]. eapply evals0_erased; eauto. Qed.

Lemma means_node {A B} p r ms (S : bl A) G (S' : bl B) inj : normal r = true -> means (V r (prod r)) ms S G ->
  (forall nls a cs s subs, S nls a cs -> G a s -> no_id_subs s = s -> finish0 r (s, []) = (subs, []) -> exists b, S' nls b cs /\ subs = [(KRule r, inj b)]) ->
  (forall nls b cs, S' nls b cs -> exists a, S nls a cs /\ forall s, G a s -> no_id_subs s = s -> finish0 r (s, []) = ([(KRule r, inj b)], [])) ->
  means (V p (R r)) ms S' (node_G r inj).
Proof.
  intros Hn [F B1] H1 H2. split.
  - intros nls ms' subs cs H. apply V_node in H. apply N_normal in H as [s [Hv Hf]]; [|exact Hn]. destruct (F _ _ _ _ Hv) as [-> [a [Ha Hg]]]. split; [reflexivity|].
    destruct (H1 _ _ _ _ _ Ha Hg (V_erased _ _ _ _ _ _ _ Hv) Hf) as [b [Hb ->]]. exists b. split; [exact Hb | reflexivity].
  - intros nls b cs Hne Hb. destruct (H2 _ _ _ Hb) as [a [Ha Hf]]. destruct (B1 _ _ _ Hne Ha) as [s [Hv Hg]]. exists [(KRule r, inj b)]. split; [|reflexivity].
    apply V_node. apply N_normal; [exact Hn|]. exists s. split; [exact Hv|]. apply Hf; [exact Hg|]. eapply V_erased; eauto.
Qed.
(** when building cannot fail *)
Lemma means_node_fun {A B} p r ms (S : bl A) G (S' : bl B) inj (f : A -> B) : normal r = true -> means (V r (prod r)) ms S G ->
  (forall a s, G a s -> no_id_subs s = s -> finish0 r (s, []) = ([(KRule r, inj (f a))], [])) ->
  (forall nls b cs, S' nls b cs <-> exists a, S nls a cs /\ b = f a) ->
  means (V p (R r)) ms S' (node_G r inj).
Proof.
  intros Hn Hm Hf HS. eapply means_node; [exact Hn | exact Hm| |].
  - intros nls a cs s subs Ha Hg He Hs. exists (f a). split; [apply HS; eauto|]. rewrite (Hf _ _ Hg He) in Hs. now injection Hs as <-.
  - intros nls b cs Hb. apply HS in Hb as [a [Ha ->]]. exists a. split; [exact Ha|]. intros s Hg He. now apply Hf.
Qed.

(** ** Tokens *)
Lemma means_tok {A} r k ms (S : bl A) G : idle ms -> (r = RGherkinDocument -> k <> TkComment) ->
  (forall n x ms' t, x <> [] -> lexm k ms n x = (Ok true, ms', t) -> ms' = ms /\ exists a, S [(n, x)] a (tok_com k t) /\ G a (tok_sub k t)) ->
  (forall nls a cs, nonempty nls -> S nls a cs -> exists n x t, nls = [(n, x)] /\ lexm k ms n x = (Ok true, ms, t) /\ cs = tok_com k t /\ G a (tok_sub k t)) ->
  means (V r (T k)) ms S G.
Proof.
  intros [Hm Hs] Hr H1 H2. split.
  - intros nls ms' subs cs H. apply V_tok in H as [n [x [t [-> [Hx [Hl [_ [_ [_ [-> ->]]]]]]]]]]. now apply H1.
  - intros nls a cs Hn Ha. destruct (H2 _ _ _ Hn Ha) as [n [x [t [-> [Hl [-> Hg]]]]]]. exists (tok_sub k t). split; [|exact Hg].
    apply V_tok. exists n, x, t. split; [reflexivity|]. split; [apply Forall_inv in Hn; exact Hn|]. split; [exact Hl|]. split; [exact Hm|]. split; [exact Hs|]. split; [|auto].
    intros E1 E2. now destruct (Hr E1).
Qed.
