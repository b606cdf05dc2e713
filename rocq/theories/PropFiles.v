(** * C36, C37, C38 and C49: glob patterns and files *)
From Verif Require Import PyStr PyStrFacts Types Regex Glob GlobSpec GlobFacts Robot FilesSpec FilesFacts.
Local Open Scope N_scope.

(** ** C37 *)

(** a pattern of the supported syntax compiles and matches exactly the paths it should match *)
Theorem C37_glob : forall g path, pattern_ok None g ->
  exists b, glob_matches (show g) path = Ok b /\ (b = true <-> glob_match g path).
Proof. exact glob_show_iff. Qed.
Print Assumptions C37_glob.

Lemma matches_true g path pat : pattern_ok None g -> show g = pat -> (glob_matches pat path = Ok true <-> glob_match g path).
Proof.
  intros P <-. destruct (glob_show_iff g path P) as [b [-> E]]. rewrite <- E. split; [now intros [= ->] | now intros ->].
Qed.

Definition chars (x : str) : list gitem := map (fun c => GAtom (GChar c)) x.
Lemma chars_show x : show (chars x) = x.
Proof. induction x as [|c x IH]; [reflexivity|]. change (show (chars (c :: x))) with (c :: show (chars x)). now rewrite IH. Qed.
Lemma show_chars x g : show (chars x ++ g) = x ++ show g.
Proof. induction x as [|c x IH]; [reflexivity|]. change (show (chars (c :: x) ++ g)) with (c :: show (chars x ++ g)). now rewrite IH. Qed.
Lemma chars_ok x : Forall ordinary x -> forall prev, pattern_ok prev (chars x).
Proof.
  induction 1 as [|c x H1 H2 IH]; intros prev; [exact I|]. cbn. split; [exact H1|]. split; [|apply IH].
  destruct prev as [[[]| |]|]; exact I.
Qed.
Lemma chars_match x y : glob_match (chars x) y <-> y = x.
Proof.
  revert y. induction x as [|c x IH]; intros y; cbn; split; intros H.
  - now inversion H.
  - subst. constructor.
  - inversion H as [|a g w z A G| |]; subst. inversion A; subst. apply IH in G as ->. reflexivity.
  - subst. change (c :: x) with ([c] ++ x). constructor; [constructor | now apply IH].
Qed.
Lemma atoms_chars x y : atoms_match (map GChar x) y <-> y = x.
Proof.
  revert y. induction x as [|c x IH]; intros y; cbn; split; intros H.
  - now inversion H.
  - subst. constructor.
  - inversion H as [|a l w z A G]; subst. inversion A; subst. apply IH in G as ->. reflexivity.
  - subst. change (c :: x) with ([c] ++ x). constructor; [constructor | now apply IH].
Qed.
Lemma show_atoms_chars x : show_atoms (map GChar x) = x.
Proof. unfold show_atoms. induction x as [|c x IH]; [reflexivity|]. cbn [map flat_map show_atom]. change (c :: flat_map show_atom (map GChar x) = c :: x). now rewrite IH. Qed.

(** a pattern of ordinary characters matches exactly itself *)
Theorem C37_literal : forall x path, Forall ordinary x -> (glob_matches x path = Ok true <-> path = x).
Proof.
  intros x path H. rewrite (matches_true (chars x) path x (chars_ok x H None) (chars_show x)). apply chars_match.
Qed.
Print Assumptions C37_literal.

(** the last slash *)
Lemma last_slash (a : str) : exists d b, a = d ++ b /\ (d = [] \/ exists v, d = v ++ s "/") /\ no_slash b.
Proof.
  induction a as [|c a IH] using rev_ind.
  - exists [], []. repeat split; [now left | intros []].
  - destruct IH as [d [b [-> [D B]]]]. destruct (N.eq_dec c ch_slash) as [->|N].
    + exists ((d ++ b) ++ s "/"), []. split; [now rewrite app_nil_r|]. split; [right; now exists (d ++ b) | intros []].
    + exists d, (b ++ [c]). split; [now rewrite app_assoc|]. split; [exact D|]. intros X. apply in_app_iff in X as [X|[->|[]]]; [now apply B | now apply N].
Qed.
Lemma deep_star_match g path : glob_match (GDeep :: GAtom GSegment :: g) path <-> exists a e, path = a ++ e /\ glob_match g e.
Proof.
  split; intros H.
  - inversion H as [| | |? w x D G]; subst. inversion G as [|? ? w2 x2 A G2| |]; subst. exists (w ++ w2), x2. split; [now rewrite app_assoc | exact G2].
  - destruct H as [a [e [-> G]]]. destruct (last_slash a) as [d [b [-> [D B]]]]. rewrite <- app_assoc. constructor.
    + destruct D as [->|[v ->]]; [now left | right; left; now exists v].
    + constructor; [now constructor | exact G].
Qed.

(** [**/*.ext] matches exactly the paths ending in [.ext] *)
Theorem C37_extension : forall ext path, Forall ordinary ext ->
  (glob_matches (s "**/*." ++ ext) path = Ok true <-> exists a, path = a ++ s "." ++ ext).
Proof.
  intros ext path H.
  rewrite (matches_true (GDeep :: GAtom GSegment :: chars (s "." ++ ext)) path).
  - rewrite deep_star_match. split; [intros [a [e [-> G]]] | intros [a ->]; exists a, (s "." ++ ext); split; [reflexivity | now apply chars_match]].
    apply chars_match in G as ->. now exists a.
  - cbn [pattern_ok item_ok may_follow atom_ok]. repeat (split; [exact I|]). apply chars_ok. constructor; [|exact H].
    intros X. vm_compute in X. repeat (destruct X as [X|X]; [discriminate|]). exact X.
  - change (s "**/*." ++ ext) with (s "**/*" ++ s "." ++ ext).
    change (show (GDeep :: GAtom GSegment :: chars (s "." ++ ext))) with (s "**/*" ++ show (chars (s "." ++ ext))). now rewrite chars_show.
Qed.
Print Assumptions C37_extension.

(** [**/*.{a,b,..}] matches exactly the paths ending in [.a] or [.b] or ... *)
Theorem C37_extensions : forall exts path, exts <> [] -> Forall (fun e => Forall (fun c => ordinary c /\ c <> ch_comma) e) exts ->
  (glob_matches (s "**/*.{" ++ join (s ",") exts ++ s "}") path = Ok true <->
   exists e a, In e exts /\ path = a ++ s "." ++ e).
Proof.
  intros exts path N H. set (g := GDeep :: GAtom GSegment :: chars (s ".") ++ [GGroup (map (map GChar) exts)]).
  rewrite (matches_true g path).
  - unfold g. rewrite deep_star_match. split.
    + intros [a [y [-> G]]]. inversion G as [|? ? w x A G2| |]; subst. inversion A; subst. inversion G2 as [| |alts alt g0 w2 x2 I A2 G3|]; subst. inversion G3; subst.
      apply in_map_iff in I as [e [<- I]]. apply atoms_chars in A2 as ->. exists e, a. split; [exact I|]. now rewrite app_nil_r.
    + intros [e [a [I ->]]]. exists a, (s "." ++ e). split; [reflexivity|]. change (s "." ++ e) with ([46] ++ e). constructor; [constructor|].
      rewrite <- (app_nil_r e). apply gm_group with (alt := map GChar e); [apply in_map_iff; eauto | now apply atoms_chars | constructor].
  - unfold g. cbn [pattern_ok item_ok may_follow atom_ok chars map app]. repeat (split; [exact I|]). split; [|split; [exact I|split; [|split; [exact I | exact I]]]].
    + intros X. vm_compute in X. repeat (destruct X as [X|X]; [discriminate|]). exact X.
    + split; [destruct exts; [contradiction | discriminate]|]. apply Forall_map. eapply Forall_impl; [|exact H]. intros e He. split.
      * apply Forall_map. eapply Forall_impl; [|exact He]. intros c [C1 C2]. split; [exact C1|]. intros [= ->]. now apply C2.
      * clear. induction e; [exact I | exact IHe].
  - unfold g. change (s "**/*.{" ++ join (s ",") exts ++ s "}") with (s "**/*.{" ++ join (s ",") exts ++ s "}").
    change (show (GDeep :: GAtom GSegment :: chars (s ".") ++ [GGroup (map (map GChar) exts)])) with (s "**/*.{" ++ join (s ",") (map show_atoms (map (map GChar) exts)) ++ s "}" ++ []).
    rewrite map_map, app_nil_r. f_equal. f_equal. f_equal. erewrite map_ext; [apply map_id|]. exact show_atoms_chars.
Qed.
Print Assumptions C37_extensions.

(** [*] stands for any text, but never crosses a slash; [?] stands for one character *)
Theorem C37_star : forall a b path, Forall ordinary a -> Forall ordinary b ->
  (glob_matches (a ++ s "*" ++ b) path = Ok true <-> exists w, ~ In ch_slash w /\ path = a ++ w ++ b).
Proof.
  intros a b path Ha Hb. rewrite (matches_true (chars a ++ GAtom GSegment :: chars b) path).
  - clear. revert path. induction a as [|c a IH]; intros path; cbn [chars map app]; split; intros H.
    + inversion H as [|? ? w x A G| |]; subst. inversion A; subst. apply chars_match in G as ->. now exists w.
    + destruct H as [w [W ->]]. constructor; [now constructor | now apply chars_match].
    + inversion H as [|? ? w x A G| |]; subst. inversion A; subst. apply IH in G as [w [W ->]]. now exists w.
    + destruct H as [w [W ->]]. change (c :: a ++ w ++ b) with ([c] ++ (a ++ w ++ b)). constructor; [constructor|]. apply IH. now exists w.
  - assert (G : forall prev, prev <> Some (GAtom GSegment) -> pattern_ok prev (chars a ++ GAtom GSegment :: chars b)).
    { induction Ha as [|c a H1 H2 IH]; intros prev P.
      - cbn. split; [exact I|]. split; [|now apply chars_ok]. destruct prev as [[[]| |]|]; try exact I. now apply P.
      - cbn. split; [exact H1|]. split; [destruct prev as [[[]| |]|]; exact I|]. apply IH. discriminate. }
    apply G. discriminate.
  - rewrite show_chars. cbn [show show_atom]. now rewrite chars_show.
Qed.
Print Assumptions C37_star.
Theorem C37_question : forall a b path, Forall ordinary a -> Forall ordinary b ->
  (glob_matches (a ++ s "?" ++ b) path = Ok true <-> exists c, path = a ++ [c] ++ b).
Proof.
  intros a b path Ha Hb. rewrite (matches_true (chars a ++ GAtom GOne :: chars b) path).
  - clear. revert path. induction a as [|c a IH]; intros path; cbn [chars map app]; split; intros H.
    + inversion H as [|? ? w x A G| |]; subst. inversion A; subst. apply chars_match in G as ->. now exists c.
    + destruct H as [c ->]. change (c :: b) with ([c] ++ b). constructor; [constructor | now apply chars_match].
    + inversion H as [|? ? w x A G| |]; subst. inversion A; subst. apply IH in G as [w ->]. now exists w.
    + destruct H as [w ->]. change (c :: a ++ w :: b) with ([c] ++ (a ++ w :: b)). constructor; [constructor|]. apply IH. now exists w.
  - assert (G : forall prev, pattern_ok prev (chars a ++ GAtom GOne :: chars b)).
    { induction Ha as [|c a H1 H2 IH]; intros prev.
      - cbn. split; [exact I|]. split; [|now apply chars_ok]. destruct prev as [[[]| |]|]; exact I.
      - cbn. split; [exact H1|]. split; [destruct prev as [[[]| |]|]; exact I|]. apply IH. }
    apply G.
  - rewrite show_chars. cbn [show show_atom]. now rewrite chars_show.
Qed.
Print Assumptions C37_question.

Example ex_glob : glob_matches (s "**/*.{feature,feature.md}") (s "a b/c.d/x.feature.md") = Ok true /\
  glob_matches (s "**/*.resource") (s "x.resourceful") = Ok false /\ glob_matches (s "a/*.b") (s "a/c/d.b") = Ok false /\
  pattern_ok None [GDeep; GAtom (GChar 97); GAtom GSegment; GAtom (GChar ch_slash); GDeep] /\
  show [GDeep; GAtom (GChar 97); GAtom GSegment; GAtom (GChar ch_slash); GDeep] = s "**/a*/**".
Proof.
  repeat (split; [vm_compute; reflexivity|]). split; [|reflexivity]. cbn. repeat split; intros X; vm_compute in X; repeat (destruct X as [X|X]; [discriminate|]); exact X.
Qed.

(** ** C38 *)

(** with valid patterns the iteration never fails *)
Definition valid_patterns (l : option (list str)) : Prop :=
  match l with None => True | Some l => Forall (fun pat => exists r, glob_compile pat = Ok r) l end.
Definition wanted_file (patterns : option (list str)) (p : list str) : Prop :=
  match patterns with None => True | Some l => matches_one l p end.
Definition ignored_path (ignore : option (list str)) (p : list str) : Prop :=
  match ignore with None => False | Some l => matches_one l p end.
Lemma wanted_iff ps p : wanted ps p = true <-> wanted_file ps p.
Proof. destruct ps; [apply mb_spec | cbn; tauto]. Qed.
Lemma ignored_iff ps p : ignored ps p = false <-> ~ ignored_path ps p.
Proof.
  destruct ps as [l|]; cbn [ignored ignored_path]; [|intuition]. rewrite <- mb_spec. destruct (mb l p); intuition congruence.
Qed.
Theorem C38_iteration : forall patterns ignore l, valid_patterns patterns -> valid_patterns ignore -> dir_ok l ->
  exists ps, iter_files patterns ignore (Some l) = Ok ps /\ NoDup ps /\
    forall p, In p ps <-> file_at l p /\ wanted_file patterns p /\ forall q, on_the_way q p -> ~ ignored_path ignore q.
Proof.
  intros patterns ignore l H1 H2 D. exists (files_l patterns ignore [] l). split; [now apply iter_files_ok|]. split; [now apply files_l_nodup|].
  intros p. rewrite files_l_in. split.
  - intros [q [-> [F [R1 R2]]]]. cbn [app] in *. split; [exact F|]. split; [now apply wanted_iff|]. intros q0 Hq. apply ignored_iff. now apply (R2 q0).
  - intros [F [W N]]. exists p. split; [reflexivity|]. split; [exact F|]. split; [now apply wanted_iff|]. intros q Hq. apply ignored_iff. now apply N.
Qed.
Print Assumptions C38_iteration.

(** whatever the patterns: if the iteration does not fail, it yields exactly those files *)
Theorem C38_sound_and_complete : forall patterns ignore l ps, iter_files patterns ignore (Some l) = Ok ps ->
  forall p, In p ps <-> file_at l p /\ wanted_file patterns p /\ forall q, on_the_way q p -> ~ ignored_path ignore q.
Proof.
  intros patterns ignore l ps H. unfold iter_files in H. destruct (compile_all patterns) as [[]|] eqn:E1; [|discriminate]. destruct (compile_all ignore) as [[]|] eqn:E2; [|discriminate].
  cbn [rbind] in H. apply compile_all_inv in E1, E2. rewrite (iter_list_ok _ _ E1 E2) in H. injection H as <-.
  intros p. rewrite files_l_in. split.
  - intros [q [-> [F [R1 R2]]]]. cbn [app] in *. split; [exact F|]. split; [now apply wanted_iff|]. intros q0 Hq. apply ignored_iff. now apply (R2 q0).
  - intros [F [W N]]. exists p. split; [reflexivity|]. split; [exact F|]. split; [now apply wanted_iff|]. intros q Hq. apply ignored_iff. now apply N.
Qed.
Print Assumptions C38_sound_and_complete.
(** an unreadable start directory gives nothing *)
Theorem C38_unreadable : forall patterns ignore, valid_patterns patterns -> valid_patterns ignore -> iter_files patterns ignore None = Ok [].
Proof. intros patterns ignore H1 H2. unfold iter_files. rewrite !compile_all_ok by assumption. reflexivity. Qed.
Print Assumptions C38_unreadable.

Definition ex_dir : list (str * entry) :=
  [(s "z.resource", EFile); (s "_b.resource", EFile); (s "sub", EDir (Some [(s "a.resource", EFile); (s "a.txt", EFile); (s "closed", EDir None)])); (s ".resource", EFile)].
Definition ex_dir2 : list (str * entry) :=
  [(s ".resource", EFile); (s "sub", EDir (Some [(s "closed", EDir None); (s "a.txt", EFile); (s "a.resource", EFile)])); (s "z.resource", EFile); (s "_b.resource", EFile)].
Lemma ex_dir_ok : dir_ok ex_dir /\ dir_ok ex_dir2.
Proof.
  assert (N : forall n, In n [s "z.resource"; s "_b.resource"; s "sub"; s ".resource"; s "a.resource"; s "a.txt"; s "closed"] -> n <> [] /\ ~ In ch_slash n).
  { intros n H. cbn in H. repeat (destruct H as [<-|H]; [split; [discriminate|]; intros X; repeat (destruct X as [X|X]; [discriminate|]); exact X|]). contradiction. }
  split; (apply dok; [cbn; repeat (apply NoDup_cons; [intros X; cbn in X; repeat (destruct X as [X|X]; [discriminate|]); exact X|]); apply NoDup_nil | intros n e H; apply N; cbn in H |- *; repeat (destruct H as [H|H]; [injection H as <- _; tauto|]); contradiction | intros n c H; cbn in H; repeat (destruct H as [H|H]; [try discriminate H|]); try contradiction; injection H as <- <-; (apply dok; [cbn; repeat (apply NoDup_cons; [intros X; cbn in X; repeat (destruct X as [X|X]; [discriminate|]); exact X|]); apply NoDup_nil | intros n e H; apply N; cbn in H |- *; repeat (destruct H as [H|H]; [injection H as <- _; tauto|]); contradiction | intros n c H; cbn in H; repeat (destruct H as [H|H]; [discriminate H|]); contradiction])]).
Qed.
Example ex_iter : iter_files (Some [s "**/*.resource"]) (Some [s "sub"]) (Some ex_dir) = Ok [[s "z.resource"]; [s "_b.resource"]; [s ".resource"]] /\
  iter_files None None (Some ex_dir) = Ok [[s "z.resource"]; [s "_b.resource"]; [s "sub"; s "a.resource"]; [s "sub"; s "a.txt"]; [s ".resource"]].
Proof. split; vm_compute; reflexivity. Qed.

(** ** C36 *)

(** [r] is the relative path of a resource file: its name ends in .resource and does not start with an
    underscore or a dot *)
Definition resource_file (l : list (str * entry)) (r : str) : Prop :=
  exists p n, file_at l (p ++ [n]) /\ r = path_str (p ++ [n]) /\ (exists m, n = m ++ s ".resource") /\
    ~ (exists m, n = s "_" ++ m) /\ ~ (exists m, n = s "." ++ m).

Lemma stem_resource m : path_stem (m ++ s ".resource") = match m with [] => s ".resource" | _ => m end.
Proof.
  assert (G : forall m i l, (fix go (x : str) (i : nat) (last : option nat) : option nat := match x with [] => last | c :: x' => go x' (S i) (if c =? 46 then Some i else last) end) (m ++ s ".resource") i l = Some (i + length m)%nat).
  { clear. induction m as [|c m IH]; intros i l; [cbn; now rewrite Nat.add_0_r|]. cbn [app length]. rewrite IH. f_equal. lia. }
  unfold path_stem, rfind_dot. rewrite G. cbn [Nat.add]. destruct m as [|c m]; [reflexivity|]. cbn [length].
  rewrite app_length. change (length (s ".resource")) with 9%nat. destruct (Nat.ltb_spec (S (length m)) (length (c :: m) + 9 - 1)) as [L|L]; [|cbn [length] in L; lia].
  change (S (length m)) with (length (c :: m)). rewrite firstn_app, Nat.sub_diag, firstn_all. cbn [firstn]. apply app_nil_r.
Qed.
Lemma starts1 c x : startswith [c] x = true <-> exists m, x = [c] ++ m.
Proof.
  destruct x as [|d x]; cbn; [split; [discriminate | intros [m X]; discriminate]|]. split.
  - destruct (c =? d) eqn:E; [|discriminate]. apply N.eqb_eq in E as ->. eauto.
  - intros [m [= -> ->]]. rewrite N.eqb_refl. reflexivity.
Qed.
Lemma stem_ok n : (exists m, n = m ++ s ".resource") ->
  (negb (startswith (s "_") (path_stem n) || startswith (s ".") (path_stem n)) = true <-> ~ (exists m, n = s "_" ++ m) /\ ~ (exists m, n = s "." ++ m)).
Proof.
  intros [m ->]. rewrite stem_resource. rewrite Bool.negb_true_iff, Bool.orb_false_iff, <- !Bool.not_true_iff_false.
  change (s "_") with [95]. change (s ".") with [46]. rewrite !starts1. destruct m as [|c m]; [reflexivity|].
  assert (E : forall d, (exists q, c :: m = [d] ++ q) <-> (exists q, (c :: m) ++ s ".resource" = [d] ++ q)).
  { intros d. split; intros [q H]; injection H; intros; subst; eexists; reflexivity. }
  now rewrite !E.
Qed.
Lemma last_app {A} (p : list A) n d : last (p ++ [n]) d = n.
Proof. induction p as [|x p IH]; [reflexivity|]. cbn [app last]. rewrite IH. destruct p; reflexivity. Qed.
Lemma path_str_app p n : path_str (p ++ [n]) = n \/ exists a, path_str (p ++ [n]) = a ++ ch_slash :: n.
Proof.
  unfold path_str. destruct p as [|x p]; [now left|]. right. revert x. induction p as [|y p IH]; intros x.
  - exists x. reflexivity.
  - destruct (IH y) as [a E]. cbn [app] in *. exists (x ++ ch_slash :: a). rewrite join_cons2, E. now rewrite <- app_assoc.
Qed.
Lemma ext_iff (n ext a : str) x : ~ In ch_slash ext -> a ++ ext = x ++ ch_slash :: n -> exists m, n = m ++ ext.
Proof.
  intros N. revert x. induction a as [|c a IH]; intros x H; cbn [app] in H.
  - exfalso. apply N. rewrite H. apply in_or_app. right. now left.
  - destruct x as [|d x]; injection H as E H; [subst; eauto | eauto].
Qed.
Lemma path_ends p n ext : ~ In ch_slash ext -> ((exists a, path_str (p ++ [n]) = a ++ ext) <-> exists m, n = m ++ ext).
Proof.
  intros N. destruct (path_str_app p n) as [->|[x ->]]; [reflexivity|]. split.
  - intros [a H]. symmetry in H. eapply ext_iff; eauto.
  - intros [m ->]. exists (x ++ ch_slash :: m). now rewrite <- app_assoc.
Qed.
Lemma ordinary_b (x : str) : forallb (fun c => negb (existsb (N.eqb c) (s "?*{}[]"))) x = true -> Forall ordinary x.
Proof.
  intros H. apply Forall_forall. intros c Hc. rewrite forallb_forall in H. apply H in Hc. apply Bool.negb_true_iff in Hc. intros I. apply Bool.not_true_iff_false in Hc. apply Hc.
  apply existsb_exists. exists c. split; [exact I | apply N.eqb_refl].
Qed.
Lemma resource_pat p n : matches_one [s "**/*.resource"] (p ++ [n]) <-> exists m, n = m ++ s ".resource".
Proof.
  unfold matches_one. rewrite <- (path_ends p n (s ".resource")).
  - split.
    + intros [pat [[<-|[]] H]]. apply (C37_extension (s "resource")) in H as [a H]; [|now apply ordinary_b]. exists a. exact H.
    + intros [a H]. exists (s "**/*.resource"). split; [now left|]. apply (C37_extension (s "resource")); [now apply ordinary_b|]. exists a. exact H.
  - intros X. vm_compute in X. repeat (destruct X as [X|X]; [discriminate|]). exact X.
Qed.
Lemma resource_valid : valid_patterns (Some [s "**/*.resource"]).
Proof. repeat constructor. eexists. vm_compute. reflexivity. Qed.

Theorem C36_resources : forall l, dir_ok l ->
  exists rs, resources (Some l) = Ok rs /\ ascending rs /\ NoDup rs /\ forall r, In r rs <-> resource_file l r.
Proof.
  intros l D. unfold resources. destruct (C38_iteration (Some [s "**/*.resource"]) None l resource_valid I D) as [ps [-> [N H]]]. cbn [rbind].
  eexists. split; [reflexivity|].
  assert (A : ascending (sorted (map path_str (filter (fun p => negb (startswith (s "_") (path_stem (last p [])) || startswith (s ".") (path_stem (last p [])))) ps)))).
  { apply sorted_ascending. apply NoDup_filter with (f := fun p => negb (startswith (s "_") (path_stem (last p [])) || startswith (s ".") (path_stem (last p [])))) in N.
    assert (X : forall p, In p (filter (fun p => negb (startswith (s "_") (path_stem (last p [])) || startswith (s ".") (path_stem (last p [])))) ps) -> file_at l p).
    { intros p Hp. apply filter_In in Hp as [Hp _]. now apply H in Hp. }
    revert N X. generalize (filter (fun p => negb (startswith (s "_") (path_stem (last p [])) || startswith (s ".") (path_stem (last p [])))) ps) as qs. intros qs. induction 1 as [|q qs N1 N2 IH]; intros X; [constructor|].
    cbn [map]. constructor; [|apply IH; intros; apply X; now right]. intros I. apply in_map_iff in I as [q' [E I]].
    destruct (file_at_names l q D (X q (or_introl eq_refl))) as [F1 F2]. destruct (file_at_names l q' D (X q' (or_intror I))) as [G1 G2].
    apply path_str_inj in E; auto; [subst; contradiction | |]; eapply Forall_impl; [|exact G1 | |exact F1]; now intros ? []. }
  split; [exact A|]. split; [now apply ascending_nodup|].
  intros r. rewrite sorted_in, in_map_iff. unfold resource_file. split.
  - intros [p [<- Hp]]. apply filter_In in Hp as [Hp S]. apply H in Hp as [F [W _]]. destruct (file_at_names l p D F) as [_ Np].
    destruct p as [|n p _] using rev_ind; [contradiction|]. rewrite last_app in S. apply resource_pat in W. exists p, n. split; [exact F|]. split; [reflexivity|]. split; [exact W|]. now apply stem_ok.
  - intros [p [n [F [-> [W S]]]]]. exists (p ++ [n]). split; [reflexivity|]. apply filter_In. split; [apply H; split; [exact F|]; split; [now apply resource_pat | intros q _ []]|].
    rewrite last_app. now apply stem_ok.
Qed.
Print Assumptions C36_resources.
(** the order in which directories are listed does not matter *)
Theorem C36_listing_order : forall l l', dir_ok l -> dir_ok l' -> same_files l l' -> resources (Some l) = resources (Some l').
Proof.
  intros l l' D D' S. destruct (C36_resources l D) as [rs [-> [A [_ H]]]]. destruct (C36_resources l' D') as [rs' [-> [A' [_ H']]]].
  f_equal. apply ascending_unique; auto. intros r. rewrite H, H'. unfold resource_file. split; intros [p [n [F X]]]; exists p, n; (split; [now apply S | exact X]).
Qed.
Print Assumptions C36_listing_order.
Theorem C36_unreadable : resources None = Ok [].
Proof. vm_compute. reflexivity. Qed.
Print Assumptions C36_unreadable.

Example ex_same : same_files ex_dir ex_dir2.
Proof.
  intros p. split; intros H; inversion H as [l n I|l n c q I F]; subst; cbn in I; repeat (destruct I as [I|I]; [try discriminate I; injection I; intros; subst|]); try contradiction.
  all: try (apply fa_file; cbn; tauto).
  all: eapply fa_below; [cbn; first [right; right; left; reflexivity | right; left; reflexivity]|].
  all: inversion F as [l2 n2 J|l2 n2 c2 q' J F']; subst; cbn in J; repeat (destruct J as [J|J]; [try discriminate J; injection J; intros; subst|]); try contradiction; apply fa_file; cbn; tauto.
Qed.
Example ex_resources : resources (Some ex_dir) = Ok [s "sub/a.resource"; s "z.resource"] /\ resources (Some ex_dir2) = Ok [s "sub/a.resource"; s "z.resource"].
Proof. split; vm_compute; reflexivity. Qed.

(** ** C49: a directory suite collects exactly its feature files *)
Theorem C49_feature_files : forall l, dir_ok l ->
  exists ps, feature_files (Some l) = Ok ps /\ NoDup ps /\
    forall p, In p ps <-> file_at l p /\ exists d n m, p = d ++ [n] /\ (n = m ++ s ".feature" \/ n = m ++ s ".feature.md").
Proof.
  intros l D. assert (V : valid_patterns (Some [s "**/*.{feature,feature.md}"])) by (repeat constructor; eexists; vm_compute; reflexivity).
  destruct (C38_iteration _ None l V I D) as [ps [E [N H]]]. exists ps. split; [exact E|]. split; [exact N|]. intros p. rewrite H.
  assert (X : forall e, In e [s "feature"; s "feature.md"] -> ~ In ch_slash (s "." ++ e)).
  { intros e [<-|[<-|[]]] X; vm_compute in X; repeat (destruct X as [X|X]; [discriminate|]); exact X. }
  assert (G : forall d n, wanted_file (Some [s "**/*.{feature,feature.md}"]) (d ++ [n]) <-> exists m, n = m ++ s ".feature" \/ n = m ++ s ".feature.md").
  { intros d n. cbn [wanted_file]. unfold matches_one.
    assert (R : glob_matches (s "**/*.{feature,feature.md}") (path_str (d ++ [n])) = Ok true <-> exists e a, In e [s "feature"; s "feature.md"] /\ path_str (d ++ [n]) = a ++ s "." ++ e).
    { apply (C37_extensions [s "feature"; s "feature.md"]); [discriminate|].
      repeat constructor; intros Y; vm_compute in Y; repeat (destruct Y as [Y|Y]; [discriminate|]); try exact Y; discriminate Y. }
    split.
    - intros [pat [[<-|[]] M]]. apply R in M as [e [a [I M]]]. assert (Z : exists m, n = m ++ s "." ++ e) by (apply (path_ends d n); [now apply X | now exists a]).
      destruct Z as [m ->]. exists m. destruct I as [<-|[<-|[]]]; [now left | now right].
    - intros [m M]. exists (s "**/*.{feature,feature.md}"). split; [now left|]. apply R. assert (Z : exists e, In e [s "feature"; s "feature.md"] /\ n = m ++ s "." ++ e).
      { destruct M as [E1 | E1]; [exists (s "feature") | exists (s "feature.md")]; (split; [cbn; tauto | exact E1]). }
      destruct Z as [e [I ->]]. exists e. destruct (proj2 (path_ends d (m ++ s "." ++ e) (s "." ++ e) (X e I)) (ex_intro _ m eq_refl)) as [a Ea]. exists a. split; [exact I | exact Ea]. }
  split.
  - intros [F [W _]]. split; [exact F|]. destruct (file_at_names l p D F) as [_ Np]. destruct p as [|n d _] using rev_ind; [contradiction|]. apply G in W as [m W]. exists d, n, m. split; [reflexivity | exact W].
  - intros [F [d [n [m [-> M]]]]]. split; [exact F|]. split; [apply G; eauto | intros q _ []].
Qed.
Print Assumptions C49_feature_files.
Example ex_features : feature_files (Some [(s "b.feature", EFile); (s "c.md", EFile); (s "d", EDir (Some [(s ".feature.md", EFile)]))]) = Ok [[s "b.feature"]; [s "d"; s ".feature.md"]].
Proof. vm_compute. reflexivity. Qed.
