(** * Doc strings, written and read back: C11 *)
From Verif Require Import PyStr PyStrFacts Types Regex Line DialectData Matcher Ast ParserTable Parser LineSpec LineFacts LangSpec DocSpec LineIff PropLine PropParse PropDoc PartsSpec Parts PropPlaces.

Definition no_char (c : char) (x : str) : Prop := ~ In c x.
(** texts from lines *)
Lemma split_lines_text ls : Forall (no_char ch_nl) ls -> split_lines (text_of_lines ls) = map (fun x => x ++ [ch_nl]) ls.
Proof.
  induction 1 as [|x ls H F IH]; [reflexivity|]. cbn [text_of_lines flat_map map]. rewrite <- app_assoc. cbn [app]. unfold text_of_lines in IH. rewrite <- IH. clear IH F.
  induction x as [|c x IHx]; cbn [app split_lines].
  - rewrite N.eqb_refl. reflexivity.
  - destruct (N.eqb_spec c ch_nl) as [->|Hc]; [elim H; now left|]. rewrite IHx by (intros X; apply H; now right). reflexivity.
Qed.

(** ** Escaping separators *)
Lemma replace_go_no pat by_ x : contains pat x = false -> replace_go pat by_ 0 x = x.
Proof.
  induction x as [|c x IH]; [reflexivity|]. cbn [contains]. intros H. apply orb_false_iff in H as [H1 H2]. cbn [replace_go]. rewrite H1. f_equal. auto.
Qed.
Section Quote.
Context (q : char) (Hq : q <> ch_bslash).
Let sep : str := [q; q; q].
Let esc : str := [ch_bslash; q; ch_bslash; q; ch_bslash; q].
Lemma esc_is : escaped sep = esc. Proof. reflexivity. Qed.
Lemma starts_sep x : startswith sep x = true -> exists y, x = q :: q :: q :: y.
Proof.
  unfold sep. destruct x as [|a [|b [|c y]]]; cbn [startswith]; rewrite ?andb_false_r; try discriminate. rewrite !andb_true_iff, !N.eqb_eq. intros [-> [-> [-> _]]]. eauto.
Qed.
Lemma starts_esc_sep x : startswith esc (esc ++ x) = true. Proof. unfold esc. cbn [app startswith]. now rewrite !N.eqb_refl. Qed.
Lemma no_bslash_esc c x : c <> ch_bslash -> startswith esc (c :: x) = false.
Proof. intros H. unfold esc. cbn [startswith]. destruct (N.eqb_spec ch_bslash c); [congruence | reflexivity]. Qed.
Lemma round_go n : forall y, length y <= n -> no_char ch_bslash y -> replace_go esc sep 0 (replace_go sep esc 0 y) = y.
Proof.
  induction n as [|n IH]; intros y Hn H.
  - destruct y; [reflexivity | cbn in Hn; lia].
  - destruct y as [|c y]; [reflexivity|]. cbn [replace_go]. destruct (startswith sep (c :: y)) eqn:E.
    + apply starts_sep in E as [z E]. injection E as -> ->. change (length sep - 1) with 2. cbn [replace_go].
      assert (R : replace_go esc sep 0 (esc ++ replace_go sep esc 0 z) = sep ++ replace_go esc sep 0 (replace_go sep esc 0 z)).
      { set (r := replace_go sep esc 0 z). change (esc ++ r) with (ch_bslash :: ([q; ch_bslash; q; ch_bslash; q] ++ r)). cbn [replace_go]. change (ch_bslash :: ([q; ch_bslash; q; ch_bslash; q] ++ r)) with (esc ++ r). rewrite starts_esc_sep. change (length esc - 1) with 5. reflexivity. }
      rewrite R, IH; [reflexivity | cbn in Hn; lia | intros X; apply H; right; right; right; exact X].
    + cbn [replace_go]. rewrite no_bslash_esc by (intros ->; apply H; now left). f_equal. apply IH; [cbn in Hn; lia | intros X; apply H; now right].
Qed.
Lemma unescape_escape y : no_char ch_bslash y -> replace (escaped sep) sep (replace sep (escaped sep) y) = y.
Proof. intros H. rewrite esc_is. now apply (round_go (length y)). Qed.
Lemma starts_escaped y : startswith sep (replace_go sep esc 0 y) = true -> False.
Proof.
  assert (Qb : (q =? ch_bslash)%N = false) by now apply N.eqb_neq.
  intros H. destruct y as [|a y]; [discriminate H|]. cbn [replace_go] in H. destruct (startswith sep (a :: y)) eqn:Ea; [unfold sep, esc in H; cbn [app startswith] in H; now rewrite Qb in H|].
  destruct y as [|b y]; [cbn in H; rewrite andb_false_r in H; discriminate|]. cbn [replace_go] in H. destruct (startswith sep (b :: y)) eqn:Eb; [unfold sep, esc in H; cbn [app startswith] in H; rewrite Qb, andb_false_r in H; discriminate|].
  destruct y as [|c y]; [cbn in H; rewrite !andb_false_r in H; discriminate|]. cbn [replace_go] in H. destruct (startswith sep (c :: y)) eqn:Ec; [unfold sep, esc in H; cbn [app startswith] in H; rewrite Qb, !andb_false_r in H; discriminate|].
  unfold sep in *. cbn [startswith] in *. congruence.
Qed.
Lemma escape_spaces w y : (forall c, In c w -> c <> q) -> replace_go sep esc 0 (w ++ y) = w ++ replace_go sep esc 0 y.
Proof.
  induction w as [|c w IH]; intros H; [reflexivity|]. cbn [app replace_go].
  assert (E : startswith sep (c :: w ++ y) = false) by (unfold sep; cbn [startswith]; destruct (N.eqb_spec q c) as [->|]; [now destruct (H c (or_introl eq_refl)) | reflexivity]). rewrite E. f_equal. apply IH. intros d Hd. apply H. now right.
Qed.
End Quote.
Lemma sep_char sep : separator sep -> exists q, sep = [q; q; q] /\ q <> ch_bslash /\ is_space q = false /\ q <> ch_nl /\ q <> 13%N.
Proof. intros [-> | ->]; [exists 34%N | exists 96%N]; repeat split; discriminate. Qed.

Lemma starts_snoc pat c x : ~ In c pat -> startswith pat (x ++ [c]) = startswith pat x.
Proof.
  revert x. induction pat as [|p pat IH]; intros x H; [now destruct x|]. destruct x as [|d x]; cbn [app startswith].
  - destruct (N.eqb_spec p c) as [->|]; [elim H; now left | reflexivity].
  - f_equal. apply IH. intros X. apply H. now right.
Qed.
Lemma starts_length pat : forall x, startswith pat x = true -> length pat <= length x.
Proof. induction pat as [|p pat IH]; intros [|c x]; cbn [startswith length]; try lia; try discriminate. intros H. apply andb_true_iff in H as [_ H]. apply IH in H. lia. Qed.
Lemma replace_snoc pat by_ c : ~ In c pat -> pat <> [] -> forall x skip, skip <= length x -> replace_go pat by_ skip (x ++ [c]) = replace_go pat by_ skip x ++ [c].
Proof.
  intros H Hp x. induction x as [|d x IH]; intros skip Hs; cbn [app].
  - cbn in Hs. assert (skip = 0) as -> by lia. cbn [replace_go]. change [c] with ([] ++ [c]). rewrite starts_snoc by exact H. destruct pat; [contradiction | reflexivity].
  - cbn [replace_go]. destruct skip as [|k]; [|apply IH; cbn in Hs; lia]. change (d :: x ++ [c]) with ((d :: x) ++ [c]). rewrite starts_snoc by exact H.
    destruct (startswith pat (d :: x)) eqn:E.
    + apply starts_length in E. cbn in E. rewrite IH by lia. now rewrite app_assoc.
    + cbn [app]. f_equal. apply IH. lia.
Qed.
Lemma replace_eol pat by_ x : ~ In ch_nl pat -> pat <> [] -> replace pat by_ (x ++ [ch_nl]) = replace pat by_ x ++ [ch_nl].
Proof. intros H1 H2. apply replace_snoc; auto. lia. Qed.
Lemma lstrip_spaces w x : all_space w -> lstrip (w ++ x) = lstrip x.
Proof. exact (lstrip_space w x). Qed.
Lemma lstrip_le x : length (lstrip x) <= length x.
Proof. unfold lstrip, lstrip_by. induction x as [|c x IH]; [auto|]. cbn [drop_while]. destruct (is_space c); cbn; lia. Qed.
Lemma indent_spaces w x : all_space w -> length w <= indent_of (w ++ x).
Proof. intros H. unfold indent_of. rewrite lstrip_spaces, app_length by exact H. pose proof (lstrip_le x). lia. Qed.
Lemma indent_exact w c x : all_space w -> is_space c = false -> indent_of (w ++ c :: x) = length w.
Proof. intros H H1. unfold indent_of. rewrite lstrip_spaces by exact H. unfold lstrip, lstrip_by. cbn [drop_while]. rewrite H1, app_length. cbn. lia. Qed.
Lemma lstrip_eol x : all_space x /\ lstrip (x ++ [ch_nl]) = [] \/ lstrip (x ++ [ch_nl]) = lstrip x ++ [ch_nl].
Proof.
  unfold lstrip, lstrip_by, all_space. induction x as [|c x IH]; [left; auto|]. cbn [app drop_while forallb]. destruct (is_space c); [exact IH | now right].
Qed.
Lemma begins_eol sep x : separator sep -> begins sep (x ++ [ch_nl]) <-> begins sep x.
Proof.
  intros H. apply sep_char in H as [q [-> [_ [_ [Hn _]]]]]. unfold begins. destruct (lstrip_eol x) as [[A ->]|E].
  - apply blank_spec in A. now rewrite A.
  - rewrite E, starts_snoc; [tauto|]. cbn. intuition.
Qed.
Lemma crlf_eol x : without_eol (x ++ [ch_nl]) = without_eol x.
Proof. unfold without_eol, rstrip_crlf, rstrip_by. rewrite rev_app_distr. reflexivity. Qed.

Lemma strip_eol x : strip (x ++ [ch_nl]) = strip x.
Proof.
  unfold strip. destruct (lstrip_eol x) as [[A ->]|E].
  - apply blank_spec in A. now rewrite A.
  - rewrite E. unfold rstrip. apply rstrip_by_app. reflexivity.
Qed.

(** ** The text around a doc string *)
Definition framed (ls : list str) : str := text_of_lines ([s "Feature: f"; s "Scenario: s"; s "Given x"] ++ ls).
Definition framed_feature (ds : docstring) : feature :=
  mkFeature [] (mkLoc 1 (Some 1)) (Some (s "en")) (Some (s "Feature")) (Some (s "f")) [] None
    [mkScenario 0 [] (mkLoc 2 (Some 1)) (Some (s "Scenario")) (Some (s "s")) []
      [mkStep 0 (mkLoc 3 (Some 1)) (Some (s "Given ")) (Some KtContext) (Some (s "x")) (ADoc ds)] []] [].
Definition read_as (text : str) (doc : gdoc) : Prop := forall stop, exists d, parse_with stop false (s "en") text = Ok d /\ no_ids d = doc.

Lemma seq_snd {A} (g : str -> A) (l : list str) n : map (fun p => g (snd p)) (combine (seq n (length l)) l) = map g l.
Proof. revert n. induction l as [|x l IH]; intros n; [reflexivity|]. cbn. f_equal. apply IH. Qed.
Lemma combine_snoc {A B} (a : list A) (x : A) (y : B) : forall b, length a = length b -> combine (a ++ [x]) (b ++ [y]) = combine a b ++ [(x, y)].
Proof. induction a as [|u a IH]; intros [|v b] H; try discriminate H; [reflexivity|]. cbn. f_equal. apply IH. now injection H. Qed.
Lemma no_description d p : description_block d p [] [] [].
Proof. exists [], [], []. repeat split; constructor. Qed.
(** C11.  Any lines that do not begin with the separator may stand in a doc string: nothing in them is
    read as Gherkin. *)
Theorem C11_any_content : forall sep ind info xs, separator sep -> all_space ind -> no_char ch_nl ind -> no_char ch_nl info ->
  Forall (fun x => no_char ch_nl x /\ ~ begins sep x) xs ->
  read_as (framed ((ind ++ sep ++ info) :: xs ++ [ind ++ sep]))
    (mkGdoc (Some (framed_feature (mkDoc (mkLoc 4 (Some (length ind + 1))) (join [ch_nl] (map (fun x => content_line (length ind) sep (x ++ [ch_nl])) xs)) (Some sep)
      (match strip info with [] => None | m => Some m end)))) []).
Proof.
  intros sep ind info xs Hs Ha Hi Hn Hx stop. assert (S : supported (s "en")) by (eexists; vm_compute; reflexivity).
  apply (C04_parse_iff stop (s "en") _ _ S). destruct (sep_char sep Hs) as [q [Es [_ [Hq [Hqn _]]]]].
  assert (Lns : Forall (no_char ch_nl) ([s "Feature: f"; s "Scenario: s"; s "Given x"] ++ (ind ++ sep ++ info) :: xs ++ [ind ++ sep])).
  { assert (Hsep : no_char ch_nl sep) by (rewrite Es; unfold no_char; cbn; intuition).
    apply Forall_app. split; [repeat constructor; intros X; vm_compute in X; repeat (destruct X as [X|X]; [discriminate X|]); exact X|].
    constructor; [unfold no_char; rewrite !in_app_iff; intuition|]. apply Forall_app. split; [eapply Forall_impl; [|exact Hx]; intros x [H _]; exact H|]. repeat constructor. unfold no_char. rewrite in_app_iff. intuition. }
  unfold framed. rewrite split_lines_text by exact Lns. rewrite map_app. cbn [map app]. rewrite map_app. cbn [map]. set (ys := map (fun x => x ++ [ch_nl]) xs).
  assert (Nn : forall a b c (o : str) cl, numbered_lines (a :: b :: c :: o :: ys ++ [cl]) = (1, a) :: (2, b) :: (3, c) :: (4, o) :: combine (seq 5 (length ys)) ys ++ [(5 + length ys, cl)]).
  { intros. unfold numbered_lines. cbn [length seq combine]. do 4 f_equal. rewrite app_length. cbn [length]. rewrite seq_app. cbn [seq]. apply combine_snoc. apply seq_length. }
  rewrite Nn. clear Nn Lns. set (content := combine (seq 5 (length ys)) ys). destruct S as [d D].
  right. left. exists [], ((1, s "Feature: f" ++ [ch_nl]) :: (2, s "Scenario: s" ++ [ch_nl]) :: (3, s "Given x" ++ [ch_nl]) :: (4, (ind ++ sep ++ info) ++ [ch_nl]) :: content ++ [(5 + length ys, (ind ++ sep) ++ [ch_nl])]), d.
  eexists. exists [], []. split; [reflexivity|]. split; [split; constructor|]. split; [exact D|]. split; [|reflexivity].
  assert (Ed : d = match for_name (s "en") with Some d => d | None => d end) by now rewrite D.
  exists [], (1, s "Feature: f" ++ [ch_nl]), [], []. eexists. exists [], [], (s "Feature"), (s "f"), [], None. eexists. exists [], [], [], [], [], []. split; [cbn [app]; rewrite app_nil_r; reflexivity|].
  split; [left; auto|]. split; [|split; [apply no_description|split; [split; reflexivity|split; [|split; [constructor|split; [reflexivity|]]]]]].
  { split; [|exists (s " f" ++ [ch_nl]); split; [vm_compute; reflexivity | vm_compute; reflexivity]]. vm_compute in D. injection D as <-. vm_compute. tauto. }
  2:{ unfold framed_feature. cbn [map]. reflexivity. }
  rewrite <- (app_nil_r (_ :: _)). apply (bl_cons _ _ _ [] _ _ []); [|constructor].
  exists [], (2, s "Scenario: s" ++ [ch_nl]), []. eexists. exists [], [], (s "Scenario"), (s "s"), []. eexists. exists [], [], [], [], []. split; [cbn [app]; rewrite app_nil_r; reflexivity|].
  split; [left; auto|]. split; [|split; [apply no_description|split; [|split; [constructor|split; [reflexivity|reflexivity]]]]].
  { split; [|exists (s " s" ++ [ch_nl]); split; [vm_compute; reflexivity | vm_compute; reflexivity]]. vm_compute in D. injection D as <-. vm_compute. tauto. }
  rewrite <- (app_nil_r (_ :: _)). apply (bl_cons _ _ _ [] _ _ []); [|constructor].
  exists (3, s "Given x" ++ [ch_nl]), []. eexists. exists (s "Given "), (s "x"). eexists. exists [], []. split; [cbn [app]; reflexivity|]. split; [|split; [constructor|split; [right; right; eexists; split; [|reflexivity]|split; [reflexivity|]]]].
  { vm_compute in D. injection D as <-. exists [s "* "], (tl (tl (all_step_keywords match for_name (s "en") with Some d => d | None => mkDialect [] [] [] [] [] [] [] [] [] [] [] end))). eexists. split; [vm_compute; reflexivity|]. split; [repeat constructor; vm_compute; discriminate|]. split; [vm_compute; reflexivity | vm_compute; reflexivity]. }
  2:{ unfold here. cbn [fst snd]. f_equal. vm_compute in D. injection D as <-. vm_compute. reflexivity. }
  assert (So : lstrip ((ind ++ sep ++ info) ++ [ch_nl]) = sep ++ info ++ [ch_nl]).
  { rewrite <- !app_assoc, lstrip_spaces by exact Ha. rewrite Es. unfold lstrip, lstrip_by. cbn [app drop_while]. now rewrite Hq. }
  assert (Sc : lstrip ((ind ++ sep) ++ [ch_nl]) = sep ++ [ch_nl]).
  { rewrite <- !app_assoc, lstrip_spaces by exact Ha. rewrite Es. unfold lstrip, lstrip_by. cbn [app drop_while]. now rewrite Hq. }
  exists sep, (4, (ind ++ sep ++ info) ++ [ch_nl]), content, (5 + length ys, (ind ++ sep) ++ [ch_nl]), []. eexists. split; [reflexivity|]. split; [exact Hs|]. cbn [snd]. unfold begins. rewrite So, Sc.
  assert (St : forall z, startswith sep (sep ++ z) = true) by (intros z; rewrite Es; cbn [app startswith]; now rewrite !N.eqb_refl).
  split; [apply St|]. split; [apply St|]. split; [|split; [reflexivity|split; [constructor|]]].
  - unfold content, ys. apply Forall_forall. intros [n y] Hy. apply in_combine_r in Hy. apply in_map_iff in Hy as [x [<- Hy]]. rewrite Forall_forall in Hx. destruct (Hx x Hy) as [_ B]. cbn [snd]. intros X. apply B. now apply (begins_eol sep x Hs).
  - assert (Em : strip (skipn (length sep) (sep ++ info ++ [ch_nl])) = strip info).
    { rewrite skipn_app, skipn_all, Nat.sub_diag. cbn [app skipn]. apply strip_eol. }
    rewrite Em. assert (Ei : indent_of ((ind ++ sep ++ info) ++ [ch_nl]) = length ind) by (rewrite <- !app_assoc, Es; cbn [app]; now apply indent_exact). unfold here. cbn [fst snd]. rewrite Ei. f_equal; [|now destruct (strip info)]. f_equal.
    unfold content. rewrite (seq_snd (content_line (length ind) sep)). unfold ys. now rewrite map_map.
Qed.
Print Assumptions C11_any_content.

(** how a line [y] of a doc string may be written: as it is, or with its separators escaped *)
Definition written_as (sep y w : str) : Prop :=
  (w = y /\ contains (escaped sep) y = false /\ ~ begins sep y) \/ (w = replace sep (escaped sep) y /\ no_char ch_bslash y).
Lemma written_line sep ind y w : separator sep -> all_space ind -> without_eol y = y -> written_as sep y w -> content_line (length ind) sep ((ind ++ w) ++ [ch_nl]) = y.
Proof.
  intros Hs Ha Hy Hw. unfold content_line. rewrite <- app_assoc. pose proof (indent_spaces ind (w ++ [ch_nl]) Ha) as L. apply Nat.leb_le in L. rewrite L. rewrite skipn_app, skipn_all, Nat.sub_diag. cbn [app skipn].
  destruct (sep_char sep Hs) as [q [-> [Hb [_ [Hn _]]]]]. rewrite replace_eol; [|unfold escaped; cbn; intuition discriminate | discriminate]. rewrite crlf_eol. rewrite <- Hy. f_equal. clear Hy.
  destruct Hw as [[-> [H _]]|[-> H]]; [unfold replace; now apply replace_go_no | now apply unescape_escape].
Qed.
Lemma drop_spaces x : exists w, all_space w /\ x = w ++ lstrip x.
Proof.
  unfold lstrip, lstrip_by, all_space. induction x as [|c x [w [H1 H2]]]; [exists []; auto|]. cbn [drop_while]. destruct (is_space c) eqn:E; [|exists []; auto]. exists (c :: w). cbn [forallb app]. rewrite E, H1. split; [reflexivity|]. now f_equal.
Qed.
Lemma written_safe sep ind y w : separator sep -> all_space ind -> written_as sep y w -> ~ begins sep (ind ++ w).
Proof.
  intros Hs Ha Hw. unfold begins. rewrite lstrip_spaces by exact Ha. destruct Hw as [[-> [_ H]]|[-> H]]; [exact H|].
  destruct (sep_char sep Hs) as [q [-> [Hb [Hq _]]]]. destruct (drop_spaces y) as [v [V1 V2]]. rewrite V2.
  assert (Hv : forall c, In c v -> c <> q). { intros c Hc ->. unfold all_space in V1. rewrite forallb_forall in V1. apply V1 in Hc. congruence. }
  change (escaped [q; q; q]) with [ch_bslash; q; ch_bslash; q; ch_bslash; q]. unfold replace. rewrite (escape_spaces q Hb) by exact Hv. rewrite lstrip_spaces by exact V1.
  set (z := lstrip y). intros X. apply (starts_escaped q Hb z). destruct z as [|c z'] eqn:Ez; [exact X|].
  assert (Hc : is_space c = false) by (eapply lstrip_head; unfold z in Ez; exact Ez).
  assert (Nl : exists e r, replace_go [q; q; q] [ch_bslash; q; ch_bslash; q; ch_bslash; q] 0 (c :: z') = e :: r /\ is_space e = false).
  { cbn [replace_go]. destruct (startswith [q; q; q] (c :: z')); [exists ch_bslash; eexists; split; reflexivity | exists c; eexists; split; [reflexivity | exact Hc]]. }
  destruct Nl as [e [r [E1 E2]]]. rewrite E1 in *. unfold lstrip, lstrip_by in X. cbn [drop_while] in X. now rewrite E2 in X.
Qed.
(** C11.  Any lines of text, indented like the separator, are read back as they are. *)
Theorem C11_round_trip : forall sep ind info content written, separator sep -> all_space ind -> no_char ch_nl ind -> no_char ch_nl info ->
  Forall (fun y => no_char ch_nl y /\ without_eol y = y) content -> Forall2 (written_as sep) content written ->
  read_as (framed ((ind ++ sep ++ info) :: map (fun w => ind ++ w) written ++ [ind ++ sep]))
    (mkGdoc (Some (framed_feature (mkDoc (mkLoc 4 (Some (length ind + 1))) (join [ch_nl] content) (Some sep) (match strip info with [] => None | m => Some m end)))) []).
Proof.
  intros sep ind info content written Hs Ha Hi Hn Hc Hw.
  assert (E : map (fun x => content_line (length ind) sep (x ++ [ch_nl])) (map (fun w => ind ++ w) written) = content).
  { rewrite map_map. revert Hc. induction Hw as [|y w content written H Hw IH]; intros Hc; [reflexivity|]. inversion Hc as [|? ? [C1 C2] C3]; subst. cbn [map]. f_equal; [now apply written_line | now apply IH]. }
  rewrite <- E at 1. apply C11_any_content; auto. apply Forall_forall. intros x Hx. apply in_map_iff in Hx as [w [<- Hx]].
  assert (Q : exists y, In y content /\ written_as sep y w). { clear -Hw Hx. induction Hw as [|y w' content written H Hw IH]; [destruct Hx|]. destruct Hx as [-> | Hx]; [exists y; split; [now left | exact H]|]. destruct (IH Hx) as [y' [Y1 Y2]]. exists y'. split; [now right | exact Y2]. }
  destruct Q as [y [Y1 Y2]]. split; [|now apply (written_safe sep ind y)]. rewrite Forall_forall in Hc. destruct (Hc y Y1) as [C1 _].
  destruct (sep_char sep Hs) as [q [-> [_ [_ [Hqn _]]]]]. unfold no_char in *. rewrite in_app_iff. intros [X|X]; [now apply Hi|]. destruct Y2 as [[-> _]|[-> _]]; [now apply C1|].
  revert X. unfold replace. generalize 0. clear -C1 Hqn. induction y as [|c y IH]; intros k; [auto|]. cbn [replace_go].
  assert (IH' : forall k, ~ In ch_nl (replace_go [q; q; q] (escaped [q; q; q]) k y)) by (intros k0 X0; apply (IH (fun X => C1 (or_intror X)) k0 X0)).
  destruct k; [|apply IH']. destruct (startswith [q; q; q] (c :: y)).
  - rewrite in_app_iff. intros [X|X]; [|now apply IH' in X]. unfold escaped in X. cbn in X. intuition discriminate.
  - intros [X|X]; [|now apply IH' in X]. apply C1. now left.
Qed.
Print Assumptions C11_round_trip.
Example C11_round_case : exists ws, Forall2 (written_as (s """""""")) [s "# no comment"; s ""; s "  @tag """""" x"; s "\t"] ws /\ nth 2 ws [] = s "  @tag \""\""\"" x".
Proof. exists [s "# no comment"; s ""; s "  @tag \""\""\"" x"; s "\t"]. split; [|reflexivity].
  assert (P : forall y, contains (escaped (s """""""")) y = false -> startswith (s """""""") (lstrip y) = false -> written_as (s """""""") y y) by (intros y H1 H2; left; split; [reflexivity|]; split; [exact H1|]; unfold begins; congruence).
  apply Forall2_cons; [apply P; reflexivity|]. apply Forall2_cons; [apply P; reflexivity|]. apply Forall2_cons; [|apply Forall2_cons; [apply P; reflexivity | constructor]].
  right. split; [reflexivity|]. intros X. vm_compute in X. repeat (destruct X as [X|X]; [discriminate X|]). exact X.
Qed.
