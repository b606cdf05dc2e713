(** * Where the parts of a document stand in the text: C05, C11, C47 *)
From Verif Require Import PyStr PyStrFacts Types Line DialectData Matcher Ast Parser LineSpec LangSpec DocSpec PartsSpec Parts PropLine PropParse PropDoc.

(** ** Parts and ids *)
Lemma map_flat {A B C D} (f : A -> list B) (g : B -> D) (h : A -> C) (f' : C -> list D) l : (forall a, f' (h a) = map g (f a)) -> flat_map f' (map h l) = map g (flat_map f l).
Proof. intros H. induction l as [|a l IH]; [reflexivity|]. cbn. now rewrite map_app, H, IH. Qed.
Lemma opt_no {A B} (g : A -> B) o : of_option (option_map g o) = map g (of_option o).
Proof. now destruct o. Qed.
Lemma scenarios_no f : feature_scenarios (no_id_feature f) = map no_id_scenario (feature_scenarios f).
Proof. unfold feature_scenarios. cbn [no_id_feature fe_scenarios fe_rules]. rewrite map_app. f_equal. now apply map_flat. Qed.
Lemma backgrounds_no f : feature_backgrounds (no_id_feature f) = map no_id_background (feature_backgrounds f).
Proof. unfold feature_backgrounds. cbn [no_id_feature fe_background fe_rules]. rewrite map_app, opt_no. f_equal. apply map_flat. intros r. apply opt_no. Qed.
Lemma steps_no f : feature_steps (no_id_feature f) = map no_id_step (feature_steps f).
Proof. unfold feature_steps. rewrite scenarios_no, backgrounds_no, map_app. f_equal; now apply map_flat. Qed.
Lemma examples_no f : feature_examples (no_id_feature f) = map no_id_examples (feature_examples f).
Proof. unfold feature_examples. rewrite scenarios_no. now apply map_flat. Qed.
Lemma tags_no f : feature_tags (no_id_feature f) = map no_id_tag (feature_tags f).
Proof.
  unfold feature_tags. rewrite scenarios_no, examples_no, !map_app. cbn [no_id_feature fe_tags fe_rules]. f_equal. f_equal; [now apply map_flat|]. f_equal; now apply map_flat.
Qed.
Lemma tables_no f : feature_tables (no_id_feature f) = map (fun t => mkTable (dt_loc t) (map no_id_row (dt_rows t))) (feature_tables f).
Proof. unfold feature_tables. rewrite steps_no. apply map_flat. intros x. unfold step_tables. cbn. now destruct (st_arg x). Qed.
Lemma docs_no f : feature_docs (no_id_feature f) = feature_docs f.
Proof.
  unfold feature_docs. rewrite steps_no. rewrite (map_flat step_docs (fun x => x)), map_id; [reflexivity|]. intros x. unfold step_docs. cbn. now destruct (st_arg x).
Qed.
Lemma rows_no f : feature_rows (no_id_feature f) = map no_id_row (feature_rows f).
Proof.
  unfold feature_rows. rewrite tables_no, examples_no, map_app. f_equal; apply map_flat; [reflexivity|]. intros x. unfold example_rows. cbn [no_id_examples ex_header ex_body]. now rewrite opt_no, map_app.
Qed.

(** ** Sources of the parts, without ids *)
Lemma rows_source ls rs cs : row_lines ls rs cs -> forall r, In r rs -> exists l, In l ls /\ row_at_line l r.
Proof.
  induction 1 as [|l ls r rs cs H H0 IH|l ls rs cs H H0 IH|l ls rs cs H H0 IH]; intros r0 Hr; [destruct Hr| | |].
  - destruct Hr as [<-|Hr]; [exists l; split; [now left | exact H]|]. destruct (IH _ Hr) as [l' [H1 H2]]. exists l'. split; [now right | exact H2].
  - destruct (IH _ Hr) as [l' [H1 H2]]. exists l'. split; [now right | exact H2].
  - destruct (IH _ Hr) as [l' [H1 H2]]. exists l'. split; [now right | exact H2].
Qed.
Lemma table_source ls rs cs : table_block ls rs cs -> forall r, In r rs -> exists l, In l ls /\ row_at_line l r.
Proof.
  intros [[l [ls' [r [rs' [-> [H1 [H2 ->]]]]]]] _] r0 [<-|H]; [exists l; split; [now left | exact H1]|]. destruct (rows_source _ _ _ H2 _ H) as [l' [H3 H4]]. exists l'. split; [now right | exact H4].
Qed.
Lemma tags_source ls ts cs : tag_lines ls ts cs -> forall t, In t ts -> exists l tags, In l ls /\ tags_at_line l tags /\ In t tags.
Proof.
  induction 1 as [|l ls tags tags' cs H H0 IH|l ls tags cs H H0 IH|l ls tags cs H H0 IH]; intros t Ht; [destruct Ht| | |].
  - apply in_app_or in Ht as [Ht|Ht]; [exists l, tags; split; [now left | auto]|]. destruct (IH _ Ht) as [l' [tags0 [H1 H2]]]. exists l', tags0. split; [now right | exact H2].
  - destruct (IH _ Ht) as [l' [tags0 [H1 H2]]]. exists l', tags0. split; [now right | exact H2].
  - destruct (IH _ Ht) as [l' [tags0 [H1 H2]]]. exists l', tags0. split; [now right | exact H2].
Qed.
Lemma tagsb_source ls ts cs : tags_block ls ts cs -> forall t, In t ts -> exists l tags, In l ls /\ tags_at_line l tags /\ In t tags.
Proof.
  intros [[_ [-> _]]|[l [ls' [t1 [t2 [-> [H1 [H2 ->]]]]]]]] t Ht; [destruct Ht|]. apply in_app_or in Ht as [Ht|Ht]; [exists l, t1; split; [now left | auto]|].
  destruct (tags_source _ _ _ H2 _ Ht) as [l' [tags0 [H3 H4]]]. exists l', tags0. split; [now right | exact H4].
Qed.

(** ** C05 *)

(** a line of the text with its number *)
Theorem numbered_line : forall lines n x, In (n, x) (numbered_lines lines) <-> 1 <= n /\ nth_error lines (n - 1) = Some x.
Proof.
  assert (G : forall (lines : list str) k n x, In (n, x) (combine (seq k (length lines)) lines) <-> k <= n /\ nth_error lines (n - k) = Some x).
  { induction lines as [|y lines IH]; intros k n x; cbn [length seq combine In].
    - split; [intros []|]. intros [_ H]. destruct (n - k); discriminate H.
    - rewrite IH. split.
      + intros [H|[H1 H2]]; [injection H as <- <-; split; [auto|]; now rewrite Nat.sub_diag|]. split; [lia|]. now replace (n - k) with (S (n - S k)) by lia.
      + intros [H1 H2]. destruct (Nat.eq_dec n k) as [->|Hn]; [left; rewrite Nat.sub_diag in H2; injection H2 as ->; reflexivity|]. right. split; [lia|]. now replace (n - k) with (S (n - S k)) in H2 by lia. }
  intros. apply G.
Qed.
(** the line with a keyword of the list that introduced an element *)
Definition introduced (lines : list nline) (kws : list str) (loc : location) (keyword name : option str) : Prop :=
  exists l kw nm, In l lines /\ title_line kws (snd l) kw nm /\ loc = here l /\ keyword = Some kw /\ name = Some nm.
Record located (lines : list nline) (d : dialect) (f : feature) : Prop := {
  loc_feature : introduced lines (d_feature d) (fe_loc f) (fe_keyword f) (fe_name f);
  loc_rules : forall x, In x (fe_rules f) -> introduced lines (d_rule d) (ru_loc x) (ru_keyword x) (ru_name x);
  loc_scenarios : forall x, In x (feature_scenarios f) -> introduced lines (scenario_keywords d) (sc_loc x) (sc_keyword x) (sc_name x);
  loc_backgrounds : forall x, In x (feature_backgrounds f) -> introduced lines (d_background d) (bg_loc x) (bg_keyword x) (bg_name x);
  loc_examples : forall x, In x (feature_examples f) -> introduced lines (d_examples d) (ex_loc x) (ex_keyword x) (ex_name x);
  loc_steps : forall x, In x (feature_steps f) -> exists l kw text, In l lines /\ step_line d (snd l) kw text /\
    st_loc x = here l /\ st_keyword x = Some kw /\ st_text x = Some text;
  loc_tags : forall t, In t (feature_tags f) -> exists l items i, In l lines /\ tags_line (snd l) items /\ In i items /\
    tag_loc t = at_col l (i_column i) /\ tag_name t = i_text i;
  loc_rows : forall r, In r (feature_rows f) -> exists l items, In l lines /\ row_line (snd l) items /\
    row_loc r = here l /\ row_cells r = map (fun i => mkCell (at_col l (i_column i)) (i_text i)) items;
  loc_tables : forall t, In t (feature_tables f) -> exists r rows, dt_rows t = r :: rows /\ dt_loc t = row_loc r;
  loc_docs : forall ds, In ds (feature_docs f) -> exists l sep, In l lines /\ separator sep /\ ds_delimiter ds = Some sep /\
    begins sep (snd l) /\ ds_loc ds = here l }.

Lemma tag_at lines l tags t : In l lines -> tags_at_line l tags -> In t tags -> exists l items i, In l lines /\ tags_line (snd l) items /\ In i items /\ tag_loc t = at_col l (i_column i) /\ tag_name t = i_text i.
Proof. intros H [items [H1 ->]] Ht. apply in_map_iff in Ht as [i [<- Hi]]. exists l, items, i. cbn. auto. Qed.
Lemma located_block d name lines f : part_of (feature_block d name) lines f -> located lines d f.
Proof.
  intros [fl [cs [W F]]]. destruct (feature_parts_of d name fl f cs F) as [PR [PS [PB [PT PE]]]].
  assert (In' : forall ls, within ls fl -> forall l, In l ls -> In l lines) by (intros ls Wl l Hl; eapply within_in; [exact W | eapply within_in; eauto]).
  assert (TF : forall t, In t (fe_tags f) -> exists l items i, In l lines /\ tags_line (snd l) items /\ In i items /\ tag_loc t = at_col l (i_column i) /\ tag_name t = i_text i).
  { intros t Ht. destruct F as [tl [l [dl [bl [sl [rl [tags [kw [nm [desc [bg [scs [rus [cs0 [cs1 [cs2 [cs3 [cs4 [-> [H [_ [_ [_ [_ [_ [_ ->]]]]]]]]]]]]]]]]]]]]]]]]]]. cbn in Ht.
    destruct (tagsb_source _ _ _ H t Ht) as [l' [tg [X1 [X2 X3]]]]. eapply tag_at; eauto. eapply (In' tl); [win | exact X1]. }
  constructor.
  - destruct F as [tl [l [dl [bl [sl [rl [tags [kw [nm [desc [bg [scs [rus [cs0 [cs1 [cs2 [cs3 [cs4 [-> [_ [H [_ [_ [_ [_ [_ ->]]]]]]]]]]]]]]]]]]]]]]]]]]. exists l, kw, nm. cbn. split; [|auto].
    eapply within_in; [exact W|]. apply in_elt.
  - intros x Hx. destruct (PR x Hx) as [ls [c [Wl [tl [l [dl [bl [sl [tags [kw [nm [desc [bg [scs [cs0 [cs1 [cs2 [cs3 [-> [_ [H [_ [_ [_ [_ ->]]]]]]]]]]]]]]]]]]]]]]]]]. exists l, kw, nm. cbn. split; [|auto]. eapply In'; [exact Wl | apply in_elt].
  - intros x Hx. destruct (PS x Hx) as [ls [c [Wl [tl [l [dl [sl [el [tags [kw [nm [desc [steps [exs [cs0 [cs1 [cs2 [cs3 [-> [_ [H [_ [_ [_ [_ ->]]]]]]]]]]]]]]]]]]]]]]]]]. exists l, kw, nm. cbn. split; [|auto]. eapply In'; [exact Wl | apply in_elt].
  - intros x Hx. destruct (PB x Hx) as [ls [c [Wl [l [dl [sl [kw [nm [desc [steps [cs1 [cs2 [-> [H [_ [_ [_ ->]]]]]]]]]]]]]]]]]. exists l, kw, nm. cbn. split; [|auto]. eapply In'; [exact Wl | now left].
  - intros x Hx. destruct (PE x Hx) as [ls [c [Wl [tl [l [dl [rl [tags [kw [nm [desc [rows [cs0 [cs1 [cs2 [-> [_ [H [_ [_ [_ ->]]]]]]]]]]]]]]]]]]]]]. exists l, kw, nm. cbn. split; [|auto]. eapply In'; [exact Wl | apply in_elt].
  - intros x Hx. destruct (PT x Hx) as [ls [c [Wl [l [nz [ag [kw [text [a [cs1 [cs2 [-> [H [_ [_ [_ ->]]]]]]]]]]]]]]]]. exists l, kw, text. cbn. split; [|auto]. eapply In'; [exact Wl | now left].
  - intros t Ht. unfold feature_tags in Ht. apply in_app_or in Ht as [Ht|Ht]; [now apply TF|]. apply in_app_or in Ht as [Ht|Ht]; [|apply in_app_or in Ht as [Ht|Ht]]; apply in_flat_map in Ht as [x [Hx Ht]].
    + destruct (PR x Hx) as [ls [c [Wl [tl [l [dl [bl [sl [tags [kw [nm [desc [bg [scs [cs0 [cs1 [cs2 [cs3 [-> [H [_ [_ [_ [_ [_ ->]]]]]]]]]]]]]]]]]]]]]]]]]. cbn in Ht.
      destruct (tagsb_source _ _ _ H t Ht) as [l' [tg [X1 [X2 X3]]]]. eapply tag_at; eauto. eapply In'; [exact Wl|]. apply in_or_app. now left.
    + destruct (PS x Hx) as [ls [c [Wl [tl [l [dl [sl [el [tags [kw [nm [desc [steps [exs [cs0 [cs1 [cs2 [cs3 [-> [H [_ [_ [_ [_ [_ ->]]]]]]]]]]]]]]]]]]]]]]]]]. cbn in Ht.
      destruct (tagsb_source _ _ _ H t Ht) as [l' [tg [X1 [X2 X3]]]]. eapply tag_at; eauto. eapply In'; [exact Wl|]. apply in_or_app. now left.
    + destruct (PE x Hx) as [ls [c [Wl [tl [l [dl [rl [tags [kw [nm [desc [rows [cs0 [cs1 [cs2 [-> [H [_ [_ [_ [_ ->]]]]]]]]]]]]]]]]]]]]]. cbn in Ht.
      destruct (tagsb_source _ _ _ H t Ht) as [l' [tg [X1 [X2 X3]]]]. eapply tag_at; eauto. eapply In'; [exact Wl|]. apply in_or_app. now left.
  - assert (RA : forall r ls, within ls fl -> (exists l, In l ls /\ row_at_line l r) -> exists l items, In l lines /\ row_line (snd l) items /\ row_loc r = here l /\ row_cells r = map (fun i => mkCell (at_col l (i_column i)) (i_text i)) items).
    { intros r ls Wl [l [Hl [items [H1 ->]]]]. exists l, items. cbn. split; [|auto]. eapply In'; eauto. }
    intros r Hr. unfold feature_rows in Hr. apply in_app_or in Hr as [Hr|Hr]; apply in_flat_map in Hr as [x [Hx Hr]].
    + unfold feature_tables in Hx. apply in_flat_map in Hx as [y [Hy Hx]]. destruct (PT y Hy) as [ls [c [Wl [l [nz [ag [kw [text [a [cs1 [cs2 [-> [_ [_ [Ha [_ ->]]]]]]]]]]]]]]]]. unfold step_tables in Hx. cbn [st_arg] in Hx.
      destruct Ha as [[-> [-> _]]|[[l0 [ls' [rows [-> [T ->]]]]]|[ds [_ ->]]]]; try contradiction; destruct Hx as [<-|[]]. cbn in Hr. apply (RA r (l0 :: ls')); [eapply within_trans; [|exact Wl]; win|]. eapply table_source; eauto.
    + destruct (PE x Hx) as [ls [c [Wl [tl [l [dl [rl [tags [kw [nm [desc [rows [cs0 [cs1 [cs2 [-> [_ [_ [_ [T [_ ->]]]]]]]]]]]]]]]]]]]]]. unfold example_rows in Hr. cbn [ex_header ex_body] in Hr.
      destruct rows as [rs|]; [|destruct Hr]. cbn in T. apply (RA r rl); [eapply within_trans; [|exact Wl]; win|]. eapply table_source; [exact T|]. destruct rs; exact Hr.
  - intros t Hx. unfold feature_tables in Hx. apply in_flat_map in Hx as [y [Hy Hx]]. destruct (PT y Hy) as [ls [c [Wl [l [nz [ag [kw [text [a [cs1 [cs2 [-> [_ [_ [Ha [_ ->]]]]]]]]]]]]]]]]. unfold step_tables in Hx. cbn [st_arg] in Hx.
    destruct Ha as [[-> [-> _]]|[[l0 [ls' [rows [-> [T ->]]]]]|[ds [_ ->]]]]; try contradiction; destruct Hx as [<-|[]]. destruct T as [[l1 [ls1 [r [rs [E [[items [_ ->]] [_ ->]]]]]]] _]. injection E as -> _. exists (mkRow 0 (here l1) (map (fun i => mkCell (at_col l1 (i_column i)) (i_text i)) items)), rs. auto.
  - intros ds Hx. unfold feature_docs in Hx. apply in_flat_map in Hx as [y [Hy Hx]]. destruct (PT y Hy) as [ls [c [Wl [l [nz [ag [kw [text [a [cs1 [cs2 [-> [_ [_ [Ha [_ ->]]]]]]]]]]]]]]]]. unfold step_docs in Hx. cbn [st_arg] in Hx.
    destruct Ha as [[-> [-> _]]|[[l0 [ls' [rows [-> [T ->]]]]]|[ds' [T ->]]]]; try contradiction; destruct Hx as [<-|[]]. destruct T as [sep [op [content [close [rest [media [-> [H1 [H2 [_ [_ [_ [_ ->]]]]]]]]]]]]]. exists op, sep. cbn. split; [|auto].
    eapply In'; [exact Wl|]. right. apply in_or_app. right. now left.
Qed.
Lemma located_no lines d f : located lines d (no_id_feature f) -> located lines d f.
Proof.
  intros [H1 H2 H3 H4 H5 H6 H7 H8 H9 H10]. rewrite scenarios_no in H3. rewrite backgrounds_no in H4. rewrite examples_no in H5. rewrite steps_no in H6. rewrite tags_no in H7. rewrite rows_no in H8. rewrite tables_no in H9. rewrite docs_no in H10. constructor.
  - exact H1.
  - intros x Hx. exact (H2 _ (in_map no_id_rule _ _ Hx)).
  - intros x Hx. exact (H3 _ (in_map _ _ _ Hx)).
  - intros x Hx. exact (H4 _ (in_map _ _ _ Hx)).
  - intros x Hx. exact (H5 _ (in_map _ _ _ Hx)).
  - intros x Hx. exact (H6 _ (in_map _ _ _ Hx)).
  - intros x Hx. exact (H7 _ (in_map _ _ _ Hx)).
  - intros x Hx. exact (H8 _ (in_map _ _ _ Hx)).
  - intros x Hx. destruct (H9 _ (in_map _ _ _ Hx)) as [r [rows [E1 E2]]]. cbn in E1, E2. destruct (dt_rows x) as [|r0 rs]; [discriminate E1|]. injection E1 as <- _. exists r0, rs. auto.
  - exact H10.
Qed.

(** every accepted text stands for its document *)
Lemma accepted stop lang text doc : supported lang -> parse_with stop false lang text = Ok doc -> stands_for lang (numbered_lines (split_lines text)) (no_ids doc).
Proof. intros S P. apply (C04_parse_iff stop lang text _ S). eauto. Qed.
Lemma accepted_feature stop lang text doc f : supported lang -> parse_with stop false lang text = Ok doc -> gd_feature doc = Some f ->
  exists name d, for_name name = Some d /\ fe_language f = Some name /\ part_of (feature_block d name) (numbered_lines (split_lines text)) (no_id_feature f).
Proof.
  intros S P F. pose proof (accepted _ _ _ _ S P) as H. unfold no_ids in H. rewrite F in H. cbn [option_map] in H. apply stands_feature in H as [name [d [H1 [H2 H3]]]]. exists name, d. auto.
Qed.

(** C05.  Every element is located at the line that introduced it, where the line's first visible
    character is; tags and cells at their own column. *)
Theorem C05_locations : forall stop lang text doc f, supported lang ->
  parse_with stop false lang text = Ok doc -> gd_feature doc = Some f ->
  exists name d, for_name name = Some d /\ fe_language f = Some name /\ located (numbered_lines (split_lines text)) d f.
Proof.
  intros stop lang text doc f S P F. destruct (accepted_feature _ _ _ _ _ S P F) as [name [d [H1 [H2 H3]]]]. exists name, d. split; [exact H1|]. split; [exact H2|].
  apply located_no. eapply located_block; eauto.
Qed.
Print Assumptions C05_locations.

(** C11.  A doc string of an accepted text: an opening separator, content, a closing separator. *)
Theorem C11_content : forall stop lang text doc f ds, supported lang ->
  parse_with stop false lang text = Ok doc -> gd_feature doc = Some f -> In ds (feature_docs f) ->
  exists sep opening content closing media, within (opening :: content ++ [closing]) (numbered_lines (split_lines text)) /\
    separator sep /\ begins sep (snd opening) /\ Forall (fun l => ~ begins sep (snd l)) content /\ begins sep (snd closing) /\
    media = strip (skipn (length sep) (lstrip (snd opening))) /\
    ds = mkDoc (here opening) (join [ch_nl] (map (fun l => content_line (indent_of (snd opening)) sep (snd l)) content)) (Some sep)
           (match media with [] => None | _ => Some media end).
Proof.
  intros stop lang text doc f ds S P F Hd. destruct (accepted_feature _ _ _ _ _ S P F) as [name [d [H1 [H2 [fl [cs [W H3]]]]]]]. rewrite <- docs_no in Hd.
  unfold feature_docs in Hd. apply in_flat_map in Hd as [y [Hy Hx]]. destruct (feature_parts_of _ _ _ _ _ H3) as [_ [_ [_ [PT _]]]].
  destruct (PT y Hy) as [ls [c [Wl [l [nz [ag [kw [tx [a [cs1 [cs2 [-> [_ [_ [Ha [_ ->]]]]]]]]]]]]]]]]. unfold step_docs in Hx. cbn [st_arg] in Hx.
  destruct Ha as [[-> [-> _]]|[[l0 [ls' [rows [-> [T ->]]]]]|[ds' [T ->]]]]; try contradiction; destruct Hx as [<-|[]]. destruct T as [sep [op [content [close [rest [media [-> [A1 [A2 [A3 [A4 [A5 [A6 ->]]]]]]]]]]]]].
  exists sep, op, content, close, media. split; [|auto 10]. eapply within_trans; [|exact W]. eapply within_trans; [|exact Wl]. exists (l :: nz), rest. cbn. f_equal. f_equal. f_equal. rewrite <- app_assoc. reflexivity.
Qed.
Print Assumptions C11_content.

(** a text with a tag, a rule, a step with a table and one with a doc string meets the hypotheses of C05 and C11; the places *)
Definition c05_text : str := text_of_lines [s "@t  @u"; s " Feature: f"; s "  Rule: r"; s "    Scenario: s"; s "     Given a"; s "      | x | yy |"; s "     * b"; s "      """"""md"; s "        c"; s "      """""""].
Example C05_case : match parse_with true false (s "en") c05_text with
  | Ok doc => match gd_feature doc with
    | Some f => map tag_loc (feature_tags f) = [mkLoc 1 (Some 1); mkLoc 1 (Some 5)] /\ fe_loc f = mkLoc 2 (Some 2) /\ map ru_loc (fe_rules f) = [mkLoc 3 (Some 3)] /\
        map sc_loc (feature_scenarios f) = [mkLoc 4 (Some 5)] /\ map st_loc (feature_steps f) = [mkLoc 5 (Some 6); mkLoc 7 (Some 6)] /\
        flat_map (fun r => map cell_loc (row_cells r)) (feature_rows f) = [mkLoc 6 (Some 9); mkLoc 6 (Some 13)] /\
        feature_docs f = [mkDoc (mkLoc 8 (Some 7)) (s "  c") (Some (s """""""")) (Some (s "md"))]
    | None => False end
  | Err _ => False end.
Proof. vm_compute. repeat split. Qed.
