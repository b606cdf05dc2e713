(** * C69: the messages can be read back by the names of their fields *)
From Verif Require Import PyStr PyStrFacts Types Line Ast Parser Compiler Robot Events Main ReadSpec.
Local Open Scope N_scope.

Lemma field_here k k' v kvs : str_eqb k' k = true -> field k (JDict ((k', v) :: kvs)) = Some v.
Proof. intros E. cbn [field find fst]. now rewrite E. Qed.
Lemma field_next k k' v kvs : str_eqb k' k = false -> field k (JDict ((k', v) :: kvs)) = field k (JDict kvs).
Proof. intros E. cbn [field find fst]. now rewrite E. Qed.
Lemma field_end k : field k (JDict []) = None.
Proof. reflexivity. Qed.

Ltac look := repeat first [rewrite field_end | rewrite field_here by (vm_compute; reflexivity) | rewrite field_next by (vm_compute; reflexivity)].
Ltac reads := unfold required, optional, opt_kv, jopt; cbn [option_map app]; look; cbn [bind option_map text place_of text_or_null].

Lemma number_id n : number (jid n) = Some n.
Proof.
  unfold number, jid.
  replace (forallb (fun c => (48 <=? c) && (c <=? 57)) (str_of_nat n)) with true.
  - change (fold_left (fun a c => 10 * a + (c - 48)) (str_of_nat n) 0) with (digits_val (str_of_nat n)).
    unfold str_of_nat. rewrite digits_val_str_of_N, Nat2N.id. reflexivity.
  - symmetry. unfold str_of_nat, str_of_N. generalize (S (N.to_nat (N.log2 (N.of_nat n)))). intros f.
    assert (forall acc m, forallb (fun c => (48 <=? c) && (c <=? 57)) acc = true ->
      forallb (fun c => (48 <=? c) && (c <=? 57)) (digits_go f m acc) = true); [|now apply H].
    induction f as [|f IH]; intros acc m H; [exact H|]. cbn [digits_go].
    assert (Hd : forallb (fun c => (48 <=? c) && (c <=? 57)) ((48 + m mod 10) :: acc) = true).
    { cbn [forallb]. rewrite H. pose proof (N.mod_upper_bound m 10). rewrite !andb_true_iff, !N.leb_le. split; [|easy]. lia. }
    destruct (m <? 10); [exact Hd|now apply IH].
Qed.
Lemma all_map {A B} (f : jval -> option B) (g : A -> jval) (h : A -> B) l :
  (forall a, f (g a) = Some (h a)) -> all f (map g l) = Some (map h l).
Proof. intros H. induction l as [|a l IH]; [reflexivity|]. cbn [map all]. now rewrite H, IH. Qed.
Lemma many_map {A} (f : jval -> option A) g l : (forall a, f (g a) = Some a) -> many f (JList (map g l)) = Some l.
Proof. intros H. cbn [many]. rewrite (all_map f g (fun a => a)) by exact H. now rewrite map_id. Qed.
Lemma type_named_name k : type_named (ktype_name k) = Some k.
Proof. now destruct k; vm_compute. Qed.

Lemma tag_read t : a_tag (j_tag t) = Some t.
Proof. destruct t. unfold a_tag, j_tag. reads. rewrite number_id. reflexivity. Qed.
Lemma cell_read t : a_cell (j_cell t) = Some t.
Proof. destruct t. unfold a_cell, j_cell. reads. reflexivity. Qed.
Lemma row_read t : a_row (j_row t) = Some t.
Proof. destruct t. unfold a_row, j_row. reads. rewrite number_id, (many_map _ _ _ cell_read). reflexivity. Qed.
Lemma docstring_read t : a_docstring (j_doc t) = Some t.
Proof. destruct t as [l x [q|] [m|]]; unfold a_docstring, j_doc; cbn [ds_loc ds_content ds_delimiter ds_media]; reads; reflexivity. Qed.
Lemma table_read t : a_table (j_table t) = Some t.
Proof. destruct t. unfold a_table, j_table. reads. rewrite (many_map _ _ _ row_read). reflexivity. Qed.
Lemma step_read t : a_step (j_step t) = Some t.
Proof.
  destruct t as [id l [k|] [t|] [x|] [|a|a]]; unfold a_step, an_argument, j_step; cbn [st_id st_loc st_keyword st_ktype st_text st_arg]; reads;
    rewrite number_id; cbn [bind]; unfold step_kind; cbn [text bind]; rewrite ?type_named_name, ?table_read, ?docstring_read; reflexivity.
Qed.
Lemma background_read t : a_background (j_background t) = Some t.
Proof.
  destruct t as [id l [k|] [n|] x sts]; unfold a_background, j_background; cbn [bg_id bg_loc bg_keyword bg_name bg_desc bg_steps]; reads;
    rewrite number_id, (many_map _ _ _ step_read); reflexivity.
Qed.
Lemma examples_read t : an_examples (j_examples t) = Some t.
Proof.
  destruct t as [id ts l [k|] [n|] x [h|] b]; unfold an_examples, j_examples;
    cbn [ex_id ex_tags ex_loc ex_keyword ex_name ex_desc ex_header ex_body]; reads;
    rewrite number_id, ?row_read, (many_map _ _ _ tag_read), (many_map _ _ _ row_read); reflexivity.
Qed.
Lemma scenario_read t : a_scenario (j_scenario t) = Some t.
Proof.
  destruct t as [id ts l [k|] [n|] x sts ex]; unfold a_scenario, j_scenario;
    cbn [sc_id sc_tags sc_loc sc_keyword sc_name sc_desc sc_steps sc_examples]; reads;
    rewrite number_id, (many_map _ _ _ tag_read), (many_map _ _ _ step_read), (many_map _ _ _ examples_read); reflexivity.
Qed.

Lemma all_app {A} (f : jval -> option A) l r a b : all f l = Some a -> all f r = Some b -> all f (l ++ r) = Some (a ++ b).
Proof.
  revert a. induction l as [|v l IH]; intros a H Hr; cbn [all] in H.
  - injection H as <-. exact Hr.
  - cbn [all app]. destruct (f v); [cbn [bind] in *|easy]. destruct (all f l) as [r0|]; [|easy]. cbn [bind] in *. injection H as <-.
    now rewrite (IH _ eq_refl Hr).
Qed.
Lemma bg_child_read {R} (rule : jval -> option R) b :
  all (a_child rule) (j_bg_child b) = Some (match b with Some b => [CBackground b] | None => [] end).
Proof.
  destruct b as [b|]; [|reflexivity]. cbn [j_bg_child all]. unfold a_child. look. rewrite background_read. reflexivity.
Qed.
Lemma sc_child_read {R} (rule : jval -> option R) x : a_child rule (j_sc_child x) = Some (CScenario x).
Proof. unfold a_child, j_sc_child. look. now rewrite scenario_read. Qed.
Definition pick_sc {R} (c : child R) : list scenario := match c with CScenario y => [y] | _ => [] end.
Definition pick_ru {R} (c : child R) : list R := match c with CRule y => [y] | _ => [] end.
Lemma pick_sc_map {R} l : flat_map (@pick_sc R) (map CScenario l) = l.
Proof. induction l as [|a l IH]; [reflexivity|]. cbn. now rewrite IH. Qed.
Lemma pick_sc_rule {R} l : flat_map (@pick_sc R) (map CRule l) = [].
Proof. now induction l. Qed.
Lemma pick_ru_map {R} l : flat_map (@pick_ru R) (map CRule l) = l.
Proof. induction l as [|a l IH]; [reflexivity|]. cbn. now rewrite IH. Qed.
Lemma pick_ru_sc {R} l : flat_map (@pick_ru R) (map CScenario l) = [].
Proof. now induction l. Qed.
Lemma rule_read t : a_rule (j_rule t) = Some t.
Proof.
  destruct t as [id ts l k n x b scs]. unfold a_rule, j_rule.
  cbn [ru_id ru_tags ru_loc ru_keyword ru_name ru_desc ru_background ru_scenarios].
  assert (E : many (a_child (R := Empty_set) (fun _ => None)) (JList (j_bg_child b ++ map j_sc_child scs)) =
    Some (match b with Some b => [CBackground b] | None => [] end ++ map CScenario scs)).
  { cbn [many]. apply all_app; [apply bg_child_read|]. apply all_map. intros a. apply sc_child_read. }
  destruct k as [k|], n as [n|]; reads; rewrite number_id, (many_map _ _ _ tag_read), E; cbn [bind]; fold (@pick_sc Empty_set);
    destruct b as [b|]; cbn [app flat_map]; rewrite pick_sc_map; try reflexivity; cbn [pick_sc app]; now destruct scs.
Qed.
Lemma feature_read t : a_feature (j_feature t) = Some t.
Proof.
  destruct t as [ts l g k n x b scs rus]. unfold a_feature, j_feature.
  cbn [fe_tags fe_loc fe_language fe_keyword fe_name fe_desc fe_background fe_scenarios fe_rules].
  assert (E : many (a_child a_rule) (JList (j_bg_child b ++ map j_sc_child scs ++ map (fun r => JDict [(s "rule", j_rule r)]) rus)) =
    Some (match b with Some b => [CBackground b] | None => [] end ++ map CScenario scs ++ map CRule rus)).
  { cbn [many]. apply all_app; [apply bg_child_read|]. apply all_app; apply all_map; intros a; [apply sc_child_read|].
    unfold a_child. look. now rewrite rule_read. }
  destruct g as [g|], k as [k|], n as [n|]; reads; rewrite (many_map _ _ _ tag_read), E; cbn [bind]; fold (@pick_sc rule_ast);
    fold (@pick_ru rule_ast); rewrite !flat_map_app, pick_sc_map, pick_sc_rule, pick_ru_map, pick_ru_sc, app_nil_r;
    (destruct b as [b|]; [reflexivity|destruct scs, rus; reflexivity]).
Qed.
Lemma comment_read t : a_comment (j_comment t) = Some t.
Proof. destruct t as [l [x|]]; unfold a_comment, j_comment; reads; reflexivity. Qed.

(** The document of the robot builder, and the one of the event stream. *)
Lemma document_read d v :
  a_document (JDict (opt_kv "feature" (option_map j_feature (gd_feature d)) ++
    [(s "comments", JList (map j_comment (gd_comments d))); (s "uri", v)])) = Some d.
Proof.
  destruct d as [[f|] cs]; unfold a_document; cbn [gd_feature gd_comments]; reads; rewrite ?feature_read, (many_map _ _ _ comment_read); reflexivity.
Qed.
Theorem C69_document d : a_document (j_gdoc d) = Some d.
Proof. apply document_read. Qed.

Lemma parg_read a : a_pickle_argument (j_parg a) = Some a.
Proof.
  destruct a as [rows|x [m|]]; unfold a_pickle_argument, j_parg; look.
  - reads. rewrite (many_map a_pickle_row); [reflexivity|]. intros r. unfold a_pickle_row. reads. apply many_map.
    intros y. reads. reflexivity.
  - reads. reflexivity.
  - reads. reflexivity.
Qed.
Lemma pstep_read q : a_pickle_step (j_pstep q) = Some q.
Proof.
  destruct q as [ns id [k|] x [a|]]; unfold a_pickle_step, j_pstep; cbn [ps_nodes ps_id ps_type ps_text ps_arg]; reads;
    rewrite (many_map _ _ _ number_id), number_id, ?parg_read; cbn [bind]; rewrite ?type_named_name; reflexivity.
Qed.
Lemma ptag_read t : a_pickle_tag (j_ptag t) = Some t.
Proof. destruct t. unfold a_pickle_tag, j_ptag. reads. rewrite number_id. reflexivity. Qed.
Theorem C69_pickle uri p : a_pickle (j_pickle uri p) = Some p.
Proof.
  destruct p. unfold a_pickle, j_pickle. reads.
  rewrite (many_map _ _ _ number_id), number_id, (many_map _ _ _ ptag_read), (many_map _ _ _ pstep_read). reflexivity.
Qed.

(** Every event, whatever its text, is recovered from the message; so two different events are two
    different messages. *)
Theorem C69_event e : an_event (j_event e) = Some e.
Proof.
  destruct e as [[u x]|u d|u p|u l x]; unfold an_event, j_event; look.
  - reads. reflexivity.
  - unfold j_document. rewrite document_read. destruct d as [[f|] cs]; cbn [gd_feature gd_comments]; reads; reflexivity.
  - rewrite C69_pickle. unfold j_pickle. reads. reflexivity.
  - cbn [bind]. reads. reflexivity.
Qed.
Corollary C69_different e e' : j_event e = j_event e' -> e = e'.
Proof. intros H. apply (f_equal an_event) in H. rewrite !C69_event in H. now injection H. Qed.

(** A concrete document: all the kinds of things a message can have. *)
Example C69_case :
  match fst (enum_one (mkOpts false true true) (mkSource (s "a.feature")
    (s "@t" ++ [ch_nl] ++ s "Feature: f" ++ [ch_nl] ++ s "Background: b" ++ [ch_nl] ++ s "Given x" ++ [ch_nl] ++
     s "| 1 | 2 |" ++ [ch_nl] ++ s "Rule: r" ++ [ch_nl] ++ s "Scenario Outline: o" ++ [ch_nl] ++ s "When <a>" ++ [ch_nl] ++ s "```x" ++ [ch_nl] ++
     s "c" ++ [ch_nl] ++ s "```" ++ [ch_nl] ++ s "Examples:" ++ [ch_nl] ++ s "| a |" ++ [ch_nl] ++ s "| 7 |" ++ [ch_nl])) 0%nat) with
  | ([e1; e2], None) => an_event (j_event e1) = Some e1 /\ an_event (j_event e2) = Some e2 /\
      match e1, e2 with EvDocument _ d, EvPickle _ p => gd_feature d <> None /\ length (pk_steps p) = 2%nat | _, _ => False end
  | _ => False
  end.
Proof. vm_compute. repeat split; discriminate. Qed.
Print Assumptions C69_event.
