From Verif Require Import PyStr PyStrFacts Types Library HookSpec.

Lemma prefix_tag t e :
  startswith prefix t && str_eqb (skipn (length prefix) t) e = str_eqb t (s "hook:" ++ e).
Proof.
  destruct (str_eqb t (s "hook:" ++ e)) eqn:E.
  - apply str_eqb_spec in E. subst t. rewrite startswith_app. cbn. apply str_eqb_refl.
  - destruct (startswith prefix t) eqn:S; [|reflexivity]. apply startswith_spec in S as [y ->].
    cbn [andb]. destruct (str_eqb (skipn _ _) e) eqn:F; [|reflexivity].
    apply str_eqb_spec in F. rewrite <- E. symmetry. apply str_eqb_spec.
    rewrite <- F. reflexivity.
Qed.
Lemma tag_events events t :
  startswith prefix t && tag_in_events events t = existsb (fun e => str_eqb t (s "hook:" ++ e)) events.
Proof.
  unfold tag_in_events, str_mem. induction events as [|e events IH]; cbn [existsb].
  - apply andb_false_r.
  - rewrite <- IH, <- prefix_tag. destruct (startswith prefix t); reflexivity.
Qed.

Lemma yield_hooks_spec events kws : yield_hooks events kws = hooks_of events kws.
Proof.
  unfold yield_hooks, hooks_of. apply flat_map_ext. intros k. unfold hook_tags.
  induction (kw_tags k) as [|t ts IH]; cbn [filter flat_map].
  - destruct (kw_resolves k); reflexivity.
  - rewrite <- tag_events. destruct (startswith prefix t); cbn [flat_map andb]; [|exact IH].
    rewrite IH. destruct (tag_in_events events t), (kw_resolves k); reflexivity.
Qed.

Lemma full_name_not_and k : full_name k <> s "AND".
Proof.
  unfold full_name. destruct (kw_owner k) as [|a [|b [|c [|e y]]]]; cbn; intros H; try discriminate H.
  all: injection H; intros; subst; try discriminate; repeat match goal with H : _ :: _ = _ |- _ => injection H; intros; subst; try discriminate end.
  all: destruct y; discriminate.
Qed.
Lemma hooks_not_and events kws n : In n (hooks_of events kws) -> n <> s "AND".
Proof.
  unfold hooks_of. intros H. apply in_flat_map in H as [k [_ H]]. destruct (kw_resolves k); [|easy].
  apply in_map_iff in H as [x [<- _]]. apply full_name_not_and.
Qed.

Lemma split_and_noand seg rest : ~ In (s "AND") seg ->
  split_and (seg ++ s "AND" :: rest) = seg :: split_and rest.
Proof.
  induction seg as [|a seg IH]; intros H; [reflexivity|]. cbn [app split_and].
  destruct (str_eqb a (s "AND")) eqn:E. { apply str_eqb_spec in E. exfalso. apply H. now left. }
  rewrite IH; [reflexivity|]. intros X; apply H; now right.
Qed.
Lemma split_and_last seg : ~ In (s "AND") seg -> split_and seg = [seg].
Proof.
  induction seg as [|a seg IH]; intros H; [reflexivity|]. cbn [split_and].
  destruct (str_eqb a (s "AND")) eqn:E. { apply str_eqb_spec in E. exfalso. apply H. now left. }
  rewrite IH; [reflexivity|]. intros X; apply H; now right.
Qed.
Lemma with_and_calls l : l <> [] -> (forall n, In n l -> n <> s "AND") ->
  forall rest, split_and (with_and l ++ s "AND" :: rest) = map (fun n => [n]) l ++ split_and rest.
Proof.
  intros Hne H rest. induction l as [|a l IH]; [easy|].
  assert (Ha : ~ In (s "AND") [a]) by (intros [X|[]]; exact (H a (or_introl eq_refl) X)).
  destruct l as [|b l].
  - exact (split_and_noand [a] rest Ha).
  - change (with_and (a :: b :: l) ++ s "AND" :: rest) with ([a] ++ s "AND" :: (with_and (b :: l) ++ s "AND" :: rest)).
    rewrite split_and_noand by exact Ha.
    rewrite IH; [reflexivity | discriminate | intros n Hn; apply H; now right].
Qed.
Lemma with_and_split l : l <> [] -> (forall n, In n l -> n <> s "AND") ->
  split_and (with_and l) = map (fun n => [n]) l.
Proof.
  intros Hne H. induction l as [|a l IH]; [easy|].
  assert (Ha : ~ In (s "AND") [a]) by (intros [X|[]]; exact (H a (or_introl eq_refl) X)).
  destruct l as [|b l]; [now apply split_and_last|].
  change (with_and (a :: b :: l)) with ([a] ++ s "AND" :: with_and (b :: l)).
  rewrite split_and_noand by exact Ha.
  rewrite IH; [reflexivity | discriminate | intros n Hn; apply H; now right].
Qed.

Lemma with_and_nil l : with_and l = [] <-> l = [].
Proof. destruct l as [|a [|b l]]; cbn; split; congruence. Qed.

Lemma run_hooks l : l <> [] -> (forall n, In n l -> n <> s "AND") ->
  run_keywords_calls (with_and l) = map (fun n => (n, [])) l.
Proof.
  intros Hne H. unfold run_keywords_calls. destruct (str_mem (s "AND") (with_and l)) eqn:E.
  - rewrite with_and_split by easy. rewrite map_map. reflexivity.
  - destruct l as [|a [|b l]]; [easy | reflexivity |].
    exfalso. assert (str_mem (s "AND") (with_and (a :: b :: l)) = true); [|congruence].
    apply str_mem_spec. right. now left.
Qed.
Lemma run_hooks_then l n args : l <> [] -> (forall n, In n l -> n <> s "AND") ->
  n <> s "AND" -> ~ In (s "AND") args ->
  run_keywords_calls (with_and l ++ [s "AND"; n] ++ args) = map (fun n => (n, [])) l ++ [(n, args)].
Proof.
  intros Hne H Hn Ha. unfold run_keywords_calls.
  assert (E : str_mem (s "AND") (with_and l ++ [s "AND"; n] ++ args) = true).
  { apply str_mem_spec, in_or_app. right. now left. }
  rewrite E. cbn [app]. rewrite with_and_calls by easy.
  rewrite (split_and_last (n :: args)); [|intros [X|X]; [congruence | easy]].
  rewrite map_app, map_map. reflexivity.
Qed.

Lemma setup_calls events kws d :
  fx_name (f_teardown d) = [] -> fx_name (f_setup d) <> s "AND" -> ~ In (s "AND") (fx_args (f_setup d)) ->
  hooks_of events kws <> [] ->
  calls (f_setup (create_setup_and_teardown events kws d)) =
  map (fun n => (n, [])) (hooks_of events kws) ++ as_call (f_setup d).
Proof.
  intros Ht Hn Ha Hh. unfold create_setup_and_teardown. rewrite yield_hooks_spec.
  destruct (with_and (hooks_of events kws)) as [|h hs] eqn:E.
  { apply (proj1 (with_and_nil _)) in E. contradiction. }
  rewrite <- E. clear E h hs.
  assert (Hnot := hooks_not_and events kws).
  unfold has. destruct (fx_name (f_setup d)) as [|c n] eqn:En; cbn [f_teardown]; rewrite Ht; cbn [f_setup].
  - unfold calls, as_call. cbn [fx_name fx_args]. rewrite En. rewrite app_nil_r.
    rewrite <- (run_hooks _ Hh Hnot). reflexivity.
  - unfold calls, as_call. cbn [fx_name fx_args]. rewrite En.
    rewrite <- (run_hooks_then _ (c :: n) (fx_args (f_setup d)) Hh Hnot Hn Ha). reflexivity.
Qed.
Lemma no_hooks_unchanged events kws d : hooks_of events kws = [] -> create_setup_and_teardown events kws d = d.
Proof. intros H. unfold create_setup_and_teardown. rewrite yield_hooks_spec, H. reflexivity. Qed.

Lemma teardown_kept events kws d :
  fx_name (f_teardown d) <> [] -> f_teardown (create_setup_and_teardown events kws d) = f_teardown d.
Proof.
  intros Ht. unfold create_setup_and_teardown. destruct (with_and _); [easy|].
  unfold has. destruct (fx_name (f_setup d)); cbn [f_teardown]; destruct (fx_name (f_teardown d)); easy.
Qed.
Lemma setup_lost events kws d :
  fx_name (f_teardown d) <> [] -> hooks_of events kws <> [] ->
  f_setup (create_setup_and_teardown events kws d) =
  mkFix run_keywords (with_and (hooks_of events kws) ++ [s "AND"; fx_name (f_teardown d)] ++ fx_args (f_teardown d)).
Proof.
  intros Ht Hh. unfold create_setup_and_teardown. rewrite yield_hooks_spec.
  destruct (with_and (hooks_of events kws)) as [|h hs] eqn:E. { apply (proj1 (with_and_nil _)) in E. contradiction. }
  unfold has. destruct (fx_name (f_setup d)); cbn [f_teardown]; destruct (fx_name (f_teardown d)); easy.
Qed.

(** ** call_hooks *)
Lemma call_one_spec events k tags :
  call_one events k (filter (startswith prefix) tags) =
  (if kw_resolves k && existsb (fun t => existsb (fun e => str_eqb t (s "hook:" ++ e)) events) tags
   then ([full_name k], kw_fails k, FNext) else ([], false, FNext)).
Proof.
  induction tags as [|t tags IH]; cbn [filter existsb].
  - cbn. now rewrite andb_false_r.
  - rewrite <- tag_events. destruct (startswith prefix t); cbn [call_one andb]; [|exact IH].
    destruct (tag_in_events events t); cbn [andb orb]; [|exact IH].
    rewrite andb_true_r. destruct (kw_resolves k); [|rewrite IH; reflexivity].
    unfold run_hook. destruct (kw_fails k); reflexivity.
Qed.
Lemma call_hooks_spec events kws :
  call_hooks events kws =
  (map full_name (until kw_fails (filter (fun k => kw_resolves k && tagged events k) kws)), false).
Proof.
  unfold call_hooks. induction kws as [|k kws IH]; [reflexivity|].
  cbn [call_hooks_go filter]. unfold hook_tags. rewrite call_one_spec. unfold tagged at 1.
  destruct (kw_resolves k && _); cbn [until map].
  - destruct (kw_fails k); [reflexivity|]. rewrite IH. reflexivity.
  - rewrite IH. reflexivity.
Qed.

Lemma setup_lost_calls events kws d :
  fx_name (f_teardown d) <> [] -> hooks_of events kws <> [] ->
  fx_name (f_teardown d) <> s "AND" -> ~ In (s "AND") (fx_args (f_teardown d)) ->
  calls (f_setup (create_setup_and_teardown events kws d)) =
  map (fun n => (n, [])) (hooks_of events kws) ++ as_call (f_teardown d).
Proof.
  intros Ht Hh Hn Ha. rewrite setup_lost by assumption.
  unfold as_call. destruct (fx_name (f_teardown d)) as [|c n] eqn:En; [easy|].
  rewrite <- (run_hooks_then _ (c :: n) (fx_args (f_teardown d)) Hh (hooks_not_and events kws) Hn Ha).
  reflexivity.
Qed.
