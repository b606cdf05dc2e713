(** * Hooks: C39, C40, C41 *)
From Verif Require Import PyStr Types Library HookSpec HookProofs.

(** C39.  Without a teardown: after start_suite / start_test the setup calls every hook keyword, in
    order, and then the old setup with its own arguments (none of which is the word AND). *)
Theorem C39_suite_hooks_before_setup : forall kws d,
  fx_name (f_teardown d) = [] ->
  fx_name (f_setup d) <> s "AND" -> ~ In (s "AND") (fx_args (f_setup d)) ->
  hooks_of [s "before-suite"; s "before-feature"] kws <> [] ->
  calls (f_setup (start_suite kws d)) =
  map (fun n => (n, [])) (hooks_of [s "before-suite"; s "before-feature"] kws) ++ as_call (f_setup d).
Proof. exact (setup_calls _). Qed.
Print Assumptions C39_suite_hooks_before_setup.

Theorem C39_test_hooks_before_setup : forall kws d,
  fx_name (f_teardown d) = [] ->
  fx_name (f_setup d) <> s "AND" -> ~ In (s "AND") (fx_args (f_setup d)) ->
  hooks_of [s "before-test"; s "before-test"] kws <> [] ->
  calls (f_setup (start_test kws d)) =
  map (fun n => (n, [])) (hooks_of [s "before-test"; s "before-test"] kws) ++ as_call (f_setup d).
Proof. exact (setup_calls _). Qed.
Print Assumptions C39_test_hooks_before_setup.

Theorem C39_no_hooks_no_change : forall kws d,
  (hooks_of [s "before-suite"; s "before-feature"] kws = [] -> start_suite kws d = d) /\
  (hooks_of [s "before-test"; s "before-test"] kws = [] -> start_test kws d = d).
Proof. intros kws d. split; exact (no_hooks_unchanged _ kws d). Qed.
Print Assumptions C39_no_hooks_no_change.

(* a concrete case: two hooks (one with both tags, one not for this event) and a setup with an argument *)
Definition ex_kws : list hook_kw :=
  [mkHook (s "res") (s "A") [s "hook:before-suite"; s "x"; s "hook:before-feature"] true false;
   mkHook (s "res") (s "B") [s "hook:before-test"] true false;
   mkHook (s "lib") (s "C") [s "hook:before-feature"] true false].
Example C39_case :
  calls (f_setup (start_suite ex_kws (mkFixs (mkFix (s "Open") [s "db"]) (mkFix [] [])))) =
  [(s "res.A", []); (s "res.A", []); (s "lib.C", []); (s "Open", [s "db"])].
Proof. vm_compute. reflexivity. Qed.

(** An argument AND of the old setup is taken as a separator. *)
Theorem C39_and_argument_refuted : exists kws d,
  fx_name (f_teardown d) = [] /\
  hooks_of [s "before-suite"; s "before-feature"] kws <> [] /\
  calls (f_setup (start_suite kws d)) <>
  map (fun n => (n, [])) (hooks_of [s "before-suite"; s "before-feature"] kws) ++ as_call (f_setup d).
Proof.
  exists ex_kws, (mkFixs (mkFix (s "Log Many") [s "this"; s "AND"; s "that"]) (mkFix [] [])).
  repeat split; vm_compute; discriminate.
Qed.
Print Assumptions C39_and_argument_refuted.

(** C40, first half: an existing teardown still runs as teardown. *)
Theorem C40_teardown_kept_partial : forall kws d,
  fx_name (f_teardown d) <> [] ->
  f_teardown (start_suite kws d) = f_teardown d /\ f_teardown (start_test kws d) = f_teardown d.
Proof. intros kws d H. split; exact (teardown_kept _ kws d H). Qed.
Print Assumptions C40_teardown_kept_partial.
Example C40_case : fx_name (mkFix (s "Close") []) <> []. Proof. discriminate. Qed.

(** C40, second half fails whenever there are hooks: the setup is replaced by the hooks followed by
    the teardown; the old setup does not run, the teardown runs before the test. *)
Theorem C40_setup_replaced_by_teardown : forall kws d,
  fx_name (f_teardown d) <> [] -> hooks_of [s "before-test"; s "before-test"] kws <> [] ->
  fx_name (f_teardown d) <> s "AND" -> ~ In (s "AND") (fx_args (f_teardown d)) ->
  calls (f_setup (start_test kws d)) =
  map (fun n => (n, [])) (hooks_of [s "before-test"; s "before-test"] kws) ++ as_call (f_teardown d).
Proof. exact (setup_lost_calls _). Qed.
Print Assumptions C40_setup_replaced_by_teardown.

Theorem C40_setup_refuted : exists kws d,
  f_setup d = mkFix (s "Open") [s "db"] /\
  calls (f_setup (start_suite kws d)) =
    [(s "res.A", []); (s "res.A", []); (s "lib.C", []); (s "Close", [])].
Proof.
  exists ex_kws, (mkFixs (mkFix (s "Open") [s "db"]) (mkFix (s "Close") [])).
  split; vm_compute; reflexivity.
Qed.
Print Assumptions C40_setup_refuted.

(** C41: call_hooks runs the matching keywords in order up to and including the first that fails. *)
Theorem C41_calls_until_failure_partial : forall events kws,
  fst (call_hooks events kws) =
  map full_name (until kw_fails (filter (fun k => kw_resolves k && tagged events k) kws)).
Proof. intros events kws. rewrite call_hooks_spec. reflexivity. Qed.
Print Assumptions C41_calls_until_failure_partial.
(** two matching keywords run, the second fails, the third is not called *)
Example C41_case : fst (call_hooks [s "before-test"] [mkHook (s "r") (s "A") [s "hook:before-test"] true false; mkHook (s "r") (s "N") [s "hook:x"] true false;
    mkHook (s "r") (s "B") [s "t"; s "hook:before-test"] true true; mkHook (s "l") (s "C") [s "hook:before-test"] true false]) = [s "r.A"; s "r.B"].
Proof. reflexivity. Qed.

(** ... but the failure never reaches the caller. *)
Theorem C41_failure_reported_refuted :
  (exists events kws k, In k kws /\ kw_fails k = true /\ In (full_name k) (fst (call_hooks events kws)) /\
     snd (call_hooks events kws) = false) /\
  (forall events kws, snd (call_hooks events kws) = false).
Proof.
  split.
  - exists [s "before-test"], [mkHook (s "res") (s "B") [s "hook:before-test"] true true], (mkHook (s "res") (s "B") [s "hook:before-test"] true true).
    repeat split; try (now left).
  - intros events kws. rewrite call_hooks_spec. reflexivity.
Qed.
Print Assumptions C41_failure_reported_refuted.
