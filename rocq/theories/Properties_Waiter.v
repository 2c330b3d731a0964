(** * Properties_Waiter: building a pipeline from its configuration; what is reported at the end *)
From Coq Require Import Ascii String List Bool Arith ZArith Permutation Sorted.
From Verif Require Import M_Prog M_Motion M_Connectable M_Config M_Manip M_Buffer M_Regulator M_Lint M_Waiter S_Grammar S_Manip S_Lint S_Waiter P_Build P_Ready P_Result P_ManipExamples P_WaiterExamples.
Import ListNotations.
Local Open Scope string_scope.

(** C54 is false: each of these configurations passes lint after the preparation, and building fails: a launch without a command; priorities on connections
    to a launch; a connection to a faucet; a connection from a drain; the error port of a faucet; two ports of a buffer; a drain without configuration
    that has the name of a generated one. *)
Theorem C54_lint_enough_refuted : exists c c2 out e, good_connections (cf_connection c) /\ process_config in_order c = Good (Ok c2, out) /\ get_waiter c2 = Good (Err e).
Proof. exact lint_not_enough. Qed.
Print Assumptions C54_lint_enough_refuted.
Theorem C54_others_refuted : Forall passes_lint_only [no_command; with_priorities; into_faucet; out_of_drain; faucet_errors; buffer_ports; drain_named].
Proof. exact unbuildable. Qed.
Print Assumptions C54_others_refuted.

(** C54, the part that holds: building succeeds when each launch has a command, each mentioned drain is configured, and the ports and priorities are ones that the
    components have; the pipeline is the one configured.  (Missing: lint does not check these.) *)
Theorem C54_plain_partial : forall sh c c2 out, fair sh -> good_connections (cf_connection c) -> plain c -> process_config sh c = Good (Ok c2, out) ->
  exists w id, get_waiter c2 = Good (Ok w) /\ built_as c2 w id.
Proof. exact process_builds. Qed.
Print Assumptions C54_plain_partial.
(** Exactly when it succeeds, if the mentioned drains are configured *)
Theorem C54_exact_partial : forall sh c c2 out, fair sh -> good_connections (cf_connection c) ->
  (forall n, is_mentioned (cf_connection c) (CDrain, n) -> lookup n (cf_drain c) <> None) -> process_config sh c = Good (Ok c2, out) ->
  exists m1 p, convert_connections (cf_connection c) = Good (m1, []) /\ pair_up m1 = Good p /\
    (sound c p -> exists w, get_waiter c2 = Good (Ok w)) /\ (~ sound c p -> exists e, get_waiter c2 = Good (Err e)).
Proof. exact process_exact. Qed.
Print Assumptions C54_exact_partial.
Example C54_example : good_connections (cf_connection good_line) /\ plain good_line.
Proof. exact good_line_plain. Qed.

(** C55: when building succeeds, the pipeline is the one of the configuration; it succeeds exactly for the configurations that can be built, and otherwise
    gives an error. *)
Theorem C55_built_as : forall c w, written_out (cf_connection c) -> get_waiter c = Good (Ok w) -> exists id, built_as c w id.
Proof. exact built_exactly. Qed.
Print Assumptions C55_built_as.
Theorem C55_exactly : forall c, written_out (cf_connection c) ->
  (buildable c (links (cf_connection c)) -> exists w, get_waiter c = Good (Ok w)) /\
  (~ buildable c (links (cf_connection c)) -> exists e, get_waiter c = Good (Err e)).
Proof. exact builds_exactly. Qed.
Print Assumptions C55_exactly.
Example C55_example : process_config in_order good_line = Good (Ok good_line_prepared, [["out"]]) /\ get_waiter good_line_prepared = Good (Ok good_waiter) /\
  keys (w_launch good_waiter) = ["a"] /\ keys (w_junction good_waiter) = ["junction_1"] /\ keys (w_drain good_waiter) = ["dyn_drain_1"; "out"] /\
  map snd (outs good_waiter (CLaunch, "a")) = [5; 1] /\ map (fun e => snd (fst e)) (ins good_waiter (CJunction, "junction_1")) = [4; 6] /\
  w_settings good_waiter = [("reg", Settings 5 20 ["q"])].
Proof. exact good_line_runs. Qed.

(** C56: the result of a run accounts for every component. *)
Theorem C56_accounts : forall l r f m d b j, let rs := (l ++ r ++ f ++ m ++ d ++ b ++ j)%list in
  match overall l r f m d b j with
  | Ok n => errors_of rs = [] /\ n = list_sum (counts_of rs)
  | Err es => es <> [] /\ Permutation es (errors_of rs)
  end.
Proof. exact overall_exact. Qed.
Print Assumptions C56_accounts.
Example C56_example : overall [Ok 3; Ok 4] [Ok 1] [] [] [Ok 7] [] [] = Ok 15 /\
  overall [Ok 3; Err (err_at "b" 9)] [Ok 1] [Err (err_at "c" 5)] [] [Ok 7] [] [] = Err [err_at "c" 5; err_at "b" 9].
Proof. split; reflexivity. Qed.

(** C57 is false: an error without a time keeps others from being put in order. *)
Theorem C57_sorted_refuted : exists l j es, overall l [] [] [] [] [] j = Err es /\ ~ StronglySorted not_after es.
Proof. exact unsorted. Qed.
Print Assumptions C57_sorted_refuted.
(** C57, the part that holds: if all errors have times.  (Missing: those of failing to spawn, and of missing connections, have none.) *)
Theorem C57_timed_partial : forall l r f m d b j es, overall l r f m d b j = Err es -> Forall (fun e => instant e <> None) es -> StronglySorted not_after es.
Proof. exact overall_sorted. Qed.
Print Assumptions C57_timed_partial.

(** C58 is false: two regulators that watch one buffer pass lint and are built, and the start panics. *)
Theorem C58_shared_refuted : exists c c2 out w msg, good_connections (cf_connection c) /\ process_config in_order c = Good (Ok c2, out) /\ get_waiter c2 = Good (Ok w) /\
  regulator_settings w (w_settings w) = Crash msg.
Proof. exact both_watch_panics. Qed.
Print Assumptions C58_shared_refuted.
(** C58: what happens, whatever the order in which the regulators are gone through: if no buffer is watched twice, each controller gets its regulator and
    what tells the sizes of its buffers; otherwise it panics. *)
Theorem C58_exact : forall c w l, written_out (cf_connection c) -> NoDup (keys (cf_regulator c)) -> get_waiter c = Good (Ok w) -> Permutation l (w_settings w) ->
  (NoDup (watched l) -> exists w' cs, regulator_settings w l = Good (Ok (w', cs)) /\ Forall2 (controls w') l cs /\
     (forall b, ~ In b (watched l) -> lookup b (w_buffer w') = lookup b (w_buffer w)) /\ (forall n, ~ In n (keys l) -> lookup n (w_regulator w') = lookup n (w_regulator w))) /\
  (~ NoDup (watched l) -> exists msg, regulator_settings w l = Crash msg).
Proof. exact watch_exact. Qed.
Print Assumptions C58_exact.

(** C71 is false: priorities on connections to a component that is not a junction, as in [with_priorities], where two faucets feed a launch, stop the building. *)
Theorem C71_priorities_refuted : exists c c2 out e, good_connections (cf_connection c) /\ process_config in_order c = Good (Ok c2, out) /\ get_waiter c2 = Good (Err e) /\
  e = "AddInput(Launch:a, UnsupportedPriority(2))".
Proof. exact priorities_not_built. Qed.
Print Assumptions C71_priorities_refuted.
Theorem C71_always : forall sh c d, fair sh -> good_connections (cf_connection c) -> (forall n, is_mentioned (cf_connection c) (CDrain, n) -> lookup n (cf_drain c) <> None) ->
  fst d <> CJunction -> (exists x, written (cf_connection c) x /\ (conn_type x, conn_name x) = d /\ input_of x <> None) ->
  (forall x i, written (cf_connection c) x -> (conn_type x, conn_name x) = d -> input_of x = Some i -> ip_priority i <> 0%Z) ->
  exists c' out e, connection_manipulation sh c = Good (c', out) /\ get_waiter c' = Good (Err e).
Proof. exact priority_fails. Qed.
Print Assumptions C71_always.
