(** * Properties_Shape: C88 *)
From Coq Require Import Ascii String List Bool Arith Relations.
From Verif Require Import M_Prog M_Motion M_Config M_Manip M_Waiter S_Manip S_Trace S_World S_Network S_Net M_Start S_Start S_Shape P_Shape P_Jam P_ShapeExamples.
Import ListNotations.

(** Whatever configuration makes a pipeline without controllers: if, as the connections are written, something comes before and after each regulator and
    buffer and after each junction, and no junction comes directly after itself, then all channels of the pipeline have one sender and one receiver, all of
    its components can be started, all have room for what they send, and no junction is without output. *)
Theorem C88_wired : forall sh cwd vars c net, S_Manip.fair sh -> good_connections (cf_connection c) -> makes cwd vars sh c net [] -> passing (cf_connection c) ->
  apart (cf_connection c) -> net_wired net /\ roomy net /\ polite net.
Proof. exact shape_wired. Qed.
Print Assumptions C88_wired.
(** Without loops in the connections nothing flows back in the pipeline, whatever junctions and drains have been added. *)
Theorem C88_one_way : forall sh cwd vars c net, S_Manip.fair sh -> good_connections (cf_connection c) -> makes cwd vars sh c net [] -> passing (cf_connection c) ->
  no_loop (cf_connection c) -> acyclic net.
Proof. exact shape_one_way. Qed.
Print Assumptions C88_one_way.
(** With a buffer in every loop of the connections there is one in every loop of the pipeline. *)
Theorem C88_buffered : forall sh cwd vars c net, S_Manip.fair sh -> good_connections (cf_connection c) -> makes cwd vars sh c net [] -> passing (cf_connection c) ->
  buffered_loops (cf_connection c) -> dammed net.
Proof. exact shape_buffered. Qed.
Print Assumptions C88_buffered.
(** So in a willing world nobody fails ... *)
Theorem C88_nobody_fails : forall sh cwd vars c net, S_Manip.fair sh -> good_connections (cf_connection c) -> makes cwd vars sh c net [] -> passing (cf_connection c) ->
  forall w0 l w ocs, apart (cf_connection c) -> whole_run net [] w0 l w ocs -> willing l ->
  forall k, k < length net -> ocs k = Going \/ exists n, ocs k = Ended (Ok n).
Proof. exact shape_fine. Qed.
Print Assumptions C88_nobody_fails.
(** ... without loops nobody waits for ever: when nobody will ever do anything again all have succeeded ... *)
Theorem C88_never_locks : forall sh cwd vars c net, S_Manip.fair sh -> good_connections (cf_connection c) -> makes cwd vars sh c net [] -> passing (cf_connection c) ->
  forall w0 l w ocs, no_loop (cf_connection c) -> whole_run net [] w0 l w ocs -> willing l -> whole_locked net [] w0 l -> all_succeeded net ocs.
Proof. exact shape_ends. Qed.
Print Assumptions C88_never_locks.
(** ... with a buffer in every loop nothing is left on its way then, and whoever brings something in has ended ... *)
Theorem C88_dammed : forall sh cwd vars c net, S_Manip.fair sh -> good_connections (cf_connection c) -> makes cwd vars sh c net [] -> passing (cf_connection c) ->
  forall w0 l w ocs, buffered_loops (cf_connection c) -> whole_run net [] w0 l w ocs -> willing l -> whole_locked net [] w0 l ->
  at_rest net w /\ forall k x, nth_error net k = Some x -> comp_ins x = [] -> ocs k <> Going.
Proof. exact shape_dammed. Qed.
Print Assumptions C88_dammed.
(** ... and without loops no run that forgets nobody goes on for ever, if the input is limited. *)
Theorem C88_no_endless_run : forall sh cwd vars c net, S_Manip.fair sh -> good_connections (cf_connection c) -> makes cwd vars sh c net [] -> passing (cf_connection c) ->
  forall w0 f, no_loop (cf_connection c) -> S_Net.fair net w0 f -> limited f -> statuses_come f -> (forall n, willing (so_far f n)) ->
  ~ (forall n, exists w ocs, whole_run net [] w0 (so_far f n) w ocs).
Proof. exact shape_no_endless. Qed.
Print Assumptions C88_no_endless_run.
Example C88_example_one_way : good_connections (cf_connection gd_config) /\ makes None [] in_order gd_config good_net [] /\ passing (cf_connection gd_config) /\ no_loop (cf_connection gd_config).
Proof. exact (conj gd_good (conj gd_makes (conj gd_passing gd_no_loop))). Qed.
Example C88_example_buffered : good_connections (cf_connection rb_config) /\ makes None [] in_order rb_config rb_net [] /\ passing (cf_connection rb_config) /\
  buffered_loops (cf_connection rb_config) /\ ~ no_loop (cf_connection rb_config) /\ length rb_net = 7.
Proof. exact (conj rb_good (conj rb_makes (conj rb_passing (conj rb_buffered (conj rb_loop eq_refl))))). Qed.
(** The loop of C38, which can lock up, has no buffer in it. *)
Example C88_example_unbuffered : good_connections (cf_connection lw_config) /\ makes None [] in_order lw_config loop_net [] /\ passing (cf_connection lw_config) /\ apart (cf_connection lw_config) /\
  ~ buffered_loops (cf_connection lw_config).
Proof. exact (conj lw_good (conj lw_makes (proj2 lw_unbuffered))). Qed.
