(** * Properties_Delay: C90 *)
From Coq Require Import Ascii String List Bool Arith.
From Verif Require Import M_Prog M_Motion M_Config M_Manip M_Regulator M_Waiter S_Manip S_Waiter S_Trace S_Motion S_World S_Network S_Net S_Regulator M_Start S_Start S_Shape S_Watch S_Delay P_DelayRun P_Act P_Jam P_WatchExamples P_DelayExamples.
Import ListNotations.

(** A run of a regulated pipeline, without what is done to regulate it, is a run of the same pipeline without regulation: every channel that carries data
    ends up with the same contents, and who has ended has ended in the same way. *)
Theorem C90_only_delays : forall sh cwd vars c w cs, S_Manip.fair sh -> good_connections (cf_connection c) -> prepares sh c w cs -> passing (cf_connection c) -> apart (cf_connection c) ->
  forall w0 l wl ocs, free_run (net_of cwd vars w) cs w0 l wl ocs ->
  exists w' ocs', net_run (map plain_comp (net_of cwd vars w)) w0 (data_part (net_of cwd vars w) l) w' ocs' /\
    (forall k, k < length (net_of cwd vars w) -> ocs k <> Going -> ocs' k = ocs k) /\ forall ch, control_chan ch = false -> w' ch = wl ch.
Proof. exact prepared_delays. Qed.
Print Assumptions C90_only_delays.
(** Nobody fails, the controllers included. *)
Theorem C90_nobody_fails : forall sh cwd vars c w cs, S_Manip.fair sh -> good_connections (cf_connection c) -> prepares sh c w cs -> passing (cf_connection c) -> apart (cf_connection c) ->
  forall w0 l wl ocs, whole_run (net_of cwd vars w) cs w0 l wl ocs -> willing l ->
  forall k, k < length (net_of cwd vars w) + length cs -> ocs k = Going \/ exists n, ocs k = Ended (Ok n).
Proof. exact prepared_fails. Qed.
Print Assumptions C90_nobody_fails.
(** Without loops there is one way only to come to a standstill before the end: a buffer cannot tell its size, for its controller has not read the sizes told
    before, for it cannot give its signal to its regulator, for that has not heard the signal before. *)
Theorem C90_standstill : forall sh cwd vars c w cs, S_Manip.fair sh -> good_connections (cf_connection c) -> prepares sh c w cs -> passing (cf_connection c) -> no_loop (cf_connection c) ->
  forall w0 l wl ocs, whole_run (net_of cwd vars w) cs w0 l wl ocs -> willing l -> whole_locked (net_of cwd vars w) cs w0 l ->
  everybody_succeeded (net_of cwd vars w) cs ocs \/ exists k m cp, ocs k = Going /\ choked (net_of cwd vars w) cs l wl k m cp.
Proof. exact prepared_standstill. Qed.
Print Assumptions C90_standstill.
(** It does not happen as long as no regulator's buffers have received as many messages as its high mark, less one for each buffer. *)
Theorem C90_small : forall sh cwd vars c w cs, S_Manip.fair sh -> good_connections (cf_connection c) -> prepares sh c w cs -> passing (cf_connection c) -> no_loop (cf_connection c) ->
  forall w0 l wl ocs, whole_run (net_of cwd vars w) cs w0 l wl ocs -> willing l -> whole_locked (net_of cwd vars w) cs w0 l ->
  (forall m cp ks, nth_error cs m = Some cp -> tellers (net_of cwd vars w) (cp_monitors cp) ks -> list_sum (map (fun k => S (received (net_of cwd vars w) k l)) ks) < cp_high cp) ->
  everybody_succeeded (net_of cwd vars w) cs ocs.
Proof. exact prepared_small. Qed.
Print Assumptions C90_small.

(** A run of 1442 steps, 135 of them to regulate, in which the regulator is paused and resumed. *)
Example C90_example : exists w0 l w ocs, free_run (net_of None [] jm_waiter) jm_controllers w0 l w ocs /\ heard 0 8 l = 2 /\ length l = 1442 /\ length (data_part (net_of None [] jm_waiter) l) = 1307 /\
  exists w' ocs', net_run (map plain_comp (net_of None [] jm_waiter)) w0 (data_part (net_of None [] jm_waiter) l) w' ocs'.
Proof. exact paused_delays. Qed.
(** The run of C86. *)
Example C90_example_choked : good_connections (cf_connection jm_config) /\ prepares in_order jm_config jm_waiter jm_controllers /\ passing (cf_connection jm_config) /\ no_loop (cf_connection jm_config) /\
  exists w0 l w ocs, whole_run (net_of None [] jm_waiter) jm_controllers w0 l w ocs /\ willing l /\ whole_locked (net_of None [] jm_waiter) jm_controllers w0 l /\ none_ended (net_of None [] jm_waiter) jm_controllers ocs /\
    exists k m cp, choked (net_of None [] jm_waiter) jm_controllers l w k m cp.
Proof. exact jammed_choked. Qed.
(** The same pipeline with two lines to read. *)
Example C90_example_small : exists w0 l w ocs, whole_run (net_of None [] jm_waiter) jm_controllers w0 l w ocs /\ willing l /\ whole_locked (net_of None [] jm_waiter) jm_controllers w0 l /\
  (exists cp, jm_controllers = [cp] /\ cp_high cp = 5 /\ tellers (net_of None [] jm_waiter) (cp_monitors cp) [5]) /\ received (net_of None [] jm_waiter) 5 l = 2 /\ everybody_succeeded (net_of None [] jm_waiter) jm_controllers ocs.
Proof. exact small_end. Qed.
