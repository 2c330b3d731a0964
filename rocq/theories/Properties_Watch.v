(** * Properties_Watch: C89 *)
From Coq Require Import Ascii String List Bool Arith.
From Verif Require Import M_Prog M_Motion M_Config M_Manip M_Regulator M_Waiter S_Manip S_Waiter S_Trace S_Motion S_World S_Network S_Net S_Regulator M_Start S_Start S_Shape S_Watch P_Watch P_WatchMarks P_WatchConfig P_Jam P_WatchExamples.
Import ListNotations.

(** Whatever configuration is accepted and made into a pipeline: every regulator that can be told to pause is told by one controller, which starts from a
    running regulator; every buffer that tells its size tells it to one controller; no two controllers share a channel. *)
Theorem C89_one_controller : forall sh cwd vars c w cs, S_Manip.fair sh -> good_connections (cf_connection c) -> prepares sh c w cs -> overseen (net_of cwd vars w) cs.
Proof. exact prepared_overseen. Qed.
Print Assumptions C89_one_controller.
(** Apart from that the pipeline is wired as the connections say (see C88). *)
Theorem C89_shape : forall sh cwd vars c w cs, S_Manip.fair sh -> good_connections (cf_connection c) -> prepares sh c w cs -> passing (cf_connection c) -> apart (cf_connection c) ->
  net_wired (map plain_comp (net_of cwd vars w)) /\ roomy (net_of cwd vars w) /\ polite (net_of cwd vars w) /\
  (no_loop (cf_connection c) -> acyclic (net_of cwd vars w)) /\ (buffered_loops (cf_connection c) -> dammed (net_of cwd vars w)).
Proof. exact prepared_shape. Qed.
Print Assumptions C89_shape.
(** Who is told to pause is a regulator that the configuration has watch buffers. *)
Theorem C89_only_these : forall sh cwd vars c w cs, S_Manip.fair sh -> good_connections (cf_connection c) -> NoDup (keys (cf_regulator c)) -> prepares sh c w cs ->
  forall k x cm, nth_error (net_of cwd vars w) k = Some cm -> In x (comp_control cm) ->
  exists n low high bs, set_to_watch c n low high bs /\ regulator_at cwd vars w n k x.
Proof. exact watch_only. Qed.
Print Assumptions C89_only_these.
(** And every such regulator is, in every run, told by a controller with the marks of the configuration that hears from just the buffers of the
    configuration.  Every pause that the regulator hears was given when the sizes last told by the buffers added up to at least the high mark, every resume
    when they added up to at most the low mark; it has heard all but at most one.  It is never paused before the watched buffers together have received
    as many messages as the high mark, less one for each of them.  From the moment that it is given a pause until it is given a resume it passes on at most one message.
    When the controller sleeps, the regulator has been told what the sizes demand. *)
Theorem C89_marks : forall sh cwd vars c w cs, S_Manip.fair sh -> good_connections (cf_connection c) -> NoDup (keys (cf_regulator c)) -> prepares sh c w cs ->
  passing (cf_connection c) -> apart (cf_connection c) ->
  forall n low high bs, set_to_watch c n low high bs ->
  exists k x m cp ks, regulator_at cwd vars w n k x /\ nth_error cs m = Some cp /\
    cp_low cp = low /\ cp_high cp = high /\ rc_control (cp_control cp) = x /\ Forall2 (buffer_at cwd vars w) bs ks /\ tellers (net_of cwd vars w) (cp_monitors cp) ks /\
    forall w0 l wl ocs, free_run (net_of cwd vars w) cs w0 l wl ocs ->
      led (net_of cwd vars w) cp m k x l /\
      (0 < heard k x l -> high <= list_sum (map (fun k => S (received (net_of cwd vars w) k l)) ks)) /\
      (forall a b, l = a ++ b -> Nat.Odd (given x a) -> given x b = 0 -> length (attempts (own (4 * k) b)) <= 1) /\
      (forall t, exec (controller cp) (controller_of (net_of cwd vars w) m l) (At (ESleep t)) -> S_Regulator.settled low high x (cp_monitors cp) (controller_of (net_of cwd vars w) m l)).
Proof. exact watch_runs. Qed.
Print Assumptions C89_marks.
(** A regulator with marks 2 and 5, paused and resumed once, while the buffer receives 41 messages. *)
Example C89_example : good_connections (cf_connection jm_config) /\ prepares in_order jm_config jm_waiter jm_controllers /\ passing (cf_connection jm_config) /\ apart (cf_connection jm_config) /\
  set_to_watch jm_config "gate"%string 2 5 ["store"%string] /\ NoDup (keys (cf_regulator jm_config)) /\ exists k x w0 l w ocs, regulator_at None [] jm_waiter "gate"%string k x /\ whole_run (net_of None [] jm_waiter) jm_controllers w0 l w ocs /\
  heard k x l = 2 /\ buffer_at None [] jm_waiter "store"%string 5 /\ received (net_of None [] jm_waiter) 5 l = 41.
Proof. exact paused_and_resumed. Qed.
