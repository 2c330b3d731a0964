(** * Properties of panics (src/launch.rs 183-187, src/buffer.rs 110-145) *)
From Coq Require Import Ascii String List.
From Verif Require Import M_Prog M_Motion M_Config M_Manip M_Waiter S_Manip S_Trace S_World S_Network S_Net M_Start S_Start S_Shape S_Watch S_Soft S_Panic P_Panic P_PanicExamples P_SoftExamples P_ManipExamples.
Import ListNotations.

(** C128: in a run of a configuration a component or controller panics exactly if it is a launch whose program, asked for as configured, could not be
    started; and such a launch has done nothing else. *)
Theorem C128_only_starts : forall sh cwd vars c w cs, S_Manip.fair sh -> good_connections (cf_connection c) -> prepares sh c w cs -> passing (cf_connection c) -> apart (cf_connection c) ->
  forall w0 l wl ocs, whole_run (net_of cwd vars w) cs w0 l wl ocs -> forall k, k < length (net_of cwd vars w) + length cs ->
  (ocs k = Broken <-> exists x, nth_error (net_of cwd vars w) k = Some x /\ not_started x (did k l)) /\ (ocs k = Broken -> exists ev, did k l = [ev]).
Proof. exact only_starts. Qed.
Print Assumptions C128_only_starts.
(** The program is not there: the launch panics in the first round, before anybody else has done anything. *)
Example C128_example : good_connections (cf_connection xt_config) /\ prepares in_order xt_config xt_waiter [] /\ passing (cf_connection xt_config) /\ apart (cf_connection xt_config) /\
  exists w0 l w ocs, whole_run (net_of None [] xt_waiter) [] w0 l w ocs /\ map ocs (seq 0 4) = [Broken; Going; Going; Going].
Proof. exact not_there. Qed.
