(** * Properties of pipes that give way (README.src.md: the pipe markers T, F and C) *)
From Coq Require Import Ascii String List.
From Verif Require Import M_Prog M_Motion M_Config M_Manip M_Waiter S_Manip S_Trace S_World S_Network S_Net M_Start S_Start S_Shape S_Watch S_Soft P_ManipExamples P_SoftConfig P_SoftExamples.
Import ListNotations.
Local Open Scope list_scope.

(** C100: when every pipe is marked |F| or |C|, failures do not spread: a component fails only when one of its own files, programs or standard streams has failed
    (or, a launch, when nobody takes its exit status); regulators, buffers and junctions never fail. *)
Theorem C100_own_failures : forall sh cwd vars c w cs, S_Manip.fair sh -> good_connections (cf_connection c) -> prepares sh c w cs -> giving_way (cf_connection c) ->
  passing (cf_connection c) -> apart (cf_connection c) -> forall w0 l wl ocs, free_run (net_of cwd vars w) cs w0 l wl ocs ->
  forall k x e, nth_error (net_of cwd vars w) k = Some x -> ocs k = Ended (Err e) -> own_failure x (did k l) e.
Proof. exact soft_own. Qed.
Print Assumptions C100_own_failures.
(** One of two files breaks: its drain fails, the junction before it sees the pipe closed, and everybody else succeeds. *)
Example C100_example : good_connections (cf_connection sf_config) /\ prepares in_order sf_config sf_waiter [] /\ passing (cf_connection sf_config) /\ apart (cf_connection sf_config) /\ giving_way (cf_connection sf_config) /\
  exists w0 l w ocs d, whole_run (net_of None [] sf_waiter) [] w0 l w ocs /\
    map ocs (seq 0 5) = [Ended (Ok 20); Ended (Err (OutputClosed (J 1 None 3 Terminate) BrokenPipe d)); Ended (Ok 21); Ended (Ok 21); Ended (Ok 21)] /\
    existsb (fun x : nevent => match x with (16, (ESend (CData 2) _, AClosed)) => true | _ => false end) l = true.
Proof. exact breaks_alone. Qed.

(** C101: a launch all of whose pipes are marked can fail though nothing of its own has failed: the pipe of its exit status is not a pipe that gives way, whatever its mark. *)
Theorem C101_exit_refuted : exists c w, good_connections (cf_connection c) /\ prepares in_order c w [] /\ passing (cf_connection c) /\ apart (cf_connection c) /\ giving_way (cf_connection c) /\
  exists w0 l wl ocs k la e, free_run (net_of None [] w) [] w0 l wl ocs /\ nth_error (net_of None [] w) k = Some (NLaunch None [] la) /\ ocs k = Ended (Err e) /\ ~ hurt (did k l).
Proof. exact exit_unwanted. Qed.
Print Assumptions C101_exit_refuted.

(** C102: behind pipes that are not marked failures do spread: here to a junction, which never touches anything outside. *)
Theorem C102_spreads_refuted : exists c w, good_connections (cf_connection c) /\ prepares in_order c w [] /\ passing (cf_connection c) /\ apart (cf_connection c) /\ no_loop (cf_connection c) /\
  exists w0 l wl ocs k x e, whole_run (net_of None [] w) [] w0 l wl ocs /\ nth_error (net_of None [] w) k = Some x /\ ocs k = Ended (Err e) /\ ~ hurt (did k l).
Proof. exact spreads. Qed.
Print Assumptions C102_spreads_refuted.
