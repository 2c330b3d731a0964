(** * Properties of pipes that give way: the end of the run (README.src.md: the pipe markers T, F and C) *)
From Coq Require Import Ascii String List.
From Verif Require Import M_Prog M_Motion M_Config M_Manip M_Waiter S_Manip S_Trace S_World S_Network S_Net M_Start S_Start S_Shape S_Watch S_Soft P_ManipExamples P_SoftEnds P_SoftExamples P_SoftEndsExamples.
Import ListNotations.
Local Open Scope list_scope.

(** C103: when every pipe is marked |F| or |C|, nothing flows back and no regulator is set to watch, then whatever breaks on the way the run comes to its end,
    as long as every source can be opened and every program started: when nobody will ever do anything again, all have ended ... *)
Theorem C103_all_end : forall sh cwd vars c w, S_Manip.fair sh -> good_connections (cf_connection c) -> prepares sh c w [] -> giving_way (cf_connection c) ->
  passing (cf_connection c) -> no_loop (cf_connection c) ->
  forall w0 l wl ocs, whole_run (net_of cwd vars w) [] w0 l wl ocs -> granted l -> whole_locked (net_of cwd vars w) [] w0 l -> all_ended (net_of cwd vars w) ocs.
Proof. exact soft_stands. Qed.
Print Assumptions C103_all_end.
(** ... and no run that forgets nobody goes on for ever, if the input is limited. *)
Theorem C103_no_endless_run : forall sh cwd vars c w, S_Manip.fair sh -> good_connections (cf_connection c) -> prepares sh c w [] -> giving_way (cf_connection c) ->
  passing (cf_connection c) -> no_loop (cf_connection c) ->
  forall w0 f, S_Net.fair (net_of cwd vars w) w0 f -> limited f -> statuses_come f -> (forall n, granted (so_far f n)) ->
  ~ (forall n, exists wl ocs, whole_run (net_of cwd vars w) [] w0 (so_far f n) wl ocs).
Proof. exact soft_no_endless. Qed.
Print Assumptions C103_no_endless_run.
(** One of two files breaks. *)
Example C103_example : good_connections (cf_connection sf_config) /\ prepares in_order sf_config sf_waiter [] /\ giving_way (cf_connection sf_config) /\ passing (cf_connection sf_config) /\ no_loop (cf_connection sf_config) /\
  exists w0 l w ocs k e, whole_run (net_of None [] sf_waiter) [] w0 l w ocs /\ granted l /\ whole_locked (net_of None [] sf_waiter) [] w0 l /\ ocs k = Ended (Err e).
Proof. exact breaks_ends. Qed.

(** C104: marking the pipes does not help against a source that is missing: the drain behind it waits for ever. *)
Theorem C104_missing_refuted : exists c w, good_connections (cf_connection c) /\ prepares in_order c w [] /\ giving_way (cf_connection c) /\ passing (cf_connection c) /\ no_loop (cf_connection c) /\
  exists w0 l wl ocs nm k, whole_run (net_of None [] w) [] w0 l wl ocs /\ only_wrong (EOpenRead nm) l /\ whole_locked (net_of None [] w) [] w0 l /\ k < List.length (net_of None [] w) /\ ocs k = Going.
Proof. exact missing_holds. Qed.
Print Assumptions C104_missing_refuted.
