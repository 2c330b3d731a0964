(** * Properties_Flow: C91 *)
From Coq Require Import Ascii String List Bool Arith.
From Verif Require Import M_Prog M_Motion M_Config M_Manip M_Regulator M_Waiter S_Manip S_Waiter S_Trace S_Motion S_World S_Junction S_Network S_Net S_Regulator M_Start S_Start S_Shape S_Watch S_Delay S_Flow P_SpringRun P_Jam P_SpringExamples.
Import ListNotations.

(** At any time: what has been written where a channel ends is a mix of the beginnings of what was read at the sources that feed the channel. *)
Theorem C91_at_any_time : forall sh cwd vars c w cs, S_Manip.fair sh -> good_connections (cf_connection c) -> prepares sh c w cs -> passing (cf_connection c) ->
  forall w0 l wl ocs n os ms, apart (cf_connection c) -> free_run (net_of cwd vars w) cs w0 l wl ocs -> fed_by (net_of cwd vars w) n os -> target_got (net_of cwd vars w) l n ms ->
  exists mss ps, Forall2 (source_gave (net_of cwd vars w) l) os mss /\ beginnings ps mss /\ interleave ps ms.
Proof. exact prepared_begins. Qed.
Print Assumptions C91_at_any_time.
(** In the end: every source has been read to its end, and what has been written is a mix of all that was read. *)
Theorem C91_in_the_end : forall sh cwd vars c w cs, S_Manip.fair sh -> good_connections (cf_connection c) -> prepares sh c w cs -> passing (cf_connection c) ->
  forall w0 l wl ocs n os, apart (cf_connection c) -> free_run (net_of cwd vars w) cs w0 l wl ocs -> willing l -> all_succeeded (net_of cwd vars w) ocs -> fed_by (net_of cwd vars w) n os ->
  Forall (source_spent (net_of cwd vars w) l) os /\ target_served (net_of cwd vars w) l n /\
  exists mss ms, Forall2 (source_gave (net_of cwd vars w) l) os mss /\ interleave mss ms /\ forall ms', target_got (net_of cwd vars w) l n ms' -> ms' = ms.
Proof. exact prepared_all. Qed.
Print Assumptions C91_in_the_end.
(** Without loops every channel is fed by some sources. *)
Theorem C91_fed : forall sh cwd vars c w cs, S_Manip.fair sh -> good_connections (cf_connection c) -> prepares sh c w cs -> passing (cf_connection c) ->
  forall n, no_loop (cf_connection c) -> In n (flat_map comp_outs (net_of cwd vars w)) -> exists os, fed_by (net_of cwd vars w) n os.
Proof. exact prepared_somehow. Qed.
Print Assumptions C91_fed.

(** Two files are read; all lines are written to two files. *)
Example C91_example : exists w0 l wl ocs b1 b2 a1 a2, whole_run (net_of None [] jm_waiter) jm_controllers w0 l wl ocs /\ willing l /\ all_succeeded (net_of None [] jm_waiter) ocs /\
  b1 = line_of "b" "1" /\ b2 = line_of "b" "2" /\ a1 = line_of "a" "1" /\ a2 = line_of "a" "2" /\
  (fed_by (net_of None [] jm_waiter) 4 [2; 5] /\ fed_by (net_of None [] jm_waiter) 7 [2; 5]) /\
  (source_gave (net_of None [] jm_waiter) l 2 [b1; b2] /\ source_gave (net_of None [] jm_waiter) l 5 [a1; a2]) /\
  target_got (net_of None [] jm_waiter) l 4 [b1; b2; a1; a2] /\ target_got (net_of None [] jm_waiter) l 7 [b1; b2; a1; a2].
Proof. exact mixed. Qed.
