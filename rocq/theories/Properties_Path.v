(** * Properties_Path: C92 *)
From Coq Require Import Ascii String List Bool Arith.
From Verif Require Import M_Prog M_Motion M_Config M_Manip M_Regulator M_Waiter S_Manip S_Waiter S_Trace S_Motion S_World S_Junction S_Network S_Net S_Regulator M_Start S_Start S_Shape S_Watch S_Delay S_Flow S_Path P_Path P_PathRun P_Jam P_SpringExamples P_PathExamples.
Import ListNotations.

(** At any time: what has been written to a file, or to a program, is a mix of the beginnings of what was read from the faucets and programs from which the connections lead there. *)
Theorem C92_at_any_time : forall sh cwd vars c w cs, S_Manip.fair sh -> good_connections (cf_connection c) -> prepares sh c w cs ->
  forall ps, spelled (cf_connection c) ps -> passing (cf_connection c) ->
  forall w0 l wl ocs x ss, fst x = CDrain \/ fst x = CLaunch -> arrivals ps x <> [] -> supplied ps x ss -> apart (cf_connection c) -> free_run (net_of cwd vars w) cs w0 l wl ocs ->
  forall ms, has_got c w cwd vars l x ms -> exists mss pss, Forall2 (has_given c w cwd vars l) ss mss /\ beginnings pss mss /\ interleave pss ms.
Proof. exact path_begins. Qed.
Print Assumptions C92_at_any_time.
(** In the end: all of them have been read to their ends, and what was written is a mix of all that was read. *)
Theorem C92_in_the_end : forall sh cwd vars c w cs, S_Manip.fair sh -> good_connections (cf_connection c) -> prepares sh c w cs ->
  forall ps, spelled (cf_connection c) ps -> passing (cf_connection c) ->
  forall w0 l wl ocs x ss, fst x = CDrain \/ fst x = CLaunch -> arrivals ps x <> [] -> supplied ps x ss -> apart (cf_connection c) -> free_run (net_of cwd vars w) cs w0 l wl ocs ->
  willing l -> all_succeeded (net_of cwd vars w) ocs ->
  Forall (at_end c w cwd vars l) ss /\ served c w cwd vars l x /\
  exists mss ms, Forall2 (has_given c w cwd vars l) ss mss /\ interleave mss ms /\ forall ms', has_got c w cwd vars l x ms' -> ms' = ms.
Proof. exact path_ends. Qed.
Print Assumptions C92_in_the_end.
(** Without loops it is known of everything where it comes from. *)
Theorem C92_from_somewhere : forall sh c w cs, S_Manip.fair sh -> good_connections (cf_connection c) -> prepares sh c w cs ->
  forall ps, spelled (cf_connection c) ps -> forall x, no_loop (cf_connection c) -> exists ss, supplied ps x ss /\ forall ss', supplied ps x ss' -> ss' = ss.
Proof. exact (fun sh => path_somewhere sh None nil). Qed.
Print Assumptions C92_from_somewhere.
(** What a source has given is one list of messages. *)
Theorem C92_given_once : forall sh cwd vars c w cs, S_Manip.fair sh -> good_connections (cf_connection c) -> prepares sh c w cs ->
  forall ps, spelled (cf_connection c) ps -> passing (cf_connection c) -> apart (cf_connection c) ->
  forall l x ss s, fst x = CDrain \/ fst x = CLaunch -> arrivals ps x <> [] -> supplied ps x ss -> In s ss ->
  forall ms ms', has_given c w cwd vars l s ms -> has_given c w cwd vars l s ms' -> ms' = ms.
Proof. exact given_once. Qed.
Print Assumptions C92_given_once.
(** The connections of any good configuration are spelled out in one way. *)
Theorem C92_spelled : forall m, good_connections m -> exists ps, spelled m ps /\ forall ps', spelled m ps' -> ps' = ps.
Proof. exact spelled_one. Qed.
Print Assumptions C92_spelled.

(** Two files are read; all lines are written to two files. *)
Example C92_example : exists ps w0 l wl ocs b1 b2 a1 a2, spelled (cf_connection jm_config) ps /\ whole_run (net_of None [] jm_waiter) jm_controllers w0 l wl ocs /\ willing l /\ all_succeeded (net_of None [] jm_waiter) ocs /\
  b1 = line_of "b" "1" /\ b2 = line_of "b" "2" /\ a1 = line_of "a" "1" /\ a2 = line_of "a" "2" /\
  (supplied ps (CDrain, "out"%string) [from_b; from_a] /\ supplied ps (CDrain, "log"%string) [from_b; from_a]) /\
  (has_given jm_config jm_waiter None [] l from_b [b1; b2] /\ has_given jm_config jm_waiter None [] l from_a [a1; a2]) /\
  has_got jm_config jm_waiter None [] l (CDrain, "out"%string) [b1; b2; a1; a2] /\ has_got jm_config jm_waiter None [] l (CDrain, "log"%string) [b1; b2; a1; a2].
Proof. exact path_shown. Qed.
