(** * Properties of how far what is read runs ahead of what is written (src/faucet.rs 71, src/regulator.rs 70, src/junction.rs 146, src/buffer.rs 35, 83: the channels and their sizes) *)
From Coq Require Import Ascii String List.
From Verif Require Import M_Prog M_Motion M_Config M_Manip M_Waiter S_Manip S_Trace S_Motion S_World S_Network S_Net M_Start S_Start S_Shape S_Watch S_Path S_Lag P_ManipExamples P_LagRun P_LagExamples P_Unheld.
Import ListNotations.
Local Open Scope list_scope.

(** C111: where the connections lead from a faucet or a program through nothing but regulators and junctions to a file or a program, the sender has never sent more than what has been written there
    and what the pipes between can hold: 9 messages each, 9 more where an output is used by several, and 9 more where several come together. This is so at every moment, in whatever order
    they are polled. *)
Theorem C111_held_back : forall sh cwd vars c w cs, S_Manip.fair sh -> good_connections (cf_connection c) -> prepares sh c w cs ->
  forall ps, spelled (cf_connection c) ps -> passing (cf_connection c) -> apart (cf_connection c) ->
  forall w0 l wl ocs s x h ks ms, free_run (net_of cwd vars w) cs w0 l wl ocs -> willing l -> fst x = CDrain \/ fst x = CLaunch ->
  leads_to at_once ps s x h -> has_sent c w cwd vars l s ks -> has_got c w cwd vars l x ms -> List.length ks <= List.length ms + h.
Proof. exact not_far. Qed.
Print Assumptions C111_held_back.
(** It can come to this: thirty lines have been sent, three have been written, and the pipes between hold twenty-seven. *)
Example C111_example : good_connections (cf_connection lg_config) /\ prepares in_order lg_config lg_waiter [] /\ passing (cf_connection lg_config) /\ apart (cf_connection lg_config) /\
  exists ps w0 l wl ocs ks ms, spelled (cf_connection lg_config) ps /\ whole_run (net_of None [] lg_waiter) [] w0 l wl ocs /\ willing l /\ leads_to at_once ps from_in (CDrain, "out"%string) 27 /\
    has_sent lg_config lg_waiter None [] l from_in ks /\ has_got lg_config lg_waiter None [] l (CDrain, "out"%string) ms /\ List.length ks = 30 /\ List.length ms = 3.
Proof. exact just_as_far. Qed.

(** C112: with a buffer on the way that nobody watches, this is not so: the sender is more than ten times as far ahead as the pipes can hold. *)
Theorem C112_not_held_back_refuted : exists c w cs ps w0 l wl ocs s n h ks ms, good_connections (cf_connection c) /\ prepares in_order c w cs /\ passing (cf_connection c) /\ apart (cf_connection c) /\ spelled (cf_connection c) ps /\
  whole_run (net_of None [] w) cs w0 l wl ocs /\ willing l /\ leads_to in_the_end ps s (CDrain, n) h /\ has_sent c w None [] l s ks /\ has_got c w None [] l (CDrain, n) ms /\ List.length ms + 10 * h < List.length ks.
Proof. exact far_ahead. Qed.
Print Assumptions C112_not_held_back_refuted.
(** There is no bound at all: of one configuration and for every number there is a run, as the program polls, in which the source is further ahead than that. *)
Theorem C112_without_bound_refuted : exists c w cs ps w0 s n h, good_connections (cf_connection c) /\ prepares in_order c w cs /\ passing (cf_connection c) /\ apart (cf_connection c) /\ spelled (cf_connection c) ps /\ leads_to in_the_end ps s (CDrain, n) h /\
  forall N, exists l wl ocs ks ms, whole_run (net_of None [] w) cs w0 l wl ocs /\ willing l /\ has_sent c w None [] l s ks /\ has_got c w None [] l (CDrain, n) ms /\ List.length ms + N < List.length ks.
Proof. exact without_bound. Qed.
Print Assumptions C112_without_bound_refuted.
