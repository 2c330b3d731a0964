(** * Properties of what is on the way, in the pipes and in the stores of the buffers (src/buffer.rs 33-38, 81-109: the store has no limit, what is before and after it has) *)
From Coq Require Import Ascii String List.
From Verif Require Import M_Prog M_Motion M_Config M_Manip M_Waiter S_Manip S_Trace S_Motion S_World S_Network S_Net M_Start S_Start S_Shape S_Watch S_Path S_Bounded S_Lag S_Backlog P_ManipExamples P_LagExamples P_BoundedExamples P_BacklogRun P_BacklogExamples.
Import ListNotations.
Local Open Scope list_scope.

(** C113: whatever has been sent and is not yet written is in one of the pipes between, which hold 9 messages each, or in the stores of the buffers on the way, or in the hand of one of these: nothing else on the way
    keeps anything. *)
Theorem C113_accounted_for : forall sh cwd vars c w cs, S_Manip.fair sh -> good_connections (cf_connection c) -> prepares sh c w cs ->
  forall ps, spelled (cf_connection c) ps -> passing (cf_connection c) -> apart (cf_connection c) ->
  forall w0 l wl ocs s x h bs ks ms, free_run (net_of cwd vars w) cs w0 l wl ocs -> willing l -> fst x = CDrain \/ fst x = CLaunch ->
  leads_over ps s x h bs -> has_sent c w cwd vars l s ks -> has_got c w cwd vars l x ms ->
  exists kbs, Forall2 (buffer_at cwd vars w) bs kbs /\ List.length ks <= List.length ms + h + in_stores (net_of cwd vars w) kbs wl.
Proof. exact on_the_way. Qed.
Print Assumptions C113_accounted_for.
(** Two hundred lines have been sent, three have been written, and of the rest all but ten are in the store. *)
Example C113_example : good_connections (cf_connection lb_config) /\ prepares in_order lb_config lb_waiter [] /\ passing (cf_connection lb_config) /\ apart (cf_connection lb_config) /\ buffer_at None [] lb_waiter "store"%string 2 /\
  exists ps w0 l wl ocs ks ms, spelled (cf_connection lb_config) ps /\ whole_run (net_of None [] lb_waiter) [] w0 l wl ocs /\ willing l /\ leads_over ps from_in (CDrain, "out"%string) 18 ["store"%string] /\
    has_sent lb_config lb_waiter None [] l from_in ks /\ has_got lb_config lb_waiter None [] l (CDrain, "out"%string) ms /\ List.length ks = 200 /\ List.length ms = 3 /\ stored (net_of None [] lb_waiter) 2 wl = 187.
Proof. exact mostly_stored. Qed.

(** C114: where every buffer on the way is fed by a regulator only that watches it, the sender is held back again: it is never further ahead than what the pipes hold and, for each buffer, 29 more than its regulator's mark. *)
Theorem C114_held_back_by_regulators : forall sh cwd vars c w cs, S_Manip.fair sh -> good_connections (cf_connection c) -> prepares sh c w cs ->
  forall ps, spelled (cf_connection c) ps -> passing (cf_connection c) -> apart (cf_connection c) -> NoDup (keys (cf_regulator c)) ->
  forall w0 l wl ocs s x h bs ks ms m, free_run (net_of cwd vars w) cs w0 l wl ocs -> willing l -> fst x = CDrain \/ fst x = CLaunch ->
  leads_over ps s x h bs -> Forall (guarded c m) bs -> has_sent c w cwd vars l s ks -> has_got c w cwd vars l x ms ->
  List.length ks <= List.length ms + h + List.length bs * (m + 29).
Proof. exact on_the_way_guarded. Qed.
Print Assumptions C114_held_back_by_regulators.
(** With the marks 2 and 5: thirty-three lines have been sent, two have been written, and the faucet waits although three hundred can be read. *)
Example C114_example : good_connections (cf_connection bd_config) /\ prepares in_order bd_config bd_waiter bd_controllers /\ passing (cf_connection bd_config) /\ apart (cf_connection bd_config) /\ NoDup (keys (cf_regulator bd_config)) /\ guarded bd_config 5 "store"%string /\
  exists ps w0 l wl ocs ks ms, spelled (cf_connection bd_config) ps /\ whole_run (net_of None [] bd_waiter) bd_controllers w0 l wl ocs /\ willing l /\ leads_over ps from_in (CDrain, "out"%string) 27 ["store"%string] /\
    has_sent bd_config bd_waiter None [] l from_in ks /\ has_got bd_config bd_waiter None [] l (CDrain, "out"%string) ms /\ List.length ks = 33 /\ List.length ms = 2.
Proof. exact kept_short. Qed.
