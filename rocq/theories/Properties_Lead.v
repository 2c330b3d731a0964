(** * Properties of what still comes through when something breaks (README.src.md: the pipe markers T, F and C) *)
From Coq Require Import Ascii String List.
From Verif Require Import M_Prog M_Motion M_Config M_Manip M_Waiter S_Manip S_Trace S_Motion S_World S_Junction S_Network S_Net M_Start S_Start S_Shape S_Watch S_Flow S_Path S_Soft S_Lead P_ManipExamples P_LeadRun P_LeadEnds P_SoftExamples P_LeadExamples.
Import ListNotations.
Local Open Scope list_scope.

(** C105: whatever else has failed or was refused on the way, and whatever the marks of the pipes: when all have come to their ends, then a file or a program whose component went well
    and was not hurt itself has got everything that the faucets and programs have given from which the connections lead there, as long as these went well ... *)
Theorem C105_all_the_same : forall sh cwd vars c w cs, S_Manip.fair sh -> good_connections (cf_connection c) -> prepares sh c w cs ->
  passing (cf_connection c) -> apart (cf_connection c) -> forall ps, spelled (cf_connection c) ps ->
  forall w0 l wl ocs x ss, fst x = CDrain \/ fst x = CLaunch -> arrivals ps x <> [] -> supplied ps x ss ->
  free_run (net_of cwd vars w) cs w0 l wl ocs -> all_ended (net_of cwd vars w) ocs ->
  (forall k, stands_at c w cwd vars x k -> went_well ocs k /\ ~ hurt (did k l)) ->
  (forall s k, In s ss -> stands_at c w cwd vars (fst s) k -> went_well ocs k) ->
  Forall (at_end c w cwd vars l) ss /\ served c w cwd vars l x /\
  exists mss ms, Forall2 (has_given c w cwd vars l) ss mss /\ interleave mss ms /\ forall ms', has_got c w cwd vars l x ms' -> ms' = ms.
Proof. exact path_led. Qed.
Print Assumptions C105_all_the_same.
(** ... and over pipes that give way, with nothing flowing back and no regulator set to watch, the file gets everything as soon as nobody will ever do anything again:
    it is enough that neither it nor the files that it comes from were hurt. *)
Theorem C105_giving_way : forall sh cwd vars c w, S_Manip.fair sh -> good_connections (cf_connection c) -> prepares sh c w [] -> giving_way (cf_connection c) ->
  passing (cf_connection c) -> no_loop (cf_connection c) ->
  forall w0 l wl ocs, whole_run (net_of cwd vars w) [] w0 l wl ocs -> granted l -> whole_locked (net_of cwd vars w) [] w0 l ->
  forall ps, spelled (cf_connection c) ps -> forall x ss, fst x = CDrain -> arrivals ps x <> [] -> supplied ps x ss -> (forall s, In s ss -> fst (fst s) = CFaucet) ->
  (forall y k, y = x \/ In y (map fst ss) -> stands_at c w cwd vars y k -> ~ hurt (did k l)) ->
  Forall (at_end c w cwd vars l) ss /\ served c w cwd vars l x /\
  exists mss ms, Forall2 (has_given c w cwd vars l) ss mss /\ interleave mss ms /\ forall ms', has_got c w cwd vars l x ms' -> ms' = ms.
Proof. exact marked_led. Qed.
Print Assumptions C105_giving_way.
(** One of two files breaks; the other gets all sixteen lines. *)
Example C105_example : good_connections (cf_connection sf_config) /\ prepares in_order sf_config sf_waiter [] /\ giving_way (cf_connection sf_config) /\ passing (cf_connection sf_config) /\ no_loop (cf_connection sf_config) /\
  exists ps, spelled (cf_connection sf_config) ps /\ arrivals ps (CDrain, "good"%string) <> [] /\ supplied ps (CDrain, "good"%string) [from_in] /\
  exists w0 l wl ocs e ms, whole_run (net_of None [] sf_waiter) [] w0 l wl ocs /\ granted l /\ whole_locked (net_of None [] sf_waiter) [] w0 l /\ ocs 1 = Ended (Err e) /\
    (forall y k, y = (CDrain, "good"%string) \/ In y (map fst [from_in]) -> stands_at sf_config sf_waiter None [] y k -> ~ hurt (did k l)) /\
    List.length ms = 16 /\ has_given sf_config sf_waiter None [] l from_in ms /\ has_got sf_config sf_waiter None [] l (CDrain, "good"%string) ms.
Proof. exact led_shown. Qed.

(** C106: over pipes that do not give way this is not so: one of two files breaks, and the other, which is well and whose source went well, is left with a part of the lines and waits for ever. *)
Theorem C106_left_waiting_refuted : exists c w ps, good_connections (cf_connection c) /\ prepares in_order c w [] /\ passing (cf_connection c) /\ no_loop (cf_connection c) /\ spelled (cf_connection c) ps /\
  exists x s kx ks, fst x = CDrain /\ fst (fst s) = CFaucet /\ supplied ps x [s] /\ stands_at c w None [] x kx /\ stands_at c w None [] (fst s) ks /\
  exists w0 l wl ocs, whole_run (net_of None [] w) [] w0 l wl ocs /\ granted l /\ whole_locked (net_of None [] w) [] w0 l /\
    ~ hurt (did kx l) /\ ~ hurt (did ks l) /\ went_well ocs ks /\ ocs kx = Going /\
    exists ms ms', has_given c w None [] l s ms /\ has_got c w None [] l x ms' /\ List.length ms' < List.length ms.
Proof. exact left_waiting. Qed.
Print Assumptions C106_left_waiting_refuted.
