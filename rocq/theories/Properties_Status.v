(** * Properties of programs in a run that ends with 0 (src/launch.rs, src/waiter.rs 352-420, src/bin/pa2.rs) *)
From Coq Require Import Ascii String List Bool Arith Permutation ZArith.
From Verif Require Import M_Prog M_Motion M_Drain M_Config M_Manip M_Cli M_Waiter M_Start M_Errors M_Report S_Lines S_World S_Net S_Manip S_Launch S_Junction S_Watch S_Shape S_Flow S_Path S_Bytes S_Soft S_Errors S_Report S_Delivery S_Drain M_Serde
  P_WaiterExamples P_CliExamples P_SpringExamples P_BytesExamples P_SoftExamples P_ReportExamples P_Status P_StatusExamples P_DelayExamples.
Import ListNotations.

(** C121 is false: a program ends with the status 3, and pa2 process with 0 ... *)
Theorem C121_unnoticed_refuted : exists mc os sh typed c w cs w0 l wl ocs time k, S_Manip.fair sh /\ good_connections (cf_connection c) /\ asked_to_run os typed c /\ prepares sh c w cs /\ (forall l, mc_settings mc l = l) /\
  free_run (net_of None [] w) cs w0 l wl ocs /\ run_results ocs time w cs = Some (mc_run mc w cs) /\ program_at w None [] "prog" k /\ exit_told (own (4 * k) l) = [Some 3%Z] /\
  main mc os sh typed = Some (Good (Ending [] [] 0)).
Proof.
  destruct gn_zero as (H1 & H2 & _ & _ & H3 & H4 & _ & H5 & H6 & H7). destruct gn_told as (H8 & H9 & _).
  eexists gn_machine, _, in_order, _, _, _, _, _, gn_events, _, gn_ends, (fun k => k), 0. exact (conj P_DelayExamples.in_order_fair (conj H1 (conj H3 (conj H2 (conj H4 (conj H5 (conj H6 (conj H8 (conj H9 H7))))))))).
Qed.
Print Assumptions C121_unnoticed_refuted.
(** ... but then every program with an exit port that is connected has ended, and a file at its exit port holds its status. *)
Theorem C121_told : forall mc os sh typed c w cs, S_Manip.fair sh -> good_connections (cf_connection c) -> asked_to_run os typed c -> prepares sh c w cs -> (forall l, mc_settings mc l = l) ->
  passing (cf_connection c) -> apart (cf_connection c) -> forall ps, spelled (cf_connection c) ps ->
  forall cwd vars w0 l wl ocs time, free_run (net_of cwd vars w) cs w0 l wl ocs -> run_results ocs time w cs = Some (mc_run mc w cs) ->
  forall en, main mc os sh typed = Some (Good en) -> en_code en = 0 ->
  forall n p, arrivals ps (CDrain, n) <> [] -> supplied ps (CDrain, n) [((CLaunch, p), PExit)] ->
  exists k code, program_at w cwd vars p k /\ exit_told (own (4 * k) l) = [code] /\ forall data, file_holds c w cwd vars l n data -> exit_text code data.
Proof. exact status_told. Qed.
Print Assumptions C121_told.
Example C121_example : (good_connections (cf_connection pg_config) /\ prepares in_order pg_config pg_waiter [] /\ passing (cf_connection pg_config) /\ apart (cf_connection pg_config) /\
  asked_to_run (one_file (ser_config pg_config)) to_run pg_config /\ (forall l, mc_settings gn_machine l = l) /\ spelled (cf_connection pg_config) pg_steps /\
  free_run (net_of None [] pg_waiter) [] pg_world gn_events (snd gn_run) gn_ends /\ run_results gn_ends (fun k => k) pg_waiter [] = Some (mc_run gn_machine pg_waiter []) /\
  main gn_machine (one_file (ser_config pg_config)) in_order to_run = Some (Good (Ending [] [] 0))) /\
  (arrivals pg_steps (CDrain, "code"%string) <> [] /\ supplied pg_steps (CDrain, "code"%string) [of_program PExit]) /\
  program_at pg_waiter None [] "prog" 0 /\ exit_told (own (4 * 0) gn_events) = [Some 3%Z] /\ file_holds pg_config pg_waiter None [] gn_events "code" ["3"%char].
Proof. refine (conj gn_zero (conj (conj _ (proj2 (proj2 (proj2 pg_supplied)))) gn_told)). discriminate. Qed.

(** C122 is false: a program stops reading, does not get the last line of the file, and pa2 process ends with 0 ... *)
Theorem C122_left_out_refuted : exists mc os sh typed c w cs ps w0 l wl ocs time ss m ms, S_Manip.fair sh /\ good_connections (cf_connection c) /\ asked_to_run os typed c /\ prepares sh c w cs /\ (forall l, mc_settings mc l = l) /\
  passing (cf_connection c) /\ apart (cf_connection c) /\ spelled (cf_connection c) ps /\
  free_run (net_of None [] w) cs w0 l wl ocs /\ run_results ocs time w cs = Some (mc_run mc w cs) /\ supplied ps (CLaunch, "prog"%string) [ss] /\
  has_given c w None [] l ss (ms ++ [m]) /\ has_got c w None [] l (CLaunch, "prog"%string) ms /\
  main mc os sh typed = Some (Good (Ending [] [] 0)).
Proof.
  destruct gn_zero as (H1 & H2 & Ha & Hb & H3 & H4 & Hc & H5 & H6 & H7). destruct gn_given as (H8 & H9 & H10).
  eexists gn_machine, _, in_order, _, _, _, _, _, _, gn_events, _, gn_ends, (fun k => k), of_file, last_line, [["i"; "n"; "010"]%char].
  exact (conj P_DelayExamples.in_order_fair (conj H1 (conj H3 (conj H2 (conj H4 (conj Ha (conj Hb (conj Hc (conj H5 (conj H6 (conj H8 (conj H9 (conj H10 H7))))))))))))).
Qed.
Print Assumptions C122_left_out_refuted.
(** ... but a program to which no write, and none of whose reads, was refused has got everything that was read. *)
Theorem C122_unhurt_partial : forall mc os sh typed c w cs, S_Manip.fair sh -> good_connections (cf_connection c) -> asked_to_run os typed c -> prepares sh c w cs -> (forall l, mc_settings mc l = l) ->
  passing (cf_connection c) -> apart (cf_connection c) -> forall ps, spelled (cf_connection c) ps ->
  forall cwd vars w0 l wl ocs time, free_run (net_of cwd vars w) cs w0 l wl ocs -> run_results ocs time w cs = Some (mc_run mc w cs) ->
  forall en, main mc os sh typed = Some (Good en) -> en_code en = 0 ->
  forall n ss, arrivals ps (CLaunch, n) <> [] -> supplied ps (CLaunch, n) ss -> (forall k, program_at w cwd vars n k -> ~ hurt (did k l)) ->
  Forall (at_end c w cwd vars l) ss /\ served c w cwd vars l (CLaunch, n) /\
  exists rss ms, Forall2 (has_read c w cwd vars l) ss rss /\ interleave (map S_Lines.messages_of_reads rss) ms /\ forall ms', has_got c w cwd vars l (CLaunch, n) ms' -> ms' = ms.
Proof. exact input_given. Qed.
Print Assumptions C122_unhurt_partial.
Example C122_example : (forall k, program_at pg_waiter None [] "prog" k -> ~ hurt (did k pg_events)) /\ supplied pg_steps (CLaunch, "prog"%string) [of_file] /\
  has_got pg_config pg_waiter None [] pg_events (CLaunch, "prog"%string) [["i"; "n"; "010"]%char; last_line].
Proof. exact (conj pg_unhurt (conj (proj1 pg_supplied) pg_given)). Qed.
