(** * Properties of what a run reports and delivers (src/waiter.rs 352-420, src/bin/pa2.rs) *)
From Coq Require Import Ascii String List Bool Arith Permutation.
From Verif Require Import M_Prog M_Motion M_Drain M_Config M_Manip M_Cli M_Waiter M_Start M_Errors M_Report S_World S_Net S_Manip S_Watch S_Shape S_Flow S_Path S_Bytes S_Errors S_Report S_Delivery S_Drain M_Serde
  P_WaiterExamples P_CliExamples P_BytesExamples P_SoftExamples P_Report P_Delivery P_ReportExamples.
Import ListNotations.

(** C119: a run is over when everything in it has ended ... *)
Theorem C119_over : forall ocs time cwd vars w cs w0 l wl, free_run (net_of cwd vars w) cs w0 l wl ocs ->
  ((exists r, start_result ocs time w cs = Some r) <-> forall k, k < length (roster w) + length cs -> has_ended ocs k).
Proof. exact start_comes. Qed.
Print Assumptions C119_over.
(** ... it succeeds if all of it did, and otherwise gives one error for each component that failed, and no other ... *)
Theorem C119_reported : forall ocs time w cs r, start_result ocs time w cs = Some r ->
  match r with
  | Ok n => (forall k, k < length (roster w) + length cs -> exists m, ocs k = Ended (Ok m)) /\ n = list_sum (map (moved ocs) (seq 0 (length (roster w) + length cs)))
  | Err es => es <> [] /\ Permutation es (flat_map (blame ocs time) (placed 0 (roster w)))
  end.
Proof. exact start_reports. Qed.
Print Assumptions C119_reported.
(** ... by the kind and the name it has in the configuration ... *)
Theorem C119_named : forall cwd vars w k x, nth_error (roster w) k = Some x -> exists y, nth_error (net_of cwd vars w) k = Some y /\ known_as w x y.
Proof. exact roster_net. Qed.
Print Assumptions C119_named.
(** ... and pa2 lists these errors and ends with 1, or is silent and ends with 0 if there are none. *)
Theorem C119_exit : forall mc os sh typed c w cs, S_Manip.fair sh -> good_connections (cf_connection c) -> asked_to_run os typed c -> prepares sh c w cs -> (forall l, mc_settings mc l = l) ->
  forall cwd vars w0 l wl ocs time, free_run (net_of cwd vars w) cs w0 l wl ocs -> run_results ocs time w cs = Some (mc_run mc w cs) ->
  exists names, w_names w = Some names /\
  ((main mc os sh typed = Some (Good (Ending [] [] 0)) /\ forall k, k < length (roster w) -> exists n, ocs k = Ended (Ok n)) \/
   exists es, es <> [] /\ Permutation es (flat_map (blame ocs time) (placed 0 (roster w))) /\
     main mc os sh typed = Some (Good (Ending [] (listed (map (waiter_error_to_string (mc_lib mc) (mc_debug mc) names) es)) 1))).
Proof. exact exit_reports. Qed.
Print Assumptions C119_exit.
Example C119_example : good_connections (cf_connection sf_config) /\ prepares in_order sf_config sf_waiter [] /\ asked_to_run (one_file (ser_config sf_config)) to_run sf_config /\ (forall l, mc_settings sf_machine l = l) /\
  exists w0 l wl ocs time, free_run (net_of None [] sf_waiter) [] w0 l wl ocs /\ run_results ocs time sf_waiter [] = Some (mc_run sf_machine sf_waiter []) /\
    start_result ocs time sf_waiter [] = Some (Err [CausedByError CDrain "bad" (Timed sf_failure 6)]) /\
    main sf_machine (one_file (ser_config sf_config)) in_order to_run =
      Some (Good (Ending [] ["Error(s) have occurred:"; ""; " * Junction:junction_1 | Drain:bad - <MotionError::OutputClosed: BrokenPipe>"; ""]%string 1)).
Proof. exact failure_reported. Qed.

(** C120: if pa2 process ends with 0, all that the sources of a drain are to read has been read, and its file holds exactly this. *)
Theorem C120_delivered : forall mc os sh typed c w cs, S_Manip.fair sh -> good_connections (cf_connection c) -> asked_to_run os typed c -> prepares sh c w cs -> (forall l, mc_settings mc l = l) ->
  passing (cf_connection c) -> apart (cf_connection c) -> forall ps, spelled (cf_connection c) ps ->
  forall cwd vars w0 l wl ocs time, free_run (net_of cwd vars w) cs w0 l wl ocs -> run_results ocs time w cs = Some (mc_run mc w cs) ->
  forall en, main mc os sh typed = Some (Good en) -> en_code en = 0 ->
  forall n ss, arrivals ps (CDrain, n) <> [] -> supplied ps (CDrain, n) ss -> Forall (at_end c w cwd vars l) ss /\
  exists rss, Forall2 (has_read c w cwd vars l) ss rss /\
  (forall name, actual_destination (location n (cf_drain c)) = ToFile name -> exists data, file_holds c w cwd vars l n data) /\
  forall data, file_holds c w cwd vars l n data -> Permutation data (concat (map (@concat _) rss)) /\ forall rs, rss = [rs] -> data = concat rs.
Proof. exact exit_delivers. Qed.
Print Assumptions C120_delivered.
Example C120_example : good_connections (cf_connection pg_config) /\ prepares in_order pg_config pg_waiter [] /\ passing (cf_connection pg_config) /\ apart (cf_connection pg_config) /\
  asked_to_run (one_file (ser_config pg_config)) to_run pg_config /\ (forall l, mc_settings pg_machine l = l) /\
  exists ps w0 l wl ocs time, spelled (cf_connection pg_config) ps /\ free_run (net_of None [] pg_waiter) [] w0 l wl ocs /\ run_results ocs time pg_waiter [] = Some (mc_run pg_machine pg_waiter []) /\
    start_result ocs time pg_waiter [] = Some (Ok 14) /\ main pg_machine (one_file (ser_config pg_config)) in_order to_run = Some (Good (Ending [] [] 0)) /\
    arrivals ps (CDrain, "out"%string) <> [] /\ supplied ps (CDrain, "out"%string) [of_program POut] /\
    has_read pg_config pg_waiter None [] l (of_program POut) [["?"%char]; ["y"; "010"]%char; ["x"; "010"]%char; ["z"%char]; []; []] /\
    file_holds pg_config pg_waiter None [] l "out" ["?"; "y"; "010"; "x"; "010"; "z"]%char /\ file_holds pg_config pg_waiter None [] l "code" ["0"%char].
Proof. exact program_reported. Qed.
