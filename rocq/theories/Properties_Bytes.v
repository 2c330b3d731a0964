(** * Properties_Bytes: C93, C94 *)
From Coq Require Import Ascii String List Bool Arith Permutation.
From Verif Require Import M_Prog M_Motion M_Config M_Manip M_Regulator M_Waiter S_Manip S_Waiter S_Trace S_Lines S_Motion S_World S_Launch S_Junction S_Network S_Net S_Regulator M_Start S_Start S_Shape S_Watch S_Delay S_Flow S_Path S_Bytes P_Bytes P_Jam P_SpringExamples P_PathExamples P_BytesExamples.
Import ListNotations.

(** At any time: what has been written to a target that only one source leads to is the beginning of the bytes read from that source. *)
Theorem C93_so_far : forall sh cwd vars c w cs, S_Manip.fair sh -> good_connections (cf_connection c) -> prepares sh c w cs ->
  forall ps, spelled (cf_connection c) ps -> passing (cf_connection c) ->
  forall w0 l wl ocs x, fst x = CDrain \/ fst x = CLaunch -> arrivals ps x <> [] -> apart (cf_connection c) -> free_run (net_of cwd vars w) cs w0 l wl ocs ->
  forall s ms, supplied ps x [s] -> has_got c w cwd vars l x ms -> exists rs, has_read c w cwd vars l s rs /\ prefix (concat ms) (concat rs).
Proof. exact copied_so_far. Qed.
Print Assumptions C93_so_far.
(** In the end: it is all of them. *)
Theorem C93_copied : forall sh cwd vars c w cs, S_Manip.fair sh -> good_connections (cf_connection c) -> prepares sh c w cs ->
  forall ps, spelled (cf_connection c) ps -> passing (cf_connection c) ->
  forall w0 l wl ocs x, fst x = CDrain \/ fst x = CLaunch -> arrivals ps x <> [] -> apart (cf_connection c) -> free_run (net_of cwd vars w) cs w0 l wl ocs ->
  forall s, supplied ps x [s] -> willing l -> all_succeeded (net_of cwd vars w) ocs -> exists rs, has_read c w cwd vars l s rs /\ forall ms, has_got c w cwd vars l x ms -> concat ms = concat rs.
Proof. exact copied. Qed.
Print Assumptions C93_copied.
(** Where several sources lead: every byte that was read is written once, and no other. *)
Theorem C93_same_bytes : forall sh cwd vars c w cs, S_Manip.fair sh -> good_connections (cf_connection c) -> prepares sh c w cs ->
  forall ps, spelled (cf_connection c) ps -> passing (cf_connection c) ->
  forall w0 l wl ocs x, fst x = CDrain \/ fst x = CLaunch -> arrivals ps x <> [] -> apart (cf_connection c) -> free_run (net_of cwd vars w) cs w0 l wl ocs ->
  forall ss, supplied ps x ss -> willing l -> all_succeeded (net_of cwd vars w) ocs ->
  exists rss, Forall2 (has_read c w cwd vars l) ss rss /\ forall ms, has_got c w cwd vars l x ms -> Permutation (concat ms) (concat (map (@concat _) rss)).
Proof. exact same_bytes. Qed.
Print Assumptions C93_same_bytes.
(** Without loops, when nothing moves any more: a buffer is choked (C90), or every target that one source leads to has all the bytes of that source. *)
Theorem C93_standstill : forall sh cwd vars c w cs, S_Manip.fair sh -> good_connections (cf_connection c) -> prepares sh c w cs ->
  forall ps, spelled (cf_connection c) ps -> passing (cf_connection c) -> no_loop (cf_connection c) ->
  forall w0 l wl ocs, whole_run (net_of cwd vars w) cs w0 l wl ocs -> willing l -> whole_locked (net_of cwd vars w) cs w0 l ->
  (exists k m cp, ocs k = Going /\ choked (net_of cwd vars w) cs l wl k m cp) \/
  forall x s, fst x = CDrain \/ fst x = CLaunch -> arrivals ps x <> [] -> supplied ps x [s] -> exists rs, has_read c w cwd vars l s rs /\ forall ms, has_got c w cwd vars l x ms -> concat ms = concat rs.
Proof. exact copied_still. Qed.
Print Assumptions C93_standstill.
(** The bytes read from a source are one text. *)
Theorem C93_read_once : forall sh cwd vars c w cs, S_Manip.fair sh -> good_connections (cf_connection c) -> prepares sh c w cs ->
  forall ps, spelled (cf_connection c) ps -> passing (cf_connection c) -> apart (cf_connection c) ->
  forall l x ss s, fst x = CDrain \/ fst x = CLaunch -> arrivals ps x <> [] -> supplied ps x ss -> In s ss ->
  forall rs rs', has_read c w cwd vars l s rs -> has_read c w cwd vars l s rs' -> concat rs' = concat rs.
Proof. exact read_once. Qed.
Print Assumptions C93_read_once.
(** A program reads a file; its standard output, its standard error and its exit status are written to files. *)
Example C93_example : exists ps w0 l wl ocs, spelled (cf_connection pg_config) ps /\ free_run (net_of None [] pg_waiter) [] w0 l wl ocs /\ willing l /\ all_succeeded (net_of None [] pg_waiter) ocs /\
  (supplied ps (CLaunch, "prog"%string) [of_file] /\ supplied ps (CDrain, "out"%string) [of_program POut] /\ supplied ps (CDrain, "err"%string) [of_program PErr] /\ supplied ps (CDrain, "code"%string) [of_program PExit]) /\
  (has_read pg_config pg_waiter None [] l of_file [line_of "i" "n" ++ ["e"%char]; ["n"%char; "d"%char]; []; []] /\ has_got pg_config pg_waiter None [] l (CLaunch, "prog"%string) [line_of "i" "n"; ["e"%char; "n"%char; "d"%char]]) /\
  (has_read pg_config pg_waiter None [] l (of_program POut) [["?"%char]; ["y"%char; "010"%char]; ["x"%char; "010"%char]; ["z"%char]; []; []] /\ has_got pg_config pg_waiter None [] l (CDrain, "out"%string) [line_of "?" "y"; ["x"%char; "010"%char]; ["z"%char]]) /\
  (has_read pg_config pg_waiter None [] l (of_program PErr) [["!"%char]; ["?"%char; "010"%char]; ["."%char]; []; []] /\ has_got pg_config pg_waiter None [] l (CDrain, "err"%string) [line_of "!" "?"; ["."%char]]) /\
  (has_read pg_config pg_waiter None [] l (of_program PExit) [["0"%char]] /\ has_got pg_config pg_waiter None [] l (CDrain, "code"%string) [["0"%char]]).
Proof. exact program_copied. Qed.

(** Where files are merged, the lines are not always lines of the files: b.txt ends without the end of a line, and its last line is written together with a line of a.txt. *)
Theorem C94_merge_keeps_lines_refuted : exists ps w0 l wl ocs b a ms, spelled (cf_connection jm_config) ps /\ whole_run (net_of None [] jm_waiter) jm_controllers w0 l wl ocs /\ willing l /\ all_succeeded (net_of None [] jm_waiter) ocs /\
  supplied ps (CDrain, "out"%string) [from_b; from_a] /\ has_read jm_config jm_waiter None [] l from_b b /\ has_read jm_config jm_waiter None [] l from_a a /\ eof_final b /\ eof_final a /\ has_got jm_config jm_waiter None [] l (CDrain, "out"%string) ms /\
  In ["b"%char; "2"%char; "a"%char; "2"%char; newline] (lines (concat ms)) /\ ~ interleave [lines (concat b); lines (concat a)] (lines (concat ms)).
Proof. exact glued. Qed.
Print Assumptions C94_merge_keeps_lines_refuted.
(** It holds when what was read from every source ends where a line ends: the lines written are a mix of their lines. *)
Theorem C94_whole_lines : forall sh cwd vars c w cs, S_Manip.fair sh -> good_connections (cf_connection c) -> prepares sh c w cs ->
  forall ps, spelled (cf_connection c) ps -> passing (cf_connection c) ->
  forall w0 l wl ocs x, fst x = CDrain \/ fst x = CLaunch -> arrivals ps x <> [] -> apart (cf_connection c) -> free_run (net_of cwd vars w) cs w0 l wl ocs ->
  forall ss, supplied ps x ss -> willing l -> all_succeeded (net_of cwd vars w) ocs ->
  exists rss, Forall2 (has_read c w cwd vars l) ss rss /\
  (Forall (fun rs => eof_final rs /\ full_lines (concat rs)) rss -> forall ms, has_got c w cwd vars l x ms -> interleave (map (fun rs => lines (concat rs)) rss) (lines (concat ms))).
Proof. exact whole_lines. Qed.
Print Assumptions C94_whole_lines.
(** An exit status never ends a line. *)
Theorem C94_exit_no_line : forall code m, exit_text code m -> m <> [] /\ ~ In newline m.
Proof. exact exit_no_line. Qed.
Print Assumptions C94_exit_no_line.
