(** * Properties_Lasting: C95, C96 *)
From Coq Require Import Ascii String List Bool Arith.
From Verif Require Import M_Prog M_Motion M_Config M_Manip M_Regulator M_Waiter S_Manip S_Waiter S_Trace S_Motion S_World S_Network S_Net S_Regulator M_Start S_Start S_Shape S_Watch S_Delay S_Lasting P_Jam P_LastingRun P_LastingExamples.
Import ListNotations.

(** C95.  Regulators that watch buffers that come after them.  When all that can still happen is looking and waiting, all have succeeded, or the controller, if it is let
    go on, waits for its regulator while a buffer waits for it. *)
Theorem C95_looking : forall sh cwd vars c w cs, S_Manip.fair sh -> good_connections (cf_connection c) -> NoDup (keys (cf_regulator c)) -> prepares sh c w cs -> passing (cf_connection c) -> no_loop (cf_connection c) -> watches_ahead c ->
  forall w0 l wl ocs, whole_run (net_of cwd vars w) cs w0 l wl ocs -> willing l -> only_looks (net_of cwd vars w) cs w0 l ->
  everybody_succeeded (net_of cwd vars w) cs ocs \/
  exists k m cp l2 ocs2, ocs k = Going /\ (forall i ev, In (i, ev) l2 -> i = 4 * (length (net_of cwd vars w) + m) /\ forward ev = false) /\
    free_run (net_of cwd vars w) cs w0 (l ++ l2) wl ocs2 /\ choked (net_of cwd vars w) cs (l ++ l2) wl k m cp.
Proof. exact prepared_looking. Qed.
Print Assumptions C95_looking.
(** Nothing else lasts for ever: a run without end that forgets nobody, of finite inputs, is choked from some time on. *)
Theorem C95_lasting : forall sh cwd vars c w cs, S_Manip.fair sh -> good_connections (cf_connection c) -> NoDup (keys (cf_regulator c)) -> prepares sh c w cs -> passing (cf_connection c) -> no_loop (cf_connection c) -> watches_ahead c ->
  forall w0 f, whole_endless (net_of cwd vars w) cs w0 f -> whole_fair (net_of cwd vars w) cs w0 f -> limited f -> statuses_come f -> (forall n, willing (so_far f n)) ->
  ~ ~ choked_for_good (net_of cwd vars w) cs w0 f.
Proof. exact prepared_lasting. Qed.
Print Assumptions C95_lasting.
(** So there is no such run as long as no regulator's buffers receive as many messages as its high mark, less one for each buffer. *)
Theorem C95_small_ends : forall sh cwd vars c w cs, S_Manip.fair sh -> good_connections (cf_connection c) -> NoDup (keys (cf_regulator c)) -> prepares sh c w cs -> passing (cf_connection c) -> no_loop (cf_connection c) -> watches_ahead c ->
  forall w0 f, whole_endless (net_of cwd vars w) cs w0 f -> whole_fair (net_of cwd vars w) cs w0 f -> limited f -> statuses_come f -> (forall n, willing (so_far f n)) ->
  (forall n m cp ks, nth_error cs m = Some cp -> tellers (net_of cwd vars w) (cp_monitors cp) ks -> list_sum (map (fun k => S (received (net_of cwd vars w) k (so_far f n))) ks) < cp_high cp) -> False.
Proof. exact prepared_small_ends. Qed.
Print Assumptions C95_small_ends.

(** Both cases of the first, in the pipeline of C86. *)
Example C95_example_looking : good_connections (cf_connection jm_config) /\ NoDup (keys (cf_regulator jm_config)) /\ prepares in_order jm_config jm_waiter jm_controllers /\ passing (cf_connection jm_config) /\ no_loop (cf_connection jm_config) /\ watches_ahead jm_config /\
  (exists w0 l w ocs k m cp, whole_run (net_of None [] jm_waiter) jm_controllers w0 l w ocs /\ willing l /\ only_looks (net_of None [] jm_waiter) jm_controllers w0 l /\ ocs k = Going /\ choked (net_of None [] jm_waiter) jm_controllers l w k m cp) /\
  exists w0 l w ocs, whole_run (net_of None [] jm_waiter) jm_controllers w0 l w ocs /\ willing l /\ only_looks (net_of None [] jm_waiter) jm_controllers w0 l /\ everybody_succeeded (net_of None [] jm_waiter) jm_controllers ocs.
Proof. exact jammed_looking. Qed.
(** A run without end that forgets nobody. *)
Example C95_example_lasting : good_connections (cf_connection sp_config) /\ NoDup (keys (cf_regulator sp_config)) /\ prepares in_order sp_config sp_waiter sp_controllers /\ passing (cf_connection sp_config) /\ no_loop (cf_connection sp_config) /\ watches_ahead sp_config /\
  exists w0 f, whole_endless (net_of None [] sp_waiter) sp_controllers w0 f /\ whole_fair (net_of None [] sp_waiter) sp_controllers w0 f /\ limited f /\ statuses_come f /\ (forall n, willing (so_far f n)) /\ choked_for_good (net_of None [] sp_waiter) sp_controllers w0 f.
Proof. exact spinning_choked. Qed.

(** C96.  The same of regulators that watch any buffer is false: a regulator that watches a buffer that comes before it stops, once paused, the buffer from being emptied and is
    not resumed any more; its controller and the buffer's counter look and wait for ever, and the file to be written is never finished. *)
Theorem C96_behind_refuted : exists c w cs w0 f, good_connections (cf_connection c) /\ NoDup (keys (cf_regulator c)) /\ prepares in_order c w cs /\ passing (cf_connection c) /\ no_loop (cf_connection c) /\
  whole_endless (net_of None [] w) cs w0 f /\ whole_fair (net_of None [] w) cs w0 f /\ limited f /\ statuses_come f /\ (forall n, willing (so_far f n)) /\
  (exists n0, forall n, n0 <= n -> forward (snd (f n)) = false) /\
  (exists k d s, nth_error (net_of None [] w) k = Some (NDrain d s) /\ forall n wl ocs, whole_run (net_of None [] w) cs w0 (so_far f n) wl ocs -> ocs k = Going) /\
  ~ choked_for_good (net_of None [] w) cs w0 f.
Proof. exact behind_endless. Qed.
Print Assumptions C96_behind_refuted.
