(** * Properties_Start: C38, C85 (from the configuration file on), C86, C87 *)
From Coq Require Import Ascii String List Bool Arith.
From Verif Require Import M_Prog M_Motion M_Config M_Waiter S_Manip S_Trace S_World S_Network S_Net M_Start S_Start P_Turn P_Fair P_Dam P_Rounds P_Jam.
Import ListNotations.

(** C38 is false also of a configuration file that is accepted, with channels as large as they are made and everybody polled as the program
    polls them: the output of a junction fed back to it through a regulator.  In a willing world nobody has ended and, in whatever order they
    were polled from now on, nobody will ever do anything again. *)
Theorem C38_whole_refuted : exists c net w0 l w ocs, good_connections (cf_connection c) /\ makes None [] in_order c net [] /\ whole_run net [] w0 l w ocs /\ willing l /\ none_ended net [] ocs /\ whole_locked net [] w0 l.
Proof. exact loop_jam. Qed.
Print Assumptions C38_whole_refuted.

(** C85 likewise: the source cannot be opened ... *)
Theorem C85_whole_source_refuted : exists c net w0 l w ocs nm, good_connections (cf_connection c) /\ makes None [] in_order c net [] /\ acyclic net /\ whole_run net [] w0 l w ocs /\ only_wrong (EOpenRead nm) l /\
  (exists k e, ocs k = Ended (Err e)) /\ (exists k, k < length net /\ ocs k = Going) /\ whole_locked net [] w0 l.
Proof. exact missing_jam. Qed.
Print Assumptions C85_whole_source_refuted.
(** ... one of two files cannot be created: the other drain waits for ever. *)
Theorem C85_whole_file_refuted : exists c net w0 l w ocs nm, good_connections (cf_connection c) /\ makes None [] in_order c net [] /\ acyclic net /\ whole_run net [] w0 l w ocs /\ only_wrong (ECreate nm) l /\
  (exists k e, ocs k = Ended (Err e)) /\ (exists k, k < length net /\ ocs k = Going) /\ whole_locked net [] w0 l.
Proof. exact fork_jam. Qed.
Print Assumptions C85_whole_file_refuted.

(** C86 is false: a regulator that watches a buffer behind it, in a pipeline in which nothing flows back.  The configuration is accepted, the channels
    are as large as they are made, everybody is polled as the program polls them, the world is willing; nobody has ended and nobody, controller included,
    will ever do anything again.  (The controller waits for room for its word to the regulator; the buffer waits for the controller to take its reports; the
    regulator, which has not read the word before, waits for the junction; the junction waits for the buffer.) *)
Theorem C86_regulated_refuted : exists c net cs w0 l w ocs, good_connections (cf_connection c) /\ makes None [] in_order c net cs /\ acyclic net /\ whole_run net cs w0 l w ocs /\ willing l /\ none_ended net cs ocs /\ whole_locked net cs w0 l.
Proof. exact regulated_jam. Qed.
Print Assumptions C86_regulated_refuted.

(** C87.  The runs of a pipeline without controllers that is polled as the program polls it are runs of its network, with the parts of every buffer polled in turn;
    so C36, C37, C83 and C84 hold of them. *)
Theorem C87_as_polled : forall net w0 l w ocs, net_wired net -> roomy net -> whole_run net [] w0 l w ocs -> net_run net w0 l w ocs /\ in_turn net w0 l.
Proof. exact whole_net. Qed.
Print Assumptions C87_as_polled.
(** With controllers too the parts of every buffer are polled in turn. *)
Theorem C87_in_turn : forall net cs w0 l w ocs, (forall b u mi mo, In (NBuffer b u mi mo) net -> exists pj i j o, M_Buffer.bf_stdin b = Some (PlReceiver pj i) /\ M_Buffer.bf_stdout b = Some (PsIoSender j o)) ->
  whole_run net cs w0 l w ocs -> in_turn net w0 l.
Proof. exact turn_whole. Qed.
Print Assumptions C87_in_turn.
(** In a willing world nobody fails ... *)
Theorem C87_nobody_fails : forall net w0 l w ocs, net_wired net -> roomy net -> polite net -> whole_run net [] w0 l w ocs -> willing l ->
  forall k, k < length net -> ocs k = Going \/ exists n, ocs k = Ended (Ok n).
Proof. exact whole_fine. Qed.
Print Assumptions C87_nobody_fails.
(** ... and if nothing flows back, nobody waits for ever: when nobody will ever do anything again all have succeeded. *)
Theorem C87_never_locks : forall net w0 l w ocs, net_wired net -> roomy net -> polite net -> acyclic net -> whole_run net [] w0 l w ocs -> willing l ->
  whole_locked net [] w0 l -> all_succeeded net ocs.
Proof. exact whole_ends. Qed.
Print Assumptions C87_never_locks.
(** With a buffer in every loop, nothing is lost on its way then, and whoever brings something in has ended. *)
Theorem C87_dammed : forall net w0 l w ocs, net_wired net -> roomy net -> polite net -> dammed net -> whole_run net [] w0 l w ocs -> willing l ->
  whole_locked net [] w0 l -> at_rest net w /\ forall k c, nth_error net k = Some c -> comp_ins c = [] -> ocs k <> Going.
Proof. exact whole_dammed. Qed.
Print Assumptions C87_dammed.
(** No run that forgets nobody goes on for ever, if the input is limited. *)
Theorem C87_no_endless_run : forall net w0 f, net_wired net -> roomy net -> polite net -> acyclic net -> fair net w0 f -> limited f -> statuses_come f ->
  (forall n, willing (so_far f n)) -> ~ (forall n, exists w ocs, whole_run net [] w0 (so_far f n) w ocs).
Proof. exact whole_no_endless. Qed.
Print Assumptions C87_no_endless_run.
Example C87_example_net : makes None [] in_order gd_config good_net [] /\ net_wired good_net /\ roomy good_net /\ polite good_net /\ acyclic good_net /\ length good_net = 9.
Proof. exact (conj gd_makes (conj gd_wired (conj gd_roomy (conj gd_polite (conj gd_acyclic eq_refl))))). Qed.
Example C87_example_middle : exists l w ocs, whole_run good_net [] gd_world l w ocs /\ willing l /\ ocs 0 = Going /\ ocs 1 = Ended (Ok 11).
Proof. exact good_middle. Qed.
Example C87_example_end : exists l w ocs, whole_run good_net [] gd_world l w ocs /\ willing l /\ whole_locked good_net [] gd_world l /\ all_succeeded good_net ocs.
Proof. exact good_end. Qed.
