(** * Properties_Net: C37 *)
From Coq Require Import Ascii String List Bool Arith ZArith.
From Verif Require Import M_Prog M_Motion M_Join S_Trace S_Lines S_Motion S_World S_Regulator S_Drain S_Network S_Net P_Crowd P_Net P_NetCost P_NetDone P_Calm P_Turn P_Fair P_NetStart P_NetSteps P_NetExamples.
Import ListNotations.

(** C37.  Any number of components connected in any way in which nothing flows back.  As long as no source was missing and no
    program could not be started, no junction has failed and no counter of a buffer has panicked: if somebody has not
    ended, somebody can do something useful, even if files and programs have nothing more to say. *)
Theorem C37_never_stuck : forall net w0 l w ocs, net_wired net -> acyclic net -> net_run net w0 l w ocs -> granted l -> sound_so_far net ocs ->
  forall k, k < length net -> ocs k = Going ->
  exists l' w' ocs', net_run net w0 (l ++ l') w' ocs' /\ existsb useful (all_of l') = true /\ forallb friendly (all_of l') = true.
Proof. intros net w0 l w ocs HN. exact (net_moves net w0 HN l w ocs). Qed.
Print Assumptions C37_never_stuck.
(** However it is scheduled, it does a bounded amount of work: the bound depends on how much is read from files and programs only. *)
Theorem C37_bounded : forall net, net_wired net -> acyclic net -> forall N, exists B, forall w0 l w ocs,
  net_run net w0 l w ocs -> bytes_read l <= N -> useful_count l <= B.
Proof. exact net_bound. Qed.
Print Assumptions C37_bounded.
(** From wherever it is it can be brought to its end. *)
Theorem C37_finishes : forall net w0 l w ocs, net_wired net -> acyclic net -> net_run net w0 l w ocs -> granted l ->
  exists l' w' ocs', net_run net w0 (l ++ l') w' ocs' /\ forallb friendly (all_of l') = true /\
    (all_ended net ocs' \/ exists k c, nth_error net k = Some c /\ failed c (ocs' k)).
Proof. exact net_finishes. Qed.
Print Assumptions C37_finishes.
(** In a willing world nobody ever finds that the next one no longer listens ... *)
Theorem C37_nobody_refused : forall net w0, net_wired net -> polite net -> forall l w ocs, net_run net w0 l w ocs -> willing l ->
  forall ch v, ~ In (ESend ch v, AClosed) (all_of l).
Proof. exact nobody_refused. Qed.
Print Assumptions C37_nobody_refused.
(** ... and nobody fails, except that the counter of a buffer may panic. *)
Theorem C37_nobody_fails : forall net w0, net_wired net -> polite net -> forall l w ocs, net_run net w0 l w ocs -> willing l ->
  forall k c, nth_error net k = Some c ->
  match ocs k with Ended (Err _) => False | Broken => exists b u mi mo, c = NBuffer b u mi mo | _ => True end.
Proof. exact nobody_fails. Qed.
Print Assumptions C37_nobody_fails.
Theorem C37_willing_moves : forall net w0 l w ocs, net_wired net -> acyclic net -> polite net -> net_run net w0 l w ocs -> willing l ->
  all_succeeded net ocs \/ some_broken net ocs \/
  exists l' w' ocs', net_run net w0 (l ++ l') w' ocs' /\ existsb useful (all_of l') = true /\ forallb friendly (all_of l') = true.
Proof. exact willing_moves. Qed.
Print Assumptions C37_willing_moves.
Theorem C37_willing_finishes : forall net w0 l w ocs, net_wired net -> acyclic net -> polite net -> net_run net w0 l w ocs -> willing l ->
  exists l' w' ocs', net_run net w0 (l ++ l') w' ocs' /\ forallb friendly (all_of l') = true /\ (all_succeeded net ocs' \/ some_broken net ocs').
Proof. exact willing_finishes. Qed.
Print Assumptions C37_willing_finishes.

(** With the parts of every buffer polled in turn, as they are, no counter panics: nobody fails at all ... *)
Theorem C37_in_turn_nobody_fails : forall net w0, net_wired net -> forall l w ocs, polite net -> net_run net w0 l w ocs -> willing l -> in_turn net w0 l ->
  forall k, k < length net -> ocs k = Going \/ exists n, ocs k = Ended (Ok n).
Proof. exact in_turn_fine. Qed.
Print Assumptions C37_in_turn_nobody_fails.
(** ... it is never stuck: there is always a useful event next, with everybody keeping to his turn, until all have succeeded ... *)
Theorem C37_in_turn_moves : forall net w0, net_wired net -> forall l w ocs, acyclic net -> polite net -> net_run net w0 l w ocs -> willing l -> in_turn net w0 l ->
  all_succeeded net ocs \/
  exists l' w' ocs', net_run net w0 (l ++ l') w' ocs' /\ in_turn net w0 (l ++ l') /\ existsb useful (all_of l') = true /\ forallb friendly (all_of l') = true.
Proof. exact turn_goes. Qed.
Print Assumptions C37_in_turn_moves.
Theorem C37_in_turn_finishes : forall net w0, net_wired net -> forall l w ocs, acyclic net -> polite net -> net_run net w0 l w ocs -> willing l -> in_turn net w0 l ->
  exists l' w' ocs', net_run net w0 (l ++ l') w' ocs' /\ in_turn net w0 (l ++ l') /\ forallb friendly (all_of l') = true /\ all_succeeded net ocs'.
Proof. exact turn_finishes. Qed.
Print Assumptions C37_in_turn_finishes.
(** ... and every schedule that forgets nobody brings it there: no fair run goes on for ever, if the input is limited. *)
Theorem C37_no_endless_run : forall net w0 f, net_wired net -> acyclic net -> polite net -> endless net w0 f -> fair net w0 f ->
  limited f -> statuses_come f -> (forall n, willing (so_far f n)) -> ~ (forall n, in_turn net w0 (so_far f n)).
Proof. intros net w0 f H1 H2 H3 H4 H5 H6 H7 H8. exact (no_endless_run net w0 f H1 H2 H3 H4 H5 H6 H7 H8). Qed.
Print Assumptions C37_no_endless_run.
(** Also if the world is not willing and the parts of buffers act in any order, as long as no source is missing and every program
    can be started, no junction fails and no counter panics. *)
Theorem C37_fair_runs_end : forall net w0 f, net_wired net -> acyclic net -> endless net w0 f -> fair net w0 f -> limited f -> statuses_come f ->
  (forall n, granted (so_far f n)) -> ~ (forall n w ocs, net_run net w0 (so_far f n) w ocs -> sound_so_far net ocs).
Proof. intros net w0 f HN HA HE HF HL HS HG HS2. destruct HS as [N HS]. exact (fair_ends net w0 HN HA f HE HF HG HS2 N HS HL). Qed.
Print Assumptions C37_fair_runs_end.
(** Every network starts, and can be run from its start to the success of all. *)
Theorem C37_starts : forall net w0, net_wired net -> new_world net w0 -> exists ocs, net_run net w0 [] w0 ocs.
Proof. exact net_starts. Qed.
Print Assumptions C37_starts.
Theorem C37_performs : forall net w0, net_wired net -> new_world net w0 -> acyclic net -> polite net ->
  exists l w ocs, net_run net w0 l w ocs /\ in_turn net w0 l /\ forallb friendly (all_of l) = true /\ all_succeeded net ocs.
Proof. exact net_performs. Qed.
Print Assumptions C37_performs.
(** Fairness is needed: where there is a buffer its counter can be let look and sleep for ever while nobody else acts. *)
Theorem C37_unfair_forever : forall net w0, net_wired net -> new_world net w0 -> forall k b u mi mo, nth_error net k = Some (NBuffer b u mi mo) ->
  exists f, endless net w0 f /\ (forall n, willing (so_far f n)) /\ (forall n, in_turn net w0 (so_far f n)) /\ limited f /\ statuses_come f /\ forall n, useful_count (so_far f n) = 0.
Proof. intros net w0 HN HW k b u mi mo Hk. exact (ex_intro _ _ (dozing_on net w0 HN HW k b u mi mo Hk)). Qed.
Print Assumptions C37_unfair_forever.

(** Where there are no buffers, no junctions and no programs whose exit status is asked for, every schedule ends, fair or not. *)
Theorem C37_every_schedule_ends : forall net, net_wired net -> acyclic net -> (forall c, In c net -> restless c) -> forall N, exists B, forall w0 l w ocs,
  net_run net w0 l w ocs -> bytes_read l <= N -> length l <= B.
Proof. exact restless_bound. Qed.
Print Assumptions C37_every_schedule_ends.
(** In a straight chain with a buffer not every schedule does. *)
Theorem C37_every_schedule_refuted : exists net w0 f, net_wired net /\ acyclic net /\ new_world net w0 /\ length net = 3 /\
  endless net w0 f /\ (forall n, willing (so_far f n)) /\ (forall n, in_turn net w0 (so_far f n)) /\ limited f /\ statuses_come f.
Proof. exact straight_forever. Qed.
Print Assumptions C37_every_schedule_refuted.

(** A faucet, a junction that feeds a program and a buffer, a regulator, a junction and a drain: in the middle of things, and at its end. *)
Example C37_example_net : net_wired diamond /\ acyclic diamond /\ polite diamond /\ length diamond = 7.
Proof. exact (conj dm_wired (conj dm_acyclic (conj dm_polite eq_refl))). Qed.
Example C37_example_during : net_run diamond dm_world dm_seen dm_now (fun _ => Going) /\ willing dm_seen /\ bytes_read dm_seen = 7 /\ useful_count dm_seen = 20.
Proof. split; [exact dm_now_run|]. split; [exact (proj1 dm_willing)|]. split; vm_compute; reflexivity. Qed.
Example C37_example_end : net_run diamond dm_world dm_events dm_end dm_fine /\ willing dm_events /\ all_succeeded diamond dm_fine /\
  bytes_read dm_events = 9 /\ written 1 (own 24 dm_events) = [["a"; "b"; "010"]; ["c"; "d"; "010"]; ["e"]; ["x"; "010"]]%char.
Proof.
  split; [exact dm_end_run|]. split; [exact (proj2 dm_willing)|]. split; [|split; vm_compute; reflexivity].
  intros [|[|[|[|[|[|[|k]]]]]]] H; eexists; reflexivity.
Qed.
Example C37_example_start : new_world diamond dm_world.
Proof. exact dm_new_world. Qed.
Example C37_example_restless : net_wired chain3 /\ acyclic chain3 /\ new_world chain3 dm_world /\ forall c, In c chain3 -> restless c.
Proof. exact (conj c3_wired (conj c3_acyclic (conj c3_new c3_restless))). Qed.
