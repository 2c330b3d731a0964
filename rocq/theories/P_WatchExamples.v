(** * P_WatchExamples: a regulator that is paused and resumed *)
From Coq Require Import Ascii String List Bool Arith Lia.
From Verif Require Import M_Prog M_Motion M_Config M_Manip M_Lint M_Waiter M_Regulator S_Manip S_Trace S_World S_Network S_Net M_Start S_Start S_Shape S_Waiter S_Watch P_Text P_Parser P_ManipExamples P_NetExamples P_Crowd P_Whole P_Jam P_Shape P_ShapeExamples.
Import ListNotations.
Local Open Scope string_scope.
Local Open Scope list_scope.

Lemma jm_prepares : prepares in_order jm_config jm_waiter jm_controllers.
Proof.
  assert (E : settled_up jm_config = Some (jm_waiter, jm_controllers)) by by_vm. revert E. generalize jm_config as c, jm_waiter as w, jm_controllers as cs. intros c w cs.
  unfold settled_up, built, prepared. destruct (process_config in_order c) as [[[c2|e] out]|m] eqn:E1; try discriminate. destruct (get_waiter c2) as [[w1|e]|m] eqn:E2; try discriminate.
  destruct (regulator_settings w1 (w_settings w1)) as [[[w2 cs2]|e]|m] eqn:E3; try discriminate. intros [= -> ->]. exists c2, out, w1. auto.
Qed.
Lemma jm_passing : passing (cf_connection jm_config).
Proof. eapply computed_passing; [exact jm_good|by_vm|by_vm|by_vm]. Qed.
Lemma jm_apart : apart (cf_connection jm_config).
Proof.
  intros n Hn. eapply computed_follow in Hn; [|exact jm_good|by_vm|by_vm]. cbn in Hn. repeat match type of Hn with _ \/ _ => destruct Hn as [Hn|Hn] end; try discriminate Hn; contradiction.
Qed.
Lemma jm_set : set_to_watch jm_config "gate" 2 5 ["store"].
Proof.
  split; [|exists (RegulatorConfig (Some (2, 5)) ["store"]); split; [now left|split; reflexivity]].
  unfold is_mentioned, reads. eexists "held", _, _. split; [eexists; split; [right; left; reflexivity|right; eexists; split; [reflexivity|apply load_exact; vm_compute; reflexivity]]|]. split; [right; left; reflexivity|reflexivity].
Qed.
Section Slow.
#[local] Instance slow_out : pausing := fun e => match e with ESleep _ | EWrite _ _ => true | _ => false end.
(** b.txt has nothing to read; for some time out.txt cannot be written, then it can. *)
Definition pr_sched : list nat := filter (fun t => negb (Nat.eqb t 4)) (jm_rounds 6 1 0 8 ++ jm_rounds 6 1 8 8).
Definition pr_run := crowd 500 pr_sched (repeat a_line 200) (seat jam jm_controllers) jm_world.
Definition pr_events : list nevent := fst (fst pr_run).
Lemma pr_ran : whole_run jam jm_controllers jm_world pr_events (snd pr_run) (seat_outcome jam (ready (snd (fst pr_run)))).
Proof. apply (played_whole jam jm_controllers); [by_vm|by_vm|by_vm|exact jm_made]. Qed.
End Slow.
Lemma pr_numbers : (heard 0 8 pr_events, given 8 pr_events, received jam 5 pr_events) = (2, 2, 41).
Proof. by_vm. Qed.
Theorem paused_and_resumed : good_connections (cf_connection jm_config) /\ prepares in_order jm_config jm_waiter jm_controllers /\ passing (cf_connection jm_config) /\ apart (cf_connection jm_config) /\
  set_to_watch jm_config "gate" 2 5 ["store"] /\ NoDup (keys (cf_regulator jm_config)) /\ exists k x w0 l w ocs, regulator_at None [] jm_waiter "gate" k x /\ whole_run (net_of None [] jm_waiter) jm_controllers w0 l w ocs /\
  heard k x l = 2 /\ buffer_at None [] jm_waiter "store" 5 /\ received (net_of None [] jm_waiter) 5 l = 41.
Proof.
  split; [exact jm_good|]. split; [exact jm_prepares|]. split; [exact jm_passing|]. split; [exact jm_apart|]. split; [exact jm_set|]. split; [repeat constructor; intros []|].
  pose proof pr_numbers as N. exists 0, 8, jm_world, pr_events, (snd pr_run), (seat_outcome jam (ready (snd (fst pr_run)))).
  split; [eexists; split; [reflexivity|split; reflexivity]|]. split; [exact pr_ran|]. split; [congruence|]. split; [eexists _, _, _, _; split; reflexivity|]. change (net_of None [] jm_waiter) with jam. congruence.
Qed.
