(** * P_DelayExamples: regulated pipelines that lock up, that are just delayed and that come to an end *)
From Coq Require Import Ascii String List Bool Arith Lia Permutation.
From Verif Require Import M_Prog M_Motion M_Config M_Manip M_Lint M_Waiter M_Regulator S_Manip S_Trace S_World S_Network S_Net M_Start S_Start S_Shape S_Waiter S_Watch S_Delay P_Text P_Parser P_ManipExamples P_NetExamples P_Crowd P_Whole P_Jam P_Shape P_ShapeExamples P_WatchExamples P_DelayRun P_Act.
Import ListNotations.
Local Open Scope string_scope.
Local Open Scope list_scope.

Definition jm_ranks : component -> nat := find_rank [((CRegulator, "gate"), 1); ((CJunction, "all"), 2); ((CBuffer, "store"), 3); ((CDrain, "out"), 4); ((CDrain, "log"), 4)].
Lemma jm_no_loop : no_loop (cf_connection jm_config).
Proof. eapply (computed_no_loop jm_config _ _ jm_good) with (rank := jm_ranks); by_vm. Qed.
Lemma in_order_fair : S_Manip.fair in_order.
Proof. repeat split; intros; apply Permutation_refl. Qed.
(** The run of C86 stops because the buffer is choked. *)
Theorem jammed_choked : good_connections (cf_connection jm_config) /\ prepares in_order jm_config jm_waiter jm_controllers /\ passing (cf_connection jm_config) /\ no_loop (cf_connection jm_config) /\
  exists w0 l w ocs, whole_run (net_of None [] jm_waiter) jm_controllers w0 l w ocs /\ willing l /\ whole_locked (net_of None [] jm_waiter) jm_controllers w0 l /\ none_ended (net_of None [] jm_waiter) jm_controllers ocs /\
    exists k m cp, choked (net_of None [] jm_waiter) jm_controllers l w k m cp.
Proof.
  split; [exact jm_good|]. split; [exact jm_prepares|]. split; [exact jm_passing|]. split; [exact jm_no_loop|].
  change (net_of None [] jm_waiter) with jam. exists jm_world, jm_events, (snd jm_run), (seat_outcome jam (ready (snd (fst jm_run)))).
  split; [exact jm_ran|]. split; [exact jm_willing|]. split; [exact jm_locked|]. split; [exact jm_none|].
  destruct (prepared_standstill in_order None [] jm_config jm_waiter jm_controllers in_order_fair jm_good jm_prepares jm_passing jm_no_loop _ _ _ _ jm_ran jm_willing jm_locked) as [H|(k & m & cp & _ & H)]; [|eauto].
  exfalso. destruct (H 0) as (n & Hn); [cbn; lia|]. rewrite (jm_none 0) in Hn; [discriminate|cbn; lia].
Qed.
(** The same pipeline with two lines to read comes to its end. *)
Lemma everybody_did_well net cs ocs : forallb (fun k => did_well (ocs k)) (seq 0 (length net + length cs)) = true -> everybody_succeeded net cs ocs.
Proof. intros H k Hk. rewrite forallb_forall in H. assert (K : In k (seq 0 (length net + length cs))) by (apply in_seq; lia). specialize (H k K). destruct (ocs k) as [|[n|e]|]; try discriminate H. eauto. Qed.
Section Brisk.
#[local] Instance sleepy : pausing := fun e => match e with ESleep _ => true | _ => false end.
Definition sm_run := crowd 500 (concat (repeat (poll_order jam jm_controllers) 12)) [a_line; []; a_line; []] (seat jam jm_controllers) jm_world.
Lemma sm_ran : whole_run jam jm_controllers jm_world (fst (fst sm_run)) (snd sm_run) (seat_outcome jam (ready (snd (fst sm_run)))).
Proof. apply (played_whole jam jm_controllers); [by_vm|by_vm|by_vm|exact jm_made]. Qed.
Lemma sm_locked : whole_locked jam jm_controllers jm_world (fst (fst sm_run)).
Proof. apply (played_locked jam jm_controllers); by_vm. Qed.
Theorem small_end : exists w0 l w ocs, whole_run (net_of None [] jm_waiter) jm_controllers w0 l w ocs /\ willing l /\ whole_locked (net_of None [] jm_waiter) jm_controllers w0 l /\
  (exists cp, jm_controllers = [cp] /\ cp_high cp = 5 /\ tellers (net_of None [] jm_waiter) (cp_monitors cp) [5]) /\ received (net_of None [] jm_waiter) 5 l = 2 /\ everybody_succeeded (net_of None [] jm_waiter) jm_controllers ocs.
Proof.
  change (net_of None [] jm_waiter) with jam. exists jm_world, (fst (fst sm_run)), (snd sm_run), (seat_outcome jam (ready (snd (fst sm_run)))).
  split; [exact sm_ran|]. split; [apply willing_by; by_vm|]. split; [exact sm_locked|]. split; [eexists; split; [reflexivity|]; split; [reflexivity|]; constructor; [|constructor]; eexists; split; [reflexivity|now left]|]. split; [by_vm|]. apply everybody_did_well. by_vm.
Qed.
End Brisk.
(** The run of C89, in which the regulator is paused and resumed, without its 135 steps of regulation. *)
Lemma pr_lengths : (length pr_events, length (data_part jam pr_events)) = (1442, 1307).
Proof. by_vm. Qed.
Theorem paused_delays : exists w0 l w ocs, free_run (net_of None [] jm_waiter) jm_controllers w0 l w ocs /\ heard 0 8 l = 2 /\ length l = 1442 /\ length (data_part (net_of None [] jm_waiter) l) = 1307 /\
  exists w' ocs', net_run (map plain_comp (net_of None [] jm_waiter)) w0 (data_part (net_of None [] jm_waiter) l) w' ocs'.
Proof.
  change (net_of None [] jm_waiter) with jam. pose proof pr_lengths as N. pose proof pr_numbers as M. exists jm_world, pr_events, (snd pr_run), (seat_outcome jam (ready (snd (fst pr_run)))).
  split; [exact (proj1 pr_ran)|]. split; [congruence|]. split; [congruence|]. split; [congruence|].
  destruct (prepared_delays in_order None [] jm_config jm_waiter jm_controllers in_order_fair jm_good jm_prepares jm_passing jm_apart _ _ _ _ (proj1 pr_ran)) as (w' & o' & H & _). exists w', o'. exact H.
Qed.
