(** * P_PanicExamples: sort is not there *)
From Coq Require Import Ascii String List Bool Arith Lia Permutation.
From Verif Require Import M_Prog P_Prog P_Exec M_Join M_Launch M_Motion M_Config M_Manip M_Waiter S_Manip S_Trace S_World S_Network S_Net M_Start S_Start S_Shape S_Waiter S_Watch S_Soft S_Panic P_ManipExamples P_Crowd P_Whole P_Jam P_SoftExamples.
Import ListNotations.
Local Open Scope string_scope.
Local Open Scope list_scope.

Definition ns_program : spawning := Eval vm_compute in launch_spawning None [] xt_launch.
Definition ns_events : list nevent := [(0, (ESpawn ns_program, AErr))].
Definition ns_ends (k : nat) : S_Net.outcome := match k with 0 => Broken | _ => Going end.
Ltac ns_waits := eexists; split; [split; [intros i Hi; cbn in Hi; repeat destruct Hi as [<-|Hi]; try contradiction; reflexivity|eexists; split; [reflexivity|eapply drive_sound with (fuel := 100) (answers := []); vm_compute; reflexivity]]|reflexivity].
Lemma ns_ran : whole_run xt_net [] xt_world ns_events xt_world ns_ends.
Proof.
  split; [constructor|].
  - intros [|[|[|[|k]]]] c H; cbn in H; try (destruct k; discriminate H); injection H as <-; cbn [comp_runs ns_ends]; [|ns_waits..].
    eexists. split; [|split; [|]].
    + apply J_before_panic; [intros i [<-|[<-|[<-|[]]]]; reflexivity|]. eapply drive_sound with (fuel := 100) (answers := [AErr]). vm_compute. reflexivity.
    + exact Logic.I.
    + reflexivity.
  - intros [|m] c H; discriminate H.
  - econstructor; [|constructor]. apply W_other; reflexivity.
  - intros t ev [H|[]]. injection H as <- _. vm_compute. now left.
  - exact xt_made.
  - exists 0. apply (IR_act xt_net [] xt_world [] 0 xt_world 0 (ESpawn ns_program, AErr) xt_world); [constructor|reflexivity|apply W_other; reflexivity].
Qed.
Theorem not_there : good_connections (cf_connection xt_config) /\ prepares in_order xt_config xt_waiter [] /\ passing (cf_connection xt_config) /\ apart (cf_connection xt_config) /\
  exists w0 l w ocs, whole_run (net_of None [] xt_waiter) [] w0 l w ocs /\ map ocs (seq 0 4) = [Broken; Going; Going; Going].
Proof.
  split; [exact xt_good|]. split; [exact xt_prepares|]. split; [exact xt_passing|]. split; [exact xt_apart|].
  exists xt_world, ns_events, xt_world, ns_ends. change (net_of None [] xt_waiter) with xt_net. split; [exact ns_ran|reflexivity].
Qed.
