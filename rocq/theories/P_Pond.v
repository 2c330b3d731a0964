(** * P_Pond: a loop with a buffer, for examples *)
From Coq Require Import Ascii String List Bool Arith Lia ZArith.
From Verif Require Import M_Prog P_Prog P_Exec M_Motion M_Regulator M_Faucet M_Drain M_Buffer M_Junction M_Launch M_Join M_Poll S_Trace S_Lines S_Motion S_World S_Launch S_Regulator S_Drain S_Buffer S_Junction S_Network S_Net P_World P_Crowd P_Link P_NetExamples P_Order P_Ring.
Import ListNotations.
Local Open Scope string_scope.

(** in.txt and a buffer that is fed by it to a junction; out.txt. *)
Definition pd_buf : buffer := Buffer 1 (Some (io 2 1 2)) (Some (inp 1 2 1)) None.
Definition pond : list comp := [NFaucet lp_faucet "in.txt"; NJunction lp_join; NBuffer pd_buf 9 1 2; NDrain lp_drain "out.txt"].
Definition pd_tasks : tasks := fun t =>
  match t with
  | 0 => TM (faucet_start lp_faucet None)
  | 4 => TM (junction_start lp_join None)
  | 9 => TM (half_a 9 1 (inp 1 2 1, io 2 1 2))
  | 10 => TM (half_b 9 2 None (inp 1 2 1, io 2 1 2))
  | 11 => TC (total_in_buffer None 1 2)
  | 12 => TM (drain_start lp_drain None)
  | _ => TM (Ret (Ok 0))
  end.
Lemma pond_wired : net_wired pond.
Proof.
  constructor.
  - intros c [<-|[<-|[<-|[<-|[]]]]]; cbn [comp_ready].
    + split; [reflexivity|]. eexists _, _. repeat split; discriminate.
    + repeat split; repeat constructor; cbn; intuition discriminate.
    + split; [reflexivity|]. eexists _, _, _, _. repeat split; try reflexivity; try discriminate. intros e d [H|H]; cbn in H; injection H as <-; discriminate.
    + eexists _, _. repeat split; discriminate || reflexivity.
  - intro n. cbn. intuition.
  - cbn. repeat constructor; cbn; intuition discriminate.
  - cbn. repeat constructor; cbn; intuition discriminate.
  - cbn. repeat constructor; cbn; intuition discriminate.
Qed.
Lemma pond_polite : polite pond.
Proof. intros j H. cbn in H. repeat destruct H as [H|H]; try discriminate H; try injection H as <-; try discriminate. destruct H. Qed.
Lemma pond_new : new_world pond dm_world.
Proof. c3_world. Qed.
Lemma pond_dammed : dammed pond.
Proof.
  exists (fun k => match k with 0 => 0 | 1 => 1 | 2 => 0 | _ => 2 end). intros k c k' c' n H H' Hn Hn'.
  destruct k as [|[|[|[|k]]]]; cbn in H; try (destruct k; discriminate H); injection H as <-; cbn in Hn;
  destruct k' as [|[|[|[|k']]]]; cbn in H'; try (destruct k'; discriminate H'); injection H' as <-; cbn in Hn'; cbn; try lia; now left.
Qed.
Lemma pond_round : round pond (fun k => k = 1 \/ k = 2).
Proof.
  intros k [->| ->].
  - exists (NJunction lp_join), 2. split; [reflexivity|]. split; [exact I|]. split; [now right|]. exists (NBuffer pd_buf 9 1 2), (NJunction lp_join), 2. cbn. intuition.
  - exists (NBuffer pd_buf 9 1 2), 1. split; [reflexivity|]. split; [exact I|]. split; [now left|]. exists (NJunction lp_join), (NBuffer pd_buf 9 1 2), 1. cbn. intuition.
Qed.
(** Five lines go round and round; the file says nothing. *)
Definition pd_sched : list nat := concat (repeat [0; 4; 12; 9; 10; 11] 9).
Definition pd_run : list nevent * tasks * world := crowd 60 pd_sched (repeat lp_line 5) pd_tasks dm_world.
Definition pd_events : list nevent := Eval vm_compute in fst (fst pd_run).
Definition pd_world : world := snd pd_run.
Lemma pd_is : fst (fst (crowd 60 pd_sched (repeat lp_line 5) pd_tasks dm_world)) = pd_events.
Proof. vm_compute. reflexivity. Qed.
Definition dr_sched : list nat := concat (repeat [0; 4; 12; 9; 10; 11] 3).
Definition dr_run : list nevent * tasks * world := crowd 60 dr_sched [] pd_tasks dm_world.
Definition dr_events : list nevent := Eval vm_compute in fst (fst dr_run).
Definition dr_world : world := snd dr_run.
Lemma dr_is : fst (fst (crowd 60 dr_sched [] pd_tasks dm_world)) = dr_events.
Proof. vm_compute. reflexivity. Qed.
Definition pd_ends (n : nat) (k : nat) : outcome := match k with 0 => Ended (Ok n) | _ => Going end.
Ltac pd_ran rs is :=
  destruct pond_new as (N1 & N2 & N3); constructor; auto;
  [intros [|[|[|[|k]]]] c H; cbn in H; try (destruct k; discriminate H); injection H as <-; cbn [comp_runs];
    [eexists; split; [apply (played_alone 60 _ rs pd_tasks dm_world _ is 0); [reflexivity|by_vm|by_vm|by_vm]|reflexivity]
    |eexists; split; [apply (played_alone 60 _ rs pd_tasks dm_world _ is 1); [reflexivity|by_vm|by_vm|by_vm]|reflexivity]
    |eexists; split; [eapply (played_buffer 60 _ rs pd_tasks dm_world _ is 2 pd_buf (inp 1 2 1) (io 2 1 2)); try by_vm|split; [exact I|reflexivity]]
    |eexists; split; [apply (played_alone 60 _ rs pd_tasks dm_world _ is 3); [reflexivity|by_vm|by_vm|by_vm]|reflexivity]]
  |exact (proj1 (played_sound 60 _ _ _ _ _ is))
  |].
Lemma pond_only l : forallb (fun x : nevent => (fst x <? 16)%nat) l = true -> forall i ev, In (i, ev) l -> i / 4 < length pond.
Proof. intros H i ev Hin. rewrite forallb_forall in H. specialize (H _ Hin). cbn [fst] in H. apply Nat.ltb_lt in H. apply Nat.div_lt_upper_bound; [discriminate|]. exact H. Qed.
Lemma dr_ran : net_run pond dm_world dr_events dr_world (pd_ends 0).
Proof. pd_ran (@nil bytes) dr_is. apply pond_only. by_vm. Qed.
Lemma pd_ran : net_run pond dm_world pd_events pd_world (pd_ends 5).
Proof. pd_ran (repeat lp_line 5) pd_is. apply pond_only. by_vm. Qed.
Lemma pond_willing : willing pd_events /\ willing dr_events.
Proof. split; apply willing_by; by_vm. Qed.
Ltac pd_turn is := apply (crowd_turn pond dm_world 60 _ _ pd_tasks _ is); intros k b u mi mo pl ps H E1 E2;
  destruct k as [|[|[|[|k]]]]; cbn in H; try discriminate H; [|destruct k; discriminate H]; injection H as <- <- <- <-; cbn in E1, E2; injection E1 as <-; injection E2 as <-;
  split; [reflexivity|]; split; [reflexivity|]; split; [reflexivity|]; by_vm.
Lemma pd_turn : in_turn pond dm_world pd_events.
Proof. pd_turn pd_is. Qed.
Lemma dr_turn : in_turn pond dm_world dr_events.
Proof. pd_turn dr_is. Qed.
Lemma dr_rests : at_rest pond dr_world /\ forall n, In n [1; 2; 3; 9] -> cs_closed (dr_world (CData n)) = false.
Proof.
  split.
  - intros n Hn _. cbn in Hn. destruct Hn as [<-|[<-|[<-|[<-|[<-|[]]]]]]; by_vm.
  - intros n [<-|[<-|[<-|[<-|[]]]]]; by_vm.
Qed.
Lemma pd_busy : length (cs_queue (pd_world (CData 9))) + length (cs_queue (pd_world (CData 2))) + length (cs_queue (pd_world (CData 1))) = 3 /\ length (S_Trace.written 1 (own 12 pd_events)) = 9.
Proof. split; by_vm. Qed.
