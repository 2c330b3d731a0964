(** * P_Wreck: runs in which somebody fails and the others wait for ever *)
From Coq Require Import Ascii String List Bool Arith Lia ZArith.
From Verif Require Import M_Prog P_Prog P_Exec M_Motion M_Regulator M_Faucet M_Drain M_Buffer M_Junction M_Launch M_Join M_Poll S_Trace S_Lines S_Motion S_World S_Launch S_Regulator S_Drain S_Buffer S_Junction S_Network S_Net P_World P_Crowd P_Link P_NetExamples P_Ring.
Import ListNotations.
Local Open Scope string_scope.

Lemma by_ltb n l : forallb (fun x : nevent => (fst x <? 4 * n)%nat) l = true -> forall i ev, In (i, ev) l -> i / 4 < n.
Proof. intros H i ev Hin. rewrite forallb_forall in H. specialize (H _ Hin). cbn [fst] in H. apply Nat.ltb_lt in H. apply Nat.div_lt_upper_bound; [discriminate|]. exact H. Qed.

(** in.txt, which is missing, a regulator, out.txt. *)
Definition no_source : outside := fun e => match e with EOpenRead _ => Some AErr | _ => kind_world e end.
Definition ms_tasks : tasks := fun t =>
  match t with 0 => TM (faucet_start c3_faucet None) | 4 => TM (regulator_start c3_reg None) | 8 => TM (drain_start c3_drain None) | _ => TM (Ret (Ok 0)) end.
Definition ms_run : list nevent * tasks * world := crowd (O := no_source) 60 [0; 4; 8] [] ms_tasks dm_world.
Definition ms_events : list nevent := Eval vm_compute in fst (fst ms_run).
Definition ms_world : world := snd ms_run.
Lemma ms_is : fst (fst (crowd (O := no_source) 60 [0; 4; 8] [] ms_tasks dm_world)) = ms_events.
Proof. vm_compute. reflexivity. Qed.
Definition ms_ends (k : nat) : outcome := match k with 0 => Ended (Err (OpenIOError (PJ 0 1))) | _ => Going end.
Ltac ms_alone k := apply (played_alone (O := no_source) 60 _ [] ms_tasks dm_world _ ms_is k); [reflexivity|by_vm|by_vm|by_vm].
Lemma ms_ran : net_run chain3 dm_world ms_events ms_world ms_ends.
Proof.
  destruct c3_new as (N1 & N2 & N3). constructor; auto.
  - intros [|[|[|k]]] c H; cbn in H; try (destruct k; discriminate H); injection H as <-; cbn [comp_runs].
    + eexists. split; [ms_alone 0|reflexivity].
    + eexists. split; [ms_alone 1|reflexivity].
    + eexists. split; [ms_alone 2|reflexivity].
  - exact (proj1 (played_sound (O := no_source) 60 _ _ _ _ _ ms_is)).
  - apply (by_ltb 3). by_vm.
Qed.
Ltac ms_at k := eapply (played_m (O := no_source) 60 _ [] ms_tasks dm_world _ ms_is k 0); [lia|reflexivity|by_vm|by_vm].
Lemma ms_locked : locked chain3 dm_world ms_events.
Proof.
  apply (all_wait _ _ _ _ _ ms_ran). intros [|[|[|k]]] c H; cbn in H; try (destruct k; discriminate H); injection H as <-; eexists _, _; (split; [reflexivity|]).
  - split; [ms_at 0|exact I].
  - split; [ms_at 1|]. apply recv_waits; by_vm.
  - split; [ms_at 2|]. apply recv_waits; by_vm.
Qed.
Lemma no_buffers_turn net w0 l : (forall b u mi mo, ~ In (NBuffer b u mi mo) net) -> in_turn net w0 l.
Proof. intros H k b u mi mo pl ps Hk. destruct (H b u mi mo (nth_error_In _ _ Hk)). Qed.

(** in.txt to a junction, from there to bad.txt, which cannot be created, and out.txt. *)
Definition no_room : outside := fun e => match e with ECreate nm => if string_dec nm "bad.txt" then Some AErr else kind_world e | _ => kind_world e end.
Definition fk_fork : junction := Junction 1 false [io 1 2 1; io 1 3 2] [] [(inp 0 1 0, 0%Z)].
Definition fk_bad : drain := Drain false (Some (inp 1 2 1)) (Some "bad.txt").
Definition fk_good : drain := Drain false (Some (inp 1 3 2)) (Some "out.txt").
Definition fork : list comp := [NFaucet dm_faucet "in.txt"; NJunction fk_fork; NDrain fk_bad "bad.txt"; NDrain fk_good "out.txt"].
Definition fk_tasks : tasks := fun t =>
  match t with 0 => TM (faucet_start dm_faucet None) | 4 => TM (junction_start fk_fork None) | 8 => TM (drain_start fk_bad None) | 12 => TM (drain_start fk_good None) | _ => TM (Ret (Ok 0)) end.
Definition fk_sched : list nat := concat (repeat [0; 4; 8; 12] 4).
Definition fk_reads : list bytes := repeat lp_line 3.
Definition fk_run : list nevent * tasks * world := crowd (O := no_room) 60 fk_sched fk_reads fk_tasks dm_world.
Definition fk_events : list nevent := Eval vm_compute in fst (fst fk_run).
Definition fk_world : world := snd fk_run.
Lemma fk_is : fst (fst (crowd (O := no_room) 60 fk_sched fk_reads fk_tasks dm_world)) = fk_events.
Proof. vm_compute. reflexivity. Qed.
Definition fk_ends (k : nat) : outcome :=
  match k with
  | 0 => Ended (Err (OutputClosed (J 0 (Some POut) 1 Terminate) ChannelClosed lp_line))
  | 1 => Ended (Err (OutputClosed (J 1 (Some POut) 2 Terminate) ChannelClosed lp_line))
  | 2 => Ended (Err (OpenIOError (PJ 1 2)))
  | _ => Going
  end.
Lemma fork_wired : net_wired fork.
Proof.
  constructor.
  - intros c [<-|[<-|[<-|[<-|[]]]]]; cbn [comp_ready].
    + split; [reflexivity|]. eexists _, _. repeat split; discriminate.
    + repeat split; repeat constructor; cbn; intuition discriminate.
    + eexists _, _. repeat split; discriminate || reflexivity.
    + eexists _, _. repeat split; discriminate || reflexivity.
  - intro n. cbn. intuition.
  - cbn. repeat constructor; cbn; intuition discriminate.
  - cbn. repeat constructor; cbn; intuition discriminate.
  - cbn. repeat constructor; cbn; intuition discriminate.
Qed.
Lemma fork_acyclic : acyclic fork.
Proof.
  exists (fun k => k). intros k c k' c' n H H' Hn Hn'.
  destruct k as [|[|[|[|k]]]]; cbn in H; try (destruct k; discriminate H); injection H as <-; cbn in Hn;
  destruct k' as [|[|[|[|k']]]]; cbn in H'; try (destruct k'; discriminate H'); injection H' as <-; cbn in Hn'; lia.
Qed.
Lemma fork_polite : polite fork.
Proof. intros j H. cbn in H. repeat destruct H as [H|H]; try discriminate H; try injection H as <-; try discriminate. destruct H. Qed.
Lemma fork_new : new_world fork dm_world.
Proof. c3_world. Qed.
Ltac fk_alone k := apply (played_alone (O := no_room) 60 _ fk_reads fk_tasks dm_world _ fk_is k); [reflexivity|by_vm|by_vm|by_vm].
Lemma fk_ran : net_run fork dm_world fk_events fk_world fk_ends.
Proof.
  destruct fork_new as (N1 & N2 & N3). constructor; auto.
  - intros [|[|[|[|k]]]] c H; cbn in H; try (destruct k; discriminate H); injection H as <-; cbn [comp_runs].
    + eexists. split; [fk_alone 0|reflexivity].
    + eexists. split; [fk_alone 1|reflexivity].
    + eexists. split; [fk_alone 2|reflexivity].
    + eexists. split; [fk_alone 3|reflexivity].
  - exact (proj1 (played_sound (O := no_room) 60 _ _ _ _ _ fk_is)).
  - apply (by_ltb 4). by_vm.
Qed.
Ltac fk_at k := eapply (played_m (O := no_room) 60 _ fk_reads fk_tasks dm_world _ fk_is k 0); [lia|reflexivity|by_vm|by_vm].
Lemma fk_locked : locked fork dm_world fk_events.
Proof.
  apply (all_wait _ _ _ _ _ fk_ran). intros [|[|[|[|k]]]] c H; cbn in H; try (destruct k; discriminate H); injection H as <-; eexists _, _; (split; [reflexivity|]).
  - split; [fk_at 0|exact I].
  - split; [fk_at 1|exact I].
  - split; [fk_at 2|exact I].
  - split; [fk_at 3|]. apply recv_waits; by_vm.
Qed.
Lemma only_by e l : forallb (fun x : nevent => match snd x with (_, ABroken) => false | (EOpenRead s, AErr) => match e with EOpenRead s' => String.eqb s s' | _ => false end | (ECreate s, AErr) => match e with ECreate s' => String.eqb s s' | _ => false end | (_, AErr) => false | _ => true end) l = true -> only_wrong e l.
Proof.
  intros H e' a Hin. unfold all_of in Hin. apply in_map_iff in Hin. destruct Hin as ([i [e1 a1]] & X & Hin). cbn in X. injection X as -> ->.
  rewrite forallb_forall in H. specialize (H _ Hin). cbn in H. split; [intros ->; destruct e'; discriminate H|]. intros ->. destruct e'; try discriminate H; destruct e; try discriminate H; apply String.eqb_eq in H; now subst.
Qed.
Theorem missing_source : exists net w0 l w ocs nm, net_wired net /\ acyclic net /\ polite net /\ new_world net w0 /\ net_run net w0 l w ocs /\ in_turn net w0 l /\ only_wrong (EOpenRead nm) l /\
  (exists k e, ocs k = Ended (Err e)) /\ (exists k, k < length net /\ ocs k = Going) /\ locked net w0 l.
Proof.
  exists chain3, dm_world, ms_events, ms_world, ms_ends, "in.txt".
  refine (conj c3_wired (conj c3_acyclic (conj _ (conj c3_new (conj ms_ran (conj _ (conj _ (conj _ (conj _ ms_locked))))))))).
  - intros j [H|[H|[H|[]]]]; discriminate H.
  - apply no_buffers_turn. intros b u mi mo [H|[H|[H|[]]]]; discriminate H.
  - apply only_by. by_vm.
  - exists 0. eexists. reflexivity.
  - exists 1. split; [cbn; lia|reflexivity].
Qed.
Theorem one_of_two : exists net w0 l w ocs nm, net_wired net /\ acyclic net /\ polite net /\ new_world net w0 /\ net_run net w0 l w ocs /\ in_turn net w0 l /\ only_wrong (ECreate nm) l /\
  (exists k e, ocs k = Ended (Err e)) /\ (exists k, k < length net /\ ocs k = Going) /\ locked net w0 l.
Proof.
  exists fork, dm_world, fk_events, fk_world, fk_ends, "bad.txt".
  refine (conj fork_wired (conj fork_acyclic (conj fork_polite (conj fork_new (conj fk_ran (conj _ (conj _ (conj _ (conj _ fk_locked))))))))).
  - apply no_buffers_turn. intros b u mi mo [H|[H|[H|[H|[]]]]]; discriminate H.
  - apply only_by. by_vm.
  - exists 2. eexists. reflexivity.
  - exists 3. split; [cbn; lia|reflexivity].
Qed.
