(** * P_Ring: a loop that locks up *)
From Coq Require Import Ascii String List Bool Arith Lia ZArith.
From Verif Require Import M_Prog P_Prog P_Exec M_Motion M_Regulator M_Faucet M_Drain M_Buffer M_Junction M_Launch M_Join M_Poll S_Trace S_Lines S_Motion S_World S_Launch S_Regulator S_Drain S_Buffer S_Junction S_Network S_Net P_World P_Play P_BufferPoll P_Crowd P_Link P_Ask P_Net P_Later P_NetCost P_NetExamples.
From Verif Require P_Network.
Import ListNotations.
Local Open Scope string_scope.

(** A component that does one thing at a time waits: it will do nothing but [e], which cannot happen now; or it has ended. *)
Definition waits (e : eff) (w : world) : Prop := forall a w', ~ wstep w (e, a) w'.
Definition still (st : status (mres nat)) (w : world) : Prop := match st with At e => waits e w | _ => True end.
Definition of_alone (c : comp) : option (prog (mres nat)) :=
  match c with
  | NFaucet f _ => Some (faucet_start f None)
  | NRegulator r => Some (regulator_start r None)
  | NJunction j => Some (junction_start j None)
  | NDrain d _ => Some (drain_start d None)
  | _ => None
  end.
Lemma all_wait net w0 l w ocs : net_run net w0 l w ocs ->
  (forall k c, nth_error net k = Some c -> exists p st, of_alone c = Some p /\ exec p (own 0 (seen_by k l)) st /\ still st w) -> locked net w0 l.
Proof.
  intros HX HW [|[i ev] l'] w' ocs' HX'; [reflexivity|exfalso]. pose proof (nr_world _ _ _ _ _ HX') as HR. apply wrun_app in HR. destruct HR as (w1 & H1 & H2).
  pose proof (wrun_det _ _ _ H1 _ (nr_world _ _ _ _ _ HX)). subst w1. inversion H2 as [|? ? w1 ? ? HS _]; subst. destruct ev as [e a].
  assert (Hlt : i / 4 < length net) by (apply (nr_only _ _ _ _ _ HX' i (e, a)); apply in_or_app; right; now left).
  destruct (nth_error net (i / 4)) as [c|] eqn:Ek; [|apply nth_error_None in Ek; lia]. destruct (HW _ _ Ek) as (p & e0 & Ep & HE & Hno).
  pose proof (nr_comps _ _ _ _ _ HX' _ _ Ek) as HC.
  assert (HA : exists st, alone p (seen_by (i / 4) (l ++ (i, (e, a)) :: l')) st).
  { destruct c; try discriminate Ep; injection Ep as <-; destruct HC as (st & HC & _); eauto. }
  destruct HA as (st & HI & s & _ & HA).
  assert (Hm : i mod 4 < 4) by (apply Nat.mod_upper_bound; discriminate).
  destruct (Nat.eq_dec (i mod 4) 0) as [E0|E0].
  - rewrite seen_app, own_app in HA. rewrite (P_Network.own_seen _ 0 (_ :: _)) in HA by lia. rewrite own_one in HA.
    assert (Ei : (i =? 4 * (i / 4) + 0)%nat = true) by (apply Nat.eqb_eq; pose proof (task_of i); lia). rewrite Ei in HA. cbn [app] in HA.
    pose proof (exec_prefix _ _ _ HA _ _ _ _ eq_refl) as HB. pose proof (exec_det _ _ _ HB _ HE) as EE. subst e0. exact (Hno _ _ HS).
  - specialize (HI (i mod 4)). rewrite P_Network.own_seen in HI by exact Hm. rewrite own_app, own_one in HI.
    assert (Ei : (i =? 4 * (i / 4) + i mod 4)%nat = true) by (apply Nat.eqb_eq; apply task_of). rewrite Ei in HI.
    assert (K : In (i mod 4) [1; 2; 3]) by (clear - Hm E0; revert Hm E0; generalize (i mod 4); intros m; cbn; lia). apply HI in K. apply app_eq_nil in K. destruct K as [_ K]. discriminate K.
Qed.
Lemma send_waits ch v (w : world) : cs_closed (w ch) = false -> ~ room (w ch) -> waits (ESend ch v) w.
Proof. intros H1 H2 a w' HS. inversion HS; subst; try congruence; try (now apply H2); discriminate. Qed.
Lemma recv_waits ch (w : world) : cs_closed (w ch) = false -> cs_queue (w ch) = [] -> waits (ERecv ch) w.
Proof. intros H1 H2 a w' HS. inversion HS; subst; try congruence; discriminate. Qed.

(** in.txt and a regulator that is fed by it to a junction; out.txt. *)
Definition lp_faucet : faucet := Faucet false 1 (Some (io 0 1 0)) None None (Some (PJ 0 1)) (Some "in.txt").
Definition lp_join : junction := Junction 1 false [io 1 2 1; io 1 3 3] [] [(inp 0 1 0, 0%Z); (inp 2 1 2, 0%Z)].
Definition lp_reg : regulator := Regulator false 1 (Some (io 2 1 2)) (Some (inp 1 2 1)) None.
Definition lp_drain : drain := Drain false (Some (inp 1 3 3)) (Some "out.txt").
Definition ring : list comp := [NFaucet lp_faucet "in.txt"; NJunction lp_join; NRegulator lp_reg; NDrain lp_drain "out.txt"].
Definition lp_tasks : tasks := fun t =>
  match t with
  | 0 => TM (faucet_start lp_faucet None)
  | 4 => TM (junction_start lp_join None)
  | 8 => TM (regulator_start lp_reg None)
  | 12 => TM (drain_start lp_drain None)
  | _ => TM (Ret (Ok 0))
  end.
Definition lp_line : bytes := ["x"%char; "010"%char].
Definition lp_sched : list nat := [0; 4; 12; 0; 4; 12; 8; 0; 4; 12; 0; 4; 12; 8; 0; 4; 12; 0; 4; 12; 8] ++ concat (repeat [0; 4; 12; 8] 5).
Definition lp_run : list nevent * tasks * world := crowd 60 lp_sched (repeat lp_line 12) lp_tasks dm_world.
Definition lp_events : list nevent := Eval vm_compute in fst (fst lp_run).
Definition lp_world : world := snd lp_run.
Lemma lp_is : fst (fst (crowd 60 lp_sched (repeat lp_line 12) lp_tasks dm_world)) = lp_events.
Proof. vm_compute. reflexivity. Qed.
Lemma ring_wired : net_wired ring.
Proof.
  constructor.
  - intros c [<-|[<-|[<-|[<-|[]]]]]; cbn [comp_ready].
    + split; [reflexivity|]. eexists _, _. repeat split; discriminate.
    + repeat split; repeat constructor; cbn; intuition discriminate.
    + split; [reflexivity|]. eexists _, _, _, _. repeat split; reflexivity.
    + eexists _, _. repeat split; discriminate || reflexivity.
  - intro n. cbn. intuition.
  - cbn. repeat constructor; cbn; intuition discriminate.
  - cbn. repeat constructor; cbn; intuition discriminate.
  - cbn. repeat constructor; cbn; intuition discriminate.
Qed.
Lemma ring_polite : polite ring.
Proof. intros j H. cbn in H. repeat destruct H as [H|H]; try discriminate H; try injection H as <-; try discriminate. destruct H. Qed.
Lemma ring_new : new_world ring dm_world.
Proof. c3_world. Qed.
Ltac lp_alone k := apply (played_alone 60 _ (repeat lp_line 12) lp_tasks dm_world _ lp_is k); [reflexivity|by_vm|by_vm|by_vm].
Lemma ring_run : net_run ring dm_world lp_events lp_world (fun _ => Going).
Proof.
  destruct ring_new as (N1 & N2 & N3). constructor; auto.
  - intros [|[|[|[|k]]]] c H; cbn in H; try (destruct k; discriminate H); injection H as <-; cbn [comp_runs].
    + eexists. split; [lp_alone 0|reflexivity].
    + eexists. split; [lp_alone 1|reflexivity].
    + eexists. split; [lp_alone 2|reflexivity].
    + eexists. split; [lp_alone 3|reflexivity].
  - exact (proj1 (played_sound 60 _ _ _ _ _ lp_is)).
  - assert (H : forallb (fun x : nevent => (fst x <? 16)%nat) lp_events = true) by by_vm. intros i ev Hin. rewrite forallb_forall in H. specialize (H _ Hin). cbn [fst] in H. apply Nat.ltb_lt in H.
    apply Nat.div_lt_upper_bound; [discriminate|]. exact H.
Qed.
Ltac lp_at k := eapply (played_m 60 _ (repeat lp_line 12) lp_tasks dm_world _ lp_is k 0); [lia|reflexivity|by_vm|by_vm].
Lemma full_chan cs : cs_closed cs = false -> cs_cap cs = Some 1 -> length (cs_queue cs) = 1 -> cs_closed cs = false /\ ~ room cs.
Proof. intros H1 H2 H3. split; [exact H1|]. unfold room. rewrite H2, H3. lia. Qed.
Lemma ring_full n : In n [0; 1; 2] -> cs_closed (lp_world (CData n)) = false /\ ~ room (lp_world (CData n)).
Proof. intros [<-|[<-|[<-|[]]]]; apply full_chan; by_vm. Qed.
Lemma ring_dry : cs_closed (lp_world (CData 3)) = false /\ cs_queue (lp_world (CData 3)) = [].
Proof. split; by_vm. Qed.
Lemma ring_locked : locked ring dm_world lp_events.
Proof.
  apply (all_wait _ _ _ _ _ ring_run). intros [|[|[|[|k]]]] c H; cbn in H; try (destruct k; discriminate H); injection H as <-; eexists _, _; (split; [reflexivity|]).
  - split; [lp_at 0|]. apply send_waits; apply ring_full; cbn; auto.
  - split; [lp_at 1|]. apply send_waits; apply ring_full; cbn; auto.
  - split; [lp_at 2|]. apply send_waits; apply ring_full; cbn; auto.
  - split; [lp_at 3|]. apply recv_waits; apply ring_dry.
Qed.
Lemma ring_willing : willing lp_events.
Proof. apply willing_by. by_vm. Qed.
Lemma ring_turn l : in_turn ring dm_world l.
Proof. intros k b u mi mo pl ps H. destruct k as [|[|[|[|k]]]]; cbn in H; try discriminate H. destruct k; discriminate H. Qed.
Theorem loop_locks : exists f name j r d out w0 l w ocs, let net := [NFaucet f name; NJunction j; NRegulator r; NDrain d out] in
  net_wired net /\ polite net /\ new_world net w0 /\ net_run net w0 l w ocs /\ willing l /\ in_turn net w0 l /\ (forall k, k < 4 -> ocs k = Going) /\
  (exists n, In n (comp_outs (NJunction j)) /\ In n (comp_ins (NRegulator r))) /\ (exists n, In n (comp_outs (NRegulator r)) /\ In n (comp_ins (NJunction j))) /\ locked net w0 l.
Proof.
  exists lp_faucet, "in.txt", lp_join, lp_reg, lp_drain, "out.txt", dm_world, lp_events, lp_world, (fun _ => Going). cbn zeta.
  refine (conj ring_wired (conj ring_polite (conj ring_new (conj ring_run (conj ring_willing (conj (ring_turn _) (conj (fun _ _ => eq_refl) (conj _ (conj _ ring_locked))))))))).
  - exists 1. split; now left.
  - exists 2. split; cbn; auto.
Qed.
