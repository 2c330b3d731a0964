(** * P_BacklogExamples: a slow file behind a buffer that nobody watches, and behind one that its regulator watches *)
From Coq Require Import Ascii String List Bool Arith Lia Permutation Relations.
From Verif Require Import M_Prog M_Motion M_Config M_Manip M_Lint M_Waiter M_Regulator M_Drain S_Manip S_Trace S_World S_Network S_Net M_Start S_Start S_Shape S_Waiter S_Watch S_Delay S_Lasting P_Text P_Parser P_ManipExamples P_NetExamples P_Crowd P_Whole P_Jam P_Shape P_ShapeExamples P_LastingExamples S_Path S_Lag S_Bounded S_Backlog P_SpringExamples P_PathExamples P_LeadExamples P_LagExamples P_BoundedExamples.
Import ListNotations.
Local Open Scope string_scope.
Local Open Scope list_scope.

Lemma lb_over : leads_over lb_steps from_in (CDrain, "out") 18 ["store"].
Proof.
  apply (LO_store lb_steps from_in "store" POut (CDrain, "out") 9); [|vm_compute; tauto]. apply (LO_next lb_steps from_in (CBuffer, "store")). vm_compute. tauto.
Qed.
Lemma lb_at : buffer_at None [] lb_waiter "store" 2.
Proof. eexists _, _, _, _. split; reflexivity. Qed.
Section Slow.
#[local] Existing Instance slow_files.
Lemma lb_stored : stored lb_net 2 (snd lb_run) = 187.
Proof. by_vm. Qed.
Theorem mostly_stored : good_connections (cf_connection lb_config) /\ prepares in_order lb_config lb_waiter [] /\ passing (cf_connection lb_config) /\ apart (cf_connection lb_config) /\ buffer_at None [] lb_waiter "store" 2 /\
  exists ps w0 l wl ocs ks ms, spelled (cf_connection lb_config) ps /\ whole_run (net_of None [] lb_waiter) [] w0 l wl ocs /\ willing l /\ leads_over ps from_in (CDrain, "out") 18 ["store"] /\
    has_sent lb_config lb_waiter None [] l from_in ks /\ has_got lb_config lb_waiter None [] l (CDrain, "out") ms /\ List.length ks = 200 /\ List.length ms = 3 /\ stored (net_of None [] lb_waiter) 2 wl = 187.
Proof.
  split; [exact lb_good|]. split; [exact lb_prepares|]. split; [exact lb_passing|]. split; [exact lb_apart|]. split; [exact lb_at|]. destruct (lb_there lb_events 200 3 ltac:(discriminate) lb_sent lb_got) as (ks & ms & H1 & H2 & H3 & H4).
  exists lb_steps, lb_world, lb_events, (snd lb_run), (seat_outcome lb_net (ready (snd (fst lb_run)))), ks, ms. change (net_of None [] lb_waiter) with lb_net.
  exact (conj lb_spelled (conj lb_ran (conj lb_willing (conj lb_over (conj H1 (conj H2 (conj H3 (conj H4 lb_stored)))))))).
Qed.
End Slow.

(** ** Watched *)
Definition gd_steps : list (connection * connection) := Eval vm_compute in steps_of bd_config.
Lemma gd_spelled : spelled (cf_connection bd_config) gd_steps.
Proof. apply (steps_spelled bd_config bd_good); by_vm. Qed.
Lemma gd_over : leads_over gd_steps from_in (CDrain, "out") 27 ["store"].
Proof.
  apply (LO_store gd_steps from_in "store" POut (CDrain, "out") 18); [|vm_compute; tauto]. apply (LO_on gd_steps from_in CRegulator "gate" POut (CBuffer, "store") 9); [|now left|vm_compute; tauto].
  apply (LO_next gd_steps from_in (CRegulator, "gate")). vm_compute. tauto.
Qed.
Lemma gd_guarded : guarded bd_config 5 "store".
Proof. exists "gate", 2, 5, ["store"]. split; [exact bd_set|]. split; [now left|]. split; [exact bd_straight|cbn; lia]. Qed.
Section Slow2.
#[local] Existing Instance slow_files.
Definition gd_run := crowd 500 (concat (repeat (poll_order bd_net bd_controllers) 5) ++ concat (repeat (filter (fun t => negb (t =? 8)) (poll_order bd_net bd_controllers)) 20))%nat (repeat a_line 300) (seat bd_net bd_controllers) bd_world.
Definition gd_events : list nevent := fst (fst gd_run).
Lemma gd_ran : whole_run bd_net bd_controllers bd_world gd_events (snd gd_run) (seat_outcome bd_net (ready (snd (fst gd_run)))).
Proof. apply (played_whole bd_net bd_controllers); [by_vm|by_vm|by_vm|exact bd_made]. Qed.
Lemma gd_willing : willing gd_events.
Proof. apply willing_by; by_vm. Qed.
Lemma gd_sent : List.length (put (own (4 * 1) gd_events)) = 33.
Proof. by_vm. Qed.
Lemma gd_got : List.length (file_got "out.txt" (own (4 * 2) gd_events)) = 2.
Proof. by_vm. Qed.
End Slow2.
Lemma gd_there l m n : n <> 0 -> List.length (put (own (4 * 1) l)) = m -> List.length (file_got "out.txt" (own (4 * 2) l)) = n ->
  exists ks ms, has_sent bd_config bd_waiter None [] l from_in ks /\ has_got bd_config bd_waiter None [] l (CDrain, "out") ms /\ List.length ks = m /\ List.length ms = n.
Proof.
  intros Hn E1 E2. destruct (head_more _ _ _ Hn E2) as (f & rest & H1 & H2). eexists _, _. split; [apply (HS_faucet bd_config bd_waiter None [] l "in" 1); eexists; split; reflexivity|]. split; [|split; [exact E1|exact H2]].
  eapply HO_drain; [eexists; split; reflexivity|reflexivity|exact H1].
Qed.
Theorem kept_short : good_connections (cf_connection bd_config) /\ prepares in_order bd_config bd_waiter bd_controllers /\ passing (cf_connection bd_config) /\ apart (cf_connection bd_config) /\ NoDup (keys (cf_regulator bd_config)) /\ guarded bd_config 5 "store" /\
  exists ps w0 l wl ocs ks ms, spelled (cf_connection bd_config) ps /\ whole_run (net_of None [] bd_waiter) bd_controllers w0 l wl ocs /\ willing l /\ leads_over ps from_in (CDrain, "out") 27 ["store"] /\
    has_sent bd_config bd_waiter None [] l from_in ks /\ has_got bd_config bd_waiter None [] l (CDrain, "out") ms /\ List.length ks = 33 /\ List.length ms = 2.
Proof.
  split; [exact bd_good|]. split; [exact bd_prepares|]. split; [exact bd_passing|]. split; [exact bd_apart|]. split; [exact bd_once|]. split; [exact gd_guarded|]. destruct (gd_there gd_events 33 2 ltac:(discriminate) gd_sent gd_got) as (ks & ms & H1 & H2 & H3 & H4).
  exists gd_steps, bd_world, gd_events, (snd gd_run), (seat_outcome bd_net (ready (snd (fst gd_run)))), ks, ms. change (net_of None [] bd_waiter) with bd_net.
  exact (conj gd_spelled (conj gd_ran (conj gd_willing (conj gd_over (conj H1 (conj H2 (conj H3 H4))))))).
Qed.
