(** * P_SoftEndsExamples: the same file that breaks, to the end of the run; a source that is missing behind pipes that give way *)
From Coq Require Import Ascii String List Bool Arith Lia Permutation ZArith.
From Verif Require Import M_Prog M_Join M_Launch M_Motion M_Config M_Manip M_Lint M_Waiter M_Regulator M_Drain M_Faucet S_Manip S_Trace S_Lines S_Motion S_World S_Network S_Net S_Junction S_Drain S_Launch M_Start S_Start S_Shape S_Waiter S_Watch S_Delay S_Flow S_Path S_Bytes P_Path P_SpringExamples P_PathExamples P_Text P_Parser P_ManipExamples P_NetExamples P_Crowd P_Whole P_Jam P_Shape P_ShapeExamples P_WatchExamples P_DelayRun P_Act P_DelayExamples P_WaiterExamples P_Bytes P_BytesExamples P_Wreck M_Parser P_LastingExamples S_Grammar S_Soft P_SoftExamples.
Import ListNotations.
Local Open Scope string_scope.
Local Open Scope list_scope.

Lemma granted_by l : forallb (fun x : nevent => match snd x with (EOpenRead _, AErr) | (ESpawn _, AErr) => false | _ => true end) l = true -> granted l.
Proof.
  intro H. rewrite forallb_forall in H. split; intros y Hin; unfold all_of in Hin; apply in_map_iff in Hin; destruct Hin as ([i [e a]] & X & Hin); cbn in X; injection X as -> ->; specialize (H _ Hin); discriminate H.
Qed.
Section Broken.
#[local] Existing Instance broken.
Lemma sf_granted : granted (fst (fst sf_run)).
Proof. apply granted_by. by_vm. Qed.
Lemma sf_locked : whole_locked sf_net [] lw_world (fst (fst sf_run)).
Proof. apply (played_locked sf_net []); by_vm. Qed.
Lemma sf_failed : seat_outcome sf_net (ready (snd (fst sf_run))) 1 = Ended (Err (OutputClosed (J 1 None 3 Terminate) BrokenPipe P_Jam.a_line)).
Proof. by_vm. Qed.
End Broken.
Lemma breaks_ends : good_connections (cf_connection sf_config) /\ prepares in_order sf_config sf_waiter [] /\ giving_way (cf_connection sf_config) /\ passing (cf_connection sf_config) /\ no_loop (cf_connection sf_config) /\
  exists w0 l w ocs k e, whole_run (net_of None [] sf_waiter) [] w0 l w ocs /\ granted l /\ whole_locked (net_of None [] sf_waiter) [] w0 l /\ ocs k = Ended (Err e).
Proof.
  split; [exact sf_good|]. split; [exact sf_prepares|]. split; [exact sf_soft|]. split; [exact sf_passing|]. split; [exact sf_no_loop|].
  eexists _, _, _, _, 1, _. change (net_of None [] sf_waiter) with sf_net. split; [exact sf_ran|]. split; [exact sf_granted|]. split; [exact sf_locked|exact sf_failed].
Qed.

(** in.txt is missing. *)
Definition mg_config : config := Config [("in", "in.txt")] [] [("out", "out.txt")] [] [("only", JoinString "f:in |C| d:out")].
Definition mg_waiter : waiter := Eval vm_compute in match settled_up mg_config with Some (w, _) => w | None => waiter_new end.
Definition mg_net : list S_Net.comp := Eval vm_compute in net_of None [] mg_waiter.
Lemma mg_good : good_connections (cf_connection mg_config).
Proof. good_by. Qed.
Lemma mg_prepares : prepares in_order mg_config mg_waiter [].
Proof. apply settled_prepares. by_vm. Qed.
Lemma mg_passing : passing (cf_connection mg_config).
Proof. eapply computed_passing; [exact mg_good|by_vm|by_vm|by_vm]. Qed.
Lemma mg_no_loop : no_loop (cf_connection mg_config).
Proof. eapply (computed_no_loop mg_config _ _ mg_good) with (rank := find_rank [((CDrain, "out"), 1)]); by_vm. Qed.
Lemma mg_soft : giving_way (cf_connection mg_config).
Proof. soft_by_vm. Qed.
Section Missing.
#[local] Existing Instance no_source.
Definition mg_run := crowd 500 (concat (repeat (poll_order mg_net []) 3)) [] (seat mg_net []) lw_world.
Lemma mg_ran : whole_run mg_net [] lw_world (fst (fst mg_run)) (snd mg_run) (seat_outcome mg_net (ready (snd (fst mg_run)))).
Proof. apply (played_whole mg_net []); [by_vm|by_vm|by_vm|made_of_eights]. Qed.
Lemma mg_wrong : only_wrong (EOpenRead "in.txt") (fst (fst mg_run)).
Proof. apply P_Wreck.only_by. by_vm. Qed.
Lemma mg_locked : whole_locked mg_net [] lw_world (fst (fst mg_run)).
Proof. apply (played_locked mg_net []); by_vm. Qed.
Lemma mg_waits : seat_outcome mg_net (ready (snd (fst mg_run))) 1 = Going.
Proof. by_vm. Qed.
Theorem missing_holds : exists c w, good_connections (cf_connection c) /\ prepares in_order c w [] /\ giving_way (cf_connection c) /\ passing (cf_connection c) /\ no_loop (cf_connection c) /\
  exists w0 l wl ocs nm k, whole_run (net_of None [] w) [] w0 l wl ocs /\ only_wrong (EOpenRead nm) l /\ whole_locked (net_of None [] w) [] w0 l /\ k < List.length (net_of None [] w) /\ ocs k = Going.
Proof.
  exists mg_config, mg_waiter. split; [exact mg_good|]. split; [exact mg_prepares|]. split; [exact mg_soft|]. split; [exact mg_passing|]. split; [exact mg_no_loop|].
  eexists _, _, _, _, "in.txt", 1. change (net_of None [] mg_waiter) with mg_net. split; [exact mg_ran|]. split; [exact mg_wrong|]. split; [exact mg_locked|]. split; [cbn; lia|exact mg_waits].
Qed.
End Missing.
