(** * P_Jam: pipelines that lock up, from the configuration file on, everybody polled as the program does it *)
From Coq Require Import Ascii String List Bool Arith Lia ZArith.
From Verif Require Import M_Prog M_Motion M_Config M_Manip S_Manip M_Lint M_Regulator M_Faucet M_Drain M_Buffer M_Junction M_Launch M_Manager M_Waiter M_Join M_Poll S_Trace S_World S_Network S_Net M_Start S_Start P_World P_Play P_Crowd P_NetExamples P_Wreck P_Whole P_ManipExamples.
Import ListNotations.
Local Open Scope string_scope.
Local Open Scope list_scope.

(** All channels have room for eight messages, those for control for one. *)
Definition eights (inner : nat -> bool) : world := fun c =>
  match c with CData n => if inner n then fresh_chan None else fresh_chan (Some 8) | CMon _ => fresh_chan (Some 8) | CCtl _ => fresh_chan (Some 1) | _ => fresh_chan (Some 8) end.
Lemma eights_new inner c : exists cap, eights inner c = fresh_chan cap.
Proof. destruct c as [n|n|n|n|n]; cbn [eights]; try destruct (inner n); eauto. Qed.
Definition a_line : bytes := ["x"%char; "010"%char].

Definition ranked (net : list comp) (rank : nat -> nat) : bool :=
  let ks := combine (seq 0 (length net)) net in
  forallb (fun x => forallb (fun y => forallb (fun n => if existsb (Nat.eqb n) (comp_ins (snd y)) then (rank (fst x) <? rank (fst y))%nat else true) (comp_outs (snd x))) ks) ks.
Lemma nth_combine net : forall (k0 k : nat) (c : comp), nth_error net k = Some c -> In (k0 + k, c) (combine (seq k0 (length net)) net).
Proof.
  induction net as [|d net IH]; intros k0 k c H; [destruct k; discriminate H|]. cbn [length seq combine]. destruct k as [|k].
  - injection H as ->. left. f_equal. lia.
  - right. replace (k0 + S k) with (S k0 + k) by lia. now apply IH.
Qed.
Lemma ranked_acyclic net rank : ranked net rank = true -> acyclic net.
Proof.
  intro H. exists rank. intros k c k' c' n Hk Hk' Ho Hi. unfold ranked in H. rewrite forallb_forall in H. specialize (H _ (nth_combine net 0 k c Hk)). cbn [fst snd] in H.
  rewrite forallb_forall in H. specialize (H _ (nth_combine net 0 k' c' Hk')). cbn [fst snd] in H. rewrite forallb_forall in H. specialize (H n Ho).
  assert (E : existsb (Nat.eqb n) (comp_ins c') = true) by (apply existsb_exists; exists n; split; [exact Hi|apply Nat.eqb_refl]). rewrite E in H. now apply Nat.ltb_lt in H.
Qed.

Ltac good_by := split; [unfold ordered; cbn; repeat constructor|]; repeat constructor; (eapply good_text; vm_compute; reflexivity).

(** ** A regulated pipeline *)

(** a.txt is held back while more than five lines are in the store; b.txt, which is taken first, is not; all of it is also written to log.txt. *)
Definition jm_config : config := Config [("a", "a.txt"); ("b", "b.txt")] [("gate", RegulatorConfig (Some (2, 5)) ["store"])]
  [("out", "out.txt"); ("log", "log.txt")] []
  [("free", JoinString "f:b | j:all | b:store | d:out"); ("held", JoinString "f:a | r:gate | [1]j:all"); ("seen", JoinString "j:all | d:log")].
Definition prepared (c : config) : option (config * list (list string)) := match process_config in_order c with Good (Ok c2, out) => Some (c2, out) | _ => None end.
Definition built (c : config) : option waiter := match prepared c with Some (c2, _) => match get_waiter c2 with Good (Ok w) => Some w | _ => None end | None => None end.
Definition settled_up (c : config) : option (waiter * list capture) :=
  match built c with Some w => match regulator_settings w (w_settings w) with Good (Ok x) => Some x | _ => None end | None => None end.
Lemma settled_makes cwd vars c w cs : settled_up c = Some (w, cs) -> makes cwd vars in_order c (net_of cwd vars w) cs.
Proof.
  unfold settled_up, built, prepared. destruct (process_config in_order c) as [[[c2|e] out]|m] eqn:E1; try discriminate. destruct (get_waiter c2) as [[w1|e]|m] eqn:E2; try discriminate.
  destruct (regulator_settings w1 (w_settings w1)) as [[[w2 cs2]|e]|m] eqn:E3; try discriminate. intros [= -> ->]. exists c2, out, w1, w. auto.
Qed.
Lemma settled_by c net cs : match settled_up c with Some (w, cs') => Some (net_of None [] w, cs') | None => None end = Some (net, cs) -> makes None [] in_order c net cs.
Proof. destruct (settled_up c) as [[w cs']|] eqn:E; [|discriminate]. intros [= <- <-]. exact (settled_makes None [] _ _ _ E). Qed.
Definition jm_waiter : waiter := Eval vm_compute in match settled_up jm_config with Some (w, _) => w | None => waiter_new end.
Definition jm_controllers : list capture := Eval vm_compute in match settled_up jm_config with Some (_, c) => c | None => [] end.
Definition jam : list comp := Eval vm_compute in net_of None [] jm_waiter.
Lemma jm_good : good_connections (cf_connection jm_config).
Proof. good_by. Qed.
Lemma jm_makes : makes None [] in_order jm_config jam jm_controllers.
Proof. change jam with (net_of None [] jm_waiter). apply settled_makes. by_vm. Qed.
Definition jm_world : world := eights (Nat.eqb 10).

Section Slow.
(** The files being written are slow. *)
#[local] Instance slow_files : pausing := fun e => match e with ESleep _ | EWrite _ _ => true | _ => false end.
(** A round in which a.txt may be read, [o] lines are taken to be written to out.txt and [g] to log.txt. *)
Definition jm_round (a o g : nat) : list nat :=
  concat (map (fun t => if t =? 8 then repeat t a else if t =? 12 then repeat t o else if t =? 16 then repeat t g else [t])%nat (poll_order jam jm_controllers)).
Definition jm_rounds (n a o g : nat) : list nat := concat (repeat (jm_round a o g) n).
Definition jm_sched : list nat :=
  jm_rounds 6 0 0 0 ++ jm_rounds 3 1 0 0 ++ jm_round 1 0 8 ++ jm_rounds 4 1 0 0 ++ jm_round 1 0 8 ++ jm_rounds 4 1 0 0 ++
  jm_round 1 8 0 ++ jm_rounds 4 1 0 0 ++ jm_round 1 8 0 ++ jm_rounds 4 1 0 0 ++ concat (repeat (jm_round 1 0 8 ++ jm_rounds 4 1 0 0) 6) ++ jm_rounds 14 1 10 10.
Definition jm_run := crowd 500 jm_sched (repeat a_line 200) (seat jam jm_controllers) jm_world.
Definition jm_events : list nevent := fst (fst jm_run).

Lemma jm_made : made_world jam jm_world.
Proof.
  constructor.
  - apply eights_new.
  - intros c n Hc Hn. cbn in Hc. repeat destruct Hc as [<-|Hc]; try contradiction; cbn in Hn; repeat destruct Hn as [<-|Hn]; try contradiction; reflexivity.
  - intros b u mi mo Hc. cbn in Hc. repeat destruct Hc as [Hc|Hc]; try discriminate Hc; try contradiction. injection Hc as <- <- <- <-. repeat split; reflexivity.
  - intros c n Hc Hn. cbn in Hc. repeat destruct Hc as [<-|Hc]; try contradiction; cbn in Hn; repeat destruct Hn as [<-|Hn]; try contradiction; reflexivity.
  - intros c n Hc Hn. cbn in Hc. repeat destruct Hc as [<-|Hc]; try contradiction; cbn in Hn; repeat destruct Hn as [<-|Hn]; try contradiction; reflexivity.
Qed.
Lemma jm_ran : whole_run jam jm_controllers jm_world jm_events (snd jm_run) (seat_outcome jam (ready (snd (fst jm_run)))).
Proof. apply (played_whole jam jm_controllers); [by_vm|by_vm|by_vm|exact jm_made]. Qed.
Lemma jm_locked : whole_locked jam jm_controllers jm_world jm_events.
Proof. apply (played_locked jam jm_controllers); by_vm. Qed.
Lemma jm_willing : willing jm_events.
Proof. apply willing_by. by_vm. Qed.
Lemma jm_acyclic : acyclic jam.
Proof. apply (ranked_acyclic _ (fun k => nth k [1; 0; 0; 6; 6; 5; 3; 4; 2] 0)). by_vm. Qed.
Definition is_going (o : S_Net.outcome) : bool := match o with Going => true | _ => false end.
Lemma all_going net cs ocs : forallb (fun k => is_going (ocs k)) (seq 0 (length net + length cs)) = true -> none_ended net cs ocs.
Proof. intros H k Hk. rewrite forallb_forall in H. assert (K : In k (seq 0 (length net + length cs))) by (apply in_seq; lia). specialize (H k K). destruct (ocs k); try discriminate H. reflexivity. Qed.
Lemma jm_none : none_ended jam jm_controllers (seat_outcome jam (ready (snd (fst jm_run)))).
Proof. apply all_going. by_vm. Qed.
Theorem regulated_jam : exists c net cs w0 l w ocs, good_connections (cf_connection c) /\ makes None [] in_order c net cs /\ acyclic net /\ whole_run net cs w0 l w ocs /\ willing l /\ none_ended net cs ocs /\ whole_locked net cs w0 l.
Proof.
  exists jm_config, jam, jm_controllers, jm_world, jm_events, (snd jm_run), (seat_outcome jam (ready (snd (fst jm_run)))).
  exact (conj jm_good (conj jm_makes (conj jm_acyclic (conj jm_ran (conj jm_willing (conj jm_none jm_locked)))))).
Qed.
End Slow.

(** ** A loop *)

(** What comes out of a junction is written to out.txt and goes back to it through a regulator that nobody controls. *)
Definition lw_config : config := Config [("in", "in.txt")] [("back", RegulatorConfig None [])] [("out", "out.txt")] []
  [("again", JoinString "j:mix | r:back | j:mix"); ("round", JoinString "f:in | j:mix | d:out")].
Definition loop_net : list comp := Eval vm_compute in match settled_up lw_config with Some (w, _) => net_of None [] w | None => [] end.
Lemma lw_good : good_connections (cf_connection lw_config).
Proof. good_by. Qed.
Lemma lw_makes : makes None [] in_order lw_config loop_net [].
Proof.
  apply settled_by. by_vm.
Qed.
Definition lw_world : world := eights (fun _ => false).
Definition lw_run := crowd 500 (concat (repeat (poll_order loop_net []) 30)) (repeat a_line 200) (seat loop_net []) lw_world.
Definition lw_events : list nevent := fst (fst lw_run).
Ltac made_of_eights :=
  constructor; [apply eights_new|
    intros c n Hc Hn; cbn in Hc; repeat destruct Hc as [<-|Hc]; try contradiction; cbn in Hn; repeat destruct Hn as [<-|Hn]; try contradiction; reflexivity|
    intros b u mi mo Hc; cbn in Hc; repeat destruct Hc as [Hc|Hc]; try discriminate Hc; contradiction|
    intros c n Hc Hn; cbn in Hc; repeat destruct Hc as [<-|Hc]; try contradiction; cbn in Hn; repeat destruct Hn as [<-|Hn]; try contradiction; reflexivity|
    intros c n Hc Hn; cbn in Hc; repeat destruct Hc as [<-|Hc]; try contradiction; cbn in Hn; repeat destruct Hn as [<-|Hn]; try contradiction; reflexivity].
Lemma lw_ran : whole_run loop_net [] lw_world lw_events (snd lw_run) (seat_outcome loop_net (ready (snd (fst lw_run)))).
Proof. apply (played_whole loop_net []); [by_vm|by_vm|by_vm|made_of_eights]. Qed.
Theorem loop_jam : exists c net w0 l w ocs, good_connections (cf_connection c) /\ makes None [] in_order c net [] /\ whole_run net [] w0 l w ocs /\ willing l /\ none_ended net [] ocs /\ whole_locked net [] w0 l.
Proof.
  exists lw_config, loop_net, lw_world, lw_events, (snd lw_run), (seat_outcome loop_net (ready (snd (fst lw_run)))).
  refine (conj lw_good (conj lw_makes (conj lw_ran (conj _ (conj _ _))))).
  - apply willing_by. by_vm.
  - apply all_going. by_vm.
  - apply (played_locked loop_net []); by_vm.
Qed.

(** ** Failures *)

(** in.txt is missing. *)
Definition mw_config : config := Config [("in", "in.txt")] [] [("out", "out.txt")] [] [("only", JoinString "f:in | d:out")].
Definition missing_net : list comp := Eval vm_compute in match settled_up mw_config with Some (w, _) => net_of None [] w | None => [] end.
Lemma mw_good : good_connections (cf_connection mw_config).
Proof. good_by. Qed.
Lemma mw_makes : makes None [] in_order mw_config missing_net [].
Proof. apply settled_by. by_vm. Qed.
Section Missing.
#[local] Existing Instance no_source.
Definition mw_run := crowd 500 (concat (repeat (poll_order missing_net []) 3)) [] (seat missing_net []) lw_world.
Lemma mw_ran : whole_run missing_net [] lw_world (fst (fst mw_run)) (snd mw_run) (seat_outcome missing_net (ready (snd (fst mw_run)))).
Proof. apply (played_whole missing_net []); [by_vm|by_vm|by_vm|made_of_eights]. Qed.
Theorem missing_jam : exists c net w0 l w ocs nm, good_connections (cf_connection c) /\ makes None [] in_order c net [] /\ acyclic net /\ whole_run net [] w0 l w ocs /\ only_wrong (EOpenRead nm) l /\
  (exists k e, ocs k = Ended (Err e)) /\ (exists k, k < length net /\ ocs k = Going) /\ whole_locked net [] w0 l.
Proof.
  exists mw_config, missing_net, lw_world, (fst (fst mw_run)), (snd mw_run), (seat_outcome missing_net (ready (snd (fst mw_run)))), "in.txt".
  refine (conj mw_good (conj mw_makes (conj _ (conj mw_ran (conj _ (conj _ (conj _ _))))))).
  - apply (ranked_acyclic _ (fun k => k)). by_vm.
  - apply P_Wreck.only_by. by_vm.
  - exists 0. eexists. by_vm.
  - exists 1. split; [cbn; lia|by_vm].
  - apply (played_locked missing_net []); by_vm.
Qed.
End Missing.

(** bad.txt, one of two files to be written, cannot be created. *)
Definition fw_config : config := Config [("in", "in.txt")] [] [("bad", "bad.txt"); ("good", "good.txt")] [] [("one", JoinString "f:in | j:fork | d:bad"); ("two", JoinString "j:fork | d:good")].
Definition fork_net : list comp := Eval vm_compute in match settled_up fw_config with Some (w, _) => net_of None [] w | None => [] end.
Lemma fw_good : good_connections (cf_connection fw_config).
Proof. good_by. Qed.
Lemma fw_makes : makes None [] in_order fw_config fork_net [].
Proof. apply settled_by. by_vm. Qed.
Section Bad.
#[local] Existing Instance no_room.
Definition fw_run := crowd 500 (concat (repeat (poll_order fork_net []) 9)) (repeat a_line 5) (seat fork_net []) lw_world.
Lemma fw_ran : whole_run fork_net [] lw_world (fst (fst fw_run)) (snd fw_run) (seat_outcome fork_net (ready (snd (fst fw_run)))).
Proof. apply (played_whole fork_net []); [by_vm|by_vm|by_vm|made_of_eights]. Qed.
Theorem fork_jam : exists c net w0 l w ocs nm, good_connections (cf_connection c) /\ makes None [] in_order c net [] /\ acyclic net /\ whole_run net [] w0 l w ocs /\ only_wrong (ECreate nm) l /\
  (exists k e, ocs k = Ended (Err e)) /\ (exists k, k < length net /\ ocs k = Going) /\ whole_locked net [] w0 l.
Proof.
  exists fw_config, fork_net, lw_world, (fst (fst fw_run)), (snd fw_run), (seat_outcome fork_net (ready (snd (fst fw_run)))), "bad.txt".
  refine (conj fw_good (conj fw_makes (conj _ (conj fw_ran (conj _ (conj _ (conj _ _))))))).
  - apply (ranked_acyclic _ (fun k => nth k [0; 3; 3; 1; 2] 0)). by_vm.
  - apply P_Wreck.only_by. by_vm.
  - exists 1. eexists. by_vm.
  - exists 2. split; [cbn; lia|by_vm].
  - apply (played_locked fork_net []); by_vm.
Qed.
End Bad.

(** ** One that ends *)
Definition gd_config : config := Config [("a", "a.txt"); ("b", "b.txt")] [("pass", RegulatorConfig None [])] [("out", "out.txt"); ("log", "log.txt")] []
  [("one", JoinString "f:a | r:pass | j:all | b:store | d:out"); ("two", JoinString "f:b | j:all | d:log")].
Definition good_net : list comp := Eval vm_compute in match settled_up gd_config with Some (w, _) => net_of None [] w | None => [] end.
Lemma gd_good : good_connections (cf_connection gd_config).
Proof. good_by. Qed.
Lemma gd_makes : makes None [] in_order gd_config good_net [].
Proof. apply settled_by. by_vm. Qed.
Definition gd_world : world := eights (Nat.eqb 8).
Definition gd_run (n : nat) := crowd 500 (concat (repeat (poll_order good_net []) n)) (repeat a_line 20 ++ [[]; []]) (seat good_net []) gd_world.
Lemma gd_wired : net_wired good_net.
Proof.
  constructor.
  - intros c Hc. cbn in Hc. repeat destruct Hc as [<-|Hc]; try contradiction; cbn [comp_ready].
    + split; [reflexivity|]. eexists _, _, _, _. repeat split; reflexivity.
    + split; [reflexivity|]. eexists _, _. repeat split; discriminate.
    + split; [reflexivity|]. eexists _, _. repeat split; discriminate.
    + eexists _, _. repeat split; discriminate || reflexivity.
    + eexists _, _. repeat split; discriminate || reflexivity.
    + split; [reflexivity|]. eexists _, _, _, _. split; [reflexivity|split; [reflexivity|]]. split; [exact Logic.I|]. split; [exact Logic.I|]. split; [exact Logic.I|]. split; [discriminate|].
      intros e d [[= <-]|[= <-]]; discriminate.
    + repeat split; repeat constructor; cbn; intuition discriminate.
    + repeat split; repeat constructor; cbn; intuition discriminate.
    + repeat split; repeat constructor; cbn; intuition discriminate.
  - intro n. cbn. intuition.
  - cbn. repeat constructor; cbn; intuition discriminate.
  - cbn. repeat constructor; cbn; intuition discriminate.
  - cbn. repeat constructor; cbn; intuition discriminate.
Qed.
Lemma gd_acyclic : acyclic good_net.
Proof. apply (ranked_acyclic _ (fun k => nth k [1; 0; 0; 6; 6; 5; 3; 4; 2] 0)). by_vm. Qed.
Lemma gd_polite : polite good_net.
Proof. intros j H. cbn in H. repeat destruct H as [H|H]; try discriminate H; try injection H as <-; try discriminate. destruct H. Qed.
Lemma gd_roomy : roomy good_net.
Proof. intros c H Hn. cbn in H. repeat destruct H as [<-|H]; try contradiction; try (cbn; lia); cbn in Hn; congruence. Qed.
Lemma gd_made : made_world good_net gd_world.
Proof.
  constructor.
  - apply eights_new.
  - intros c n Hc Hn. cbn in Hc. repeat destruct Hc as [<-|Hc]; try contradiction; cbn in Hn; repeat destruct Hn as [<-|Hn]; try contradiction; reflexivity.
  - intros b u mi mo Hc. cbn in Hc. repeat destruct Hc as [Hc|Hc]; try discriminate Hc; try contradiction. injection Hc as <- <- <- <-. repeat split; reflexivity.
  - intros c n Hc Hn. cbn in Hc. repeat destruct Hc as [<-|Hc]; try contradiction; cbn in Hn; repeat destruct Hn as [<-|Hn]; try contradiction; reflexivity.
  - intros c n Hc Hn. cbn in Hc. repeat destruct Hc as [<-|Hc]; try contradiction; cbn in Hn; repeat destruct Hn as [<-|Hn]; try contradiction; reflexivity.
Qed.
Lemma gd_ran n : round_and_round good_net [] 500 (concat (repeat (poll_order good_net []) n)) (repeat a_line 20 ++ [[]; []]) (seat good_net []) gd_world 0 = true ->
  all_settled good_net [] (ready (snd (fst (gd_run n)))) = true ->
  whole_run good_net [] gd_world (fst (fst (gd_run n))) (snd (gd_run n)) (seat_outcome good_net (ready (snd (fst (gd_run n))))).
Proof. intros H1 H2. apply (played_whole good_net []); [by_vm|exact H1|exact H2|exact gd_made]. Qed.
Definition did_well (o : S_Net.outcome) : bool := match o with Ended (Ok _) => true | _ => false end.
Lemma all_did_well net ocs : forallb (fun k => did_well (ocs k)) (seq 0 (length net)) = true -> all_succeeded net ocs.
Proof. intros H k Hk. rewrite forallb_forall in H. assert (K : In k (seq 0 (length net))) by (apply in_seq; lia). specialize (H k K). destruct (ocs k) as [|[n|e]|]; try discriminate H. eauto. Qed.
Theorem good_end : exists l w ocs, whole_run good_net [] gd_world l w ocs /\ willing l /\ whole_locked good_net [] gd_world l /\ all_succeeded good_net ocs.
Proof.
  exists (fst (fst (gd_run 10))), (snd (gd_run 10)), (seat_outcome good_net (ready (snd (fst (gd_run 10))))).
  split; [apply gd_ran; by_vm|]. split; [apply willing_by; by_vm|]. split; [apply (played_locked good_net []); by_vm|]. apply all_did_well. by_vm.
Qed.
Theorem good_middle : exists l w ocs, whole_run good_net [] gd_world l w ocs /\ willing l /\ ocs 0 = Going /\ ocs 1 = Ended (Ok 11).
Proof.
  exists (fst (fst (gd_run 2))), (snd (gd_run 2)), (seat_outcome good_net (ready (snd (fst (gd_run 2))))).
  split; [apply gd_ran; by_vm|]. split; [apply willing_by; by_vm|]. split; by_vm.
Qed.
