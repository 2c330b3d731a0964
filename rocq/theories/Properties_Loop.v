(** * Properties_Loop: C38, C83 to C85 *)
From Coq Require Import Ascii String List Bool Arith ZArith.
From Verif Require Import M_Prog M_Motion M_Join S_Trace S_Lines S_Motion S_World S_Regulator S_Drain S_Network S_Net P_Crowd P_Net P_NetCost P_Fair P_NetExamples P_Dam P_Round P_Order P_Ring P_Pond P_Wreck.
Import ListNotations.

(** C38 is false: the output of a junction fed back to it through a regulator.  In a willing world nobody has ended, nobody has failed,
    and nobody will ever act again. *)
Theorem C38_loop_refuted : exists f name j r d out w0 l w ocs, let net := [NFaucet f name; NJunction j; NRegulator r; NDrain d out] in
  net_wired net /\ polite net /\ new_world net w0 /\ net_run net w0 l w ocs /\ willing l /\ in_turn net w0 l /\ (forall k, k < 4 -> ocs k = Going) /\
  (exists n, In n (comp_outs (NJunction j)) /\ In n (comp_ins (NRegulator r))) /\ (exists n, In n (comp_outs (NRegulator r)) /\ In n (comp_ins (NJunction j))) /\ locked net w0 l.
Proof. exact loop_locks. Qed.
Print Assumptions C38_loop_refuted.

(** C83.  With a buffer in every loop: there is something useful to do, or nothing is on its way and everybody who has not ended waits for
    something to come in. *)
Theorem C83_dammed_moves : forall net w0 l w ocs, net_wired net -> dammed net -> net_run net w0 l w ocs -> granted l -> sound_so_far net ocs ->
  (exists l' w' ocs', net_run net w0 (l ++ l') w' ocs' /\ existsb useful (all_of l') = true /\ forallb friendly (all_of l') = true) \/
  (at_rest net w /\ all_listen net w ocs).
Proof. exact dam_moves. Qed.
Print Assumptions C83_dammed_moves.
(** In a willing world, with the parts of buffers polled in turn, nothing else needs to be asked for. *)
Theorem C83_in_turn : forall net w0 l w ocs, net_wired net -> dammed net -> polite net -> net_run net w0 l w ocs -> willing l -> in_turn net w0 l ->
  (exists l' w' ocs', net_run net w0 (l ++ l') w' ocs' /\ in_turn net w0 (l ++ l') /\ existsb useful (all_of l') = true /\ forallb friendly (all_of l') = true) \/
  (at_rest net w /\ all_listen net w ocs).
Proof. exact dam_turns. Qed.
Print Assumptions C83_in_turn.
(** So if nobody will ever act again, nothing is lost on its way, and whoever brings something in has ended. *)
Theorem C83_locked : forall net w0 l w ocs, net_wired net -> dammed net -> polite net -> net_run net w0 l w ocs -> willing l -> in_turn net w0 l -> locked net w0 l ->
  at_rest net w /\ forall k c, nth_error net k = Some c -> comp_ins c = [] -> ocs k <> Going.
Proof. exact dam_locked. Qed.
Print Assumptions C83_locked.
Theorem C83_straight : forall net, acyclic net -> dammed net.
Proof. exact acyclic_dammed. Qed.
Print Assumptions C83_straight.
(** The loop of C38 with a buffer in the place of the regulator: five lines going round; nothing to read. *)
Example C83_example_net : net_wired pond /\ dammed pond /\ polite pond /\ new_world pond dm_world.
Proof. exact (conj pond_wired (conj pond_dammed (conj pond_polite pond_new))). Qed.
Example C83_example_busy : net_run pond dm_world pd_events pd_world (pd_ends 5) /\ willing pd_events /\ in_turn pond dm_world pd_events /\ ~ at_rest pond pd_world /\ length (written 1 (own 12 pd_events)) = 9.
Proof.
  refine (conj pd_ran (conj (proj1 pond_willing) (conj pd_turn (conj _ (proj2 pd_busy))))). intro H.
  assert (E : cs_queue (pd_world (CData 2)) = []) by (apply H; [cbn; auto|vm_compute; reflexivity]). apply (f_equal (@length _)) in E. vm_compute in E. discriminate E.
Qed.
Example C83_example_rest : net_run pond dm_world dr_events dr_world (pd_ends 0) /\ willing dr_events /\ in_turn pond dm_world dr_events /\ at_rest pond dr_world.
Proof. exact (conj dr_ran (conj (proj2 pond_willing) (conj dr_turn (proj1 dr_rests)))). Qed.

(** C84.  Regulators, buffers and junctions each of which is fed by one of them never end, nor does anybody fed by them, however long it takes. *)
Theorem C84_loop_lasts : forall net w0 l w ocs K, net_wired net -> polite net -> net_run net w0 l w ocs -> willing l -> in_turn net w0 l -> round net K ->
  forall k k', K k -> feeds net k k' -> ocs k' = Going.
Proof. exact round_lasts. Qed.
Print Assumptions C84_loop_lasts.
Theorem C84_no_end : forall net w0 l w ocs K k, net_wired net -> polite net -> net_run net w0 l w ocs -> willing l -> in_turn net w0 l -> round net K -> K k ->
  ocs k = Going /\ ~ all_ended net ocs.
Proof. exact round_endless. Qed.
Print Assumptions C84_no_end.
Example C84_example : round pond (fun k => k = 1 \/ k = 2) /\ feeds pond 1 3.
Proof. split; [exact pond_round|]. exists (NJunction lp_join), (NDrain lp_drain "out.txt"%string), 3. cbn. intuition. Qed.

(** C85 is false: the source cannot be opened, its faucet fails, and the others wait for ever ... *)
Theorem C85_missing_source_refuted : exists net w0 l w ocs nm, net_wired net /\ acyclic net /\ polite net /\ new_world net w0 /\ net_run net w0 l w ocs /\ in_turn net w0 l /\ only_wrong (EOpenRead nm) l /\
  (exists k e, ocs k = Ended (Err e)) /\ (exists k, k < length net /\ ocs k = Going) /\ locked net w0 l.
Proof. exact missing_source. Qed.
Print Assumptions C85_missing_source_refuted.
(** ... or one of two files cannot be created, and the drain of the other waits for ever. *)
Theorem C85_one_of_two_refuted : exists net w0 l w ocs nm, net_wired net /\ acyclic net /\ polite net /\ new_world net w0 /\ net_run net w0 l w ocs /\ in_turn net w0 l /\ only_wrong (ECreate nm) l /\
  (exists k e, ocs k = Ended (Err e)) /\ (exists k, k < length net /\ ocs k = Going) /\ locked net w0 l.
Proof. exact one_of_two. Qed.
Print Assumptions C85_one_of_two_refuted.
(** True: whoever else fails, no fair run goes on for ever, as long as every source and program is there, no junction fails and no counter panics. *)
Theorem C85_others_end : forall net w0 f, net_wired net -> acyclic net -> endless net w0 f -> fair net w0 f -> limited f -> statuses_come f ->
  (forall n, granted (so_far f n)) -> ~ (forall n w ocs, net_run net w0 (so_far f n) w ocs -> sound_so_far net ocs).
Proof. intros net w0 f HN HA HE HF HL HS HG HS2. destruct HS as [N HS]. exact (fair_ends net w0 HN HA f HE HF HG HS2 N HS HL). Qed.
Print Assumptions C85_others_end.
