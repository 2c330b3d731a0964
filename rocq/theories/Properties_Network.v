(** * Properties_Network: C36 *)
From Coq Require Import Ascii String List Bool Arith ZArith.
From Verif Require Import M_Prog M_Motion M_Join S_Trace S_Lines S_Motion S_World S_Regulator S_Drain S_Network P_Network P_Crowd P_NetworkExamples.
Import ListNotations.

(** C36: what has been written at the end of a straight pipeline is at every moment a prefix of what was read at its beginning, cut into messages; so are the bytes. *)
Theorem C36_transparent : forall cs p spy w0 l w sts, pipeline_wired cs p -> pipeline_run cs p spy w0 l w sts ->
  forall e f rest, opened_for (actual_destination (pp_target p)) = Some e -> drain_did p l = (e, AFd f) :: rest ->
  written f (drain_did p l) = [] \/
  exists d rest', faucet_did l = (source_eff (pp_source p), AFd d) :: rest' /\
    prefix (written f (drain_did p l)) (messages_of_reads (reads d (faucet_did l))) /\
    prefix (concat (written f (drain_did p l))) (concat (reads d (faucet_did l))).
Proof. exact pipeline_transparent. Qed.
Print Assumptions C36_transparent.
(** When all have ended successfully, the source has been read to its end and everything has been written and flushed. *)
Theorem C36_complete : forall cs p spy w0 l w sts, pipeline_wired cs p -> pipeline_run cs p spy w0 l w sts ->
  (forall k, k <= S (last_one p) -> succeeded (sts k)) ->
  exists d rest, faucet_did l = (source_eff (pp_source p), AFd d) :: rest /\ In (ERead d, AData []) (faucet_did l) /\
    forall e, opened_for (actual_destination (pp_target p)) = Some e ->
    exists f rest', drain_did p l = (e, AFd f) :: rest' /\ written f (drain_did p l) = messages_of_reads (reads d (faucet_did l)) /\
      concat (written f (drain_did p l)) = concat (reads d (faucet_did l)) /\ In (EFlush f, AOk) (drain_did p l).
Proof. exact pipeline_complete. Qed.
Print Assumptions C36_complete.
(** A faucet, a regulator, a buffer, a junction and a drain: three messages, all ended. *)
Example C36_example : pipeline_wired (fun k => k) ex_pipeline /\ pipeline_run (fun k => k) ex_pipeline None ex_world ex_events ex_end ex_stand /\
  (forall k, k <= S (last_one ex_pipeline) -> succeeded (ex_stand k)) /\
  reads 1 (faucet_did ex_events) = [["a"; "b"]; ["010"; "c"]; ["d"; "010"; "e"]; []; []]%char /\
  written 1 (drain_did ex_pipeline ex_events) = [["a"; "b"; "010"]; ["c"; "d"; "010"]; ["e"]]%char.
Proof.
  split; [exact ex_wired|]. split; [exact ex_pipeline_run|]. split; [|split; vm_compute; reflexivity].
  intros [|[|[|k]]] _; eexists; cbn; eauto.
Qed.
