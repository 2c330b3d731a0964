(** * Properties C30 and C31, and the drain part of C10 *)
From Coq Require Import Ascii String List Bool Arith ZArith.
From Verif Require Import M_Prog P_Prog M_Motion M_Drain M_Faucet S_Trace S_Lines S_Motion S_Drain S_Regulator.
From Verif Require Import P_Split P_Control P_Drain.
Import ListNotations.

Definition in1 := PlReceiver (PJ 0 1) 1.
Definition drain_to (name : string) : drain := Drain false (Some in1) (Some name).
Example drain_ready_case name : drain_ready (drain_to name) in1 name.
Proof. repeat split; discriminate. Qed.

(** C30: a drain with a destination other than the null device writes nothing before the destination is open, then
    only there; what it has written is a prefix of the messages received; when it ends successfully it is
    all of them, the input has ended and the output has been flushed.  It never panics. *)
Theorem C30_drain_writes_what_it_receives : forall d pl name e tr st,
  drain_ready d pl name -> opened_for (actual_destination name) = Some e -> exec (drain_start d None) tr st ->
  match tr with
  | (e', AFd f) :: _ =>
    e' = e /\ prefix (written f tr) (got pl tr) /\
    (forall x, In x (attempts tr) -> fst (fst x) = EWrite f (snd (fst x))) /\
    match st with
    | Done (Ok n) => written f tr = got pl tr /\ ended pl tr /\ In (EFlush f, AOk) tr /\ n = S (length (got pl tr))
    | Panicked _ => False
    | _ => True
    end
  | _ => attempts tr = [] /\ match st with Done (Ok _) | Panicked _ => False | _ => True end
  end.
Proof. exact drain_writes. Qed.
Print Assumptions C30_drain_writes_what_it_receives.

(** A drain to the null device writes nothing and still takes everything. *)
Theorem C30_null_drain_takes_everything : forall d pl name tr st,
  drain_ready d pl name -> opened_for (actual_destination name) = None -> exec (drain_start d None) tr st ->
  attempts tr = [] /\
  match st with Done (Ok n) => ended pl tr /\ n = S (length (got pl tr)) | Panicked _ => False | _ => True end.
Proof. exact drain_null. Qed.
Print Assumptions C30_null_drain_takes_everything.

(** A destination that cannot be opened is the error of the drain. *)
Theorem C30_open_failure_is_reported : forall d pl name e tr st,
  drain_ready d pl name -> opened_for (actual_destination name) = Some e ->
  exec (drain_start d None) ((e, AErr) :: tr) (Done st) ->
  exists pj, pull_journey pl = Some pj /\ st = Err (OpenIOError pj).
Proof. exact drain_open_fails. Qed.
Print Assumptions C30_open_failure_is_reported.

Example C30_case : exists tr,
  exec (drain_start (drain_to "out.txt") None) tr (Done (Ok 3)) /\ hd_error tr = Some (ECreate "out.txt", AFd 7) /\
  written 7 tr = [b "ab"; b "c"] /\ got in1 tr = [b "ab"; b "c"].
Proof.
  eexists. split; [eapply drive_sound with (fuel := 100)
    (answers := [AFd 7; AMsg (VData (b "ab")); AOk; AMsg (VData (b "c")); AOk; AClosed; AOk; AOk; AOk]); vm_compute; reflexivity|].
  repeat split; vm_compute; reflexivity.
Qed.
Example C30_null_case : exists tr, exec (drain_start (drain_to "/dev/null") None) tr (Done (Ok 2)) /\ got in1 tr = [b "ab"].
Proof.
  eexists. split; [eapply drive_sound with (fuel := 100) (answers := [AMsg (VData (b "ab")); AClosed; AOk]); vm_compute; reflexivity|].
  vm_compute; reflexivity.
Qed.
Example C30_failure_case : exists tr, exec (drain_start (drain_to "no/out") None) ((ECreate "no/out", AErr) :: tr) (Done (Err (OpenIOError (PJ 0 1)))).
Proof. eexists. eapply drive_sound with (fuel := 100) (answers := [AErr; AOk]); vm_compute; reflexivity. Qed.

(** C31, for every text but the empty one and "/dev/null" (which selects nothing): the drain opens, or is about to open,
    exactly what the help text says. *)
Theorem C31_drain_destination_partial : forall d pl name tr st,
  drain_ready d pl name -> name <> ""%string -> name <> "/dev/null"%string -> exec (drain_start d None) tr st ->
  opening_of st tr = match opened_for (documented_destination name) with Some e => [e] | None => [] end.
Proof. exact drain_opens_documented. Qed.
Print Assumptions C31_drain_destination_partial.

(** The same for a faucet. *)
Theorem C31_faucet_source_partial : forall f name ps spy tr st,
  faucet_ready f name ps -> name <> ""%string -> exec (faucet_start f spy) tr st ->
  opening_of st tr = match opened_from (documented_source name) with Some e => [e] | None => [] end.
Proof. exact faucet_opens. Qed.
Print Assumptions C31_faucet_source_partial.

Example C31_case : exists tr, exec (drain_start (drain_to "_") None) tr (Done (Ok 1)) /\ openings tr = [EStderr].
Proof.
  eexists. split; [eapply drive_sound with (fuel := 100) (answers := [AFd 2; AClosed; AOk; AOk; AOk]); vm_compute; reflexivity|].
  vm_compute; reflexivity.
Qed.
Definition out2 := PsIoSender (J 1 (Some POut) 2 Terminate) 2.
Definition faucet_from (name : string) : faucet := Faucet false 8 (Some out2) None None (Some (PJ 0 1)) (Some name).
Example C31_faucet_case : faucet_ready (faucet_from "-") "-" out2 /\ exists tr, exec (faucet_start (faucet_from "-") None) tr (Done (Ok 0)) /\ openings tr = [EStdin].
Proof.
  split; [repeat split; discriminate|].
  eexists. split; [eapply drive_sound with (fuel := 100) (answers := [AFd 0; AData []; AOk; AOk; AOk]); vm_compute; reflexivity|].
  vm_compute; reflexivity.
Qed.

(** The empty text does not select nothing: the drain, and the faucet, asks for a file with an empty name. *)
Theorem C31_empty_text_refuted : exists d pl f ps,
  drain_ready d pl ""%string /\ faucet_ready f ""%string ps /\
  opened_for (documented_destination "") = None /\ opened_from (documented_source "") = None /\
  exec (drain_start d None) [] (At (ECreate ""%string)) /\ exec (faucet_start f None) [] (At (EOpenRead ""%string)).
Proof.
  exists (drain_to ""), in1, (faucet_from ""), out2. split; [repeat split; discriminate|]. split; [repeat split; discriminate|].
  split; [reflexivity|]. split; [reflexivity|].
  split; eapply drive_sound with (fuel := 100) (answers := []); vm_compute; reflexivity.
Qed.
Print Assumptions C31_empty_text_refuted.

(** C10: a drain that has stopped, even because its destination could not be opened, has let go of its input and of
    whatever it opened. *)
Theorem C10_drain_releases : forall d pl name tr r,
  drain_ready d pl name -> exec (drain_start d None) tr (Done r) ->
  pull_released pl tr /\ forall e f, In (e, AFd f) tr -> In (EDropFd f, AOk) tr.
Proof. exact drain_releases. Qed.
Print Assumptions C10_drain_releases.
