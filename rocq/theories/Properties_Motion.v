(** * Properties C04 - C10: copying messages from an input to outputs *)
From Coq Require Import Ascii String List Bool Arith.
From Verif Require Import M_Prog P_Prog M_Motion S_Trace S_Lines S_Motion P_Split P_Copy P_Fan.
Import ListNotations.

(** C04: at every moment what the output has been offered is a prefix of what the input has yielded;
    of a channel at most one message has been taken and not yet offered. *)
Theorem C04_copy_keeps_order : forall pl mon spy ps tr st,
  fresh_pull pl -> (pull_journey pl <> None \/ mon = mn_empty) -> real_push ps ->
  exec (motion pl mon spy ps) tr st ->
  prefix (offered_to ps tr) (got pl tr) /\
  (is_chan pl -> length (got pl tr) <= S (length (offered_to ps tr))).
Proof. intros pl mon spy ps tr st Hf Hm Hr HX. exact (copy_prefix pl mon spy ps Hf Hm Hr tr st HX). Qed.
Print Assumptions C04_copy_keeps_order.

(** Whenever it asks for more input it has offered every message it has taken (of a byte source: every
    complete line). *)
Theorem C04_copy_offers_before_reading : forall pl mon spy ps tr e,
  fresh_pull pl -> (pull_journey pl <> None \/ mon = mn_empty) -> real_push ps ->
  exec (motion pl mon spy ps) tr (At e) -> is_read e = true ->
  length (got pl tr) <= S (length (offered_to ps tr)) /\
  (is_chan pl -> offered_to ps tr = got pl tr).
Proof. intros pl mon spy ps tr e Hf Hm Hr HX He. exact (copy_caught_up pl mon spy ps Hf Hm Hr tr e HX He). Qed.
Print Assumptions C04_copy_offers_before_reading.

(** It ends successfully with everything offered, or because its Finish output was found closed. *)
Theorem C04_copy_ends_with_everything : forall pl mon spy ps tr n,
  fresh_pull pl -> (pull_journey pl <> None \/ mon = mn_empty) -> real_push ps ->
  exec (motion pl mon spy ps) tr (Done (Ok n)) ->
  (offered_to ps tr = got pl tr /\ ended pl tr) \/
  (push_brk ps = Finish /\ exists d, found_closed ps d tr).
Proof.
  intros pl mon spy ps tr n Hf Hm Hr HX.
  exact (copy_ends pl mon spy ps Hf Hm Hr tr n HX).
Qed.
Print Assumptions C04_copy_ends_with_everything.

(** A Terminate output has then accepted everything. *)
Theorem C04_terminate_output_gets_everything : forall pl mon spy ps tr n,
  fresh_pull pl -> (pull_journey pl <> None \/ mon = mn_empty) -> real_push ps ->
  exec (motion pl mon spy ps) tr (Done (Ok n)) -> push_brk ps = Terminate ->
  accepted_by ps tr = got pl tr.
Proof. intros pl mon spy ps tr n Hf Hm Hr HX Hb. exact (copy_terminate_all pl mon spy ps Hf Hm Hr tr n HX Hb). Qed.
Print Assumptions C04_terminate_output_gets_everything.

(** Channel 1 to channel 2, two messages, then the end. *)
Example C04_case :
  exists tr, exec (motion (PlReceiver (PJ 0 1) 1) mn_empty None (PsIoSender (J 1 (Some POut) 2 Terminate) 2)) tr (Done (Ok 3))
    /\ got (PlReceiver (PJ 0 1) 1) tr = [b "one"; b "two"]
    /\ accepted_by (PsIoSender (J 1 (Some POut) 2 Terminate) 2) tr = [b "one"; b "two"].
Proof.
  eexists. split; [eapply drive_sound with (fuel := 100)
    (answers := [AMsg (VData (b "one")); AOk; AMsg (VData (b "two")); AOk; AClosed; AOk; AOk; AOk]); vm_compute; reflexivity|].
  split; reflexivity.
Qed.

(** C05: a message read is offered once to each output, in output order, before anything else is read. *)
Theorem C05_fan_out : forall pl mon pushs spy t tr st,
  fresh_pull pl -> try_ok pl t ->
  exec (motion_worker pl mon pushs spy t) tr st ->
  exists tr1 tr2, tr = tr1 ++ tr2 /\ attempts tr1 = [] /\ no_reads tr2 /\
   (attempts tr2 = [] \/
    exists d done rest, pushs = done ++ rest /\ In d (got pl tr) /\ offers done d (attempts tr2)) /\
   (forall fin pl' pushs', st = Done (Ok (WR fin true), pl', pushs') ->
      (attempts tr2 = [] /\ got pl tr = [] /\ ended pl tr) \/
      exists d, In d (got pl tr) /\ offers pushs d (attempts tr2)).
Proof. intros pl mon pushs spy t tr st Hf Ht HX. exact (fan_out pl mon pushs spy t Hf Ht tr st HX). Qed.
Print Assumptions C05_fan_out.

Example C05_case :
  let outs := [PsIoSender (J 1 (Some POut) 2 Terminate) 2; PsIoSender (J 1 (Some POut) 3 Consume) 3] in
  exists tr, exec (motion_worker (PlReceiver (PJ 0 1) 1) mn_empty outs None true) tr
               (Done (Ok (WR false true), PlReceiver (PJ 0 1) 1, outs))
    /\ attempts tr = [(ESend (CData 2) (VData (b "x")), b "x", AOk); (ESend (CData 3) (VData (b "x")), b "x", AClosed)].
Proof.
  intro outs. eexists. split; [eapply drive_sound with (fuel := 100) (answers := [AMsg (VData (b "x")); AOk; AClosed]); vm_compute; reflexivity|].
  reflexivity.
Qed.

(** C06: a closed Terminate output stops the worker at that very write, with an error that names it. *)
Theorem C06_terminate_stops : forall pl mon pushs spy t tr st p d,
  fresh_pull pl -> try_ok pl t ->
  exec (motion_worker pl mon pushs spy t) tr st ->
  In p pushs -> push_brk p = Terminate -> distinct_outputs pushs -> found_closed p d tr ->
  exists e pre j reason pl' pushs', write_eff p d = Some e /\ tr = pre ++ [(e, closed_ans p)] /\
    push_journey p = Some j /\ st = Done (Err (OutputClosed j reason d), pl', pushs').
Proof. intros pl mon pushs spy t tr st p d Hf Ht HX. exact (fan_terminate pl mon pushs spy t Hf Ht tr st p d HX). Qed.
Print Assumptions C06_terminate_stops.

(** A whole copy: after that write it only closes things, and it returns that error. *)
Theorem C06_terminate_stops_copy : forall pl mon spy ps tr st d,
  fresh_pull pl -> (pull_journey pl <> None \/ mon = mn_empty) -> real_push ps ->
  exec (motion pl mon spy ps) tr st -> push_brk ps = Terminate -> found_closed ps d tr ->
  (exists e pre post, write_eff ps d = Some e /\ tr = pre ++ [(e, closed_ans ps)] ++ post /\ only_closing post) /\
  match st with
  | At e' => closing_eff e'
  | Done r => exists j reason, push_journey ps = Some j /\ r = Err (OutputClosed j reason d)
  | Panicked _ => False
  end.
Proof. intros pl mon spy ps tr st d Hf Hm Hr HX Hb Hc. exact (terminate_stops' pl mon spy ps Hf Hm Hr tr st d HX Hb Hc). Qed.
Print Assumptions C06_terminate_stops_copy.

Example C06_case :
  let outs := [PsIoSender (J 1 (Some POut) 2 Consume) 2; PsIoSender (J 1 (Some PErr) 3 Terminate) 3; PsIoSender (J 1 (Some POut) 4 Terminate) 4] in
  distinct_outputs outs /\
  exists tr, exec (motion_worker (PlReceiver (PJ 0 1) 1) mn_empty outs None true) tr
    (Done (Err (OutputClosed (J 1 (Some PErr) 3 Terminate) ChannelClosed (b "x")), PlReceiver (PJ 0 1) 1, outs)).
Proof.
  intro outs. split; [repeat constructor; cbn; intuition discriminate|].
  eexists. eapply drive_sound with (fuel := 100) (answers := [AMsg (VData (b "x")); AOk; AClosed]); vm_compute; reflexivity.
Qed.

(** C07: outputs that are all Consume never stop the worker ... *)
Theorem C07_consume_never_stops : forall pl mon pushs spy t tr st,
  fresh_pull pl -> try_ok pl t -> (pull_journey pl <> None \/ mon = mn_empty) ->
  exec (motion_worker pl mon pushs spy t) tr st -> pushs <> [] ->
  (forall p, In p pushs -> push_brk p = Consume) ->
  match st with
  | Done (Ok (WR true _), _, _) => got pl tr = [] /\ ended pl tr
  | Done (Err (OutputClosed _ _ _), _, _) => False
  | Panicked _ => False
  | _ => True
  end.
Proof. intros pl mon pushs spy t tr st Hf Ht Hm HX. exact (fan_consume pl mon pushs spy t Hf Ht Hm tr st HX). Qed.
Print Assumptions C07_consume_never_stops.

(** ... and a whole copy ends only at the end of its input, or with an error of another kind. *)
Theorem C07_consume_copy_reads_everything : forall pl mon spy ps tr r,
  fresh_pull pl -> (pull_journey pl <> None \/ mon = mn_empty) -> real_push ps ->
  exec (motion pl mon spy ps) tr (Done r) -> push_brk ps = Consume ->
  match r with
  | Ok n => offered_to ps tr = got pl tr /\ ended pl tr
  | Err (OutputClosed _ _ _) => False
  | Err _ => True
  end.
Proof. intros pl mon spy ps tr r Hf Hm Hr HX Hb. exact (consume_reads_all pl mon spy ps Hf Hm Hr tr r HX Hb). Qed.
Print Assumptions C07_consume_copy_reads_everything.

Example C07_case :
  exists tr, exec (motion (PlReceiver (PJ 0 1) 1) mn_empty None (PsIoSender (J 1 (Some POut) 2 Consume) 2)) tr (Done (Ok 3))
    /\ accepted_by (PsIoSender (J 1 (Some POut) 2 Consume) 2) tr = []
    /\ offered_to (PsIoSender (J 1 (Some POut) 2 Consume) 2) tr = [b "one"; b "two"].
Proof.
  eexists. split; [eapply drive_sound with (fuel := 100)
    (answers := [AMsg (VData (b "one")); AClosed; AMsg (VData (b "two")); AClosed; AClosed; AOk; AOk; AOk]); vm_compute; reflexivity|].
  split; reflexivity.
Qed.

(** C08: the worker stops successfully exactly at the end of its input or when every output is a
    Finish output that it has just found closed. *)
Theorem C08_finish_exactly_when_all_closed : forall pl mon pushs spy t tr fin pl' pushs',
  fresh_pull pl -> try_ok pl t -> (pull_journey pl <> None \/ mon = mn_empty) ->
  exec (motion_worker pl mon pushs spy t) tr (Done (Ok (WR fin true), pl', pushs')) ->
  distinct_outputs pushs ->
  (fin = true <-> (got pl tr = [] /\ ended pl tr) \/
                  (forall p, In p pushs -> push_brk p = Finish /\ exists d, found_closed p d tr)).
Proof. intros pl mon pushs spy t tr fin pl' pushs' Hf Ht Hm HX HD. exact (fan_finish pl mon pushs spy t Hf Ht Hm tr fin pl' pushs' HX HD). Qed.
Print Assumptions C08_finish_exactly_when_all_closed.

(** Two Finish outputs: with one of them open the worker goes on, with both closed it stops. *)
Example C08_case :
  let outs := [PsIoSender (J 1 (Some POut) 2 Finish) 2; PsIoSender (J 1 (Some POut) 3 Finish) 3] in
  (exists tr, exec (motion_worker (PlReceiver (PJ 0 1) 1) mn_empty outs None true) tr (Done (Ok (WR false true), PlReceiver (PJ 0 1) 1, outs))
    /\ found_closed (nth 0 outs PsNone) (b "x") tr) /\
  (exists tr, exec (motion_worker (PlReceiver (PJ 0 1) 1) mn_empty outs None true) tr (Done (Ok (WR true true), PlReceiver (PJ 0 1) 1, outs))
    /\ found_closed (nth 0 outs PsNone) (b "x") tr /\ found_closed (nth 1 outs PsNone) (b "x") tr).
Proof.
  intro outs. split.
  - eexists. split; [eapply drive_sound with (fuel := 100) (answers := [AMsg (VData (b "x")); AClosed; AOk]); vm_compute; reflexivity|].
    eexists. split; [reflexivity|]. cbn. auto.
  - eexists. split; [eapply drive_sound with (fuel := 100) (answers := [AMsg (VData (b "x")); AClosed; AClosed]); vm_compute; reflexivity|].
    split; eexists; (split; [reflexivity|]); cbn; auto.
Qed.

(** C09: the number a copy reports. *)
Theorem C09_copy_count : forall pl mon spy ps tr n,
  fresh_pull pl -> (pull_journey pl <> None \/ mon = mn_empty) -> real_push ps ->
  exec (motion pl mon spy ps) tr (Done (Ok n)) ->
  (offered_to ps tr = got pl tr /\ ended pl tr /\ n = S (length (got pl tr))) \/
  (push_brk ps = Finish /\ n = length (offered_to ps tr) /\
   exists d e pre, write_eff ps d = Some e /\ attempts tr = pre ++ [(e, d, closed_ans ps)]).
Proof. intros pl mon spy ps tr n Hf Hm Hr HX. exact (copy_end pl mon spy ps Hf Hm Hr tr n HX). Qed.
Print Assumptions C09_copy_count.

Example C09_case :
  exists tr, exec (motion (PlReceiver (PJ 0 1) 1) mn_empty None (PsIoSender (J 1 (Some POut) 2 Finish) 2)) tr (Done (Ok 2)).
Proof.
  eexists. eapply drive_sound with (fuel := 100)
    (answers := [AMsg (VData (b "one")); AOk; AMsg (VData (b "two")); AClosed; AOk; AOk; AOk]); vm_compute; reflexivity.
Qed.

(** C10: a copy that has stopped, successfully or not, has let go of its input, its output and its
    monitor channels; and it never panics. *)
Theorem C10_copy_releases_everything : forall pl mon spy ps tr r,
  fresh_pull pl -> (pull_journey pl <> None \/ mon = mn_empty) ->
  exec (motion pl mon spy ps) tr (Done r) ->
  pull_released pl tr /\ push_released ps tr /\
  (forall c, mon_read mon = Some c -> closed_by (CMon c) tr) /\
  (forall c, mon_written mon = Some c -> closed_by (CMon c) tr).
Proof. intros pl mon spy ps tr r Hf Hm HX. exact (copy_released pl mon spy ps Hf Hm tr r HX). Qed.
Print Assumptions C10_copy_releases_everything.

Theorem C10_copy_never_panics : forall pl mon spy ps tr s,
  fresh_pull pl -> (pull_journey pl <> None \/ mon = mn_empty) ->
  ~ exec (motion pl mon spy ps) tr (Panicked s).
Proof. intros pl mon spy ps tr s Hf Hm. exact (motion_no_panic pl mon spy ps Hf Hm tr s). Qed.
Print Assumptions C10_copy_never_panics.

(** Stopped by a closed Terminate output in the middle: the input channel is closed all the same. *)
Example C10_case :
  exists tr, exec (motion (PlReceiver (PJ 0 1) 1) (MN (Some 5) None) None (PsIoSender (J 1 (Some POut) 2 Terminate) 2)) tr
     (Done (Err (OutputClosed (J 1 (Some POut) 2 Terminate) ChannelClosed (b "one")))).
Proof.
  eexists. eapply drive_sound with (fuel := 100)
    (answers := [AMsg (VData (b "one")); AOk; AClosed; AOk; AOk; AOk]); vm_compute; reflexivity.
Qed.
