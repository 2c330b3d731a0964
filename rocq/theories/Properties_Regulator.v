(** * Properties C19 - C24, and the regulator and faucet parts of C09 and C10 *)
From Coq Require Import Ascii String List Bool Arith ZArith.
From Verif Require Import M_Prog P_Prog M_Motion M_Regulator M_Faucet M_Manager S_Trace S_Lines S_Motion S_World S_Regulator.
From Verif Require Import P_Split P_World P_Regulator P_Pause P_Manager P_Control.
Import ListNotations.

Definition in1 := PlReceiver (PJ 0 1) 1.
Definition out2 := PsIoSender (J 1 (Some POut) 2 Terminate) 2.
Definition reg9 : regulator := Regulator false 8 (Some out2) (Some in1) (Some 9).
Definition fau9 : faucet := Faucet false 8 (Some out2) None (Some 9) (Some (PJ 0 1)) (Some "in.txt"%string).
Definition world0 : world := fun c => fresh_chan (match c with CCtl _ => Some 1 | _ => Some 8 end).

Example ready_case : regulator_ready reg9 in1 out2 /\ faucet_ready fau9 "in.txt" out2.
Proof. repeat split; discriminate. Qed.

(** C19: component 0 is the regulator; the others do anything but read or close its control channel.
    If an odd number of signals has been accepted when [b] begins, the last of them a pause, and none
    during [b], then at most one write is attempted during [b]. *)
Theorem C19_paused_regulator_passes_one : forall r pl ps c spy w0 a b w st,
  regulator_ready r pl ps -> rg_control r = Some c -> exec (regulator_start r spy) (own 0 (a ++ b)) st ->
  wrun w0 (a ++ b) w -> w0 (CCtl c) = fresh_chan (Some 1) -> mind_own 0 (CCtl c) (a ++ b) ->
  Nat.Odd (length (sent (CCtl c) (all_of a))) -> sent (CCtl c) (all_of b) = [] ->
  length (attempts (own 0 b)) <= 1.
Proof.
  intros r pl ps c spy w0 a b w st HR Hc HX. pose proof (regulator_turned r pl ps spy _ _ HR HX) as HT. rewrite Hc in HT.
  exact (pause_limits c w0 a b w HT).
Qed.
Print Assumptions C19_paused_regulator_passes_one.

Theorem C19_paused_faucet_passes_one : forall f name ps c spy w0 a b w st,
  faucet_ready f name ps -> fc_control f = Some c -> exec (faucet_start f spy) (own 0 (a ++ b)) st ->
  wrun w0 (a ++ b) w -> w0 (CCtl c) = fresh_chan (Some 1) -> mind_own 0 (CCtl c) (a ++ b) ->
  Nat.Odd (length (sent (CCtl c) (all_of a))) -> sent (CCtl c) (all_of b) = [] ->
  length (attempts (own 0 b)) <= 1.
Proof.
  intros f name ps c spy w0 a b w st HR Hc HX. pose proof (faucet_turned f name ps spy _ _ HR HX) as HT. rewrite Hc in HT.
  exact (pause_limits c w0 a b w HT).
Qed.
Print Assumptions C19_paused_faucet_passes_one.

(** Three messages wait; the pause comes first; one message passes, then the regulator waits. *)
Example C19_case : exists w,
  let a := [(2, (ESend (CData 1) (VData (b "x")), AOk)); (2, (ESend (CData 1) (VData (b "y")), AOk)); (1, (ESend (CCtl 9) VUnit, AOk))] in
  let c := [(0, (ERecv (CData 1), AMsg (VData (b "x")))); (0, (ESend (CData 2) (VData (b "x")), AOk));
            (0, (ETryRecv (CCtl 9), AMsg VUnit))] in
  wrun world0 (a ++ c) w /\ exec (regulator_start reg9 None) (own 0 (a ++ c)) (At (ERecv (CCtl 9))) /\
  mind_own 0 (CCtl 9) (a ++ c) /\ Nat.Odd (length (sent (CCtl 9) (all_of a))) /\ sent (CCtl 9) (all_of c) = [] /\
  length (attempts (own 0 c)) = 1.
Proof.
  eexists. cbn zeta. split; [cbn [app]; run_world|]. split.
  - eapply drive_sound with (fuel := 100) (answers := [AMsg (VData (b "x")); AOk; AMsg VUnit]); vm_compute; reflexivity.
  - split; [split; [reflexivity|]; intros [H|[H|[H|[]]]]; discriminate|]. split; [exists 0; reflexivity|]. split; reflexivity.
Qed.

(** C20: whatever is asked of a handle, the signals alternate, the first being a pause: a handle about to
    send signal number [k] (from 0) has been asked to pause if [k] is even and to resume otherwise.
    [changes] counts the requests that differ from the one before. *)
Theorem C20_signals_alternate : forall ops c tr e,
  exec (requests ops (RC false c)) tr (At e) ->
  exists ops1 o ops2, ops = ops1 ++ o :: ops2 /\ e = ESend (CCtl c) VUnit /\ o = Nat.even (signals c tr) /\
    signals c tr = length (changes false ops1) /\ length tr = signals c tr.
Proof. exact requests_alternate. Qed.
Print Assumptions C20_signals_alternate.

Theorem C20_repeated_requests_send_nothing : forall ops c tr oks c',
  exec (requests ops (RC false c)) tr (Done (oks, c')) ->
  signals c tr = length (changes false ops) /\ length tr = signals c tr /\
  rc_paused c' = Nat.odd (signals c tr) /\ rc_paused c' = last ops false /\ rc_control c' = c /\
  length oks = length ops /\ length (sent (CCtl c) tr) = length (filter (fun x => x) oks).
Proof. exact requests_done. Qed.
Print Assumptions C20_repeated_requests_send_nothing.

Example C20_case : exists tr,
  exec (requests [false; true; true; false; false; true] (RC false 9)) tr
    (Done ([false; true; false; true; false; false], RC true 9)) /\ signals 9 tr = 3 /\
  changes false [false; true; true; false; false; true] = [true; false; true].
Proof.
  eexists. split; [eapply drive_sound with (fuel := 100) (answers := [AOk; AOk; AClosed]); vm_compute; reflexivity|]. split; reflexivity.
Qed.

(** C21: a signal is given only on the right side of the mark ... *)
Theorem C21_signals_at_the_marks : forall low high c chans tr x v,
  NoDup chans -> exec (manage_regulator low high (RC false c) chans) tr (At (ESend x v)) ->
  x = CCtl c /\ v = VUnit /\ (if told_to_pause c tr then level chans tr <= low else high <= level chans tr).
Proof.
  intros low high c chans tr x v Hn HX. exact (manager_signal low high c chans Hn tr x v HX).
Qed.
Print Assumptions C21_signals_at_the_marks.

(** ... and at the end of every pass (before sleeping, and before asking the first monitor again) the
    regulator is on the right side. *)
Theorem C21_settled_after_every_pass : forall low high c chans tr e,
  NoDup chans -> exec (manage_regulator low high (RC false c) chans) tr (At e) ->
  (exists n, e = ESleep n) \/ (exists n, e = ETryRecv (CSize n) /\ hd_error (held chans tr) = Some n) ->
  if told_to_pause c tr then low < level chans tr else level chans tr < high \/ level chans tr <= low.
Proof. intros low high c chans tr e Hn HX. exact (manager_settled low high c chans Hn tr e HX). Qed.
Print Assumptions C21_settled_after_every_pass.

(** Only monitors that are held and have not gone are asked, and the controller does nothing else. *)
Theorem C21_watches_only_live_buffers : forall low high c chans tr e,
  NoDup chans -> exec (manage_regulator low high (RC false c) chans) tr (At e) ->
  match e with
  | ETryRecv (CSize n) => In n (held chans tr) /\ gone n tr = false
  | EClose (CSize n) => gone n tr = true
  | EClose (CCtl c') => c' = c
  | ESend (CCtl c') VUnit => c' = c
  | ESleep _ => True
  | _ => False
  end.
Proof. intros low high c chans tr e Hn HX. exact (manager_effects low high c chans Hn tr e HX). Qed.
Print Assumptions C21_watches_only_live_buffers.

(** Two buffers, marks 2 and 5: sizes 3 and 4 (sum 7) pause; then 1 and 4, nothing; then the second goes
    away (sum 1) and the regulator is resumed. *)
Example C21_case : exists tr,
  exec (manage_regulator 2 5 (RC false 9) [7; 8]) tr (At (ESend (CCtl 9) VUnit)) /\
  told_to_pause 9 tr = true /\ level [7; 8] tr = 1 /\ held [7; 8] tr = [7; 8] /\ gone 8 tr = true.
Proof.
  eexists. split; [eapply drive_sound with (fuel := 100)
    (answers := [AMsg (VSize 3); AMsg (VSize 4); AOk; AMsg (VSize 1); AEmpty; AEmpty; AClosed]); vm_compute; reflexivity|].
  repeat split.
Qed.

(** C22: when the controller ends every buffer has gone, it has let go of everything, the regulator has been
    told to run, and the number returned is the number of reports read; and it never panics. *)
Theorem C22_ends_resumed : forall low high c chans tr n,
  NoDup chans -> exec (manage_regulator low high (RC false c) chans) tr (Done n) ->
  (forall m, In m chans -> gone m tr = true /\ let_go m tr = true) /\ told_to_pause c tr = false /\
  n = report_count chans tr /\ closed_by (CCtl c) tr.
Proof. intros low high c chans tr n Hn HX. exact (manager_done low high c chans Hn tr n HX). Qed.
Print Assumptions C22_ends_resumed.

(** It goes on as long as a buffer is there, and does not let go of the handle while the regulator is
    paused. *)
Theorem C22_lets_go_only_when_resumed : forall low high c chans tr c',
  NoDup chans -> exec (manage_regulator low high (RC false c) chans) tr (At (EClose (CCtl c'))) ->
  c' = c /\ told_to_pause c tr = false /\ (forall m, In m chans -> gone m tr = true /\ let_go m tr = true).
Proof. intros low high c chans tr c' Hn HX. exact (manager_closing low high c chans Hn tr c' HX). Qed.
Print Assumptions C22_lets_go_only_when_resumed.

Theorem C22_never_panics : forall low high c chans tr s,
  NoDup chans -> ~ exec (manage_regulator low high (RC false c) chans) tr (Panicked s).
Proof. intros low high c chans tr s Hn. exact (manager_no_panic low high c chans Hn tr s). Qed.
Print Assumptions C22_never_panics.

Example C22_case : exists tr,
  exec (manage_regulator 2 5 (RC false 9) [7; 8]) tr (Done 2) /\ signals 9 tr = 2.
Proof.
  eexists. split; [eapply drive_sound with (fuel := 100)
    (answers := [AMsg (VSize 3); AMsg (VSize 4); AOk; AClosed; AClosed; AOk; AOk; AOk; AOk]); vm_compute; reflexivity|].
  reflexivity.
Qed.

(** C23: what a regulator has offered is a prefix of what it has taken, at most one message behind; when it
    asks for more or looks at its control channel there is no difference. *)
Theorem C23_regulator_forwards_in_order : forall r pl ps spy tr st,
  regulator_ready r pl ps -> exec (regulator_start r spy) tr st ->
  prefix (offered_to ps tr) (got pl tr) /\
  (is_chan pl -> length (got pl tr) <= S (length (offered_to ps tr))) /\
  (is_chan pl -> (exists n, st = At (ERecv (CData n)) \/ st = At (ETryRecv (CCtl n)) \/ st = At (ERecv (CCtl n))) ->
     offered_to ps tr = got pl tr).
Proof. exact regulator_forwards. Qed.
Print Assumptions C23_regulator_forwards_in_order.

Theorem C23_regulator_ends_with_everything : forall r pl ps spy tr n,
  regulator_ready r pl ps -> exec (regulator_start r spy) tr (Done (Ok n)) ->
  (offered_to ps tr = got pl tr /\ ended pl tr) \/ (push_brk ps = Finish /\ exists d, found_closed ps d tr).
Proof. exact regulator_ends. Qed.
Print Assumptions C23_regulator_ends_with_everything.

Theorem C23_faucet_forwards_in_order : forall f name ps spy tr st,
  faucet_ready f name ps -> exec (faucet_start f spy) tr st ->
  offered_to ps tr = [] \/
  exists d rest, tr = (source_eff name, AFd d) :: rest /\ prefix (offered_to ps tr) (messages_of_reads (reads d tr)) /\
    (forall fd, st = At (ERead fd) -> length (messages_of_reads (reads d tr)) <= S (length (offered_to ps tr))).
Proof. exact faucet_forwards. Qed.
Print Assumptions C23_faucet_forwards_in_order.

Theorem C23_faucet_ends_with_everything : forall f name ps spy tr n,
  faucet_ready f name ps -> exec (faucet_start f spy) tr (Done (Ok n)) ->
  exists d rest, tr = (source_eff name, AFd d) :: rest /\
   ((offered_to ps tr = messages_of_reads (reads d tr) /\ In (ERead d, AData []) tr) \/
    (push_brk ps = Finish /\ exists m, found_closed ps m tr)).
Proof. exact faucet_ends. Qed.
Print Assumptions C23_faucet_ends_with_everything.

(** Paused after the first message, resumed, then the second. *)
Example C23_case : exists tr,
  exec (regulator_start reg9 None) tr (Done (Ok 2)) /\ got in1 tr = [b "x"; b "y"] /\ accepted_by out2 tr = [b "x"; b "y"] /\
  taken (CCtl 9) tr = [VUnit; VUnit].
Proof.
  eexists. split; [eapply drive_sound with (fuel := 100)
    (answers := [AMsg (VData (b "x")); AOk; AMsg VUnit; AMsg VUnit; AMsg (VData (b "y")); AOk; AEmpty; AClosed; AOk; AOk; AOk; AOk]); vm_compute; reflexivity|].
  repeat split.
Qed.
Example C23_faucet_case : exists tr,
  exec (faucet_start fau9 None) tr (Done (Ok 2)) /\ reads 5 tr = [b "x
y"; b ""; b ""] /\ accepted_by out2 tr = [b "x
"; b "y"].
Proof.
  eexists. split; [eapply drive_sound with (fuel := 1000)
    (answers := [AFd 5; AData (b "x
y"); AOk; AEmpty; AData []; AOk; AEmpty; AData []; AOk; AOk; AOk; AOk]); vm_compute; reflexivity|].
  repeat split.
Qed.

(** C24 does not hold.  A buffer reports size 1, the controller pauses an idle regulator (which will only
    look at the signal after its next message); the buffer reports 0: now the resume cannot be
    delivered, and neither regulator nor controller can move until a message arrives. *)
Theorem C24_resume_waits_for_a_message_refuted : exists r pl ps c l w,
  regulator_ready r pl ps /\ rg_control r = Some c /\ wrun world0 l w /\ mind_own 0 (CCtl c) l /\
  exec (regulator_start r None) (own 0 l) (At (ERecv (CData 1))) /\
  exec (manage_regulator 0 1 (RC false c) [7]) (own 1 l) (At (ESend (CCtl c) VUnit)) /\
  told_to_pause c (own 1 l) = true /\
  blocked w (ERecv (CData 1)) /\ blocked w (ESend (CCtl c) VUnit).
Proof.
  exists reg9, in1, out2, 9,
    [(2, (ESend (CSize 7) (VSize 1), AOk)); (1, (ETryRecv (CSize 7), AMsg (VSize 1))); (1, (ESend (CCtl 9) VUnit, AOk));
     (2, (ESend (CSize 7) (VSize 0), AOk)); (1, (ETryRecv (CSize 7), AMsg (VSize 0)))].
  eexists. split; [repeat split|]. split; [reflexivity|]. split; [run_world|].
  split; [split; [reflexivity|]; intros [H|[H|[H|[H|[H|[]]]]]]; discriminate|].
  split; [eapply drive_sound with (fuel := 100) (answers := []); vm_compute; reflexivity|].
  split; [eapply drive_sound with (fuel := 100) (answers := [AMsg (VSize 1); AOk; AMsg (VSize 0)]); vm_compute; reflexivity|].
  split; [reflexivity|].
  split; intros a w' HS; inversion HS; subst; try discriminate.
  match goal with H : room _ |- _ => unfold room in H; vm_compute in H; inversion H as [|? H']; inversion H' end.
Qed.
Print Assumptions C24_resume_waits_for_a_message_refuted.

(** What is true: a signal waits only while exactly one earlier signal has not been taken; so a first
    pause is always delivered at once, and a resume as soon as the pause has been noticed. *)
Theorem C24_waits_for_one_signal_partial : forall w0 l w c,
  wrun w0 l w -> w0 (CCtl c) = fresh_chan (Some 1) -> blocked w (ESend (CCtl c) VUnit) ->
  exists v, cs_queue (w (CCtl c)) = [v] /\ length (sent (CCtl c) (all_of l)) = S (length (taken (CCtl c) (all_of l))).
Proof. exact signal_waits. Qed.
Print Assumptions C24_waits_for_one_signal_partial.

(** C09: the numbers regulators and faucets report: messages, not counting one refused by a Finish output. *)
Theorem C09_regulator_count : forall r pl ps spy tr n,
  regulator_ready r pl ps -> exec (regulator_start r spy) tr (Done (Ok n)) ->
  (offered_to ps tr = got pl tr /\ ended pl tr /\ n = length (got pl tr)) \/
  (push_brk ps = Finish /\ S n = length (offered_to ps tr) /\ exists d, found_closed ps d tr).
Proof. exact regulator_count. Qed.
Print Assumptions C09_regulator_count.

Theorem C09_faucet_count : forall f name ps spy tr n,
  faucet_ready f name ps -> exec (faucet_start f spy) tr (Done (Ok n)) ->
  exists d rest, tr = (source_eff name, AFd d) :: rest /\
   ((offered_to ps tr = messages_of_reads (reads d tr) /\ In (ERead d, AData []) tr /\ n = length (messages_of_reads (reads d tr))) \/
    (push_brk ps = Finish /\ S n = length (offered_to ps tr) /\ exists m, found_closed ps m tr)).
Proof. exact faucet_end. Qed.
Print Assumptions C09_faucet_count.

(** C10: a regulator that has stopped has let go of its input and its output, and of its control channel if
    it ended successfully; it never panics. *)
Theorem C10_regulator_releases : forall r pl ps spy tr st,
  regulator_ready r pl ps -> exec (regulator_start r spy) tr st ->
  match st with
  | Done x => pull_released pl tr /\ push_released ps tr /\ (forall c n, rg_control r = Some c -> x = Ok n -> closed_by (CCtl c) tr)
  | Panicked _ => False
  | At _ => True
  end.
Proof. exact regulator_releases. Qed.
Print Assumptions C10_regulator_releases.

(** A faucet that has stopped has let go of its output and its file, unless it could not open the file. *)
Theorem C10_faucet_releases_partial : forall f name ps spy tr r,
  faucet_ready f name ps -> exec (faucet_start f spy) tr (Done r) ->
  (push_released ps tr /\ (forall d rest, tr = (source_eff name, AFd d) :: rest -> In (EDropFd d, AOk) tr)) \/
  (exists j, r = Err (OpenIOError j) /\ tr = [(source_eff name, AErr)]).
Proof. exact faucet_released. Qed.
Print Assumptions C10_faucet_releases_partial.

(** A faucet whose file cannot be opened stops without closing its output. *)
Theorem C10_faucet_open_failure_refuted : exists f name ps tr j,
  faucet_ready f name ps /\ exec (faucet_start f None) tr (Done (Err (OpenIOError j))) /\ ~ push_released ps tr.
Proof.
  exists fau9, "in.txt"%string, out2. eexists. eexists. split; [repeat split; discriminate|].
  split; [eapply drive_sound with (fuel := 100) (answers := [AErr]); vm_compute; reflexivity|].
  intros [H|[]]. discriminate.
Qed.
Print Assumptions C10_faucet_open_failure_refuted.

(** A regulator that stops with an error leaves its control channel
    open. *)
Theorem C10_regulator_control_refuted : exists r pl ps c tr x,
  regulator_ready r pl ps /\ rg_control r = Some c /\ exec (regulator_start r None) tr (Done x) /\ ~ closed_by (CCtl c) tr.
Proof.
  exists reg9, in1, out2, 9. eexists. eexists. split; [repeat split|]. split; [reflexivity|].
  split; [eapply drive_sound with (fuel := 100) (answers := [AMsg (VData (b "x")); AClosed; AOk; AOk]); vm_compute; reflexivity|].
  intros [H|[H|[H|[H|[]]]]]; discriminate.
Qed.
Print Assumptions C10_regulator_control_refuted.
