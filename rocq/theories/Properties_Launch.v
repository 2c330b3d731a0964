(** * Properties C32 to C35 and C66, and the launch part of C10 *)
From Coq Require Import Ascii String List Bool Arith ZArith.
From Verif Require Import M_Prog P_Prog M_Motion M_Join M_Launch S_Trace S_Lines S_Motion S_World S_Launch.
From Verif Require Import P_Split P_Launch.
Import ListNotations.

(** A run used as an example: the program is given one line, gives it back and ends with code 0. *)
Definition cat_in := PlReceiver (PJ 0 1) 1.
Definition cat_out := PsIoSender (J 1 (Some POut) 2 Terminate) 2.
Definition cat_exit := J 1 (Some PExit) 3 Terminate.
Definition cat : launch := Launch 1 "cat" None None None (Some cat_out) None (Some (cat_exit, 3)) (Some cat_in) false.
Definition line := b "a" ++ [lf].
Definition events {A} (p : prog A) (answers : list ans) : trace := match drive 100 p answers with Some (t, _) => t | None => [] end.
Definition cat_relays := launch_relays cat 10 11 12.
Definition cat_spawn : trace := [(ESpawn (Spawning "cat" None [] [] true true false), AChild 10 11 12)].
Definition cat_1 : trace := Eval vm_compute in events (relay (rl_in cat_relays) None) [AMsg (VData line); AOk; AClosed; AOk; AOk; AOk].
Definition cat_2 : trace := Eval vm_compute in events (relay (rl_out cat_relays) None) [AData line; AOk; AData []; AOk; AOk; AOk].
Definition cat_end : trace := Eval vm_compute in events (iter (exit_body None cat_exit 3) tt) [AErr; AOk; AStatus (Some 0%Z); AOk; AOk].
Definition cat_run0 : list nevent := map (pair 0) cat_spawn.
Definition cat_run1 : list nevent := map (pair 1) cat_1 ++ map (pair 2) cat_2.
Definition cat_run2 : list nevent := map (pair 0) cat_end.
Definition cat_run : list nevent := cat_run0 ++ cat_run1 ++ cat_run2.
Example cat_ready : launch_ready cat /\ exit_ready cat cat_exit 3.
Proof.
  split; [split; [reflexivity|split; [|split]]|split; [reflexivity|]].
  - intros pl E. injection E as <-. split; exact I.
  - intros ps E. injection E as <-. exact I.
  - intros ps E. discriminate E.
  - intros ps d [E|E]; [|discriminate E]. injection E as <-. discriminate.
Qed.
Example cat_runs : launch_start None [] cat None cat_run (After (Done (Ok 2))).
Proof.
  apply J_after with (x := cat_relays) (a := Ok 2) (b := Ok 2) (c := Ok 1).
  - intros i [<-|[<-|[<-|[]]]]; reflexivity.
  - intros i [<-|[]]; reflexivity.
  - intros i [<-|[<-|[<-|[]]]]; reflexivity.
  - eapply drive_sound with (fuel := 100) (answers := [AChild 10 11 12]). vm_compute. reflexivity.
  - eapply drive_sound with (fuel := 100) (answers := [AMsg (VData line); AOk; AClosed; AOk; AOk; AOk]). vm_compute. reflexivity.
  - eapply drive_sound with (fuel := 100) (answers := [AData line; AOk; AData []; AOk; AOk; AOk]). vm_compute. reflexivity.
  - eapply drive_sound with (fuel := 100) (answers := []). vm_compute. reflexivity.
  - eapply drive_sound with (fuel := 100) (answers := [AErr; AOk; AStatus (Some 0%Z); AOk; AOk]). vm_compute. reflexivity.
Qed.

(** C32: what is written to the standard input of the child is at every moment a prefix of the messages received; nothing
    else is written there or anywhere else by that side.  Once that side, or the whole launch, has ended successfully the pipe has been let go of,
    and either everything received was written and flushed and the input had ended, or the child had closed its
    standard input. *)
Theorem C32_stdin_intact : forall cwd vars l spy, launch_ready l -> forall L st pl fin fout ferr,
  launch_start cwd vars l spy L st -> la_stdin l = Some pl -> child_of (own 0 L) = Some (fin, fout, ferr) ->
  prefix (written fin (own 1 L)) (got pl (own 1 L)) /\
  (forall x, In x (attempts (own 1 L)) -> fst (fst x) = EWrite fin (snd (fst x))) /\
  (forall n, match st with During (Done (Ok m)) _ _ | After (Done (Ok m)) => m = n | _ => False end ->
     In (EDropFd fin, AOk) (own 1 L) /\
     ((written fin (own 1 L) = got pl (own 1 L) /\ ended pl (own 1 L) /\ In (EFlush fin, AOk) (own 1 L) /\ n = S (length (got pl (own 1 L)))) \/
      exists d, In (EWrite fin d, ABroken) (own 1 L))).
Proof. exact relay_in. Qed.
Print Assumptions C32_stdin_intact.

(** The standard output: what is offered to the component it is connected to is at every moment a prefix of the lines of
    what the child has written; when this side has ended successfully it is all of it, up to the end of the child's output,
    unless a Finish output was found closed. *)
Theorem C32_stdout_intact : forall cwd vars l spy, launch_ready l -> forall L st ps fin fout ferr,
  launch_start cwd vars l spy L st -> la_stdout l = Some ps -> child_of (own 0 L) = Some (fin, fout, ferr) ->
  exists s, relay_status 2 st s /\
  prefix (offered_to ps (own 2 L)) (messages_of_reads (reads fout (own 2 L))) /\
  match s with
  | Done (Ok n) =>
     (offered_to ps (own 2 L) = messages_of_reads (reads fout (own 2 L)) /\ In (ERead fout, AData []) (own 2 L)) \/
     (push_brk ps = Finish /\ exists d, found_closed ps d (own 2 L))
  | Panicked _ => False
  | _ => True
  end.
Proof. exact relay_out. Qed.
Print Assumptions C32_stdout_intact.

(** The standard error output, likewise. *)
Theorem C32_stderr_intact : forall cwd vars l spy, launch_ready l -> forall L st ps fin fout ferr,
  launch_start cwd vars l spy L st -> la_stderr l = Some ps -> child_of (own 0 L) = Some (fin, fout, ferr) ->
  exists s, relay_status 3 st s /\
  prefix (offered_to ps (own 3 L)) (messages_of_reads (reads ferr (own 3 L))) /\
  match s with
  | Done (Ok n) =>
     (offered_to ps (own 3 L) = messages_of_reads (reads ferr (own 3 L)) /\ In (ERead ferr, AData []) (own 3 L)) \/
     (push_brk ps = Finish /\ exists d, found_closed ps d (own 3 L))
  | Panicked _ => False
  | _ => True
  end.
Proof. exact relay_err. Qed.
Print Assumptions C32_stderr_intact.

Example C32_case : child_of (own 0 cat_run) = Some (10, 11, 12) /\ written 10 (own 1 cat_run) = [line] /\
  got cat_in (own 1 cat_run) = [line] /\ offered_to cat_out (own 2 cat_run) = [line] /\ messages_of_reads (reads 11 (own 2 cat_run)) = [line].
Proof. repeat split; vm_compute; reflexivity. Qed.

(** C33: nothing is offered on the exit port, and the exit status is not asked for, while the program is being started or
    relayed; a launch that has ended has offered exactly one message there, which says how the program ended (in the answer that ended the
    asking), and has then closed the port, unless that message could not be delivered or the spy could not be told, which is
    then the result. *)
Theorem C33_exit_port : forall cwd vars l spy, launch_ready l -> forall j n, exit_ready l j n -> forall L st,
  launch_start cwd vars l spy L st ->
  (forall i, i = 1 \/ i = 2 \/ i = 3 -> offered (CData n) (own i L) = []) /\
  match st with
  | Before _ | During _ _ _ => offered (CData n) (own 0 L) = [] /\ statuses (own 0 L) = []
  | After (At _) => offered (CData n) (own 0 L) = [] \/
      exists code m, offered (CData n) (own 0 L) = [VData m] /\ exit_text code m /\ last (statuses (own 0 L)) AErr = AStatus code
  | After (Done r) => exists k code m,
      statuses (own 0 L) = repeat AErr k ++ [AStatus code] /\ offered (CData n) (own 0 L) = [VData m] /\ exit_text code m /\
      ((sent (CData n) (own 0 L) = [VData m] /\ exists h, own 0 L = h ++ [(EClose (CData n), AOk)]) \/
       (r = Err (SendError j m) /\ In (ESend (CData n) (VData m), AClosed) (own 0 L)) \/
       (exists s port, spy = Some s /\ r = Err (SpyWriteError (j_src j) (j_dst j) port (IOData m)) /\
          In (ESend (CSpy s) (VSpy (j_src j) (j_dst j) port (IOData m)), AClosed) (own 0 L)))
  | After (Panicked _) => False
  end.
Proof. intros cwd vars l spy HR j n [HE HO]. exact (exit_port cwd vars l spy HR j n HE HO). Qed.
Print Assumptions C33_exit_port.

(** When the message is offered all relaying is over: the relays do nothing afterwards, and the launch is past them. *)
Theorem C33_exit_last : forall cwd vars l spy L st A n v a B,
  launch_ready l -> launch_start cwd vars l spy L st -> L = A ++ (0, (ESend (CData n) v, a)) :: B ->
  idle [1; 2; 3] B /\ exists s, st = After s.
Proof. exact exit_last. Qed.
Print Assumptions C33_exit_last.

(** If the exit port is not connected the status is never asked for. *)
Theorem C33_unconnected : forall cwd vars l spy L st,
  launch_ready l -> la_exit_status l = None -> launch_start cwd vars l spy L st -> statuses (own 0 L) = [].
Proof. exact no_exit. Qed.
Print Assumptions C33_unconnected.

Example C33_case : offered (CData 3) (own 0 cat_run) = [VData (b "0")] /\ statuses (own 0 cat_run) = [AErr; AStatus (Some 0%Z)] /\
  exit_text (Some 0%Z) (b "0") /\ exit_text (Some (-12)%Z) (b "-12").
Proof. repeat split; vm_compute; try reflexivity; try discriminate. exists (b "12"). repeat split; discriminate. Qed.

(** C34: a program that cannot be started does not give the launch-spawn error: the launch panics. *)
Theorem C34_spawn_failure_refuted : exists cwd vars l spy L sp m,
  launch_ready l /\ launch_start cwd vars l spy L (Before (Panicked m)) /\ own 0 L = [(ESpawn sp, AErr)].
Proof.
  exists None, [], cat, None, [(0, (ESpawn (Spawning "cat" None [] [] true true false), AErr))]. eexists. eexists.
  split; [apply cat_ready|]. split; [|reflexivity]. apply J_before_panic; [intros i [<-|[<-|[<-|[]]]]; reflexivity|].
  eapply drive_sound with (fuel := 100) (answers := [AErr]). vm_compute. reflexivity.
Qed.
Print Assumptions C34_spawn_failure_refuted.

(** It always does. *)
Theorem C34_spawn_failure_panics_partial : forall cwd vars l spy L st sp tr,
  launch_ready l -> launch_start cwd vars l spy L st -> own 0 L = (ESpawn sp, AErr) :: tr -> exists m, st = Before (Panicked m).
Proof. exact spawn_failure. Qed.
Print Assumptions C34_spawn_failure_panics_partial.

(** C35: the result of a launch.  The three relays have ended with [a], [b] and [c]; if the exit message could be delivered
    (or none was to be) the result is the first error of these, or the count of the first; otherwise it is the error of the exit
    message. *)
Theorem C35_launch_result_partial : forall cwd vars l spy L r,
  launch_ready l -> launch_start cwd vars l spy L (After (Done r)) ->
  exists L0 L1 a b c, L = L0 ++ L1 /\ launch_start cwd vars l spy L0 (During (Done a) (Done b) (Done c)) /\ idle [1; 2; 3] L1 /\
  ((r = match first_error [a; b; c] with Some e => Err e | None => a end) \/
   exists j n e, la_exit_status l = Some (j, n) /\ r = Err e /\
     ((exists m, e = SendError j m /\ In (ESend (CData n) (VData m), AClosed) (own 0 L1)) \/
      (exists s port m, spy = Some s /\ e = SpyWriteError (j_src j) (j_dst j) port (IOData m) /\
         In (ESend (CSpy s) (VSpy (j_src j) (j_dst j) port (IOData m)), AClosed) (own 0 L1)))).
Proof. exact launch_ends. Qed.
Print Assumptions C35_launch_result_partial.

(** A failing exit message hides the failure of a relay: the input side failed, but the result is the error of the exit port. *)
Theorem C35_hidden_error_refuted : exists cwd vars l spy L0 L1 e b c r,
  launch_ready l /\ launch_start cwd vars l spy L0 (During (Done (Err e)) (Done b) (Done c)) /\
  launch_start cwd vars l spy (L0 ++ L1) (After (Done r)) /\ first_error [Err e; b; c] = Some e /\ r <> Err e.
Proof.
  set (t1 := [(ERecv (CData 1), AMsg (VData line)); (EWrite 10 line, AErr); (EClose (CData 1), AOk); (EDropFd 10, AOk)]).
  set (t2 := [(ERead 11, AErr); (EDropFd 11, AOk); (EClose (CData 2), AOk)]).
  set (t3 := [(EStatus, AStatus (Some 1%Z)); (ESend (CData 3) (VData (b "1")), AClosed)]).
  exists None, [], cat, None, (map (pair 0) cat_spawn ++ (map (pair 1) t1 ++ map (pair 2) t2)), (map (pair 0) t3).
  exists (WriteIOError (J 0 None 1 Finish) line), (Err (ReadIOError (PJ 1 2))), (Ok 1), (Err (SendError cat_exit (b "1"))).
  assert (H1 : exec (relay (rl_in cat_relays) None) t1 (Done (Err (WriteIOError (J 0 None 1 Finish) line)))).
  { eapply drive_sound with (fuel := 100) (answers := [AMsg (VData line); AErr; AOk; AOk]). vm_compute. reflexivity. }
  assert (H2 : exec (relay (rl_out cat_relays) None) t2 (Done (Err (ReadIOError (PJ 1 2))))).
  { eapply drive_sound with (fuel := 100) (answers := [AErr; AOk; AOk]). vm_compute. reflexivity. }
  assert (H3 : exec (relay (rl_err cat_relays) None) [] (Done (Ok 1))).
  { eapply drive_sound with (fuel := 100) (answers := []). vm_compute. reflexivity. }
  assert (H0 : exec (launch_spawn None [] cat) cat_spawn (Done (inr cat_relays))).
  { eapply drive_sound with (fuel := 100) (answers := [AChild 10 11 12]). vm_compute. reflexivity. }
  split; [apply cat_ready|]. split; [|split; [|split; [reflexivity|discriminate]]].
  - apply J_during with (x := cat_relays); [intros i [<-|[<-|[<-|[]]]]; reflexivity|intros i [<-|[]]; reflexivity|exact H0|exact H1|exact H2|exact H3].
  - rewrite <- app_assoc. apply J_after with (x := cat_relays) (a := Err (WriteIOError (J 0 None 1 Finish) line)) (b := Err (ReadIOError (PJ 1 2))) (c := Ok 1);
      [intros i [<-|[<-|[<-|[]]]]; reflexivity|intros i [<-|[]]; reflexivity|intros i [<-|[<-|[<-|[]]]]; reflexivity|exact H0|exact H1|exact H2|exact H3|].
    eapply drive_sound with (fuel := 100) (answers := [AStatus (Some 1%Z); AClosed]). vm_compute. reflexivity.
Qed.
Print Assumptions C35_hidden_error_refuted.

(** C66: the program is started at most once, before anything else, with exactly the configured command, arguments and directory (or the
    current one); the variables set are the configured ones (or those of this process); a standard stream is a pipe exactly when it is
    connected. *)
Theorem C66_program_started_as_configured : forall cwd vars l spy L st,
  launch_ready l -> launch_start cwd vars l spy L st ->
  (forall i, i = 1 \/ i = 2 \/ i = 3 -> spawns (own i L) = []) /\
  exists s,
  sp_program s = la_command l /\
  sp_args s = match la_args l with Some args => args | None => [] end /\
  sp_dir s = match la_path l with Some p => Some p | None => cwd end /\
  sp_env s = match la_env l with Some env => env | None => vars end /\
  (sp_stdin s = true <-> la_stdin l <> None) /\ (sp_stdout s = true <-> la_stdout l <> None) /\ (sp_stderr s = true <-> la_stderr l <> None) /\
  ((own 0 L = [] /\ st = Before (At (ESpawn s))) \/ (exists a tr, own 0 L = (ESpawn s, a) :: tr /\ spawns tr = [])).
Proof. exact spawned_as. Qed.
Print Assumptions C66_program_started_as_configured.

Example C66_case : spawns (own 0 cat_run) = [Spawning "cat" None [] [] true true false].
Proof. reflexivity. Qed.

(** C10: a launch that has ended has let go of its input, its outputs and the pipes of the child. *)
Theorem C10_launch_releases : forall cwd vars l spy L r,
  launch_ready l -> launch_start cwd vars l spy L (After (Done r)) ->
  (forall pl, la_stdin l = Some pl -> pull_released pl (own 1 L)) /\
  (forall ps, la_stdout l = Some ps -> push_released ps (own 2 L)) /\
  (forall ps, la_stderr l = Some ps -> push_released ps (own 3 L)) /\
  (forall fin fout ferr, child_of (own 0 L) = Some (fin, fout, ferr) ->
     (la_stdin l <> None -> In (EDropFd fin, AOk) (own 1 L)) /\ (la_stdout l <> None -> In (EDropFd fout, AOk) (own 2 L)) /\ (la_stderr l <> None -> In (EDropFd ferr, AOk) (own 3 L))).
Proof. exact launch_releases. Qed.
Print Assumptions C10_launch_releases.
