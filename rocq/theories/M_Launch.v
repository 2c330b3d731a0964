(** * M_Launch: src/launch.rs *)
From Coq Require Import Ascii String List Bool Arith ZArith DecimalString.
From Verif Require Import M_Prog M_Motion M_Connectable S_World M_Join.
Import ListNotations.
Local Open Scope string_scope.

(** src/launch.rs 22-41; the type parameters are as src/waiter.rs 17 instantiates them. *)
Record launch := Launch {
  la_id : nat;
  la_command : string;
  la_path : option string;
  la_env : option (list (string * string));
  la_args : option (list string);
  la_stdout : option push;
  la_stderr : option push;
  la_exit_status : option (journey * nat);
  la_stdin : option pull;
  la_launched : bool
}.

(** src/launch.rs 107-126 *)
Definition launch_new (id : nat) (env : option (list (string * string))) (path : option string) (command : string)
  (args : option (list string)) : launch :=
  Launch id command path env args None None None None false.

(** src/launch.rs 53-80.  [n] names the new channel, of capacity 1. *)
Definition launch_add_output (l : launch) (port : oport) (b : breakable) (src dst n : nat)
  : result (launch * pull) add_output_error :=
  let j := J src (Some port) dst b in
  match port with
  | PErr =>
    match la_stderr l with
    | Some _ => Err (OutAlreadyAllocated PErr)
    | None =>
      Ok (Launch (la_id l) (la_command l) (la_path l) (la_env l) (la_args l) (la_stdout l) (Some (PsIoSender j n))
            (la_exit_status l) (la_stdin l) (la_launched l), PlReceiver (PJ src dst) n)
    end
  | PExit =>
    match la_exit_status l with
    | Some _ => Err (OutAlreadyAllocated PExit)
    | None =>
      Ok (Launch (la_id l) (la_command l) (la_path l) (la_env l) (la_args l) (la_stdout l) (la_stderr l)
            (Some (j, n)) (la_stdin l) (la_launched l), PlReceiver (PJ src dst) n)
    end
  | POut =>
    match la_stdout l with
    | Some _ => Err (OutAlreadyAllocated POut)
    | None =>
      Ok (Launch (la_id l) (la_command l) (la_path l) (la_env l) (la_args l) (Some (PsIoSender j n)) (la_stderr l)
            (la_exit_status l) (la_stdin l) (la_launched l), PlReceiver (PJ src dst) n)
    end
  end.

(** src/launch.rs 83-92 *)
Definition launch_add_input (l : launch) (p : pull) (priority : Z) : result launch add_input_error :=
  if negb (priority =? 0)%Z then Err (InUnsupportedPriority priority) else
  match la_stdin l with
  | Some _ => Err InAlreadyAllocated
  | None =>
    Ok (Launch (la_id l) (la_command l) (la_path l) (la_env l) (la_args l) (la_stdout l) (la_stderr l)
          (la_exit_status l) (Some p) (la_launched l))
  end.

Definition is_some {A} (o : option A) : bool := match o with Some _ => true | None => false end.

(** src/launch.rs 128-149 [environment_configure] and 156-181: what the child is built from.  [cwd] is
    [std::env::current_dir()] and [vars] [std::env::vars_os()] of this process.  [Command::envs] adds to
    the inherited environment. *)
Definition launch_spawning (cwd : option string) (vars : list (string * string)) (l : launch) : spawning :=
  Spawning (la_command l)
    (match la_path l with Some p => Some p | None => cwd end)
    (match la_env l with Some env => env | None => vars end)
    (match la_args l with Some args => args | None => [] end)
    (is_some (la_stdin l)) (is_some (la_stdout l)) (is_some (la_stderr l)).

(** src/launch.rs 160-172, 189-229: the inputs and outputs of the three relays *)
Record relays := Relays { rl_in : pull * push; rl_out : pull * push; rl_err : pull * push }.

Definition launch_relays (l : launch) (fin fout ferr : fd) : relays :=
  let stdin_pull := match la_stdin l with Some pl => pl | None => PlNone end in
  let dst_of ps := match push_journey ps with Some j => j_dst j | None => la_id l end in
  Relays
    (stdin_pull,
     match la_stdin l with
     | Some pl =>
       let src := match pull_journey stdin_pull with Some j => pj_src j | None => la_id l end in
       PsBytes DstCmdStdin (J src None (la_id l) Finish) fin
     | None => PsNone
     end)
    (match la_stdout l with
     | Some ps => (PlBytes SrcCmdStdout (PJ (la_id l) (dst_of ps)) fout split_control_new, ps)
     | None => (PlNone, PsNone)
     end)
    (match la_stderr l with
     | Some ps => (PlBytes SrcCmdStderr (PJ (la_id l) (dst_of ps)) ferr split_control_new, ps)
     | None => (PlNone, PsNone)
     end).

(** src/launch.rs 154-187: up to the [unwrap] of the spawned child.  [launched] is never set. *)
Definition launch_spawn (cwd : option string) (vars : list (string * string)) (l : launch)
  : prog (mres nat + relays) :=
  if la_launched l then Panic "assertion failed: !self.launched" else
  Vis (ESpawn (launch_spawning cwd vars l)) (fun a =>
    match a with
    | AChild fin fout ferr => Ret (inr (launch_relays l fin fout ferr))
    | AErr => Panic "called `Result::unwrap()` on an `Err` value: LaunchSpawnError"
    | _ => ill
    end).

(** [format!("{:?}", code)] of an i32 *)
Definition code_text (z : Z) : bytes := list_ascii_of_string (NilZero.string_of_int (Z.to_int z)).

(** src/launch.rs 235-245: the message, if the status could be had *)
Definition exit_message (a : ans) : option bytes :=
  match a with
  | AStatus (Some code) => Some (code_text code)
  | AStatus None => Some ["_"%char]
  | _ => None
  end.

(** src/launch.rs 234-258: one turn of the loop *)
Definition exit_body (spy : option nat) (j : journey) (n : nat) (s : unit) : prog (unit + mres unit) :=
  Vis EStatus (fun a =>
    match exit_message a with
    | Some m =>
      ok <- send (CData n) (VData m) ;;
      if negb ok then Ret (inr (Err (SendError j m))) else
      match spy, j_port j with
      | Some s, Some port =>
        ok2 <- send (CSpy s) (VSpy (j_src j) (j_dst j) port (IOData m)) ;;
        if negb ok2 then Ret (inr (Err (SpyWriteError (j_src j) (j_dst j) port (IOData m)))) else
        close (CData n) ;;; Ret (inr (Ok tt))
      | _, _ => close (CData n) ;;; Ret (inr (Ok tt))
      end
    | None => sleep 100 ;;; Ret (inl tt)
    end).

(** src/launch.rs 261-268 [structure_motion_result] *)
Definition launch_result (r1 r2 r3 : mres nat) : mres nat :=
  match r1, r2, r3 with
  | Ok stdin_count, Ok _, Ok _ => Ok stdin_count
  | Err e, _, _ => Err e
  | _, Err e, _ => Err e
  | _, _, Err e => Err e
  end.

(** src/launch.rs 233-270 *)
Definition launch_finish (l : launch) (spy : option nat) (r1 r2 r3 : mres nat) : prog (mres nat) :=
  match la_exit_status l with
  | None => Ret (launch_result r1 r2 r3)
  | Some (j, n) =>
    r <- iter (exit_body spy j n) tt ;;
    match r with
    | Err e => Ret (Err e)
    | Ok _ => Ret (launch_result r1 r2 r3)
    end
  end.

Definition relay (x : pull * push) (spy : option nat) : prog (mres nat) := motion (fst x) mn_empty spy (snd x).

(** src/launch.rs 152-272 *)
Definition launch_start (cwd : option string) (vars : list (string * string)) (l : launch) (spy : option nat)
  : list nevent -> jstatus (mres nat) (mres nat) (mres nat) (mres nat) -> Prop :=
  joined (launch_spawn cwd vars l)
    (fun x => relay (rl_in x) None) (fun x => relay (rl_out x) spy) (fun x => relay (rl_err x) spy)
    (fun _ r1 r2 r3 => launch_finish l spy r1 r2 r3).
