(** * M_Prog: programs with effects

    The vocabulary in which the [async fn]s of the code are modelled.  Nothing in
    this file corresponds to one rust function; it fixes

    - the data carried by channels (src/motion.rs 13-27 and 77-83,
      src/buffer.rs 20-21, src/regulator.rs and src/faucet.rs control channels),
    - the effects a component can have on the rest of the world
      (async_std channels, files, child processes, timers),
    - programs: trees of effects, and the traces they can perform.

    A program is run against an arbitrary environment: after each effect the
    environment answers anything that fits the effect ([wt]). *)
From Coq Require Import Ascii String List Bool Arith ZArith.
Import ListNotations.

Definition bytes := list ascii.

(** src/connectable.rs: enum Breakable *)
Inductive breakable := Terminate | Finish | Consume.
(** src/connectable.rs: enum OutputPort *)
Inductive oport := PErr | POut | PExit.

(** src/motion.rs 22-27: enum IODataWrapper *)
Inductive iodw := IOData (d : bytes) | Finished | Skipped.

(** Channels are named; the constructor says what the channel carries:
    IOData (src/motion.rs 14), MonitorMessage (17-20), BufferSizeMessage
    (src/buffer.rs 21), the unit messages of the pause/resume control channel
    (src/regulator.rs, src/faucet.rs), SpyMessage (src/motion.rs 78-83). *)
Inductive chan := CData (n : nat) | CMon (n : nat) | CSize (n : nat) | CCtl (n : nat) | CSpy (n : nat).

Inductive val :=
| VData (d : bytes)
| VRead                  (* MonitorMessage::Read(0): the number is always 0 in the code *)
| VWrote                 (* MonitorMessage::Wrote(0) *)
| VSize (n : nat)
| VUnit
| VSpy (src dst : nat) (port : oport) (msg : iodw).

(** A file descriptor, child pipe or standard stream. *)
Definition fd := nat.

(** How a child process is asked for (async_std::process::Command as configured by src/launch.rs
    128-187): the program, its working directory (None: that of this process), the variables set in its
    environment on top of those of this process, its arguments, and which of its standard streams are
    pipes (the others are null). *)
Record spawning := Spawning {
  sp_program : string;
  sp_dir : option string;
  sp_env : list (string * string);
  sp_args : list string;
  sp_stdin : bool;
  sp_stdout : bool;
  sp_stderr : bool
}.

Inductive eff :=
| ERecv (c : chan)                 (* Receiver::recv().await *)
| ETryRecv (c : chan)              (* Receiver::try_recv() *)
| ESend (c : chan) (v : val)       (* Sender::send(v).await *)
| EClose (c : chan)                (* close(), or dropping the only sender or receiver *)
| EIsEmpty (c : chan)              (* Receiver::is_empty() *)
| EIsClosed (c : chan)             (* Receiver::is_closed() *)
| ERead (f : fd)                   (* AsyncRead::read into a 255 byte buffer *)
| EWrite (f : fd) (d : bytes)      (* AsyncWrite::write_all *)
| EFlush (f : fd)                  (* AsyncWrite::flush *)
| EDropFd (f : fd)                 (* dropping a file or child pipe *)
| ESleep (ms : nat)                (* async_std::task::sleep *)
| EOpenRead (name : string)        (* async_std::fs::File::open *)
| ECreate (name : string)          (* async_std::fs::File::create *)
| EStdin | EStdout | EStderr       (* aio::stdin(), stdout(), stderr() *)
| ESpawn (s : spawning)            (* Command::spawn *)
| EStatus.                         (* Child::status().await *)

Inductive ans :=
| AMsg (v : val) | AEmpty | AClosed
| AOk | ABroken | AErr
| AData (d : bytes)
| ABool (b : bool)
| AFd (f : fd)
| AChild (fin fout ferr : fd)
| AStatus (code : option Z).       (* ExitStatus::code(): None when killed by a signal *)

Definition fits (c : chan) (v : val) : bool :=
  match c, v with
  | CData _, VData _ => true
  | CMon _, (VRead | VWrote) => true
  | CSize _, VSize _ => true
  | CCtl _, VUnit => true
  | CSpy _, VSpy _ _ _ _ => true
  | _, _ => false
  end.

(** Which answers fit which effect. *)
Definition wt (e : eff) (a : ans) : bool :=
  match e, a with
  | ERecv c, AMsg v => fits c v
  | ERecv _, AClosed => true
  | ETryRecv c, AMsg v => fits c v
  | ETryRecv _, (AEmpty | AClosed) => true
  | ESend _ _, (AOk | AClosed) => true
  | EClose _, AOk => true
  | EIsEmpty _, ABool _ => true
  | EIsClosed _, ABool _ => true
  | ERead _, AData d => length d <=? 255
  | ERead _, AErr => true
  | EWrite _ _, (AOk | ABroken | AErr) => true
  | EFlush _, (AOk | AErr) => true
  | EDropFd _, AOk => true
  | ESleep _, AOk => true
  | EOpenRead _, (AFd _ | AErr) => true
  | ECreate _, (AFd _ | AErr) => true
  | (EStdin | EStdout | EStderr), AFd _ => true
  | ESpawn _, (AChild _ _ _ | AErr) => true
  | EStatus, (AStatus _ | AErr) => true
  | _, _ => false
  end.

(** ** Programs *)
CoInductive prog (A : Type) : Type :=
| Ret (a : A)
| Panic (msg : string)
| Tau (p : prog A)
| Vis (e : eff) (k : ans -> prog A).
Arguments Ret {A} a.
Arguments Panic {A} msg.
Arguments Tau {A} p.
Arguments Vis {A} e k.

Definition bind {A B} (p : prog A) (k : A -> prog B) : prog B :=
  (cofix bind_ (p : prog A) : prog B :=
     match p with
     | Ret a => k a
     | Panic s => Panic s
     | Tau q => Tau (bind_ q)
     | Vis e f => Vis e (fun a => bind_ (f a))
     end) p.

Notation "x <- p ;; q" := (bind p (fun x => q)) (at level 61, p at next level, right associativity).
Notation "' pat <- p ;; q" := (bind p (fun x => match x with pat => q end))
  (at level 61, pat pattern, p at next level, right associativity).
Notation "p ;;; q" := (bind p (fun _ => q)) (at level 61, right associativity).

(** A rust [loop]: run the body until it says [inr]. *)
Definition iter {I R} (body : I -> prog (I + R)) : I -> prog R :=
  cofix iter_ (i : I) : prog R :=
    bind (body i) (fun lr => match lr with inl i' => Tau (iter_ i') | inr r => Ret r end).

(** ** Traces *)
Definition event := (eff * ans)%type.
Definition trace := list event.

(** Where a run may stand: about to perform an effect, finished, or panicked. *)
Inductive status (A : Type) := At (e : eff) | Done (a : A) | Panicked (msg : string).
Arguments At {A} e.
Arguments Done {A} a.
Arguments Panicked {A} msg.

Inductive exec {A} : prog A -> trace -> status A -> Prop :=
| X_ret : forall a, exec (Ret a) [] (Done a)
| X_panic : forall s, exec (Panic s) [] (Panicked s)
| X_at : forall e k, exec (Vis e k) [] (At e)
| X_tau : forall p tr st, exec p tr st -> exec (Tau p) tr st
| X_vis : forall e k a tr st, wt e a = true -> exec (k a) tr st -> exec (Vis e k) ((e, a) :: tr) st.

(** A test driver: run a program on given answers (used in examples only).
    The result is the trace performed and the status, or None if the fuel ran out or an
    answer did not fit. *)
Fixpoint drive {A} (fuel : nat) (p : prog A) (answers : list ans) : option (trace * status A) :=
  match fuel with
  | O => None
  | S fuel' =>
    match p with
    | Ret a => Some ([], Done a)
    | Panic s => Some ([], Panicked s)
    | Tau q => drive fuel' q answers
    | Vis e k =>
      match answers with
      | [] => Some ([], At e)
      | a :: rest =>
        if wt e a then
          match drive fuel' (k a) rest with
          | Some (tr, st) => Some ((e, a) :: tr, st)
          | None => None
          end
        else None
      end
    end
  end.

(** ** Single effects as programs *)
Definition ill {A} : prog A := Panic "answer does not fit the effect".

Definition recv_data (n : nat) : prog (option bytes) :=
  Vis (ERecv (CData n)) (fun a => match a with AMsg (VData d) => Ret (Some d) | AClosed => Ret None | _ => ill end).

Inductive tried (A : Type) := TOk (a : A) | TEmpty | TClosed.
Arguments TOk {A} a.
Arguments TEmpty {A}.
Arguments TClosed {A}.

Definition try_recv (c : chan) : prog (tried val) :=
  Vis (ETryRecv c) (fun a => match a with AMsg v => Ret (TOk v) | AEmpty => Ret TEmpty | AClosed => Ret TClosed | _ => ill end).

Definition recv (c : chan) : prog (option val) :=
  Vis (ERecv c) (fun a => match a with AMsg v => Ret (Some v) | AClosed => Ret None | _ => ill end).

(** [true]: sent; [false]: the channel is closed. *)
Definition send (c : chan) (v : val) : prog bool :=
  Vis (ESend c v) (fun a => match a with AOk => Ret true | AClosed => Ret false | _ => ill end).

Definition close (c : chan) : prog unit :=
  Vis (EClose c) (fun a => match a with AOk => Ret tt | _ => ill end).

Definition drop_fd (f : fd) : prog unit :=
  Vis (EDropFd f) (fun a => match a with AOk => Ret tt | _ => ill end).

Definition sleep (ms : nat) : prog unit :=
  Vis (ESleep ms) (fun a => match a with AOk => Ret tt | _ => ill end).

Definition is_empty (c : chan) : prog bool :=
  Vis (EIsEmpty c) (fun a => match a with ABool b => Ret b | _ => ill end).
Definition is_closed (c : chan) : prog bool :=
  Vis (EIsClosed c) (fun a => match a with ABool b => Ret b | _ => ill end).

Inductive wres := WOk | WBroken | WErr.
Definition write_all (f : fd) (d : bytes) : prog wres :=
  Vis (EWrite f d) (fun a => match a with AOk => Ret WOk | ABroken => Ret WBroken | AErr => Ret WErr | _ => ill end).
Definition flush (f : fd) : prog bool :=
  Vis (EFlush f) (fun a => match a with AOk => Ret true | AErr => Ret false | _ => ill end).
