(** * M_Motion: src/motion.rs

    Reading, writing, closing, the worker that moves one message and the loop that
    moves all of them.  [Instant]s and [io::Error] payloads carried by errors are left
    out (only whether a write error is BrokenPipe matters to the control flow); the
    times of errors are modelled where they are used, in M_Waiter. *)
From Coq Require Import Ascii String List Bool Arith.
From Verif Require Import M_Prog.
Import ListNotations.

(** src/motion.rs 92-121 *)
Record pjourney := PJ { pj_src : nat; pj_dst : nat }.
Record journey := J { j_src : nat; j_port : option oport; j_dst : nat; j_brk : breakable }.

(** src/motion.rs 178-182 *)
Inductive closed_reason := BrokenPipe | ChannelClosed.

(** src/motion.rs 184-199, without instants and io errors *)
Inductive merror :=
| ReadIOError (j : pjourney)
| CloseIOError (j : journey)
| OpenIOError (j : pjourney)
| WriteIOError (j : journey) (d : bytes)
| RecvError (j : journey)
| SendError (j : journey) (d : bytes)
| OutputClosed (j : journey) (r : closed_reason) (d : bytes)
| MonitorReadError (src : nat)
| MonitorWriteError (j : pjourney)
| SpyWriteError (src dst : nat) (port : oport) (msg : iodw)
| LaunchSpawnError (cmd : option string)
| NoneError.

Inductive result (A E : Type) := Ok (a : A) | Err (e : E).
Arguments Ok {A E} a.
Arguments Err {A E} e.

(** src/motion.rs 317 *)
Definition mres (A : Type) := result A merror.

(** src/motion.rs 57-61; [split_at] is a parameter of the functions below. *)
Record split_control := SC { split_at : list bytes; overflow : bytes }.

Definition cr : ascii := "013"%char.
Definition lf : ascii := "010"%char.

(** src/motion.rs 63-74 *)
Definition split_control_new : split_control := SC [[cr; lf]; [lf]] [].

(** src/motion.rs 123-132.  The four byte sources CmdStdout, CmdStderr, Stdin and File
    are treated identically by the code (410-413); [bsrc] remembers which one it is. *)
Inductive bsrc := SrcCmdStdout | SrcCmdStderr | SrcStdin | SrcFile.
Inductive pull :=
| PlBytes (k : bsrc) (j : pjourney) (f : fd) (sc : split_control)
| PlReceiver (j : pjourney) (n : nat)
| PlMock (j : pjourney) (q : list bytes)
| PlNone.

(** src/motion.rs 150-160.  CmdStdin, Stdout, Stderr and File behave identically (438-441,
    459-462). *)
Inductive bdst := DstCmdStdin | DstStdout | DstStderr | DstFile.
Inductive push :=
| PsMock (j : journey) (q : list bytes)
| PsBytes (k : bdst) (j : journey) (f : fd)
| PsSender (j : journey) (n : nat)
| PsIoSender (j : journey) (n : nat)
| PsNone.

(** src/motion.rs 136-146 *)
Definition pull_journey (p : pull) : option pjourney :=
  match p with
  | PlBytes _ j _ _ | PlReceiver j _ | PlMock j _ => Some j
  | PlNone => None
  end.

(** src/motion.rs 163-174 *)
Definition push_journey (p : push) : option journey :=
  match p with
  | PsMock j _ | PsBytes _ j _ | PsSender j _ | PsIoSender j _ => Some j
  | PsNone => None
  end.

Fixpoint bytes_eqb (a b : bytes) : bool :=
  match a, b with
  | [], [] => true
  | x :: a', y :: b' => Ascii.eqb x y && bytes_eqb a' b'
  | _, _ => false
  end.

(** src/motion.rs 319-331 *)
Fixpoint is_split (buf : bytes) (splits : list bytes) : option nat :=
  match splits with
  | [] => None
  | v :: rest =>
    if length buf <? length v then is_split buf rest
    else if bytes_eqb (firstn (length v) buf) v then Some (length v)
    else is_split buf rest
  end.

(** src/motion.rs 340-347: the scanning [for] loop.  [rest] is the buffer from [pos] on,
    [start_from] the variable of that name.  Result: the new [start_from] and, if a
    delimiter was found, the position just after it. *)
Fixpoint scan (splits : list bytes) (rest : bytes) (pos start_from : nat) : nat * option nat :=
  match rest with
  | [] => (start_from, None)
  | _ :: tl =>
    match is_split rest splits with
    | Some l => (pos, Some (pos + l))
    | None => scan splits tl (S pos) pos
    end
  end.

(** src/motion.rs 336-381: the loop, with the variables [overflow] and [start_from].
    The result is the message (None for an io error) and the new overflow. *)
CoFixpoint read_loop (f : fd) (splits : list bytes) (ov : bytes) (start_from : nat) : prog (option bytes * bytes) :=
  match scan splits (skipn start_from ov) start_from start_from with
  | (_, Some e) => Ret (Some (firstn e ov), skipn e ov)
  | (start', None) =>
    Vis (ERead f) (fun a =>
      match a with
      | AData [] => Ret (Some ov, [])
      | AData d => read_loop f splits (ov ++ d) start'
      | AErr => Ret (None, ov)
      | _ => ill
      end)
  end.

(** src/motion.rs 333-383 *)
Definition motion_read_buffer (f : fd) (sc : split_control) : prog (option bytes * split_control) :=
  ' (r, ov) <- read_loop f (split_at sc) (overflow sc) 0 ;;
  Ret (r, SC (split_at sc) ov).

(** src/motion.rs 387-392 *)
Definition do_match_stuff (v : bytes) : iodw :=
  match v with [] => Finished | _ => IOData v end.

(** src/motion.rs 385-417 *)
Definition motion_read (p : pull) (do_try : bool) : prog (mres iodw * pull) :=
  match p, do_try with
  | PlNone, false => Ret (Ok Finished, PlNone)
  | PlMock j q, _ =>
    match q with
    | [] => Ret (Ok Finished, PlMock j [])
    | d :: q' => Ret (Ok (IOData d), PlMock j q')
    end
  | PlReceiver j n, false =>
    r <- recv_data n ;;
    match r with
    | Some d => Ret (Ok (IOData d), p)
    | None => Ret (Ok Finished, p)
    end
  | PlReceiver j n, true =>
    r <- try_recv (CData n) ;;
    match r with
    | TOk (VData d) => Ret (Ok (IOData d), p)
    | TOk _ => ill
    | TEmpty => Ret (Ok Skipped, p)
    | TClosed => Ret (Ok Finished, p)
    end
  | PlBytes k j f sc, false =>
    ' (r, sc') <- motion_read_buffer f sc ;;
    match r with
    | Some v => Ret (Ok (do_match_stuff v), PlBytes k j f sc')
    | None => Ret (Err (ReadIOError j), PlBytes k j f sc')
    end
  | _, true => Panic "Only Pull::Receiver and Pull::Mock can do a motion_read with do_try"
  end.

(** src/motion.rs 420-444 *)
Definition motion_write (p : push) (d : bytes) : prog (mres unit * push) :=
  match p with
  | PsNone => Ret (Ok tt, p)
  | PsMock j q => Ret (Ok tt, PsMock j (q ++ [d]))
  | PsSender j n | PsIoSender j n =>
    ok <- send (CData n) (VData d) ;;
    Ret (if ok then Ok tt else Err (OutputClosed j ChannelClosed d), p)
  | PsBytes _ j f =>
    r <- write_all f d ;;
    Ret (match r with
         | WOk => Ok tt
         | WBroken => Err (OutputClosed j BrokenPipe d)
         | WErr => Err (WriteIOError j d)
         end, p)
  end.

(** src/motion.rs 447-464 *)
Definition motion_close (p : push) : prog (mres unit) :=
  match p with
  | PsNone | PsMock _ _ => Ret (Ok tt)
  | PsSender _ n | PsIoSender _ n => close (CData n) ;;; Ret (Ok tt)
  | PsBytes _ j f =>
    ok <- flush f ;;
    Ret (if ok then Ok tt else Err (CloseIOError j))
  end.

(** src/motion.rs 467-482 *)
Record notifications := MN { mon_read : option nat; mon_written : option nat }.
Definition mn_empty := MN None None.

Definition brk_eqb (a b : breakable) : bool :=
  match a, b with
  | Terminate, Terminate | Finish, Finish | Consume, Consume => true
  | _, _ => false
  end.

(** src/motion.rs 517: the breakable that governs a push *)
Definition push_brk (p : push) : breakable :=
  match push_journey p with Some j => j_brk j | None => Terminate end.

(** src/motion.rs 517-532: writing the data to one push; the result also says whether
    [unfinished_push_count] is decremented. *)
Definition worker_write (data : iodw) (p : push) : prog (mres bool * push) :=
  match push_brk p, data with
  | _, Finished => Ret (Ok false, p)
  | _, Skipped => Ret (Ok false, p)
  | Terminate, IOData d =>
    ' (r, p') <- motion_write p d ;;
    Ret (match r with Ok _ => Ok false | Err e => Err e end, p')
  | b, IOData d =>
    ' (r, p') <- motion_write p d ;;
    Ret (match r with
         | Err (OutputClosed _ _ _) => Ok (brk_eqb b Finish)
         | Ok _ => Ok false
         | Err e => Err e
         end, p')
  end.

(** src/motion.rs 534-543: the spy message for one push *)
Definition worker_spy (spy : option nat) (data : iodw) (p : push) : prog (mres unit) :=
  match spy, push_journey p with
  | Some s, Some (J src (Some port) dst _) =>
    ok <- send (CSpy s) (VSpy src dst port data) ;;
    Ret (if ok then Ok tt else Err (SpyWriteError src dst port data))
  | _, _ => Ret (Ok tt)
  end.

(** src/motion.rs 516-545: the [for push in pushs] loop *)
Fixpoint worker_pushes (spy : option nat) (data : iodw) (pushs : list push) (unfinished : nat)
  : prog (mres nat * list push) :=
  match pushs with
  | [] => Ret (Ok unfinished, [])
  | p :: rest =>
    ' (r, p') <- worker_write data p ;;
    match r with
    | Err e => Ret (Err e, p' :: rest)
    | Ok dec =>
      s <- worker_spy spy data p' ;;
      match s with
      | Err e => Ret (Err e, p' :: rest)
      | Ok _ =>
        ' (r', rest') <- worker_pushes spy data rest (if dec then unfinished - 1 else unfinished) ;;
        Ret (r', p' :: rest')
      end
    end
  end.

(** src/motion.rs 497-510 and 547-554: a monitor message; [onerr] is the error it maps to.
    The [unwrap_or_else(panic)] fires when the send fails and the pull has no journey. *)
Definition notify (m : option nat) (v : val) (p : pull) (onerr : pjourney -> merror) : prog (mres unit) :=
  match m with
  | None => Ret (Ok tt)
  | Some c =>
    ok <- send (CMon c) v ;;
    if ok then Ret (Ok tt)
    else match pull_journey p with
         | Some j => Ret (Err (onerr j))
         | None => Panic "motion::motion_worker monitor.read for pull had no journey"
         end
  end.

(** src/motion.rs 484-488 *)
Record worker_result := WR { wr_finished : bool; wr_read : bool }.

Definition is_finished (d : iodw) : bool := match d with Finished => true | _ => false end.

(** src/motion.rs 490-561 *)
Definition motion_worker (pl : pull) (mon : notifications) (pushs : list push) (spy : option nat) (do_try : bool)
  : prog (mres worker_result * pull * list push) :=
  ' (r, pl') <- motion_read pl do_try ;;
  match r with
  | Err e => Ret (Err e, pl', pushs)
  | Ok Skipped => Ret (Ok (WR false false), pl', pushs)
  | Ok data =>
    nr <- notify (mon_read mon) VRead pl' (fun j => MonitorReadError (pj_src j)) ;;
    match nr with
    | Err e => Ret (Err e, pl', pushs)
    | Ok _ =>
      ' (wr, pushs') <- worker_pushes spy data pushs (length pushs) ;;
      match wr with
      | Err e => Ret (Err e, pl', pushs')
      | Ok unfinished =>
        nw <- notify (mon_written mon) VWrote pl' MonitorWriteError ;;
        match nw with
        | Err e => Ret (Err e, pl', pushs')
        | Ok _ =>
          Ret (Ok (WR (if unfinished =? 0 then true else is_finished data) true), pl', pushs')
        end
      end
    end
  end.

(** src/motion.rs 576-578: closing every push, stopping at the first error *)
Fixpoint close_all (pushs : list push) : prog (mres unit) :=
  match pushs with
  | [] => Ret (Ok tt)
  | p :: rest =>
    r <- motion_close p ;;
    match r with
    | Err e => Ret (Err e)
    | Ok _ => close_all rest
    end
  end.

Definition close_mon (m : option nat) : prog unit :=
  match m with Some c => close (CMon c) | None => Ret tt end.

(** Rust drops of pulls, pushes and monitors that go out of scope: the only receiver
    (sender) of a channel closes it, a file or pipe is closed. *)
Definition drop_pull (p : pull) : prog unit :=
  match p with
  | PlReceiver _ n => close (CData n)
  | PlBytes _ _ f _ => drop_fd f
  | _ => Ret tt
  end.
Definition drop_push (p : push) : prog unit :=
  match p with
  | PsSender _ n | PsIoSender _ n => close (CData n)
  | PsBytes _ _ f => drop_fd f
  | _ => Ret tt
  end.
Fixpoint drop_pulls (l : list pull) : prog unit :=
  match l with [] => Ret tt | p :: r => drop_pull p ;;; drop_pulls r end.
Fixpoint drop_pushes (l : list push) : prog unit :=
  match l with [] => Ret tt | p :: r => drop_push p ;;; drop_pushes r end.

(** State of the loop in [motion]: pull, pushs, read_count *)
Definition motion_state := (pull * list push * nat)%type.

(** src/motion.rs 568-583: one turn of the loop *)
Definition motion_body (mon : notifications) (spy : option nat) (s : motion_state)
  : prog (motion_state + mres nat * pull * list push) :=
  let '(pl, pushs, count) := s in
  ' (r, pl', pushs') <- motion_worker pl mon pushs spy false ;;
  match r with
  | Err e => Ret (inr (Err e, pl', pushs'))
  | Ok w =>
    let count' := if wr_read w then S count else count in
    if wr_finished w then
      c <- close_all pushs' ;;
      match c with
      | Err e => Ret (inr (Err e, pl', pushs'))
      | Ok _ =>
        close_mon (mon_read mon) ;;;
        close_mon (mon_written mon) ;;;
        Ret (inr (Ok count', pl', pushs'))
      end
    else Ret (inl (pl', pushs', count'))
  end.

(** src/motion.rs 564-585, followed by the drops of its arguments *)
Definition motion (pl : pull) (mon : notifications) (spy : option nat) (ps : push) : prog (mres nat) :=
  ' (r, pl', pushs') <- iter (motion_body mon spy) (pl, [ps], 0) ;;
  drop_pull pl' ;;;
  drop_pushes pushs' ;;;
  close_mon (mon_read mon) ;;;
  close_mon (mon_written mon) ;;;
  Ret r.
