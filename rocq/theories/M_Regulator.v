(** * M_Regulator: src/regulator.rs (and the loop of src/faucet.rs, which is the same text) *)
From Coq Require Import Ascii String List Bool Arith ZArith.
From Verif Require Import M_Prog M_Motion M_Connectable.
Import ListNotations.

(** src/regulator.rs 109-115, src/faucet.rs 116-122: [control].  [ctl] is the control channel, if
    [get_control] has been called. *)
Definition control (ctl : option nat) : prog unit :=
  match ctl with
  | None => Ret tt
  | Some c =>
    r <- try_recv (CCtl c) ;;
    match r with
    | TOk _ => _ <- recv (CCtl c) ;; Ret tt
    | _ => Ret tt
    end
  end.

(** src/regulator.rs 127-129: [if let Some(c) = &self.control { c.close(); }] *)
Definition close_ctl (ctl : option nat) : prog unit :=
  match ctl with Some c => close (CCtl c) | None => Ret tt end.

(** src/regulator.rs 120-151, src/faucet.rs 127-158: one turn of the loop; the state is
    stdin, stdouts and read_count.  Lines 124-126 do nothing: [self.stdout] has been taken. *)
Definition gate_body (ctl spy : option nat) (brk : breakable) (s : motion_state)
  : prog (motion_state + mres nat * pull * list push) :=
  let '(pl, pushs, count) := s in
  ' (r, pl', pushs') <- motion_worker pl mn_empty pushs spy false ;;
  match r with
  | Ok w =>
    if wr_finished w then
      close_ctl ctl ;;; Ret (inr (Ok count, pl', pushs'))
    else
      control ctl ;;; Ret (inl (pl', pushs', S count))
  | Err (OutputClosed j reason d) =>
    match brk with
    | Terminate => Ret (inr (Err (OutputClosed j reason d), pl', pushs'))
    | Finish => Ret (inr (Ok count, pl', pushs'))
    | Consume => control ctl ;;; Ret (inl (pl', pushs', S count))
    end
  | Err e => Ret (inr (Err e, pl', pushs'))
  end.

(** src/regulator.rs 102-156, src/faucet.rs 109-163: [start_secret], with the drops of stdouts and
    stdin.  (The control receiver stays in the component, which outlives the run.) *)
Definition start_secret (started : bool) (stdin : option pull) (stdout : option push) (ctl spy : option nat)
  : prog (mres nat) :=
  if started then Panic "assertion failed: !self.started" else
  match stdin, stdout with
  | Some pl, Some ps =>
    ' (r, pl', pushs') <- iter (gate_body ctl spy (push_brk ps)) (pl, [ps], 0) ;;
    drop_pushes pushs' ;;;
    drop_pull pl' ;;;
    Ret r
  | Some pl, None => drop_pull pl ;;; Ret (Ok 0)
  | None, Some ps => drop_push ps ;;; Ret (Ok 0)
  | None, None => Ret (Ok 0)
  end.

(** src/regulator.rs 15-21 *)
Record regulator := Regulator {
  rg_started : bool;
  rg_stdout_size : nat;
  rg_stdout : option push;
  rg_stdin : option pull;
  rg_control : option nat
}.

(** src/regulator.rs 25-33 *)
Definition regulator_new : regulator := Regulator false 8 None None None.

(** src/regulator.rs 36-38 *)
Definition regulator_set_stdout_size (r : regulator) (size : nat) : regulator :=
  Regulator (rg_started r) size (rg_stdout r) (rg_stdin r) (rg_control r).

(** src/regulator.rs 161-164: the handle; [rc_control] names the channel *)
Record regulator_control := RC { rc_paused : bool; rc_control : nat }.

(** src/regulator.rs 41-49; None for the failing assertion.  [n] names the new channel, of
    capacity 1. *)
Definition regulator_get_control (r : regulator) (n : nat) : option (regulator * regulator_control) :=
  match rg_control r with
  | Some _ => None
  | None => Some (Regulator (rg_started r) (rg_stdout_size r) (rg_stdout r) (rg_stdin r) (Some n), RC false n)
  end.

(** src/regulator.rs 63-74.  [n] names the new channel, of capacity [rg_stdout_size]. *)
Definition regulator_add_output (r : regulator) (port : oport) (b : breakable) (src dst n : nat)
  : result (regulator * pull) add_output_error :=
  if negb (oport_eqb port POut) then Err (OutUnsupportedPort port) else
  match rg_stdout r with
  | Some _ => Err (OutAlreadyAllocated port)
  | None =>
    let j := J src (Some port) dst b in
    Ok (Regulator (rg_started r) (rg_stdout_size r) (Some (PsIoSender j n)) (rg_stdin r) (rg_control r),
        PlReceiver (as_pull_journey j) n)
  end.

(** src/regulator.rs 76-85 *)
Definition regulator_add_input (r : regulator) (p : pull) (priority : Z) : result regulator add_input_error :=
  if negb (priority =? 0)%Z then Err (InUnsupportedPriority priority) else
  match rg_stdin r with
  | Some _ => Err InAlreadyAllocated
  | None => Ok (Regulator (rg_started r) (rg_stdout_size r) (rg_stdout r) (Some p) (rg_control r))
  end.

(** src/regulator.rs 94-96 *)
Definition regulator_start (r : regulator) (spy : option nat) : prog (mres nat) :=
  start_secret (rg_started r) (rg_stdin r) (rg_stdout r) (rg_control r) spy.

(** src/regulator.rs 169-173, src/faucet.rs 176-180: the answer and the new handle.  The [or(Ok(false))]
    makes the result always Ok. *)
Definition rc_pause (c : regulator_control) : prog (bool * regulator_control) :=
  if rc_paused c then Ret (false, c) else
  ok <- send (CCtl (rc_control c)) VUnit ;;
  Ret (ok, RC true (rc_control c)).

(** src/regulator.rs 176-180, src/faucet.rs 183-187 *)
Definition rc_resume (c : regulator_control) : prog (bool * regulator_control) :=
  if negb (rc_paused c) then Ret (false, c) else
  ok <- send (CCtl (rc_control c)) VUnit ;;
  Ret (ok, RC false (rc_control c)).
