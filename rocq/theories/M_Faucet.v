(** * M_Faucet: src/faucet.rs *)
From Coq Require Import Ascii String List Bool Arith ZArith.
From Verif Require Import M_Prog M_Motion M_Connectable M_Regulator.
Import ListNotations.
Local Open Scope string_scope.

(** src/faucet.rs 18-26 *)
Record faucet := Faucet {
  fc_started : bool;
  fc_stdout_size : nat;
  fc_stdout : option push;
  fc_stdin : option pull;
  fc_control : option nat;
  fc_pull_journey : option pjourney;
  fc_read_location : option string
}.

(** src/faucet.rs 31-41 *)
Definition faucet_new (read_location : string) : faucet :=
  Faucet false 8 None None None None (Some read_location).

(** src/faucet.rs 44-46 *)
Definition faucet_set_stdout_size (f : faucet) (size : nat) : faucet :=
  Faucet (fc_started f) size (fc_stdout f) (fc_stdin f) (fc_control f) (fc_pull_journey f) (fc_read_location f).

(** src/faucet.rs 49-57; None for the failing assertion.  The handle (167-190) behaves as that of a
    regulator. *)
Definition faucet_get_control (f : faucet) (n : nat) : option (faucet * regulator_control) :=
  match fc_control f with
  | Some _ => None
  | None =>
    Some (Faucet (fc_started f) (fc_stdout_size f) (fc_stdout f) (fc_stdin f) (Some n) (fc_pull_journey f) (fc_read_location f),
          RC false n)
  end.

(** src/faucet.rs 64-76.  [n] names the new channel, of capacity [fc_stdout_size]. *)
Definition faucet_add_output (f : faucet) (port : oport) (b : breakable) (src dst n : nat)
  : result (faucet * pull) add_output_error :=
  if negb (oport_eqb port POut) then Err (OutUnsupportedPort port) else
  match fc_stdout f with
  | Some _ => Err (OutAlreadyAllocated port)
  | None =>
    let j := J src (Some port) dst b in
    Ok (Faucet (fc_started f) (fc_stdout_size f) (Some (PsIoSender j n)) (fc_stdin f) (fc_control f)
          (Some (as_pull_journey j)) (fc_read_location f),
        PlReceiver (as_pull_journey j) n)
  end.

(** src/faucet.rs 78-80 *)
Definition faucet_add_input (f : faucet) (p : pull) (priority : Z) : result faucet add_input_error :=
  Err InUnsupportedForControl.

(** src/faucet.rs 91-99: the source; None when opening the file fails *)
Definition faucet_source (f : faucet) : prog (mres pull) :=
  match fc_pull_journey f, fc_read_location f with
  | Some j, Some name =>
    if string_dec name "-" then
      Vis EStdin (fun a => match a with AFd d => Ret (Ok (PlBytes SrcStdin j d split_control_new)) | _ => ill end)
    else
      Vis (EOpenRead name) (fun a =>
        match a with
        | AFd d => Ret (Ok (PlBytes SrcFile j d split_control_new))
        | AErr => Ret (Err (OpenIOError j))
        | _ => ill
        end)
  | _, _ => Ret (Ok PlNone)
  end.

(** src/faucet.rs 89-103.  On the early return by [?] nothing is dropped: [self.stdout] stays in the
    component. *)
Definition faucet_start (f : faucet) (spy : option nat) : prog (mres nat) :=
  src <- faucet_source f ;;
  match src with
  | Err e => Ret (Err e)
  | Ok pl => start_secret (fc_started f) (Some pl) (fc_stdout f) (fc_control f) spy
  end.
