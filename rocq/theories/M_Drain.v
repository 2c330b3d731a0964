(** * M_Drain: src/drain.rs *)
From Coq Require Import Ascii String List Bool Arith ZArith.
From Verif Require Import M_Prog M_Motion M_Connectable.
Import ListNotations.
Local Open Scope string_scope.

(** src/drain.rs 16-20 *)
Record drain := Drain {
  dr_started : bool;
  dr_stdin : option pull;
  dr_write_location : option string
}.

(** src/drain.rs 24-30 *)
Definition drain_new (write_location : string) : drain := Drain false None (Some write_location).

(** src/drain.rs 37-39 *)
Definition drain_add_output (d : drain) (port : oport) (b : breakable) (src dst n : nat)
  : result (drain * pull) add_output_error := Err (OutUnsupportedPort port).

(** src/drain.rs 41-50 *)
Definition drain_add_input (d : drain) (p : pull) (priority : Z) : result drain add_input_error :=
  if negb (priority =? 0)%Z then Err (InUnsupportedPriority priority) else
  match dr_stdin d with
  | Some _ => Err InAlreadyAllocated
  | None => Ok (Drain (dr_started d) (Some p) (dr_write_location d))
  end.

(** src/drain.rs 65-76: the destination *)
Definition drain_destination (pl : pull) (location : option string) : prog (mres push) :=
  match pull_journey pl, location with
  | Some pj, Some name =>
    let j := J (pj_src pj) None (pj_dst pj) Terminate in
    if string_dec name "/dev/null" then Ret (Ok PsNone)
    else if string_dec name "-" then
      Vis EStdout (fun a => match a with AFd f => Ret (Ok (PsBytes DstStdout j f)) | _ => ill end)
    else if string_dec name "_" then
      Vis EStderr (fun a => match a with AFd f => Ret (Ok (PsBytes DstStderr j f)) | _ => ill end)
    else
      Vis (ECreate name) (fun a =>
        match a with
        | AFd f => Ret (Ok (PsBytes DstFile j f))
        | AErr => Ret (Err (OpenIOError pj))
        | _ => ill
        end)
  | _, _ => Ret (Ok PsNone)
  end.

(** src/drain.rs 58-81.  On the early return by [?] the local [pull] is dropped.  [started] is set but
    never looked at. *)
Definition drain_start (d : drain) (spy : option nat) : prog (mres nat) :=
  match spy with
  | Some _ => Panic "assertion failed: spy.is_none()"
  | None =>
    match dr_stdin d with
    | Some pl =>
      r <- drain_destination pl (dr_write_location d) ;;
      match r with
      | Ok ps => motion pl mn_empty None ps
      | Err e => drop_pull pl ;;; Ret (Err e)
      end
    | None => Ret (Err NoneError)
    end
  end.
