(** * S_Lead: the place of what the configuration names, and a component of its own that has done well *)
From Coq Require Import Ascii String List Arith.
From Verif Require Import M_Prog M_Motion M_Config M_Manip M_Waiter M_Start S_World S_Net S_Path S_Soft.
Import ListNotations.

Section At.
Variables (c : config) (w : waiter) (cwd : option string) (vars : list (string * string)).
(** The faucet, program or drain [x] is component number [k]. *)
Definition stands_at (x : component) (k : nat) : Prop :=
  match x with
  | (CFaucet, n) => faucet_at c w cwd vars n k
  | (CLaunch, n) => program_at w cwd vars n k
  | (CDrain, n) => drain_at c w cwd vars n k
  | _ => False
  end.
End At.
(** Component number [k] has come to its end, and says that it went well. *)
Definition went_well (ocs : nat -> outcome) (k : nat) : Prop := exists m, ocs k = Ended (Ok m).
