(** * S_Unwired: doing nothing but letting go *)
From Coq Require Import Ascii String List Bool Arith.
From Verif Require Import M_Prog M_Motion M_Regulator M_Faucet.
Import ListNotations.

(** Effects that only let go of a channel or a file *)
Definition lets_go (e : eff) : Prop := match e with EClose _ | EDropFd _ => True | _ => False end.
Definition only_lets_go (tr : trace) : Prop := Forall (fun ev => lets_go (fst ev)) tr.
(** A run that moves nothing and ends with [r]: nothing but letting go has been done, and it stands at the end, or before letting go of something *)
Definition ends_at_once {A} (r : A) (tr : trace) (st : status A) : Prop :=
  only_lets_go tr /\ (st = Done r \/ exists e, st = At e /\ lets_go e).

(** A faucet that nothing is connected to, as it is made by the functions that make and change it *)
Inductive unconnected_faucet : faucet -> Prop :=
| UF_new : forall location, unconnected_faucet (faucet_new location)
| UF_size : forall f n, unconnected_faucet f -> unconnected_faucet (faucet_set_stdout_size f n)
| UF_control : forall f n f' c, unconnected_faucet f -> faucet_get_control f n = Some (f', c) -> unconnected_faucet f'.
