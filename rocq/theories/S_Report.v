(** * S_Report: what a run should report *)
From Coq Require Import Ascii String List Arith.
From Verif Require Import M_Prog M_Motion M_Config M_Manip M_Waiter M_Cli S_Net M_Start.
Import ListNotations.
Local Open Scope list_scope.

(** The components of a pipeline by kind and name, in the order of their numbers. *)
Definition roster (w : waiter) : list component :=
  map (fun x => (CLaunch, fst x)) (w_launch w) ++ map (fun x => (CRegulator, fst x)) (w_regulator w) ++ map (fun x => (CFaucet, fst x)) (w_faucet w) ++
  map (fun x => (CDrain, fst x)) (w_drain w) ++ map (fun x => (CBuffer, fst x)) (w_buffer w) ++ map (fun x => (CJunction, fst x)) (w_junction w).
(** [y] is the component [x] of the pipeline. *)
Definition known_as (w : waiter) (x : component) (y : comp) : Prop :=
  match fst x, y with
  | CLaunch, NLaunch _ _ la => In (snd x, la) (w_launch w)
  | CRegulator, NRegulator r => In (snd x, r) (w_regulator w)
  | CFaucet, NFaucet f _ => In (snd x, f) (w_faucet w)
  | CDrain, NDrain d _ => In (snd x, d) (w_drain w)
  | CBuffer, NBuffer b _ _ _ => In (snd x, b) (w_buffer w)
  | CJunction, NJunction j => In (snd x, j) (w_junction w)
  | _, _ => False
  end.
Fixpoint placed {A} (k : nat) (l : list A) : list (nat * A) := match l with [] => [] | x :: r => (k, x) :: placed (S k) r end.

Section Report.
Variables (ocs : nat -> outcome) (time : nat -> nat).
(** The error of a component that has failed: its kind, its name, what went wrong and when. *)
Definition blame (x : nat * component) : list waiter_error :=
  match ocs (fst x) with Ended (Err e) => [CausedByError (fst (snd x)) (snd (snd x)) (Timed e (time (fst x)))] | _ => [] end.
(** How much was moved. *)
Definition moved (k : nat) : nat := match ocs k with Ended (Ok n) => n | _ => 0 end.
Definition has_ended (k : nat) : Prop := exists r, ocs k = Ended r.
End Report.

(** The command to run the configuration [c] was given. *)
Definition asked_to_run (os : outside) (typed : matches) (c : config) : Prop :=
  exists path f, get_user_action (clap_defaults typed) = Answer (Ok (Process path f)) /\ read_config os f path = Ok c.
