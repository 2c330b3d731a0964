(** * M_Report: src/waiter.rs 352-420, from the ends of all components of a run to the result of [Waiter::start] *)
From Coq Require Import Ascii String List Arith.
From Verif Require Import M_Prog M_Motion M_Config M_Manip M_Waiter S_Net M_Start M_Errors.
Import ListNotations.
Local Open Scope list_scope.

Section Report.
(** How all of them ended, by number, and when (the time is that in the error). *)
Variables (ocs : nat -> S_Net.outcome) (time : nat -> nat).
Definition in_time (k : nat) (r : mres nat) : result nat timed := match r with Ok n => Ok n | Err e => Err (Timed e (time k)) end.
(** 391-398: [join_all] of the components of one kind, the first of which is number [k]; nothing as long as one of them goes on. *)
Fixpoint results_of {A} (t : ctype) (l : list (string * A)) (k : nat) : option (list (result nat waiter_error)) :=
  match l with
  | [] => Some []
  | (n, _) :: r =>
    match ocs k, results_of t r (S k) with
    | Ended x, Some rs => Some (component_result t n (in_time k x) :: rs)
    | _, _ => None
    end
  end.
(** 390: those of the controllers (37-99), which have no errors of motion *)
Fixpoint managed_results (cs : list capture) (k : nat) : option (list (result nat waiter_error)) :=
  match cs with
  | [] => Some []
  | _ :: r =>
    match ocs k, managed_results r (S k) with
    | Ended (Ok n), Some rs => Some (Ok n :: rs)
    | _, _ => None
    end
  end.
(** 400: all of them *)
Definition run_results (w : waiter) (cs : list capture) :
    option (list (result nat waiter_error) * list (result nat waiter_error) * list (result nat waiter_error) * list (result nat waiter_error) *
      list (result nat waiter_error) * list (result nat waiter_error) * list (result nat waiter_error)) :=
  let kr := length (w_launch w) in
  let kf := kr + length (w_regulator w) in
  let kd := kf + length (w_faucet w) in
  let kb := kd + length (w_drain w) in
  let kj := kb + length (w_buffer w) in
  let km := kj + length (w_junction w) in
  match results_of CLaunch (w_launch w) 0, results_of CRegulator (w_regulator w) kr, results_of CFaucet (w_faucet w) kf, managed_results cs km,
        results_of CDrain (w_drain w) kd, results_of CBuffer (w_buffer w) kb, results_of CJunction (w_junction w) kj with
  | Some l, Some r, Some f, Some m, Some d, Some b, Some j => Some (l, r, f, m, d, b, j)
  | _, _, _, _, _, _, _ => None
  end.
(** 402-419 *)
Definition start_result (w : waiter) (cs : list capture) : option (result nat (list waiter_error)) :=
  match run_results w cs with Some (l, r, f, m, d, b, j) => Some (overall l r f m d b j) | None => None end.
End Report.
