(** * M_Manager: src/waiter.rs 37-99, the task that pauses and resumes a regulator *)
From Coq Require Import Ascii String List Bool Arith.
From Verif Require Import M_Prog M_Motion M_BackOff M_Utils M_Regulator.
Import ListNotations.

(** src/waiter.rs 42: a monitored buffer: last size and the channel of its size reports *)
Record bsm := Bsm { bm_size : nat; bm_chan : nat }.

(** src/waiter.rs 56-76: the [for] loop from index [i] on.  Result: the monitors, the indices to
    remove, the total and the number of reports read. *)
Fixpoint poll_monitors (ms : list bsm) (i : nat) (to_remove : list nat) (total reads : nat)
  : prog (list bsm * list nat * nat * nat) :=
  match ms with
  | [] => Ret ([], to_remove, total, reads)
  | m :: rest =>
    r <- try_recv (CSize (bm_chan m)) ;;
    match r with
    | TClosed =>
      ' (ms', rm, tot, rd) <- poll_monitors rest (S i) (to_remove ++ [i]) total reads ;;
      Ret (m :: ms', rm, tot, rd)
    | TEmpty =>
      ' (ms', rm, tot, rd) <- poll_monitors rest (S i) to_remove (total + bm_size m) reads ;;
      Ret (m :: ms', rm, tot, rd)
    | TOk (VSize n) =>
      ' (ms', rm, tot, rd) <- poll_monitors rest (S i) to_remove (total + n) (S reads) ;;
      Ret (Bsm n (bm_chan m) :: ms', rm, tot, rd)
    | TOk _ => ill
    end
  end.

(** src/waiter.rs 85-87, given the indices in the order they are removed; the dropped receiver closes
    its channel *)
Fixpoint remove_monitors (idx : list nat) (ms : list bsm) : prog (list bsm) :=
  match idx with
  | [] => Ret ms
  | i :: rest =>
    match vec_remove i ms with
    | (Some m, ms') => close (CSize (bm_chan m)) ;;; remove_monitors rest ms'
    | (None, _) => Panic "removal index out of bounds"
    end
  end.

(** src/waiter.rs 47-54: the variables of the loop: monitors, regulator_component, regulator_status
    (true for Closed), back_off, read_count *)
Record mstate := MS { ms_monitors : list bsm; ms_control : regulator_control; ms_shut : bool; ms_back : back_off; ms_count : nat }.

(** src/waiter.rs 77-80 *)
Definition pause_if (cond : bool) (c : regulator_control) (shut : bool) : prog (regulator_control * bool) :=
  if cond then ' (_, c') <- rc_pause c ;; Ret (c', true) else Ret (c, shut).
(** src/waiter.rs 81-84 *)
Definition resume_if (cond : bool) (c : regulator_control) (shut : bool) : prog (regulator_control * bool) :=
  if cond then ' (_, c') <- rc_resume c ;; Ret (c', false) else Ret (c, shut).

(** src/waiter.rs 53-98: one turn of the loop.  [pause] and [resume] always answer Ok (see
    [rc_pause]), so the errors CouldNotPause and CouldNotResume do not arise. *)
Definition manage_body (low high : nat) (s : mstate) : prog (mstate + nat) :=
  ' (ms1, to_remove, total, reads) <- poll_monitors (ms_monitors s) 0 [] 0 0 ;;
  let count := ms_count s + reads in
  ' (c1, shut1) <- pause_if (negb (ms_shut s) && (high <=? total)) (ms_control s) (ms_shut s) ;;
  ' (c2, shut2) <- resume_if (shut1 && (total <=? low)) c1 shut1 ;;
  ms2 <- remove_monitors (rev to_remove) ms1 ;;
  match ms2 with
  | [] => close (CCtl (rc_control c2)) ;;; Ret (inr count)
  | _ =>
    if reads =? 0 then
      ' (_, b) <- back_off_wait (ms_back s) ;;
      Ret (inl (MS ms2 c2 shut2 b count))
    else Ret (inl (MS ms2 c2 shut2 (snd (back_off_reset (ms_back s))) count))
  end.

(** src/waiter.rs 37-99 (the drop of the control handle at the end is in the body) *)
Definition manage_regulator (low high : nat) (c : regulator_control) (chans : list nat) : prog nat :=
  iter (manage_body low high) (MS (map (Bsm 0) chans) c false back_off_new 0).
