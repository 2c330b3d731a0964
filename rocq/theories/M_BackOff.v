(** * M_BackOff: src/back_off.rs *)
From Coq Require Import String List Arith.
From Verif Require Import M_Prog.
Import ListNotations.

(** src/back_off.rs 1-3: the [count]; u64, at most 51, so no overflow. *)
Definition back_off := nat.

(** src/back_off.rs 9-13 *)
Definition back_off_new : back_off := 0.

(** src/back_off.rs 16-19: the new state; the returned count is 0 *)
Definition back_off_reset (b : back_off) : nat * back_off := (0, 0).

(** src/back_off.rs 22-30: returned value and new state *)
Definition back_off_wait (b : back_off) : prog (nat * back_off) :=
  sleep (b * b) ;;;
  let b' := if b <=? 50 then S b else b in
  Ret (b' - 1, b').
