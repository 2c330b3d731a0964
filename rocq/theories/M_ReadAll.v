(** * M_ReadAll: taking messages from a byte source one after the other

    Not a function of the code but the way every caller uses [motion_read]
    (src/motion.rs 492 inside the loops 568, src/faucet.rs and src/regulator.rs
    start_secret): read until Finished. *)
From Coq Require Import Ascii String List Bool Arith.
From Verif Require Import M_Prog M_Motion.
Import ListNotations.

Definition read_all_body (s : pull * list bytes) : prog ((pull * list bytes) + mres (list bytes)) :=
  let '(p, acc) := s in
  ' (r, p') <- motion_read p false ;;
  match r with
  | Ok (IOData d) => Ret (inl (p', acc ++ [d]))
  | Ok _ => Ret (inr (Ok acc))
  | Err e => Ret (inr (Err e))
  end.

Definition read_all (p : pull) : prog (mres (list bytes)) := iter read_all_body (p, []).
