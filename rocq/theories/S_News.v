(** * S_News: when the controller of a regulator hears something *)
From Coq Require Import Ascii String List Bool Arith.
From Verif Require Import M_Prog S_Trace S_World.
Import ListNotations.

(** A size that is reported, or a buffer that has gone. *)
Definition news (ev : eff * ans) : bool :=
  match ev with
  | (ETryRecv (CSize _), AMsg (VSize _)) => true
  | (ETryRecv (CSize _), AClosed) => true
  | _ => false
  end.
Definition heard (tr : trace) : nat := List.length (filter news tr).
