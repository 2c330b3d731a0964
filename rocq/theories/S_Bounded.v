(** * S_Bounded: a buffer fed by its own regulator, and what it holds *)
From Coq Require Import Ascii String List Bool Arith.
From Verif Require Import M_Prog M_Config M_Manip S_Trace S_World S_Grammar S_Manip S_Net S_Shape.
Import ListNotations.

(** At place [i] of the connection [k], [b] comes directly after [a]. *)
Definition at_place (m : connmap) (k : string) (i : nat) (a b : component) : Prop :=
  exists l x y, reads m k l /\ nth_error (neighbours l) i = Some (x, y) /\ (conn_type x, conn_name x) = a /\ (conn_type y, conn_name y) = b.
(** [b] comes directly after [a] at one place, nothing else comes after [a] and nothing else before [b], anywhere. *)
Definition straight (m : connmap) (a b : component) : Prop :=
  exists k i, at_place m k i a b /\ forall k' i' a' b', at_place m k' i' a' b' -> a' = a \/ b' = b -> k' = k /\ i' = i.

(** The messages in the store of buffer [k]. *)
Definition stored (net : list comp) (k : nat) (w : world) : nat :=
  match nth_error net k with
  | Some (NBuffer _ u _ _) => List.length (cs_queue (w (CData u)))
  | _ => 0
  end.
