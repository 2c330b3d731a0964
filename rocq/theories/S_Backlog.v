(** * S_Backlog: what is on the way, in the pipes and in the stores *)
From Coq Require Import Ascii String List Arith.
From Verif Require Import M_Prog M_Motion M_Config M_Manip M_Waiter M_Start S_Trace S_World S_Net S_Shape S_Watch S_Bounded S_Path S_Lag.
Import ListNotations.

(** The connections lead from the output [s] to [x], through regulators, junctions and the buffers [bs], the last one first; the pipes can hold [h] messages. *)
Inductive leads_over (ps : list (connection * connection)) (s : M_Manip.source) : component -> nat -> list string -> Prop :=
| LO_next : forall x, In s (arrivals ps x) -> leads_over ps s x (holds ps s x) []
| LO_on : forall t n o x h bs, leads_over ps s (t, n) h bs -> at_once t -> In ((t, n), o) (arrivals ps x) -> leads_over ps s x (h + holds ps ((t, n), o) x) bs
| LO_store : forall n o x h bs, leads_over ps s (CBuffer, n) h bs -> In ((CBuffer, n), o) (arrivals ps x) -> leads_over ps s x (h + holds ps ((CBuffer, n), o) x) (n :: bs).
(** The messages in the stores of these buffers, and one for each of them in the hand of the half that gives out. *)
Definition in_stores (net : list comp) (ks : list nat) (w : world) : nat := list_sum (map (fun k => S (stored net k w)) ks).

(** The buffer [b] is fed by a regulator only that feeds nobody else and watches it, and lets nothing pass from [m] messages on. *)
Definition guarded (c : config) (m : nat) (b : string) : Prop :=
  exists n low high bs, set_to_watch c n low high bs /\ In b bs /\ straight (cf_connection c) (CRegulator, n) (CBuffer, b) /\ Nat.max (S low) high <= m.
