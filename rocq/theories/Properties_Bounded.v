(** * Properties_Bounded: C97, C98, C99 *)
From Coq Require Import Ascii String List Bool Arith.
From Verif Require Import M_Prog M_Config M_Manip M_Waiter S_Manip S_Waiter S_World S_Network S_Net M_Start S_Start S_Shape S_Watch S_Bounded P_Jam P_Straight P_BoundedExamples.
Import ListNotations.

(** C97.  A buffer that is fed by nobody but its own regulator, which feeds nobody else: at no time, however the components take turns, does its store hold more than 28
    messages above the regulator's high mark (or above the one after the low mark, if that is larger), however much is read and however slowly the buffer is emptied. *)
Theorem C97_bounded : forall sh cwd vars c w cs, S_Manip.fair sh -> good_connections (cf_connection c) -> prepares sh c w cs -> NoDup (keys (cf_regulator c)) -> passing (cf_connection c) -> apart (cf_connection c) ->
  forall n low high bs b kb, set_to_watch c n low high bs -> In b bs -> straight (cf_connection c) (CRegulator, n) (CBuffer, b) -> buffer_at cwd vars w b kb ->
  forall w0 l wl ocs, free_run (net_of cwd vars w) cs w0 l wl ocs -> stored (net_of cwd vars w) kb wl <= Nat.max (S low) high + 28.
Proof. exact regulated_bounded. Qed.
Print Assumptions C97_bounded.
(** A run in which nothing can be written: sixteen messages of forty are in the store, with the marks 2 and 5. *)
Example C97_example : good_connections (cf_connection bd_config) /\ prepares in_order bd_config bd_waiter bd_controllers /\ NoDup (keys (cf_regulator bd_config)) /\ passing (cf_connection bd_config) /\ apart (cf_connection bd_config) /\
  set_to_watch bd_config "gate"%string 2 5 ["store"%string] /\ straight (cf_connection bd_config) (CRegulator, "gate"%string) (CBuffer, "store"%string) /\ buffer_at None [] bd_waiter "store"%string 3 /\
  exists w0 l w ocs, whole_run (net_of None [] bd_waiter) bd_controllers w0 l w ocs /\ willing l /\ stored (net_of None [] bd_waiter) 3 w = 16.
Proof. exact over_the_mark. Qed.

(** C98.  It is false that the store never holds more than the high mark, or even eight above it. *)
Theorem C98_mark_refuted : exists c w cs n low high bs b kb, good_connections (cf_connection c) /\ prepares in_order c w cs /\ NoDup (keys (cf_regulator c)) /\ passing (cf_connection c) /\ apart (cf_connection c) /\
  set_to_watch c n low high bs /\ In b bs /\ low < high /\ straight (cf_connection c) (CRegulator, n) (CBuffer, b) /\ buffer_at None [] w b kb /\
  exists w0 l wl ocs, whole_run (net_of None [] w) cs w0 l wl ocs /\ willing l /\ high + 8 < stored (net_of None [] w) kb wl.
Proof. exact past_the_mark. Qed.
Print Assumptions C98_mark_refuted.

(** C99.  It is false that a buffer that is watched is bounded whoever feeds it: with another source beside the regulator the store outgrows the bound of C97. *)
Theorem C99_feeders_refuted : exists c w cs n low high bs b kb, good_connections (cf_connection c) /\ prepares in_order c w cs /\ NoDup (keys (cf_regulator c)) /\ passing (cf_connection c) /\ apart (cf_connection c) /\
  set_to_watch c n low high bs /\ In b bs /\ followed_by (cf_connection c) (CRegulator, n) (CBuffer, b) /\ buffer_at None [] w b kb /\
  exists w0 l wl ocs, whole_run (net_of None [] w) cs w0 l wl ocs /\ willing l /\ Nat.max (S low) high + 28 < stored (net_of None [] w) kb wl.
Proof. exact fed_by_others. Qed.
Print Assumptions C99_feeders_refuted.
