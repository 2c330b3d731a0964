(** * S_Buffer: vocabulary for buffers *)
From Coq Require Import Ascii String List Bool Arith.
From Verif Require Import M_Prog M_Motion M_Buffer S_Trace S_Motion S_World S_Launch M_Join M_Poll.
Import ListNotations.

(** A buffer between [pl] and [ps], which do not lead through its own inner channels. *)
Definition buffer_wired (b : buffer) (pl : pull) (ps : push) (u mi mo : nat) : Prop :=
  bf_stdin b = Some pl /\ bf_stdout b = Some ps /\ fresh_pull pl /\ real_pull pl /\ real_push ps /\ mi <> mo /\
  (forall e d, read_eff pl false = Some e \/ write_eff ps d = Some e -> on_chan e <> Some (CData u)).

(** The sizes reported on channel [s]. *)
Definition reports (s : nat) (tr : trace) : list nat :=
  flat_map (fun v => match v with VSize n => [n] | _ => [] end) (sent (CSize s) tr).

(** Each differs from the one before; before the first is [prev]. *)
Fixpoint changing (prev : nat) (l : list nat) : Prop :=
  match l with [] => True | x :: r => x <> prev /\ changing x r end.

(** The reader of the reports has gone. *)
Definition unread (s : nat) (tr : trace) : Prop := exists v, In (ESend (CSize s) v, AClosed) tr.

(** No part has panicked. *)
Definition panicked {A} (st : status A) : Prop := match st with Panicked _ => True | _ => False end.
Definition in_panic {A B C R} (st : jstatus A B C R) : Prop :=
  match st with
  | Before s | After s => panicked s
  | During a b c => panicked a \/ panicked b \/ panicked c
  end.

(** Waiting on a channel: nothing can happen here until somebody else acts. *)
Definition waits {A} (st : status A) (w : world) : Prop :=
  match st with At e => forall a w', ~ wstep w (e, a) w' | _ => False end.
(** Not able to go on: waiting or at its end. *)
Definition stands {A} (st : status A) (w : world) : Prop := forall e, st = At e -> waits st w.
(** There is room for a report. *)
Definition reports_read (sender : option nat) (w : world) : Prop :=
  forall s, sender = Some s -> cs_closed (w (CSize s)) = true \/ room (w (CSize s)).

(** The runs of the three parts of a buffer polled in turn (M_Poll). *)
Definition buffer_polled (b : buffer) (pl : pull) (ps : push) (spy : option nat) (u mi mo : nat) (w0 : world) : list nevent -> nat -> world -> Prop :=
  polled (half_a u mi (pl, ps)) (half_b u mo spy (pl, ps)) (total_in_buffer (bf_monitor b) mi mo) w0.
