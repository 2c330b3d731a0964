(** * M_Poll: joined futures polled in turn

    async-std 1.12, src/future/future/join.rs: each poll of [a.join(b).join(c)] polls a, then b, then c.  A poll
    of an async function runs it until it waits: for a channel that is full (a send) or empty and open (a
    receive), or for something outside (the operating system, a timer).  async-channel 1.7.1 tries the operation at
    every poll before it waits. *)
From Coq Require Import List Bool Arith.
From Verif Require Import M_Prog S_Trace S_World.
Import ListNotations.

(** It may be left waiting here. *)
Definition rests {A} (st : status A) (w : world) : Prop :=
  match st with
  | At e => on_chan e = None \/ forall a w', ~ wstep w (e, a) w'
  | _ => True
  end.

(** The runs of three parts so polled: the run, whose turn it is and the channels.  Everybody else (other numbers) may
    act at any time. *)
Inductive polled {A B C} (p1 : prog A) (p2 : prog B) (p3 : prog C) (w0 : world) : list nevent -> nat -> world -> Prop :=
| PO_start : polled p1 p2 p3 w0 [] 1 w0
| PO_own : forall l i w ev w', polled p1 p2 p3 w0 l i w -> wstep w ev w' -> polled p1 p2 p3 w0 (l ++ [(i, ev)]) i w'
| PO_other : forall l i w k ev w', polled p1 p2 p3 w0 l i w -> wstep w ev w' -> k <> 1 -> k <> 2 -> k <> 3 ->
    polled p1 p2 p3 w0 (l ++ [(k, ev)]) i w'
| PO_pass1 : forall l w st, polled p1 p2 p3 w0 l 1 w -> exec p1 (own 1 l) st -> rests st w -> polled p1 p2 p3 w0 l 2 w
| PO_pass2 : forall l w st, polled p1 p2 p3 w0 l 2 w -> exec p2 (own 2 l) st -> rests st w -> polled p1 p2 p3 w0 l 3 w
| PO_pass3 : forall l w st, polled p1 p2 p3 w0 l 3 w -> exec p3 (own 3 l) st -> rests st w -> polled p1 p2 p3 w0 l 1 w.
