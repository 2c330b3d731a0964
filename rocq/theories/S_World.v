(** * S_World: channels as the outside world sees them

    What async-channel does with the effects of many components: a channel is a queue with an
    optional bound and a closed flag.  Effects that are not on channels may be answered in any
    fitting way. *)
From Coq Require Import Ascii String List Bool Arith.
From Verif Require Import M_Prog S_Trace.
Import ListNotations.

Record cstate := CS { cs_cap : option nat; cs_queue : list val; cs_closed : bool }.
Definition world := chan -> cstate.
Definition upd (w : world) (c : chan) (s : cstate) : world := fun c' => if chan_eqb c c' then s else w c'.

(** There is room for one more. *)
Definition room (s : cstate) : Prop := match cs_cap s with None => True | Some n => length (cs_queue s) < n end.

(** Effects on channels. *)
Definition on_chan (e : eff) : option chan :=
  match e with
  | ERecv c | ETryRecv c | ESend c _ | EClose c | EIsEmpty c | EIsClosed c => Some c
  | _ => None
  end.

Definition is_nil {A} (l : list A) : bool := match l with [] => true | _ => false end.

(** One effect, its answer and what becomes of the channels.  A receive on an empty open channel and
    a send on a full open one have no answer: they wait. *)
Inductive wstep (w : world) : event -> world -> Prop :=
| W_recv : forall c v q, cs_queue (w c) = v :: q ->
    wstep w (ERecv c, AMsg v) (upd w c (CS (cs_cap (w c)) q (cs_closed (w c))))
| W_recv_end : forall c, cs_queue (w c) = [] -> cs_closed (w c) = true ->
    wstep w (ERecv c, AClosed) w
| W_try : forall c v q, cs_queue (w c) = v :: q ->
    wstep w (ETryRecv c, AMsg v) (upd w c (CS (cs_cap (w c)) q (cs_closed (w c))))
| W_try_end : forall c, cs_queue (w c) = [] -> cs_closed (w c) = true ->
    wstep w (ETryRecv c, AClosed) w
| W_try_empty : forall c, cs_queue (w c) = [] -> cs_closed (w c) = false ->
    wstep w (ETryRecv c, AEmpty) w
| W_send : forall c v, cs_closed (w c) = false -> room (w c) ->
    wstep w (ESend c v, AOk) (upd w c (CS (cs_cap (w c)) (cs_queue (w c) ++ [v]) false))
| W_send_closed : forall c v, cs_closed (w c) = true ->
    wstep w (ESend c v, AClosed) w
| W_close : forall c,
    wstep w (EClose c, AOk) (upd w c (CS (cs_cap (w c)) (cs_queue (w c)) true))
| W_is_empty : forall c, wstep w (EIsEmpty c, ABool (is_nil (cs_queue (w c)))) w
| W_is_closed : forall c, wstep w (EIsClosed c, ABool (cs_closed (w c))) w
| W_other : forall e a, on_chan e = None -> wt e a = true -> wstep w (e, a) w.

(** A run of numbered components: who did what, in the order it happened. *)
Definition nevent := (nat * event)%type.
Inductive wrun (w : world) : list nevent -> world -> Prop :=
| WR_nil : wrun w [] w
| WR_cons : forall i ev w1 l w2, wstep w ev w1 -> wrun w1 l w2 -> wrun w ((i, ev) :: l) w2.

(** What component [i] did; what all of them did. *)
Definition own (i : nat) (l : list nevent) : trace := map snd (filter (fun x => fst x =? i) l).
Definition all_of (l : list nevent) : trace := map snd l.
(** What all but component [i] did. *)
Definition others (i : nat) (l : list nevent) : trace := map snd (filter (fun x => negb (fst x =? i)) l).

(** A new channel. *)
Definition fresh_chan (cap : option nat) : cstate := CS cap [] false.
