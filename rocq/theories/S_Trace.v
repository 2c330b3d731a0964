(** * S_Trace: what an outside observer sees in a trace

    Plain list functions; they know nothing of the components. *)
From Coq Require Import Ascii String List Bool Arith.
From Verif Require Import M_Prog.
Import ListNotations.

Definition chan_eqb (a b : chan) : bool :=
  match a, b with
  | CData n, CData m | CMon n, CMon m | CSize n, CSize m | CCtl n, CCtl m | CSpy n, CSpy m => n =? m
  | _, _ => false
  end.

(** The answers of the operating system to reads on [f]; an empty one is end of file. *)
Definition reads (f : fd) (tr : trace) : list bytes :=
  flat_map (fun ev => match ev with
                      | (ERead f', AData d) => if f =? f' then [d] else []
                      | _ => []
                      end) tr.

(** Values taken from a channel, by waiting or not. *)
Definition taken (c : chan) (tr : trace) : list val :=
  flat_map (fun ev => match ev with
                      | (ERecv c', AMsg v) => if chan_eqb c c' then [v] else []
                      | (ETryRecv c', AMsg v) => if chan_eqb c c' then [v] else []
                      | _ => []
                      end) tr.

(** Values accepted by a channel. *)
Definition sent (c : chan) (tr : trace) : list val :=
  flat_map (fun ev => match ev with
                      | (ESend c' v, AOk) => if chan_eqb c c' then [v] else []
                      | _ => []
                      end) tr.

(** Values offered to a channel, accepted or not. *)
Definition offered (c : chan) (tr : trace) : list val :=
  flat_map (fun ev => match ev with
                      | (ESend c' v, _) => if chan_eqb c c' then [v] else []
                      | _ => []
                      end) tr.

(** Data written in full to a file, pipe or standard stream. *)
Definition written (f : fd) (tr : trace) : list bytes :=
  flat_map (fun ev => match ev with
                      | (EWrite f' d, AOk) => if f =? f' then [d] else []
                      | _ => []
                      end) tr.

(** The environment told the component that this channel is closed (and drained). *)
Definition saw_end (c : chan) (tr : trace) : Prop :=
  In (ERecv c, AClosed) tr \/ In (ETryRecv c, AClosed) tr.

(** The component closed the channel, or dropped its end of it. *)
Definition closed_by (c : chan) (tr : trace) : Prop := In (EClose c, AOk) tr.

(** A list is a prefix of another. *)
Definition prefix {A} (a b : list A) : Prop := exists c, b = a ++ c.
