(** * S_Spy: what a spy is told about an output

    [Waiter::start] (src/waiter.rs) and [Connectable::start] take an optional channel for
    [SpyMessage]s (src/motion.rs 41-48): whoever holds the other end can follow every
    message.  The words below are what can be seen of it from outside. *)
From Coq Require Import Ascii String List Bool Arith.
From Verif Require Import M_Prog M_Motion M_Connectable S_Motion.
Import ListNotations.

(** A message offered to the output, or a report about it that the spy took. *)
Definition word := (bytes + iodw)%type.

(** The report is about this output: it names where the output comes from and goes to. *)
Definition names (p : push) (src dst : nat) (port : oport) : bool :=
  match push_journey p with
  | Some (J a (Some q) z _) => (a =? src) && (z =? dst) && oport_eqb q port
  | _ => false
  end.

Definition word_of (p : push) (s : nat) (ev : eff * ans) : list word :=
  match ev with
  | (ESend (CData n) (VData d), _) =>
    match p with PsSender _ m | PsIoSender _ m => if m =? n then [inl d] else [] | _ => [] end
  | (EWrite f d, _) => match p with PsBytes _ _ g => if g =? f then [inl d] else [] | _ => [] end
  | (ESend (CSpy t) (VSpy src dst port x), AOk) => if (t =? s) && names p src dst port then [inr x] else []
  | _ => []
  end.
Definition talk (p : push) (s : nat) (tr : trace) : list word := flat_map (word_of p s) tr.

(** Every message is reported at once, once and unchanged; beside them only ends are. *)
Inductive told_all : list word -> Prop :=
| T_nil : told_all []
| T_data l d : told_all l -> told_all (l ++ [inl d; inr (IOData d)])
| T_end l : told_all l -> told_all (l ++ [inr Finished]).

(** ... at any moment: the last message may not have been reported yet. *)
Definition told (l : list word) : Prop := told_all l \/ exists l' d, told_all l' /\ l = l' ++ [inl d].

(** The spy can follow this output: it is a channel, pipe or file, and its place has a port. *)
Definition followed (p : push) : Prop := real_push p /\ exists src port dst b, push_journey p = Some (J src (Some port) dst b).

(** Another output, to another place. *)
Definition distinct (p q : push) : Prop :=
  real_push q /\
  match p, q with
  | (PsSender _ m | PsIoSender _ m), (PsSender _ n | PsIoSender _ n) => m <> n
  | PsBytes _ _ f, PsBytes _ _ g => f <> g
  | _, _ => True
  end /\
  match push_journey q with Some (J a (Some r) z _) => names p a z r = false | _ => True end.

(** What the spy has been told while a component went on, stopped or failed. *)
Definition told_in {A} (p : push) (s : nat) (tr : trace) (st : status (mres A)) : Prop :=
  match st with
  | At _ => told (talk p s tr)
  | Done (Ok _) => told_all (talk p s tr)
  | Done (Err _) => told (talk p s tr)
  | Panicked _ => True
  end.

(** The messages the spy was told of. *)
Definition reported (l : list word) : list bytes :=
  flat_map (fun w => match w with inr (IOData d) => [d] | _ => [] end) l.

(** An end is reported at most once, and then nothing is offered or reported any more. *)
Definition unended (l : list word) : Prop := ~ In (inr Finished) l.
Definition ended_once (l : list word) : Prop := unended l \/ exists l', l = l' ++ [inr Finished] /\ unended l'.
