(** * S_Soft: pipes that give way, and failures that are a component's own *)
From Coq Require Import Ascii String List Arith.
From Verif Require Import M_Prog M_Motion M_Config M_Manip M_Launch S_Trace S_World S_Grammar S_Manip S_Net.
Import ListNotations.

(** Every pipe, as the connections are written, is marked |F| or |C|. *)
Definition giving_way (m : connmap) : Prop :=
  forall k l x i, S_Manip.reads m k l -> In x l -> input_of x = Some i -> ip_breakable i <> Terminate.

(** What the parts of component number [k] have done. *)
Definition did (k : nat) (l : list nevent) : trace := map snd (filter (fun x => fst x / 4 =? k) l).
(** Something that was tried in the outside world (opening, reading, writing, flushing) has failed. *)
Definition outward (e : eff) : bool := match e with EOpenRead _ | ECreate _ | ERead _ | EWrite _ _ | EFlush _ => true | _ => false end.
Definition hurt (h : trace) : Prop := exists x a, In (x, a) h /\ outward x = true /\ (a = AErr \/ a = ABroken).

(** The outside world has failed the component: what it reads cannot be opened or read, what it writes cannot be opened, written or flushed or is no longer
    read; or, for a launch, there is nobody left to take the exit status. *)
Definition own_failure (c : comp) (h : trace) (e : merror) : Prop :=
  match c, e with
  | NFaucet _ _, (OpenIOError _ | ReadIOError _) => hurt h
  | NLaunch _ _ _, (ReadIOError _ | WriteIOError _ _ | CloseIOError _) => hurt h
  | NLaunch _ _ la, SendError j _ => exists n v, la_exit_status la = Some (j, n) /\ In (ESend (CData n) v, AClosed) h
  | NDrain _ _, (OpenIOError _ | WriteIOError _ _ | CloseIOError _ | OutputClosed _ BrokenPipe _) => hurt h
  | _, _ => False
  end.
