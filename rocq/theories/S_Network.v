(** * S_Network: vocabulary for components connected by channels

    A straight pipeline: a faucet, any number of parts with one input and one output, a drain.
    Component number [k] of the pipeline (the faucet is 0) does what the tasks [4k] to [4k+3] of
    a run do: a buffer has three tasks (M_Join), the others one. *)
From Coq Require Import Ascii String List Bool Arith.
From Verif Require Import M_Prog M_Motion M_Regulator M_Faucet M_Drain M_Buffer M_Junction M_Join S_Trace S_Lines S_Motion S_World S_Regulator S_Drain S_Buffer S_Junction.
Import ListNotations.

Inductive part :=
| PRegulator (r : regulator)
| PBuffer (b : buffer) (u mi mo : nat)   (* and its inner channels *)
| PJunction (j : junction).

(** The part stands between channel [i] and channel [o]. *)
Definition part_wired (i o : nat) (p : part) : Prop :=
  match p with
  | PRegulator r => exists pj j, regulator_ready r (PlReceiver pj i) (PsIoSender j o)
  | PBuffer b u mi mo => exists pj j, buffer_wired b (PlReceiver pj i) (PsIoSender j o) u mi mo
  | PJunction j => junction_ready j /\ in_chans j = [i] /\ out_chans j = [o]
  end.

(** Where a component stands. *)
Definition standing := jstatus (mres nat) (mres nat) (option nat) (mres nat).
Definition succeeded (st : standing) : Prop := exists n, st = Before (Done (Ok n)) \/ st = After (Done (Ok n)).

(** A component of one task, and a part, whose tasks are numbered 0 to 3. *)
Definition alone (p : prog (mres nat)) (l : list nevent) (st : standing) : Prop :=
  idle [1; 2; 3] l /\ exists s, st = Before s /\ exec p (own 0 l) s.
Definition part_runs (p : part) (spy : option nat) (l : list nevent) (st : standing) : Prop :=
  match p with
  | PRegulator r => alone (regulator_start r spy) l st
  | PBuffer b u mi mo => buffer_start b spy u mi mo l st
  | PJunction j => alone (junction_start j spy) l st
  end.

(** The run as component [k] sees it: its own tasks have the numbers 0 to 3. *)
Definition seen_by (k : nat) (l : list nevent) : list nevent :=
  map (fun x => (if fst x / 4 =? k then fst x mod 4 else 4 + fst x, snd x)) l.

Record pipeline := Pipeline {
  pp_faucet : faucet;
  pp_source : string;
  pp_parts : list part;
  pp_drain : drain;
  pp_target : string
}.
Definition last_one (p : pipeline) : nat := length (pp_parts p).

(** Channel [cs k] leads from component [k] to component [k + 1]. *)
Definition pipeline_wired (cs : nat -> nat) (p : pipeline) : Prop :=
  (forall a b, cs a = cs b -> a = b) /\
  (exists j, faucet_ready (pp_faucet p) (pp_source p) (PsIoSender j (cs 0))) /\
  (forall k q, nth_error (pp_parts p) k = Some q -> part_wired (cs k) (cs (S k)) q) /\
  (exists pj, drain_ready (pp_drain p) (PlReceiver pj (cs (last_one p))) (pp_target p)).

(** A run [l] of the pipeline (and of others), from [w0] to [w]: component [k] stands at [sts k]; at first
    all channels are new, and nobody touches a channel to which it has no end. *)
Record pipeline_run (cs : nat -> nat) (p : pipeline) (spy : option nat) (w0 : world) (l : list nevent) (w : world) (sts : nat -> standing) : Prop := {
  pr_faucet : alone (faucet_start (pp_faucet p) spy) (seen_by 0 l) (sts 0);
  pr_parts : forall k q, nth_error (pp_parts p) k = Some q -> part_runs q spy (seen_by (S k) l) (sts (S k));
  pr_drain : alone (drain_start (pp_drain p) None) (seen_by (S (last_one p)) l) (sts (S (last_one p)));
  pr_world : wrun w0 l w;
  pr_new : forall k, k <= last_one p -> exists cap, w0 (CData (cs k)) = fresh_chan (Some (S cap));
  pr_private : forall i e a k, k <= last_one p -> In (i, (e, a)) l -> on_chan e = Some (CData (cs k)) -> i / 4 = k \/ i / 4 = S k;
  pr_inside : forall k b u mi mo, nth_error (pp_parts p) k = Some (PBuffer b u mi mo) -> new_inside u mi mo w0 /\ sealed u mi mo (seen_by (S k) l)
}.

(** What the faucet has done, what the drain has done. *)
Definition faucet_did (l : list nevent) : trace := own 0 l.
Definition drain_did (p : pipeline) (l : list nevent) : trace := own (4 * S (last_one p)) l.
