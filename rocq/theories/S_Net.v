(** * S_Net: vocabulary for networks of components

    Any number of components, connected by channels in any way; component number [k] does what the
    tasks [4k] to [4k+3] of a run do (as in S_Network). *)
From Coq Require Import Ascii String List Bool Arith.
From Verif Require Import M_Prog M_Motion M_Regulator M_Faucet M_Drain M_Buffer M_Junction M_Launch M_Join S_Trace S_Lines S_Motion S_World S_Launch S_Regulator S_Drain S_Buffer S_Junction S_Network M_Poll.
Import ListNotations.

Inductive comp :=
| NFaucet (f : faucet) (name : string)
| NRegulator (r : regulator)
| NBuffer (b : buffer) (u mi mo : nat)   (* and its inner channels *)
| NJunction (j : junction)
| NLaunch (cwd : option string) (vars : list (string * string)) (la : launch)
| NDrain (d : drain) (name : string).

(** The channels a component reads and those it writes. *)
Definition in_of (p : option pull) : list nat := match p with Some (PlReceiver _ n) => [n] | _ => [] end.
Definition out_of (p : option push) : list nat := match p with Some (PsIoSender _ n) => [n] | _ => [] end.
Definition exit_of (x : option (journey * nat)) : list nat := match x with Some (_, n) => [n] | None => [] end.
Definition comp_ins (c : comp) : list nat :=
  match c with
  | NFaucet _ _ => []
  | NRegulator r => in_of (rg_stdin r)
  | NBuffer b _ _ _ => in_of (bf_stdin b)
  | NJunction j => in_chans j
  | NLaunch _ _ la => in_of (la_stdin la)
  | NDrain d _ => in_of (dr_stdin d)
  end.
Definition comp_outs (c : comp) : list nat :=
  match c with
  | NFaucet f _ => out_of (fc_stdout f)
  | NRegulator r => out_of (rg_stdout r)
  | NBuffer b _ _ _ => out_of (bf_stdout b)
  | NJunction j => out_chans j
  | NLaunch _ _ la => out_of (la_stdout la) ++ out_of (la_stderr la) ++ exit_of (la_exit_status la)
  | NDrain _ _ => []
  end.
(** The inner channels of buffers. *)
Definition comp_stores (c : comp) : list nat := match c with NBuffer _ u _ _ => [u] | _ => [] end.
Definition comp_counts (c : comp) : list nat := match c with NBuffer _ _ mi mo => [mi; mo] | _ => [] end.

(** Connected, not started, and nobody may pause it or is told its size. *)
Definition comp_ready (c : comp) : Prop :=
  match c with
  | NFaucet f name => fc_control f = None /\ exists j o, faucet_ready f name (PsIoSender j o)
  | NRegulator r => rg_control r = None /\ exists pj i j o, regulator_ready r (PlReceiver pj i) (PsIoSender j o)
  | NBuffer b u mi mo => bf_monitor b = None /\ exists pj i j o, buffer_wired b (PlReceiver pj i) (PsIoSender j o) u mi mo
  | NJunction j => junction_ready j
  | NLaunch _ _ la => launch_ready la /\ (forall pl, la_stdin la = Some pl -> exists pj i, pl = PlReceiver pj i) /\
      (forall ps, la_stdout la = Some ps \/ la_stderr la = Some ps -> exists j o, ps = PsIoSender j o)
  | NDrain d name => exists pj i, drain_ready d (PlReceiver pj i) name
  end.

(** What has become of a component. *)
Inductive outcome := Going | Ended (r : mres nat) | Broken.
Definition outcome_of {A B C} (st : jstatus A B C (mres nat)) : outcome :=
  let of_one s := match s with At _ => Going | Done r => Ended r | Panicked _ => Broken end in
  let broken X (s : status X) := match s with Panicked _ => true | _ => false end in
  match st with
  | Before s | After s => of_one s
  | During a b c => if broken _ a || broken _ b || broken _ c then Broken else Going
  end.
(** Not all three parts have ended: when they have, what comes after them has begun. *)
Definition moved_on {A B C R} (st : jstatus A B C R) : Prop := match st with During (Done _) (Done _) (Done _) => False | _ => True end.
(** A run, as the component sees it, has brought it there.  Nobody watches ([spy] is None). *)
Definition comp_runs (c : comp) (L : list nevent) (oc : outcome) : Prop :=
  match c with
  | NFaucet f _ => exists st, alone (faucet_start f None) L st /\ oc = outcome_of st
  | NRegulator r => exists st, alone (regulator_start r None) L st /\ oc = outcome_of st
  | NBuffer b u mi mo => exists st, buffer_start b None u mi mo L st /\ moved_on st /\ oc = outcome_of st
  | NJunction j => exists st, alone (junction_start j None) L st /\ oc = outcome_of st
  | NLaunch cwd vars la => exists st, launch_start cwd vars la None L st /\ moved_on st /\ oc = outcome_of st
  | NDrain d _ => exists st, alone (drain_start d None) L st /\ oc = outcome_of st
  end.

(** Every channel leads from one component to one component; no two buffers share an inner channel. *)
Record net_wired (net : list comp) : Prop := {
  nw_ready : forall c, In c net -> comp_ready c;
  nw_ends : forall n, In n (flat_map comp_outs net) <-> In n (flat_map comp_ins net);
  nw_ins : NoDup (flat_map comp_ins net);
  nw_outs : NoDup (flat_map comp_outs net ++ flat_map comp_stores net);
  nw_counts : NoDup (flat_map comp_counts net)
}.
(** Nothing flows back: the components can be ranked so that channels lead upwards. *)
Definition acyclic (net : list comp) : Prop :=
  exists rank : nat -> nat, forall k c k' c' n, nth_error net k = Some c -> nth_error net k' = Some c' ->
    In n (comp_outs c) -> In n (comp_ins c') -> rank k < rank k'.

(** A run of the network [net], and of nobody else: all channels are new at first and have room for a message. *)
Record net_run (net : list comp) (w0 : world) (l : list nevent) (w : world) (ocs : nat -> outcome) : Prop := {
  nr_comps : forall k c, nth_error net k = Some c -> comp_runs c (seen_by k l) (ocs k);
  nr_world : wrun w0 l w;
  nr_only : forall i ev, In (i, ev) l -> i / 4 < length net;
  nr_new : forall c, exists cap, w0 c = fresh_chan cap;
  nr_room : forall n, In n (flat_map comp_outs net) -> exists cap, w0 (CData n) = fresh_chan (Some (S cap));
  nr_inside : forall b u mi mo, In (NBuffer b u mi mo) net -> new_inside u mi mo w0
}.

(** An event that is more than looking and waiting: not a look at a channel that is empty, not a sleep. *)
Definition useful (ev : event) : bool :=
  match ev with
  | (ETryRecv _, AEmpty) | (ETryRecv (CMon _), AClosed) | (ESleep _, _) | (EIsEmpty _, _) | (EIsClosed _, _) | (EStatus, AErr) => false
  | _ => true
  end.
Definition useful_count (l : list nevent) : nat := length (filter useful (all_of l)).

(** An answer nobody can complain of: files and programs have nothing more to say, everything else succeeds. *)
Definition friendly (ev : event) : bool :=
  match ev with
  | (ERead _, AData []) => true
  | (ERead _, _) | (_, AErr) | (_, ABroken) => false
  | _ => true
  end.

(** How many bytes have been read from files and programs. *)
Definition bytes_read (l : list nevent) : nat :=
  list_sum (map (fun ev => match ev with (ERead _, AData d) => length d | _ => 0 end) (all_of l)).

(** No program that could not be started, no source that could not be opened, no junction that has failed,
    no buffer whose counter has panicked. *)
Definition granted (l : list nevent) : Prop :=
  (forall sp, ~ In (ESpawn sp, AErr) (all_of l)) /\ (forall nm, ~ In (EOpenRead nm, AErr) (all_of l)).
Definition failed (c : comp) (oc : outcome) : Prop :=
  match c with NJunction _ => exists e, oc = Ended (Err e) | NBuffer _ _ _ _ => oc = Broken | _ => False end.
Definition sound_so_far (net : list comp) (ocs : nat -> outcome) : Prop := forall k c, nth_error net k = Some c -> ~ failed c (ocs k).
Definition all_ended (net : list comp) (ocs : nat -> outcome) : Prop := forall k, k < length net -> exists r, ocs k = Ended r.

(** The world is willing: whatever is opened opens, nothing breaks.  (Asking for the exit status of a program may fail; it is asked again.) *)
Definition willing (l : list nevent) : Prop := forall e a, In (e, a) (all_of l) -> a <> ABroken /\ (a = AErr -> e = EStatus).
(** Every junction has an output.  (A junction without outputs lets go of an input at its first message.) *)
Definition polite (net : list comp) : Prop := forall j, In (NJunction j) net -> jn_stdout j <> [].
(** All have done what they had to do. *)
Definition all_succeeded (net : list comp) (ocs : nat -> outcome) : Prop := forall k, k < length net -> exists n, ocs k = Ended (Ok n).
(** The counter of some buffer has panicked. *)
Definition some_broken (net : list comp) (ocs : nat -> outcome) : Prop := exists k b u mi mo, nth_error net k = Some (NBuffer b u mi mo) /\ ocs k = Broken.

(** The three parts of every buffer are polled in turn (M_Poll), everybody else acts at any time. *)
Definition in_turn (net : list comp) (w0 : world) (l : list nevent) : Prop := forall k b u mi mo pl ps, nth_error net k = Some (NBuffer b u mi mo) ->
  bf_stdin b = Some pl -> bf_stdout b = Some ps -> exists i w, buffer_polled b pl ps None u mi mo w0 (seen_by k l) i w.

(** A run that goes on for ever: what happened before the [n]th event; that it is one. *)
Definition so_far (f : nat -> nevent) (n : nat) : list nevent := map f (seq 0 n).
Definition endless (net : list comp) (w0 : world) (f : nat -> nevent) : Prop := forall n, exists w ocs, net_run net w0 (so_far f n) w ocs.
(** Some run goes on with an event of task [i]. *)
Definition could_act (net : list comp) (w0 : world) (l : list nevent) (i : nat) : Prop := exists ev l' w ocs, net_run net w0 (l ++ (i, ev) :: l') w ocs.
(** A scheduler that forgets nobody: again and again, a task acts or could not have acted. *)
Definition fair (net : list comp) (w0 : world) (f : nat -> nevent) : Prop :=
  forall i n, exists m, n <= m /\ (fst (f m) = i \/ ~ could_act net w0 (so_far f m) i).
(** Files and programs have something to say for some time only; a program that has ended has an exit status sooner or later. *)
Definition limited (f : nat -> nevent) : Prop := exists N, forall n, bytes_read (so_far f n) <= N.
Definition statuses_come (f : nat -> nevent) : Prop := exists N, forall n, N <= n -> snd (f n) <> (EStatus, AErr).

(** The world before a run: all channels are new; those between components have room for a message; the inner ones of buffers are as they are made. *)
Definition new_world (net : list comp) (w0 : world) : Prop :=
  (forall c, exists cap, w0 c = fresh_chan cap) /\
  (forall n, In n (flat_map comp_outs net) -> exists cap, w0 (CData n) = fresh_chan (Some (S cap))) /\
  (forall b u mi mo, In (NBuffer b u mi mo) net -> new_inside u mi mo w0).
(** Components that never look and wait: all but buffers, junctions and programs whose exit status is asked for. *)
Definition restless (c : comp) : Prop :=
  match c with NFaucet _ _ | NRegulator _ | NDrain _ _ => True | NLaunch _ _ la => la_exit_status la = None | NBuffer _ _ _ _ | NJunction _ => False end.

(** Nobody will ever act again. *)
Definition locked (net : list comp) (w0 : world) (l : list nevent) : Prop := forall l' w ocs, net_run net w0 (l ++ l') w ocs -> l' = [].

(** There is a buffer in every loop: the components can be ranked so that every channel leads upwards or into a buffer. *)
Definition is_buffer (c : comp) : Prop := match c with NBuffer _ _ _ _ => True | _ => False end.
Definition dammed (net : list comp) : Prop :=
  exists rank : nat -> nat, forall k c k' c' n, nth_error net k = Some c -> nth_error net k' = Some c' ->
    In n (comp_outs c) -> In n (comp_ins c') -> is_buffer c' \/ rank k < rank k'.
(** Nothing is on its way: channels between components and the stores of buffers are empty, or closed. *)
Definition at_rest (net : list comp) (w : world) : Prop :=
  forall n, In n (flat_map comp_ins net ++ flat_map comp_stores net) -> cs_closed (w (CData n)) = false -> cs_queue (w (CData n)) = [].
(** Whoever has not ended waits for something to come in: one of its inputs is open, and all that are open are empty. *)
Definition all_listen (net : list comp) (w : world) (ocs : nat -> outcome) : Prop := forall k c, nth_error net k = Some c -> ocs k = Going ->
  (exists n, In n (comp_ins c) /\ cs_closed (w (CData n)) = false) /\ forall n, In n (comp_ins c) -> cs_closed (w (CData n)) = false -> cs_queue (w (CData n)) = [].

(** Regulators, buffers and junctions, each of which is fed by one of them. *)
Definition passes_on (c : comp) : Prop := match c with NRegulator _ | NBuffer _ _ _ _ | NJunction _ => True | _ => False end.
Definition feeds (net : list comp) (k k' : nat) : Prop := exists c c' n, nth_error net k = Some c /\ nth_error net k' = Some c' /\ In n (comp_outs c) /\ In n (comp_ins c').
Definition round (net : list comp) (K : nat -> Prop) : Prop := forall k, K k -> exists c k', nth_error net k = Some c /\ passes_on c /\ K k' /\ feeds net k' k.

(** Nothing went wrong but [e]. *)
Definition only_wrong (e : eff) (l : list nevent) : Prop := forall e' a, In (e', a) (all_of l) -> a <> ABroken /\ (a = AErr -> e' = e).
