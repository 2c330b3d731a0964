(** * M_Start: src/waiter.rs 352-420, all components and controllers of a pipeline run in one task

    Component number [k] of the list of components does what the tasks [4k] to [4k+3] of a run do (as in
    S_Net); the controllers of regulators come after the components.  Nobody watches ([spy] is None, as in
    src/bin/pa2.rs). *)
From Coq Require Import Ascii String List Bool Arith.
From Verif Require Import M_Prog M_Motion M_Config M_Regulator M_Faucet M_Drain M_Buffer M_Junction M_Launch M_Manager M_Waiter M_Join M_Poll S_Trace S_World S_Network S_Net.
Import ListNotations.

(** src/waiter.rs 37-99 *)
Definition controller (c : capture) : prog (mres nat) :=
  n <- manage_regulator (cp_low c) (cp_high c) (cp_control c) (cp_monitors c) ;; Ret (Ok n).

(** The components of a pipeline, kind by kind.  A buffer makes its inner channels when it is started (src/buffer.rs 83-92);
    they get the next numbers.  [cwd] and [vars] are those of this process. *)
Fixpoint number_buffers (n : nat) (l : list (string * buffer)) : list comp :=
  match l with [] => [] | (_, b) :: r => NBuffer b n n (S n) :: number_buffers (2 + n) r end.
Definition told (o : option string) : string := match o with Some s => s | None => EmptyString end.
Definition net_of (cwd : option string) (vars : list (string * string)) (w : waiter) : list comp :=
  map (fun x => NLaunch cwd vars (snd x)) (w_launch w) ++
  map (fun x => NRegulator (snd x)) (w_regulator w) ++
  map (fun x => NFaucet (snd x) (told (fc_read_location (snd x)))) (w_faucet w) ++
  map (fun x => NDrain (snd x) (told (dr_write_location (snd x)))) (w_drain w) ++
  number_buffers (w_channels w) (w_buffer w) ++
  map (fun x => NJunction (snd x)) (w_junction w).

(** 389-398: [launch.join(regulators.join(faucets.join(managed_regulators.join(drain.join(buffers.join(junction))))))] polls them in
    this order; [join_all] polls its futures in order (futures-util 0.3.24, src/future/join_all.rs, for up to thirty of them). *)
Definition kind_place (c : comp) : nat :=
  match c with NLaunch _ _ _ => 0 | NRegulator _ => 1 | NFaucet _ _ => 2 | NDrain _ _ => 4 | NBuffer _ _ _ _ => 5 | NJunction _ => 6 end.
(** The tasks of component number [k], in the order in which they are polled: what is before the three parts, the parts, what is after them. *)
Definition comp_tasks (k : nat) (c : comp) : list nat :=
  match c with NLaunch _ _ _ | NBuffer _ _ _ _ => [4 * k; 4 * k + 1; 4 * k + 2; 4 * k + 3; 4 * k] | _ => [4 * k] end.
Fixpoint place_tasks (p k : nat) (net : list comp) : list nat :=
  match net with [] => [] | c :: r => (if kind_place c =? p then comp_tasks k c else []) ++ place_tasks p (S k) r end.
Definition controller_tasks (net : list comp) (cs : list capture) : list nat := map (fun m => 4 * m) (seq (length net) (length cs)).
Definition poll_order (net : list comp) (cs : list capture) : list nat :=
  place_tasks 0 0 net ++ place_tasks 1 0 net ++ place_tasks 2 0 net ++ controller_tasks net cs ++
  place_tasks 4 0 net ++ place_tasks 5 0 net ++ place_tasks 6 0 net.

(** A part waits (M_Poll): for a channel that is full or empty, for something outside, or it has ended or not begun. *)
Definition part_rests {A B C R} (st : jstatus A B C R) (i : nat) (w : world) : Prop :=
  match st, i with
  | Before s, 0 | After s, 0 => rests s w
  | During a _ _, 1 => rests a w
  | During _ b _, 2 => rests b w
  | During _ _ c, 3 => rests c w
  | _, _ => True
  end.
Definition comp_rests (c : comp) (L : list nevent) (i : nat) (w : world) : Prop :=
  match c with
  | NFaucet f _ => exists st, alone (faucet_start f None) L st /\ part_rests st i w
  | NRegulator r => exists st, alone (regulator_start r None) L st /\ part_rests st i w
  | NBuffer b u mi mo => exists st, buffer_start b None u mi mo L st /\ part_rests st i w
  | NJunction j => exists st, alone (junction_start j None) L st /\ part_rests st i w
  | NLaunch cwd vars la => exists st, launch_start cwd vars la None L st /\ part_rests st i w
  | NDrain d _ => exists st, alone (drain_start d None) L st /\ part_rests st i w
  end.
Definition task_rests (net : list comp) (cs : list capture) (l : list nevent) (t : nat) (w : world) : Prop :=
  (forall c, nth_error net (t / 4) = Some c -> comp_rests c (seen_by (t / 4) l) (t mod 4) w) /\
  (forall m c, t = 4 * (length net + m) -> nth_error cs m = Some c -> exists st, exec (controller c) (own t l) st /\ rests st w).

(** 398: the runs of all of them polled in turn: the run, the place in the order and the channels. *)
Definition next_place (order : list nat) (p : nat) : nat := if S p <? length order then S p else 0.
Inductive in_rounds (net : list comp) (cs : list capture) (w0 : world) : list nevent -> nat -> world -> Prop :=
| IR_start : in_rounds net cs w0 [] 0 w0
| IR_act : forall l p w t ev w', in_rounds net cs w0 l p w -> nth_error (poll_order net cs) p = Some t -> wstep w ev w' ->
    in_rounds net cs w0 (l ++ [(t, ev)]) p w'
| IR_pass : forall l p w t, in_rounds net cs w0 l p w -> nth_error (poll_order net cs) p = Some t -> task_rests net cs l t w ->
    in_rounds net cs w0 l (next_place (poll_order net cs) p) w.

(** The channels as they are made: between components with room for [comp_size] messages (src/faucet.rs 71, src/regulator.rs 70,
    src/buffer.rs 35, src/junction.rs 146, src/launch.rs 59, 67, 75), the inner ones of buffers (src/buffer.rs 83-85), for sizes
    (src/buffer.rs 67), for control (src/regulator.rs 43, src/faucet.rs 51). *)
Definition comp_size (c : comp) : nat :=
  match c with
  | NFaucet f _ => fc_stdout_size f
  | NRegulator r => rg_stdout_size r
  | NBuffer b _ _ _ => bf_stdout_size b
  | NJunction j => jn_stdout_size j
  | NLaunch _ _ _ => 1
  | NDrain _ _ => 0
  end.
Definition comp_control (c : comp) : list nat :=
  match c with NFaucet f _ => match fc_control f with Some n => [n] | None => [] end | NRegulator r => match rg_control r with Some n => [n] | None => [] end | _ => [] end.
Definition comp_monitor (c : comp) : list nat := match c with NBuffer b _ _ _ => match bf_monitor b with Some n => [n] | None => [] end | _ => [] end.
Record made_world (net : list comp) (w0 : world) : Prop := {
  mw_new : forall c, exists cap, w0 c = fresh_chan cap;
  mw_outs : forall c n, In c net -> In n (comp_outs c) -> w0 (CData n) = fresh_chan (Some (comp_size c));
  mw_inside : forall b u mi mo, In (NBuffer b u mi mo) net -> new_inside u mi mo w0;
  mw_sizes : forall c n, In c net -> In n (comp_monitor c) -> w0 (CSize n) = fresh_chan (Some (comp_size c));
  mw_controls : forall c n, In c net -> In n (comp_control c) -> w0 (CCtl n) = fresh_chan (Some 1)
}.

(** A run of the components [net] and the controllers [cs], and of nobody else, in any order. *)
Record free_run (net : list comp) (cs : list capture) (w0 : world) (l : list nevent) (w : world) (ocs : nat -> S_Net.outcome) : Prop := {
  fr_comps : forall k c, nth_error net k = Some c -> comp_runs c (seen_by k l) (ocs k);
  fr_controllers : forall m c, nth_error cs m = Some c -> exists st, exec (controller c) (own (4 * (length net + m)) l) st /\
    ocs (length net + m) = outcome_of (A := mres nat) (B := mres nat) (C := option nat) (Before st);
  fr_world : wrun w0 l w;
  fr_only : forall t ev, In (t, ev) l -> In t (poll_order net cs);
  fr_made : made_world net w0
}.
(** 398: as they are polled. *)
Definition whole_run (net : list comp) (cs : list capture) (w0 : world) (l : list nevent) (w : world) (ocs : nat -> S_Net.outcome) : Prop :=
  free_run net cs w0 l w ocs /\ exists p, in_rounds net cs w0 l p w.
