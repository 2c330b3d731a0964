(** * S_Watch: vocabulary for pipelines with controllers *)
From Coq Require Import Ascii String List Bool Arith Permutation.
From Verif Require Import M_Prog M_Motion M_Config M_Regulator M_Faucet M_Drain M_Buffer M_Junction M_Launch M_Manip M_Lint M_Waiter M_Join S_Trace S_World S_Network S_Net S_Regulator S_Manip S_Waiter M_Start.
Import ListNotations.

(** The component without the channel by which it is told to pause, without the channel by which it tells its size. *)
Definition plain_comp (c : comp) : comp :=
  match c with
  | NFaucet f s => NFaucet (Faucet (fc_started f) (fc_stdout_size f) (fc_stdout f) (fc_stdin f) None (fc_pull_journey f) (fc_read_location f)) s
  | NRegulator r => NRegulator (Regulator (rg_started r) (rg_stdout_size r) (rg_stdout r) (rg_stdin r) None)
  | NBuffer b u mi mo => NBuffer (Buffer (bf_stdout_size b) (bf_stdout b) (bf_stdin b) None) u mi mo
  | _ => c
  end.

(** Whoever can be told to pause is told by one controller, which starts from a regulator that runs; whoever tells its size tells it to one controller. *)
Record overseen (net : list comp) (cs : list capture) : Prop := {
  ov_controls : Permutation (flat_map comp_control net) (map (fun c => rc_control (cp_control c)) cs);
  ov_monitors : Permutation (flat_map comp_monitor net) (flat_map cp_monitors cs);
  ov_one_control : NoDup (map (fun c => rc_control (cp_control c)) cs);
  ov_one_monitor : NoDup (flat_map cp_monitors cs);
  ov_running : forall c, In c cs -> rc_paused (cp_control c) = false
}.

(** The configuration [c] is accepted without complaint, the pipeline [w] is made of it, and its controllers are [cs] (the first part of [makes]). *)
Definition prepares (sh : shuffles) (c : config) (w : waiter) (cs : list capture) : Prop :=
  exists c2 out w1, process_config sh c = Good (Ok c2, out) /\ get_waiter c2 = Good (Ok w1) /\ regulator_settings w1 (w_settings w1) = Good (Ok (w, cs)).

(** The messages that component [k] has received so far. *)
Definition received (net : list comp) (k : nat) (l : list nevent) : nat :=
  match nth_error net k with
  | Some c => list_sum (map (fun n => length (taken (CData n) (all_of l))) (comp_ins c))
  | None => 0
  end.

(** The steps of controller [m]. *)
Definition controller_of (net : list comp) (m : nat) (l : list nevent) : trace := own (4 * (length net + m)) l.
(** The signals on [x] that have been given and those that component [k] has heard: the odd ones are pauses. *)
Definition given (x : nat) (l : list nevent) : nat := length (sent (CCtl x) (all_of l)).
Definition heard (k x : nat) (l : list nevent) : nat := length (taken (CCtl x) (own (4 * k) l)).
(** Component [k] has heard what controller [m] has told it, except perhaps the last; and whatever it has heard was told at the marks. *)
Definition led (net : list comp) (cp : capture) (m k x : nat) (l : list nevent) : Prop :=
  heard k x l <= given x l <= S (heard k x l) /\
  forall i, i < heard k x l -> exists l0 l1, l = l0 ++ l1 /\ given x l0 = i /\
    if Nat.odd i then level (cp_monitors cp) (controller_of net m l0) <= cp_low cp else cp_high cp <= level (cp_monitors cp) (controller_of net m l0).
(** The components that tell their sizes on these channels. *)
Definition tellers (net : list comp) (chans ks : list nat) : Prop := Forall2 (fun ch k => exists c, nth_error net k = Some c /\ In ch (comp_monitor c)) chans ks.

(** Component [k] of the pipeline [w] is the regulator [n], told on channel [x]; is the buffer [b]. *)
Definition regulator_at (cwd : option string) (vars : list (string * string)) (w : waiter) (n : string) (k x : nat) : Prop :=
  exists r, lookup n (w_regulator w) = Some r /\ nth_error (net_of cwd vars w) k = Some (NRegulator r) /\ rg_control r = Some x.
Definition buffer_at (cwd : option string) (vars : list (string * string)) (w : waiter) (b : string) (k : nat) : Prop :=
  exists bf u mi mo, lookup b (w_buffer w) = Some bf /\ nth_error (net_of cwd vars w) k = Some (NBuffer bf u mi mo).
(** The configuration has regulator [n] watch the buffers [bs], with these marks. *)
Definition set_to_watch (c : config) (n : string) (low high : nat) (bs : list string) : Prop :=
  is_mentioned (cf_connection c) (CRegulator, n) /\ exists rc, In (n, rc) (cf_regulator c) /\ rc_buffered rc = Some (low, high) /\ rc_monitored rc = bs.
