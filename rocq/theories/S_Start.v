(** * S_Start: vocabulary for whole pipelines, from the configuration file to the run *)
From Coq Require Import Ascii String List Bool Arith.
From Verif Require Import M_Prog M_Motion M_Config M_Manip M_Lint M_Waiter M_Join S_Trace S_World S_Network S_Net M_Start.
Import ListNotations.

(** A configuration that is accepted without complaint, and the components and controllers it makes
    (src/bin/pa2.rs 524-553: [process_config], [get_waiter], [Waiter::start]); [cwd] and [vars] are those of this process. *)
Definition makes (cwd : option string) (vars : list (string * string)) (sh : shuffles) (c : config) (net : list comp) (cs : list capture) : Prop :=
  exists c2 out w w', process_config sh c = Good (Ok c2, out) /\ get_waiter c2 = Good (Ok w) /\
    regulator_settings w (w_settings w) = Good (Ok (w', cs)) /\ net = net_of cwd vars w'.

(** Whatever the order in which they are polled, nobody will ever do anything again. *)
Definition whole_locked (net : list comp) (cs : list capture) (w0 : world) (l : list nevent) : Prop :=
  forall l' w ocs, free_run net cs w0 (l ++ l') w ocs -> l' = [].
(** Nobody has ended. *)
Definition none_ended (net : list comp) (cs : list capture) (ocs : nat -> S_Net.outcome) : Prop :=
  forall k, k < length net + length cs -> ocs k = Going.
(** Whoever has outputs has room for a message in them. *)
Definition roomy (net : list comp) : Prop := forall c, In c net -> comp_outs c <> [] -> 0 < comp_size c.
