(** * M_Setters: the functions of src/config.rs that change a configuration *)
From Coq Require Import Ascii String List Bool Arith ZArith.
From Verif Require Import M_Prog M_Config M_Manip.
Import ListNotations.
Local Open Scope string_scope.

(** [entry(k).and_modify(f).or_insert(d)] of a [HashMap] *)
Definition entry {V} (k : string) (f : V -> V) (d : V) (m : list (string * V)) : list (string * V) :=
  match lookup k m with Some v => hput k (f v) m | None => hput k d m end.
(** The same of a [BTreeMap] *)
Definition bentry {V} (k : string) (f : V -> V) (d : V) (m : list (string * V)) : list (string * V) :=
  match lookup k m with Some v => bput k (f v) m | None => bput k d m end.

Definition with_faucet (c : config) x := Config x (cf_regulator c) (cf_drain c) (cf_launch c) (cf_connection c).
Definition with_regulator (c : config) x := Config (cf_faucet c) x (cf_drain c) (cf_launch c) (cf_connection c).
Definition with_drain (c : config) x := Config (cf_faucet c) (cf_regulator c) x (cf_launch c) (cf_connection c).
Definition with_launch (c : config) x := Config (cf_faucet c) (cf_regulator c) (cf_drain c) x (cf_connection c).

(** src/config.rs 370-381 *)
Definition regulator_set_watermark (c : config) (id : string) (min max : nat) : config :=
  let reg_config := if (max <? min)%nat then RegulatorConfig (Some (max, min)) [] else RegulatorConfig (Some (min, max)) [] in
  with_regulator c (entry id (fun x => RegulatorConfig (rc_buffered reg_config) (rc_monitored x)) reg_config (cf_regulator c)).

(** 383-388 *)
Definition faucet_set_source (c : config) (id source : string) : config :=
  with_faucet c (entry id (fun _ => source) source (cf_faucet c)).

(** 390-396.  [swap] puts the new one in the place of the old one. *)
Definition drain_set_destination (c : config) (id destination : string) : config :=
  with_drain c (entry id (fun _ => destination) destination (cf_drain c)).

(** 398-403 *)
Definition connection_join (c : config) (id : string) (d : dconn) : config :=
  with_connection c (bentry id (fun _ => d) d (cf_connection c)).

(** 405-410 *)
Definition launch_set_command (c : config) (id command : string) : config :=
  with_launch c (entry id (fun l => LaunchConfig (Some command) (lc_path l) (lc_env l) (lc_arg l)) (LaunchConfig (Some command) None [] []) (cf_launch c)).
(** 411-416 *)
Definition launch_set_path (c : config) (id path : string) : config :=
  with_launch c (entry id (fun l => LaunchConfig (lc_command l) (Some path) (lc_env l) (lc_arg l)) (LaunchConfig None (Some path) [] []) (cf_launch c)).
(** 418-423 *)
Definition launch_set_args (c : config) (id : string) (args : list string) : config :=
  with_launch c (entry id (fun l => LaunchConfig (lc_command l) (lc_path l) (lc_env l) args) (LaunchConfig None None [] args) (cf_launch c)).
(** 425-430 *)
Definition launch_set_env (c : config) (id : string) (env : list (string * string)) : config :=
  with_launch c (entry id (fun l => LaunchConfig (lc_command l) (lc_path l) env (lc_arg l)) (LaunchConfig None None env []) (cf_launch c)).

(** [Config::new], 601-611 *)
Definition config_new : config := Config [] [] [] [] [].

(** 261-312.  The connections of a list are marked with the name of the list, except a junction at an end of it. *)
Definition set_connection_set (c : connection) (s : option string) : connection :=
  match c with
  | MiddleC t n i o _ => MiddleC t n i o s
  | StartC t n o _ => StartC t n o s
  | EndC t n i _ => EndC t n i s
  end.
Definition quick_add_connection_set (name : string) (d : dconn) : dconn :=
  match d with
  | Connections cs =>
    let len := List.length cs in
    Connections (map (fun ic =>
      let '(i, c) := ic in
      set_connection_set c (if ((i =? 0)%nat || (i =? len - 1)%nat) && ctype_eqb (conn_type c) CJunction then None else Some name))
      (combine (seq 0 len) cs))
  | JoinString s => JoinString s
  end.
