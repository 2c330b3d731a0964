(** * S_Cli: what the commands should do *)
From Coq Require Import Ascii String List Bool Arith ZArith.
From Verif Require Import M_Prog M_Motion M_Config M_Manip M_Serde M_Cli S_Grammar S_Manip.
Import ListNotations.
Local Open Scope string_scope.

(** ** Changing a configuration *)

(** The one map is the other with a new value at one place. *)
Definition put_at {V} (k : string) (v : V) (m m' : list (string * V)) : Prop :=
  lookup k m' = Some v /\ forall k', k' <> k -> lookup k' m' = lookup k' m.
(** ... and it still has no repeated keys. *)
Definition hash_put {V} (k : string) (v : V) (m m' : list (string * V)) : Prop := put_at k v m m' /\ (NoDup (keys m) -> NoDup (keys m')).
Definition there {V} (k : string) (m : list (string * V)) (blank : V) : V := match lookup k m with Some v => v | None => blank end.
Definition blank_launch : launch_config := LaunchConfig None None [] [].
Definition blank_regulator : regulator_config := RegulatorConfig None [].

(** The launch [id] differs in that [what] holds; everything else is the same. *)
Definition launch_edited (id : string) (what : launch_config -> launch_config -> Prop) (c c' : config) : Prop :=
  cf_faucet c' = cf_faucet c /\ cf_regulator c' = cf_regulator c /\ cf_drain c' = cf_drain c /\ cf_connection c' = cf_connection c /\
  exists l, hash_put id l (cf_launch c) (cf_launch c') /\ what (there id (cf_launch c) blank_launch) l.

(** What a request does to a configuration *)
Definition edits (os : outside) (r : request) (c c' : config) : Prop :=
  match r with
  | FaucetSrc o src =>
    cf_regulator c' = cf_regulator c /\ cf_drain c' = cf_drain c /\ cf_launch c' = cf_launch c /\ cf_connection c' = cf_connection c /\
    hash_put (op_id o) src (cf_faucet c) (cf_faucet c')
  | DrainDst o dst =>
    cf_faucet c' = cf_faucet c /\ cf_regulator c' = cf_regulator c /\ cf_launch c' = cf_launch c /\ cf_connection c' = cf_connection c /\
    hash_put (op_id o) dst (cf_drain c) (cf_drain c')
  | RegulatorWatermark o min max =>
    cf_faucet c' = cf_faucet c /\ cf_drain c' = cf_drain c /\ cf_launch c' = cf_launch c /\ cf_connection c' = cf_connection c /\
    exists low high, (low = min /\ high = max \/ low = max /\ high = min) /\ low <= high /\
      hash_put (op_id o) (RegulatorConfig (Some (low, high)) (rc_monitored (there (op_id o) (cf_regulator c) blank_regulator))) (cf_regulator c) (cf_regulator c')
  | LaunchCommand o command => launch_edited (op_id o) (fun old l => lc_command l = Some command /\ lc_path l = lc_path old /\ lc_env l = lc_env old /\ lc_arg l = lc_arg old) c c'
  | LaunchPath o path => launch_edited (op_id o) (fun old l => lc_path l = Some path /\ lc_command l = lc_command old /\ lc_env l = lc_env old /\ lc_arg l = lc_arg old) c c'
  | LaunchArgs o args => launch_edited (op_id o) (fun old l => lc_arg l = args /\ lc_command l = lc_command old /\ lc_path l = lc_path old /\ lc_env l = lc_env old) c c'
  | LaunchEnv o env => launch_edited (op_id o) (fun old l => lc_env l = env /\ lc_command l = lc_command old /\ lc_path l = lc_path old /\ lc_arg l = lc_arg old) c c'
  | ConnectionJoin o join =>
    cf_faucet c' = cf_faucet c /\ cf_regulator c' = cf_regulator c /\ cf_drain c' = cf_drain c /\ cf_launch c' = cf_launch c /\
    (ordered (cf_connection c) -> ordered (cf_connection c')) /\
    exists d, put_at (op_id o) d (cf_connection c) (cf_connection c') /\
      ((exists l, connection_text l join) /\ d = JoinString join \/
       (~ exists l, connection_text l join) /\ exists v, (os_json os join = Some v \/ os_yaml os join = Some v) /\ ((exists x, de_connection v = Some x /\ d = Connections [x]) \/ (exists l, de_seq de_connection v = Some l /\ d = Connections l)))
  | _ => False
  end.
(** The requests that change something, and where the configuration is read *)
Definition edit_options (r : request) : option options :=
  match r with
  | FaucetSrc o _ | DrainDst o _ | RegulatorWatermark o _ _ | LaunchCommand o _ | LaunchPath o _ | LaunchArgs o _ | LaunchEnv o _ | ConnectionJoin o _ => Some o
  | _ => None
  end.

(** ** Files *)

(** The configurations that the program can hold: no repeated names, numbers of 64 bits *)
Definition small (z : Z) : Prop := (- 2 ^ 63 <= z < 2 ^ 63)%Z.
Definition small_connection (c : connection) : Prop := match input_of c with Some i => small (ip_priority i) | None => True end.
Definition holdable (c : config) : Prop :=
  NoDup (keys (cf_faucet c)) /\ NoDup (keys (cf_regulator c)) /\ NoDup (keys (cf_drain c)) /\ NoDup (keys (cf_launch c)) /\ ordered (cf_connection c) /\
  (forall n l, In (n, l) (cf_launch c) -> NoDup (keys (lc_env l))) /\
  (forall n r a b, In (n, r) (cf_regulator c) -> rc_buffered r = Some (a, b) -> (Z.of_nat a < 2 ^ 64)%Z /\ (Z.of_nat b < 2 ^ 64)%Z) /\
  (forall n l x, In (n, Connections l) (cf_connection c) -> In x l -> small_connection x).

(** The value of a field, if it is there once *)
Definition gives (m : list (string * value)) (k : string) (v : value) : Prop := field k m = Found v.
Definition lacks (m : list (string * value)) (k : string) : Prop := field k m = Missing.

(** ** Environment settings *)

Fixpoint no_equals (s : string) : Prop := match s with "" => True | String a r => a <> "="%char /\ no_equals r end.
(** A text that gives a name a value *)
Definition setting (s n v : string) : Prop := s = n ++ "=" ++ v /\ n <> "" /\ no_equals n.
Definition malformed (s : string) : Prop := forall n v, ~ setting s n v.
(** The value that the last text with that name gives *)
Definition last_setting (l : list string) (n v : string) : Prop :=
  exists l1 s l2, l = (l1 ++ s :: l2)%list /\ setting s n v /\ forall s' v', In s' l2 -> ~ setting s' n v'.

(** ** What was typed *)

Definition given (k : string) (v : option string) : list (string * list string) := match v with Some x => [(k, [x])] | None => [] end.
(** [pa2 NAME --config C --format F] and what comes after *)
Definition typed_first (name : string) (cfg fmt : option string) (sub : option (string * matches)) : matches :=
  Matches [] (Some (name, Matches (given "config" cfg ++ given "format" fmt) sub)).
(** [pa2 config --config C --format F KIND --id I VERB ...] *)
Definition typed_edit (cfg fmt : option string) (kind : string) (id : option string) (verb : string) (values : list (string * list string)) : matches :=
  typed_first "config" cfg fmt (Some (kind, Matches (given "id" id) (Some (verb, Matches values None)))).
(** The format that was given; clap allows these two *)
Definition format_text (f : format) : string := match f with Json => "json" | Yaml => "yaml" end.

(** The options of a change; without them the configuration is read from standard input, as yaml *)
Definition in_of (cfg : option string) : string := match cfg with Some c => c | None => "-" end.
Definition format_of (fmt : option format) : format := match fmt with Some f => f | None => Yaml end.
Definition options_of (cfg : option string) (fmt : option format) (id : string) : options := Options id (in_of cfg) (format_of fmt).

(** The format that a file name says *)
Definition named (suffix name : string) : Prop := exists p, name = p ++ suffix.
Definition format_of_name (name : string) (f : format) : Prop :=
  match f with Json => named ".json" name | Yaml => named ".yaml" name \/ named ".yml" name end.

(** A number in decimal digits, perhaps after a plus sign, and its value; the last digit counts one *)
Fixpoint decimal (digits : list nat) : nat := match digits with [] => 0 | d :: r => decimal r + d * 10 ^ List.length r end.
Fixpoint digits_text (digits : list nat) : string := match digits with [] => "" | d :: r => String (ascii_of_nat (48 + d)) (digits_text r) end.
Definition number_text (s : string) (n : nat) : Prop :=
  exists ds, ds <> [] /\ Forall (fun d => d < 10) ds /\ decimal ds = n /\ (s = digits_text ds \/ s = "+" ++ digits_text ds).

(** The fields that the readers know *)
Definition launch_fields : list string := ["cmd"; "path"; "env"; "arg"].
Definition faucet_fields : list string := ["source"].
Definition drain_fields : list string := ["destination"].
Definition regulator_fields : list string := ["buffered"; "monitored_buffers"].
Definition config_fields : list string := ["faucet"; "regulator"; "drain"; "launch"; "connection"].
Definition connection_fields : list string := ["component_type"; "component_name"; "breakable"; "priority"; "output_port"; "connection_set"].
