(** * M_Serde: configurations as values, as the [serde] attributes of src/config.rs and src/connectable.rs say

    Text is not modelled: a value is what a JSON or YAML text stands for.  The derived code of [serde] also
    takes a sequence where a structure is expected; here that is refused. *)
From Coq Require Import Ascii String List Bool Arith ZArith.
From Verif Require Import M_Prog M_Config.
Import ListNotations.
Local Open Scope string_scope.

Inductive value :=
| VNull
| VBool (b : bool)
| VNum (z : Z)
| VStr (s : string)
| VSeq (l : list value)
| VMap (m : list (string * value)).

Definition bind {A B} (x : option A) (f : A -> option B) : option B := match x with Some a => f a | None => None end.
Fixpoint all {A B} (f : A -> option B) (l : list A) : option (list B) :=
  match l with [] => Some [] | a :: r => bind (f a) (fun b => bind (all f r) (fun bs => Some (b :: bs))) end.

(** ** Writing *)

(** src/config.rs 13-21; src/connectable.rs 8-21: names in lower case *)
Definition ctype_name (t : ctype) : string :=
  match t with
  | CFaucet => "faucet" | CLaunch => "launch" | CJunction => "junction" | CBuffer => "buffer" | CDrain => "drain" | CRegulator => "regulator"
  end.
Definition breakable_name (b : breakable) : string := match b with Consume => "consume" | Finish => "finish" | Terminate => "terminate" end.
Definition oport_name (p : oport) : string := match p with PErr => "err" | POut => "out" | PExit => "exit" end.

Definition ser_option {A} (f : A -> value) (x : option A) : value := match x with Some a => f a | None => VNull end.
Definition ser_map {A} (f : A -> value) (m : list (string * A)) : value := VMap (map (fun kv => (fst kv, f (snd kv))) m).

(** src/config.rs 111-134: the fields of the input port are those of the connection *)
Definition ser_iport (i : iport) : list (string * value) :=
  [("breakable", VStr (breakable_name (ip_breakable i))); ("priority", VNum (ip_priority i))].
Definition ser_connection (c : connection) : value :=
  match c with
  | MiddleC t n i o s => VMap ([("component_type", VStr (ctype_name t)); ("component_name", VStr n)] ++ ser_iport i ++
      [("output_port", VStr (oport_name o)); ("connection_set", ser_option VStr s)])%list
  | StartC t n o s => VMap [("component_type", VStr (ctype_name t)); ("component_name", VStr n);
      ("output_port", VStr (oport_name o)); ("connection_set", ser_option VStr s)]
  | EndC t n i s => VMap ([("component_type", VStr (ctype_name t)); ("component_name", VStr n)] ++ ser_iport i ++
      [("connection_set", ser_option VStr s)])%list
  end.
(** 187-192 *)
Definition ser_dconn (d : dconn) : value := match d with JoinString s => VStr s | Connections l => VSeq (map ser_connection l) end.
(** 66-108 *)
Definition ser_launch (l : launch_config) : value :=
  VMap [("cmd", ser_option VStr (lc_command l)); ("path", ser_option VStr (lc_path l)); ("env", ser_map VStr (lc_env l)); ("arg", VSeq (map VStr (lc_arg l)))].
Definition ser_faucet (s : string) : value := VMap [("source", VStr s)].
Definition ser_drain (s : string) : value := VMap [("destination", VStr s)].
Definition ser_regulator (r : regulator_config) : value :=
  VMap [("buffered", ser_option (fun p => VSeq [VNum (Z.of_nat (fst p)); VNum (Z.of_nat (snd p))]) (rc_buffered r));
        ("monitored_buffers", VSeq (map VStr (rc_monitored r)))].
(** 202-214 *)
Definition ser_config (c : config) : value :=
  VMap [("faucet", ser_map ser_faucet (cf_faucet c)); ("regulator", ser_map ser_regulator (cf_regulator c)); ("drain", ser_map ser_drain (cf_drain c));
        ("launch", ser_map ser_launch (cf_launch c)); ("connection", ser_map ser_dconn (cf_connection c))].

(** ** Reading *)

(** The field of a structure.  Other fields are ignored; two of the same name are an error. *)
Inductive found := Missing | Found (v : value) | Duplicate.
Definition field (k : string) (m : list (string * value)) : found :=
  match filter (fun kv => String.eqb (fst kv) k) m with [] => Missing | [(_, v)] => Found v | _ => Duplicate end.
Definition required {A} (k : string) (f : value -> option A) (m : list (string * value)) : option A :=
  match field k m with Found v => f v | _ => None end.
Definition defaulted {A} (k : string) (f : value -> option A) (d : A) (m : list (string * value)) : option A :=
  match field k m with Found v => f v | Missing => Some d | Duplicate => None end.

Definition de_str (v : value) : option string := match v with VStr s => Some s | _ => None end.
Definition de_seq {A} (f : value -> option A) (v : value) : option (list A) := match v with VSeq l => all f l | _ => None end.
Definition de_option {A} (f : value -> option A) (v : value) : option (option A) := match v with VNull => Some None | _ => bind (f v) (fun a => Some (Some a)) end.
(** A field that is an [Option] may be left out. *)
Definition optional {A} (k : string) (f : value -> option A) (m : list (string * value)) : option (option A) := defaulted k (de_option f) None m.
Definition de_struct {A} (f : list (string * value) -> option A) (v : value) : option A := match v with VMap m => f m | _ => None end.
(** A map: of two with the same key the last one counts. *)
Definition de_entries {A} (f : value -> option A) (m : list (string * value)) : option (list (string * A)) :=
  all (fun kv => bind (f (snd kv)) (fun a => Some (fst kv, a))) m.
Definition de_hash {A} (f : value -> option A) (v : value) : option (list (string * A)) :=
  match v with VMap m => bind (de_entries f m) (fun l => Some (fold_left (fun acc kv => hput (fst kv) (snd kv) acc) l [])) | _ => None end.
Definition de_btree {A} (f : value -> option A) (v : value) : option (list (string * A)) :=
  match v with VMap m => bind (de_entries f m) (fun l => Some (fold_left (fun acc kv => bput (fst kv) (snd kv) acc) l [])) | _ => None end.

(** [usize] and [isize] of 64 bits *)
Definition de_usize (v : value) : option nat :=
  match v with VNum z => if ((0 <=? z) && (z <? 2 ^ 64))%Z then Some (Z.to_nat z) else None | _ => None end.
Definition de_isize (v : value) : option Z :=
  match v with VNum z => if ((- 2 ^ 63 <=? z) && (z <? 2 ^ 63))%Z then Some z else None | _ => None end.

Definition de_ctype (v : value) : option ctype :=
  bind (de_str v) (fun s =>
  if s =? "faucet" then Some CFaucet else if s =? "launch" then Some CLaunch else if s =? "junction" then Some CJunction
  else if s =? "buffer" then Some CBuffer else if s =? "drain" then Some CDrain else if s =? "regulator" then Some CRegulator else None).
Definition de_breakable (v : value) : option breakable :=
  bind (de_str v) (fun s => if s =? "consume" then Some Consume else if s =? "finish" then Some Finish else if s =? "terminate" then Some Terminate else None).
Definition de_oport (v : value) : option oport :=
  bind (de_str v) (fun s => if s =? "err" then Some PErr else if s =? "out" then Some POut else if s =? "exit" then Some PExit else None).
(** src/connectable.rs 49-57: the breakable may be left out *)
Definition de_iport (m : list (string * value)) : option iport :=
  bind (defaulted "breakable" de_breakable Terminate m) (fun b =>
  bind (required "priority" de_isize m) (fun p => Some (InPort b p))).

Definition de_middle (m : list (string * value)) : option connection :=
  bind (required "component_type" de_ctype m) (fun t =>
  bind (required "component_name" de_str m) (fun n =>
  bind (de_iport m) (fun i =>
  bind (required "output_port" de_oport m) (fun o =>
  bind (optional "connection_set" de_str m) (fun s => Some (MiddleC t n i o s)))))).
Definition de_start (m : list (string * value)) : option connection :=
  bind (required "component_type" de_ctype m) (fun t =>
  bind (required "component_name" de_str m) (fun n =>
  bind (required "output_port" de_oport m) (fun o =>
  bind (optional "connection_set" de_str m) (fun s => Some (StartC t n o s))))).
Definition de_end (m : list (string * value)) : option connection :=
  bind (required "component_type" de_ctype m) (fun t =>
  bind (required "component_name" de_str m) (fun n =>
  bind (de_iport m) (fun i =>
  bind (optional "connection_set" de_str m) (fun s => Some (EndC t n i s))))).
Definition orelse {A} (x y : option A) : option A := match x with Some a => Some a | None => y end.
(** Untagged: the first kind that fits *)
Definition de_connection (v : value) : option connection :=
  orelse (de_struct de_middle v) (orelse (de_struct de_start v) (de_struct de_end v)).
Definition de_dconn (v : value) : option dconn :=
  orelse (bind (de_str v) (fun s => Some (JoinString s))) (bind (de_seq de_connection v) (fun l => Some (Connections l))).

Definition de_launch : value -> option launch_config := de_struct (fun m =>
  bind (optional "cmd" de_str m) (fun c =>
  bind (optional "path" de_str m) (fun p =>
  bind (defaulted "env" (de_hash de_str) [] m) (fun e =>
  bind (defaulted "arg" (de_seq de_str) [] m) (fun a => Some (LaunchConfig c p e a)))))).
Definition de_faucet : value -> option string := de_struct (required "source" de_str).
Definition de_drain : value -> option string := de_struct (defaulted "destination" de_str "-").
Definition de_pair (v : value) : option (nat * nat) :=
  match v with VSeq [a; b] => bind (de_usize a) (fun x => bind (de_usize b) (fun y => Some (x, y))) | _ => None end.
Definition de_regulator : value -> option regulator_config := de_struct (fun m =>
  bind (optional "buffered" de_pair m) (fun b =>
  bind (defaulted "monitored_buffers" (de_seq de_str) [] m) (fun l => Some (RegulatorConfig b l)))).
Definition de_config : value -> option config := de_struct (fun m =>
  bind (defaulted "faucet" (de_hash de_faucet) [] m) (fun f =>
  bind (defaulted "regulator" (de_hash de_regulator) [] m) (fun r =>
  bind (defaulted "drain" (de_hash de_drain) [] m) (fun d =>
  bind (defaulted "launch" (de_hash de_launch) [] m) (fun l =>
  bind (defaulted "connection" (de_btree de_dconn) [] m) (fun c => Some (Config f r d l c))))))).
