(** * M_Config: the types of src/config.rs and src/connectable.rs

    A [BTreeMap<String, _>] is a list of keys and values in the order of the keys (that order is the order of
    iteration).  A [HashMap<String, _>] is a list of keys and values without repeated keys; the order of the list is
    the order in which the code would iterate over it, which the code does not control: a theorem for all lists is a theorem
    for all such orders. *)
From Coq Require Import Ascii String List Bool Arith ZArith.
From Verif Require Import M_Prog.
Import ListNotations.
Local Open Scope string_scope.

(** The result of pure code that may panic. *)
Inductive outcome (A : Type) := Good (a : A) | Crash (message : string).
Arguments Good {A}. Arguments Crash {A}.
Definition obind {A B} (x : outcome A) (f : A -> outcome B) : outcome B :=
  match x with Good a => f a | Crash m => Crash m end.

(** src/config.rs 14-21 *)
Inductive ctype := CFaucet | CLaunch | CJunction | CBuffer | CDrain | CRegulator.

Definition ctype_eqb (a b : ctype) : bool :=
  match a, b with
  | CFaucet, CFaucet | CLaunch, CLaunch | CJunction, CJunction
  | CBuffer, CBuffer | CDrain, CDrain | CRegulator, CRegulator => true
  | _, _ => false
  end.

(** src/connectable.rs 51-57 *)
Record iport := InPort { ip_breakable : breakable; ip_priority : Z }.

(** src/config.rs 113-134 *)
Inductive connection :=
| MiddleC (t : ctype) (n : string) (i : iport) (o : oport) (set : option string)
| StartC (t : ctype) (n : string) (o : oport) (set : option string)
| EndC (t : ctype) (n : string) (i : iport) (set : option string).

(** src/config.rs 139-151 [component_type] (and the name) *)
Definition conn_type (c : connection) : ctype := match c with MiddleC t _ _ _ _ | StartC t _ _ _ | EndC t _ _ _ => t end.
Definition conn_name (c : connection) : string := match c with MiddleC _ n _ _ _ | StartC _ n _ _ | EndC _ n _ _ => n end.

(** src/config.rs 187-192 *)
Inductive dconn := JoinString (s : string) | Connections (l : list connection).

(** src/config.rs 66-76 *)
Record launch_config := LaunchConfig {
  lc_command : option string;
  lc_path : option string;
  lc_env : list (string * string);
  lc_arg : list string
}.

(** src/config.rs 89-108; a faucet is its source, a drain its destination *)
Record regulator_config := RegulatorConfig { rc_buffered : option (nat * nat); rc_monitored : list string }.

(** src/config.rs 202-214 *)
Record config := Config {
  cf_faucet : list (string * string);
  cf_regulator : list (string * regulator_config);
  cf_drain : list (string * string);
  cf_launch : list (string * launch_config);
  cf_connection : list (string * dconn)
}.

(** Looking up a key *)
Fixpoint lookup {V} (k : string) (m : list (string * V)) : option V :=
  match m with
  | [] => None
  | (k', v) :: r => if String.eqb k k' then Some v else lookup k r
  end.

(** Replacing the value of a key that is present, or else adding it at the end *)
Fixpoint hput {V} (k : string) (v : V) (m : list (string * V)) : list (string * V) :=
  match m with
  | [] => [(k, v)]
  | (k', v') :: r => if String.eqb k k' then (k', v) :: r else (k', v') :: hput k v r
  end.

(** [BTreeMap::insert]: in the place of the order of keys *)
Fixpoint bput {V} (k : string) (v : V) (m : list (string * V)) : list (string * V) :=
  match m with
  | [] => [(k, v)]
  | (k', v') :: r =>
    match String.compare k k' with
    | Lt => (k, v) :: (k', v') :: r
    | Eq => (k', v) :: r
    | Gt => (k', v') :: bput k v r
    end
  end.

Definition keys {V} (m : list (string * V)) : list string := map fst m.

(** [HashSet::contains] *)
Fixpoint mem (k : string) (l : list string) : bool :=
  match l with [] => false | k' :: r => String.eqb k k' || mem k r end.
