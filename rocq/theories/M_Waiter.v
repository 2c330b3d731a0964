(** * M_Waiter: src/waiter.rs, building a pipeline and collecting results

    [HashMap]s are lists without repeated keys (see M_Config).  The channels that the components create are given numbers, in the order of
    their creation. *)
From Coq Require Import Ascii String List Bool Arith ZArith DecimalString.
From Verif Require Import M_Prog M_Motion M_Connectable M_Config M_Manip M_Lint M_Faucet M_Launch M_Junction M_Buffer M_Drain M_Regulator.
Import ListNotations.
Local Open Scope string_scope.

(** 20-25 *)
Record settings := Settings { st_low : nat; st_high : nat; st_buffers : list string }.

(** 100-112.  The map of maps from type and name to number is one map. *)
Record waiter := Waiter {
  w_faucet : list (string * faucet);
  w_launch : list (string * launch);
  w_junction : list (string * junction);
  w_buffer : list (string * buffer);
  w_drain : list (string * drain);
  w_regulator : list (string * regulator);
  w_settings : list (string * settings);
  w_id : nat;
  w_ids : list (component * nat);
  w_names : option (list (nat * component));
  w_channels : nat
}.

(** 176-194 *)
Definition waiter_new : waiter := Waiter [] [] [] [] [] [] [] 0 [] (Some []) 0.

Definition set_faucet w x := Waiter x (w_launch w) (w_junction w) (w_buffer w) (w_drain w) (w_regulator w) (w_settings w) (w_id w) (w_ids w) (w_names w) (w_channels w).
Definition set_launch w x := Waiter (w_faucet w) x (w_junction w) (w_buffer w) (w_drain w) (w_regulator w) (w_settings w) (w_id w) (w_ids w) (w_names w) (w_channels w).
Definition set_junction w x := Waiter (w_faucet w) (w_launch w) x (w_buffer w) (w_drain w) (w_regulator w) (w_settings w) (w_id w) (w_ids w) (w_names w) (w_channels w).
Definition set_buffer w x := Waiter (w_faucet w) (w_launch w) (w_junction w) x (w_drain w) (w_regulator w) (w_settings w) (w_id w) (w_ids w) (w_names w) (w_channels w).
Definition set_drain w x := Waiter (w_faucet w) (w_launch w) (w_junction w) (w_buffer w) x (w_regulator w) (w_settings w) (w_id w) (w_ids w) (w_names w) (w_channels w).
Definition set_regulator w x := Waiter (w_faucet w) (w_launch w) (w_junction w) (w_buffer w) (w_drain w) x (w_settings w) (w_id w) (w_ids w) (w_names w) (w_channels w).
Definition set_settings w x := Waiter (w_faucet w) (w_launch w) (w_junction w) (w_buffer w) (w_drain w) (w_regulator w) x (w_id w) (w_ids w) (w_names w) (w_channels w).
Definition set_channels w x := Waiter (w_faucet w) (w_launch w) (w_junction w) (w_buffer w) (w_drain w) (w_regulator w) (w_settings w) (w_id w) (w_ids w) (w_names w) x.

Fixpoint lookup_component (c : component) (l : list (component * nat)) : option nat :=
  match l with
  | [] => None
  | (c', n) :: r => if component_eqb c c' then Some n else lookup_component c r
  end.
Fixpoint lookup_id (i : nat) (l : list (nat * component)) : option component :=
  match l with
  | [] => None
  | (i', c) :: r => if Nat.eqb i i' then Some c else lookup_id i r
  end.
(** [HashMap::insert] with a number as key *)
Fixpoint id_put (i : nat) (c : component) (l : list (nat * component)) : list (nat * component) :=
  match l with
  | [] => [(i, c)]
  | (i', c') :: r => if Nat.eqb i i' then (i', c) :: r else (i', c') :: id_put i c r
  end.

(** 197-208 *)
Definition incr_id (w : waiter) (c : component) : waiter * nat :=
  (Waiter (w_faucet w) (w_launch w) (w_junction w) (w_buffer w) (w_drain w) (w_regulator w) (w_settings w) (S (w_id w))
     (match lookup_component c (w_ids w) with Some _ => w_ids w | None => (w_ids w ++ [(c, w_id w)])%list end)
     (match w_names w with Some hm => Some (id_put (w_id w) c hm) | None => None end) (w_channels w),
   w_id w).

(** 211-213 *)
Definition get_id (w : waiter) (c : component) : option nat := lookup_component c (w_ids w).

(** 247-252 *)
Definition id_to_component_type_name (w : waiter) (i : nat) : option component :=
  match w_names w with Some hm => lookup_id i hm | None => None end.

(** src/connectable.rs 80-85 *)
Inductive connectable_error :=
| AddInput (i : nat) (e : add_input_error)
| AddOutput (i : nat) (e : add_output_error)
| CouldNotFindSourceComponent (i : nat)
| CouldNotFindDestinationComponent (i : nat).

(** [get_mut] and the change of the entry *)
Definition update {V X E} (n : string) (m : list (string * V)) (f : V -> result (V * X) E) : option (result (list (string * V) * X) E) :=
  match lookup n m with
  | None => None
  | Some v => Some (match f v with Ok (v', x) => Ok (hput n v' m, x) | Err e => Err e end)
  end.
Definition put_back {V X E} (r : option (result (list (string * V) * X) E)) (set : list (string * V) -> waiter) : option (result (waiter * X) E) :=
  match r with
  | None => None
  | Some (Ok (m, x)) => Some (Ok (set m, x))
  | Some (Err e) => Some (Err e)
  end.

(** 216-245.  A new channel takes the next number. *)
Definition get_src_pull (w0 : waiter) (src dst : nat) (port : oport) (b : breakable) : result (waiter * pull) connectable_error :=
  let ch := w_channels w0 in
  let w := set_channels w0 (S ch) in
  let r :=
    match id_to_component_type_name w src with
    | Some (CFaucet, n) => put_back (update n (w_faucet w) (fun x => faucet_add_output x port b src dst ch)) (set_faucet w)
    | Some (CLaunch, n) => put_back (update n (w_launch w) (fun x => launch_add_output x port b src dst ch)) (set_launch w)
    | Some (CJunction, n) => put_back (update n (w_junction w) (fun x => Ok (junction_add_output x port b src dst ch))) (set_junction w)
    | Some (CBuffer, n) => put_back (update n (w_buffer w) (fun x => buffer_add_output x port b src dst ch)) (set_buffer w)
    | Some (CDrain, n) => put_back (update n (w_drain w) (fun x => drain_add_output x port b src dst ch)) (set_drain w)
    | Some (CRegulator, n) => put_back (update n (w_regulator w) (fun x => regulator_add_output x port b src dst ch)) (set_regulator w)
    | None => None
    end in
  match r with
  | None => Err (CouldNotFindSourceComponent src)
  | Some (Err x) => Err (AddOutput src x)
  | Some (Ok x) => Ok x
  end.

Definition with_unit {V E} (r : result V E) : result (V * unit) E := match r with Ok v => Ok (v, tt) | Err e => Err e end.

(** 254-286 *)
Definition join (w : waiter) (src : nat) (port : oport) (dst : nat) (i : iport) : result waiter connectable_error :=
  match get_src_pull w src dst port (ip_breakable i) with
  | Err e => Err e
  | Ok (w, p) =>
    let z := ip_priority i in
    let r :=
      match id_to_component_type_name w dst with
      | Some (CFaucet, n) => put_back (update n (w_faucet w) (fun x => with_unit (faucet_add_input x p z))) (set_faucet w)
      | Some (CLaunch, n) => put_back (update n (w_launch w) (fun x => with_unit (launch_add_input x p z))) (set_launch w)
      | Some (CJunction, n) => put_back (update n (w_junction w) (fun x => Ok (junction_add_input x p z, tt))) (set_junction w)
      | Some (CBuffer, n) => put_back (update n (w_buffer w) (fun x => with_unit (buffer_add_input x p z))) (set_buffer w)
      | Some (CDrain, n) => put_back (update n (w_drain w) (fun x => with_unit (drain_add_input x p z))) (set_drain w)
      | Some (CRegulator, n) => put_back (update n (w_regulator w) (fun x => with_unit (regulator_add_input x p z))) (set_regulator w)
      | None => None
      end in
    match r with
    | None => Err (CouldNotFindDestinationComponent dst)
    | Some (Err x) => Err (AddInput dst x)
    | Some (Ok (w, _)) => Ok w
    end
  end.

(** 312-324 *)
Definition configure_regulator (w : waiter) (name : string) (buffers : list string) (low high : nat) : waiter * bool :=
  let has_all_buffers := forallb (fun f => match lookup f (w_buffer w) with Some _ => true | None => false end) buffers in
  if negb has_all_buffers || match lookup name (w_regulator w) with None => true | Some _ => false end then (w, false)
  else (set_settings w (hput name (Settings low high buffers) (w_settings w)), true).

(** [HashMap::remove] *)
Definition remove {V} (k : string) (m : list (string * V)) : list (string * V) := filter (fun kv => negb (String.eqb k (fst kv))) m.

(** 474-520.  The configuration is changed too: the entry of a launch is taken. *)
Definition constructor (c : component) (cfg : config) (w0 : waiter) : result (nat * config * waiter) string :=
  let (w, id) := incr_id w0 c in
  let n := snd c in
  match fst c with
  | CFaucet =>
    Ok (id, cfg, set_faucet w (hput n (faucet_new (match lookup n (cf_faucet cfg) with Some s => s | None => "" end)) (w_faucet w)))
  | CDrain =>
    Ok (id, cfg, set_drain w (hput n (drain_new (match lookup n (cf_drain cfg) with Some s => s | None => "" end)) (w_drain w)))
  | CRegulator => Ok (id, cfg, set_regulator w (hput n regulator_new (w_regulator w)))
  | CBuffer => Ok (id, cfg, set_buffer w (hput n buffer_new (w_buffer w)))
  | CJunction => Ok (id, cfg, set_junction w (hput n junction_new (w_junction w)))
  | CLaunch =>
    match lookup n (cf_launch cfg) with
    | Some lc =>
      match lc_command lc with
      | None => Err ("Launch '" ++ n ++ "' did not have a command specified")
      | Some command =>
        let l := launch_new id (match lc_env lc with [] => None | e => Some e end) (lc_path lc) command
                   (match lc_arg lc with [] => None | a => Some a end) in
        Ok (id, Config (cf_faucet cfg) (cf_regulator cfg) (cf_drain cfg) (remove n (cf_launch cfg)) (cf_connection cfg),
            set_launch w (hput n l (w_launch w)))
      end
    | None => Err ("Could not find configuration for Launch " ++ n)
    end
  end.

(** 427-454 *)
Record create_spec := CreateSpec { cs_component : component; cs_in : option iport; cs_out : option oport }.
Definition get_create_spec (c : connection) : create_spec :=
  match c with
  | MiddleC t n i o _ => CreateSpec (t, n) (Some i) (Some o)
  | StartC t n o _ => CreateSpec (t, n) None (Some o)
  | EndC t n i _ => CreateSpec (t, n) (Some i) None
  end.

(** The texts of errors, derived [Debug] of src/connectable.rs 14-20, 60-70 *)
Definition oport_text (p : oport) : string := match p with PErr => "Err" | POut => "Out" | PExit => "Exit" end.
Definition int_text (z : Z) : string := NilZero.string_of_int (Z.to_int z).
Definition add_input_error_text (e : add_input_error) : string :=
  match e with
  | InAlreadyAllocated => "AlreadyAllocated"
  | InUnsupportedPriority z => "UnsupportedPriority(" ++ int_text z ++ ")"
  | InUnsupportedForControl => "UnsupportedForControl"
  end.
Definition add_output_error_text (e : add_output_error) : string :=
  match e with
  | OutAlreadyAllocated p => "AlreadyAllocated(" ++ oport_text p ++ ")"
  | OutUnsupportedPort p => "UnsupportedPort(" ++ oport_text p ++ ")"
  end.
(** 544-549 *)
Definition string_hack (w : waiter) (i : nat) : string :=
  match id_to_component_type_name w i with
  | Some (t, n) => ctype_text t ++ ":" ++ n
  | None => "Unknown Component " ++ NilZero.string_of_uint (Nat.to_uint i)
  end.
(** 553-565.  The table of names is the same before and after a failed [join]. *)
Definition connectable_error_text (w : waiter) (e : connectable_error) : string :=
  match e with
  | AddInput i e => "AddInput(" ++ string_hack w i ++ ", " ++ add_input_error_text e ++ ")"
  | AddOutput i e => "AddOutput(" ++ string_hack w i ++ ", " ++ add_output_error_text e ++ ")"
  | CouldNotFindSourceComponent i => "ConnectableError::CouldNotFindSourceComponent(" ++ string_hack w i ++ ")"
  | CouldNotFindDestinationComponent i => "ConnectableError::CouldNotFindDestinationComponent(" ++ string_hack w i ++ ")"
  end.

(** 525-576: one element of the connections; the source left by the one before it is [last] *)
Definition wire_one (x : waiter * config * option (nat * oport)) (c : connection)
  : outcome (result (waiter * config * option (nat * oport)) string) :=
  let '(w, cfg, last) := x in
  let cs := get_create_spec c in
  match (match get_id w (cs_component cs) with
         | None => constructor (cs_component cs) cfg w
         | Some id => Ok (id, cfg, w)
         end) with
  | Err e => Good (Err e)
  | Ok (dst, cfg, w) =>
    let next := match cs_out cs with Some o => Some (dst, o) | None => None end in
    match last with
    | None => Good (Ok (w, cfg, next))
    | Some (src, port) =>
      match cs_in cs with
      | None => Crash "HOW!"
      | Some i =>
        match join w src port dst i with
        | Ok w => Good (Ok (w, cfg, next))
        | Err e => Good (Err (connectable_error_text w e))
        end
      end
    end
  end.

(** 524-576: the loop, which stops at the first error *)
Fixpoint wire (l : list connection) (x : waiter * config * option (nat * oport)) : outcome (result (waiter * config * option (nat * oport)) string) :=
  match l with
  | [] => Good (Ok x)
  | c :: r => obind (wire_one x c) (fun y => match y with Err e => Good (Err e) | Ok x => wire r x end)
  end.

(** 459-470 *)
Definition all_connections (m : connmap) : outcome (list connection) :=
  ofold (fun acc item =>
    match snd item with
    | Connections v => Good (acc ++ v)%list
    | JoinString _ => Crash "Encountered DeserializedConnection::JoinString in waiter::get_waiter()"
    end) m [].

(** 578-582 *)
Definition configure (w : waiter) (regs : list (string * regulator_config)) : waiter :=
  fold_left (fun w kv =>
    match rc_buffered (snd kv) with
    | Some (low, high) => fst (configure_regulator w (fst kv) (rc_monitored (snd kv)) low high)
    | None => w
    end) regs w.

(** 457-586 *)
Definition get_waiter (cfg : config) : outcome (result waiter string) :=
  obind (all_connections (cf_connection cfg)) (fun l =>
  obind (wire l (waiter_new, cfg, None)) (fun r =>
  Good (match r with
        | Err e => Err e
        | Ok (w, cfg, _) => Ok (configure w (cf_regulator cfg))
        end))).

(** 29-34 *)
Record capture := Capture { cp_low : nat; cp_high : nat; cp_control : regulator_control; cp_monitors : list nat }.

(** 117-123, with the time (an [Instant] as a number) that a MotionError carries *)
Record timed := Timed { tm_error : merror; tm_time : nat }.
Inductive waiter_error :=
| CausedByError (t : ctype) (n : string) (e : timed)
| SettingsForMissingRegulator (r : string)
| SettingsRefersMissingBuffer (r b : string)
| CouldNotPause
| CouldNotResume.

(** 334-337 *)
Fixpoint size_monitors (w : waiter) (reg : string) (names : list string) : outcome (result (waiter * list nat) waiter_error) :=
  match names with
  | [] => Good (Ok (w, []))
  | b :: r =>
    match lookup b (w_buffer w) with
    | None => Good (Err (SettingsRefersMissingBuffer reg b))
    | Some buf =>
      match buffer_add_size_monitor buf (w_channels w) with
      | None => Crash "Each buffer can only be monitored once"
      | Some buf' =>
        obind (size_monitors (set_channels (set_buffer w (hput b buf' (w_buffer w))) (S (w_channels w))) reg r) (fun x =>
        Good (match x with Ok (w', ms) => Ok (w', w_channels w :: ms) | Err e => Err e end))
      end
    end
  end.
(** 326-348.  The settings are gone through in the order of a [HashMap]. *)
Fixpoint regulator_settings (w : waiter) (l : list (string * settings)) : outcome (result (waiter * list capture) waiter_error) :=
  match l with
  | [] => Good (Ok (w, []))
  | (name, s) :: r =>
    match lookup name (w_regulator w) with
    | None => Good (Err (SettingsForMissingRegulator name))
    | Some reg =>
      match regulator_get_control reg (w_channels w) with
      | None => Crash "Each regulator can only have one control"
      | Some (reg', ctl) =>
        obind (size_monitors (set_channels (set_regulator w (hput name reg' (w_regulator w))) (S (w_channels w))) name (st_buffers s)) (fun x =>
        match x with
        | Err e => Good (Err e)
        | Ok (w, ms) =>
          obind (regulator_settings w r) (fun y =>
          Good (match y with Ok (w', cs) => Ok (w', Capture (st_low s) (st_high s) ctl ms :: cs) | Err e => Err e end))
        end)
      end
    end
  end.

(** src/motion.rs 232-247 *)
Definition motion_instant (e : timed) : option nat :=
  match tm_error e with LaunchSpawnError _ | NoneError => None | _ => Some (tm_time e) end.
(** 139-144 *)
Definition instant (e : waiter_error) : option nat := match e with CausedByError _ _ e => motion_instant e | _ => None end.

(** 361-371 *)
Definition folder (acc : result nat (list waiter_error)) (cur : result nat waiter_error) : result nat (list waiter_error) :=
  match acc, cur with
  | Ok i, Ok j => Ok (i + j)
  | xs, Ok _ => xs
  | Err xs, Err x => Err (xs ++ [x])%list
  | Ok _, Err x => Err [x]
  end.

(** 410-417: whether the one is to come before the other.  Times since the start: the start is before all of them. *)
Definition earlier (a b : waiter_error) : bool :=
  match instant a, instant b with Some x, Some y => (x <? y)%nat | _, _ => false end.
(** [sort_by]: an insertion sort, each element going before the first that it is not later than; for consistent comparisons
    any stable sort gives the same.  For others the order is unspecified; the library sorts up to twenty elements
    by insertion. *)
Fixpoint insert_error (x : waiter_error) (l : list waiter_error) : list waiter_error :=
  match l with
  | [] => [x]
  | y :: r => if earlier y x then y :: insert_error x r else x :: l
  end.
Definition sort_errors (l : list waiter_error) : list waiter_error := fold_right insert_error [] l.

(** 399-419: the results of launches, regulators, faucets, managed regulators, drains, buffers and junctions *)
Definition overall (l r f m d b j : list (result nat waiter_error)) : result nat (list waiter_error) :=
  match fold_left folder (l ++ f ++ r ++ m ++ d ++ b ++ j)%list (Ok 0) with
  | Ok n => Ok n
  | Err v => Err (sort_errors v)
  end.
(** 374-386: how the results of a component become those *)
Definition component_result (t : ctype) (n : string) (r : result nat timed) : result nat waiter_error :=
  match r with Err e => Err (CausedByError t n e) | Ok x => Ok x end.
