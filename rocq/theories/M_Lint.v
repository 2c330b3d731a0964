(** * M_Lint: [Config::lint] of src/config.rs, and how src/bin/pa2.rs uses it

    The result is a [HashSet]; here it is a list without repetitions.  The order of the set is not known; theorems speak only
    of which warnings are in the list. *)
From Coq Require Import Ascii String List Bool Arith ZArith.
From Verif Require Import M_Prog M_Motion M_Config M_Manip.
Import ListNotations.
Local Open Scope string_scope.

(** src/config.rs 357-368 *)
Definition quick_deserialized_connection_to_connection (d : dconn) : list connection :=
  match d with Connections cs => cs | JoinString _ => [] end.

(** src/config.rs 28-56 (the names used in 486-491) and 476-484 *)
Definition string_to_component_type (s : string) : outcome ctype :=
  if s =? "faucet" then Good CFaucet else if s =? "launch" then Good CLaunch
  else if s =? "drain" then Good CDrain else if s =? "regulator" then Good CRegulator
  else Crash "Encountered known reg_key in in Config::lint()".

(** 486-491 *)
Definition registered (c : config) : list (string * list string) :=
  [("regulator", keys (cf_regulator c)); ("drain", keys (cf_drain c)); ("faucet", keys (cf_faucet c)); ("launch", keys (cf_launch c))].

(** 493-501 *)
Definition regulator_buffers (c : config) : list (string * string) :=
  flat_map (fun kv => map (fun mb => (fst kv, mb)) (rc_monitored (snd kv))) (cf_regulator c).

(** 504-518 *)
Definition known_components (m : connmap) : list component :=
  flat_map (fun kv => map (fun x => (conn_type x, conn_name x)) (quick_deserialized_connection_to_connection (snd kv))) m.
Definition known (c : component) (l : list component) : bool := existsb (component_eqb c) l.

(** 520-536 *)
Definition watching_missing (c : config) (comps : list component) : list warning :=
  flat_map (fun rb => if known (CBuffer, snd rb) comps then [] else
    [RegulatorWatchingMissingBuffer ("regulator[""" ++ fst rb ++ """].monitored_buffers") CBuffer (snd rb)]) (regulator_buffers c).

(** 539-559 *)
Definition unused_section (comps : list component) (acc : list warning) (kv : string * list string) : outcome (list warning) :=
  obind (string_to_component_type (fst kv)) (fun t =>
  Good (acc ++ flat_map (fun n => if known (t, n) comps then [] else [InConfigButMissingFlowConnection (fst kv) t n]) (snd kv))%list).

(** 561-567; the name of this function is the opposite of what it answers *)
Definition exists_with_flow_config (reg : list (string * list string)) (key name : string) : bool :=
  match lookup key reg with
  | Some hs => negb (existsb (fun h => h =? name) hs)
  | None => true
  end.

(** 570-596 *)
Definition missing_config (reg : list (string * list string)) (comps : list component) : list warning :=
  flat_map (fun c =>
    if match fst c with
       | CDrain => exists_with_flow_config reg "drain" (snd c)
       | CFaucet => exists_with_flow_config reg "faucet" (snd c)
       | CLaunch => exists_with_flow_config reg "launch" (snd c)
       | CRegulator => exists_with_flow_config reg "regulator" (snd c)
       | _ => false
       end then [InFlowConnectionButMissingConfig (fst c) (snd c)] else []) comps.

(** 215: equality of warnings, derived *)
Definition warning_eqb (a b : warning) : bool :=
  match a, b with
  | InConfigButMissingFlowConnection s t n, InConfigButMissingFlowConnection s' t' n' => (s =? s') && component_eqb (t, n) (t', n')
  | InFlowConnectionButMissingConfig t n, InFlowConnectionButMissingConfig t' n' => component_eqb (t, n) (t', n')
  | InvalidConnection k s, InvalidConnection k' s' => (k =? k') && (s =? s')
  | RegulatorWatchingMissingBuffer s t n, RegulatorWatchingMissingBuffer s' t' n' => (s =? s') && component_eqb (t, n) (t', n')
  | _, _ => false
  end.
(** [HashSet::insert], one after the other *)
Fixpoint as_set (l : list warning) : list warning :=
  match l with [] => [] | w :: r => let r := as_set r in if existsb (warning_eqb w) r then r else w :: r end.

(** 468-599.  The configuration is changed: its connections have been read. *)
Definition lint (c : config) : outcome (config * list warning) :=
  obind (convert_connections (cf_connection c)) (fun '(m, errs) =>
  let c' := with_connection c m in
  match errs with
  | _ :: _ => Good (c', as_set errs)
  | [] =>
    let comps := known_components m in
    obind (ofold (unused_section comps) (registered c') (watching_missing c' comps)) (fun errs =>
    Good (c', as_set (errs ++ missing_config (registered c') comps)%list))
  end).

(** The names of the kinds of components, [Display] of 59-63 *)
Definition ctype_text (t : ctype) : string :=
  match t with
  | CFaucet => "Faucet" | CLaunch => "Launch" | CJunction => "Junction" | CBuffer => "Buffer" | CDrain => "Drain" | CRegulator => "Regulator"
  end.

(** 225-258 *)
Definition warning_text (w : warning) : string :=
  match w with
  | InConfigButMissingFlowConnection sec t n =>
    "PA: Error: 0001: " ++ ctype_text t ++ ":" ++ n ++ " - Configuration exists in " ++ sec ++ ", but this is not referenced in the connections"
  | InFlowConnectionButMissingConfig t n =>
    "PA: Error: 0002: " ++ ctype_text t ++ ":" ++ n ++ " - Is referenced in the flow connections, but is missing required configuration"
  | InvalidConnection id join =>
    "PA: Error: 0003: " ++ id ++ ":" ++ join ++ " - Could not be converted from the configuration"
  | RegulatorWatchingMissingBuffer sec t n =>
    "PA: Error: 0004: " ++ ctype_text t ++ ":" ++ n ++ " - Configuration exists in " ++ sec ++ ", but this is not referenced in the connections"
  end.

(** src/bin/pa2.rs 505-511: [pa2 config lint] *)
Definition lint_show (c : config) : outcome (result config (list string)) :=
  obind (lint c) (fun '(c', errs) =>
  Good (match errs with [] => Ok c' | _ => Err (map warning_text errs) end)).

(** src/bin/pa2.rs 519-521 and 530-532: warnings that matter for running and drawing *)
Definition serious (w : warning) : bool := match w with InConfigButMissingFlowConnection _ _ _ => false | _ => true end.

(** src/bin/pa2.rs 516-526: [pa2 process], up to the building of the pipeline; with what is printed *)
Definition process_config (sh : shuffles) (c : config) : outcome (result config (list string) * list (list string)) :=
  obind (connection_manipulation sh c) (fun '(c1, out) =>
  obind (lint c1) (fun '(c2, errs) =>
  Good (match filter serious errs with [] => Ok c2 | es => Err (map warning_text es) end, out))).

(** src/bin/pa2.rs 527-536: [pa2 graph], up to the drawing *)
Definition graph_config (c : config) : outcome (result config (list string)) :=
  obind (lint c) (fun '(c', errs) =>
  Good (match filter serious errs with [] => Ok c' | es => Err (map warning_text es) end)).
