(** * M_Manip: src/config_manip.rs

    A [HashMap] or [HashSet] iterates in an order that the program does not control.  Where that order
    matters it is a parameter ([shuffles]): any rearrangement of the elements.  Theorems hold for all of them. *)
From Coq Require Import Ascii String List Bool Arith ZArith DecimalString.
From Verif Require Import M_Prog M_Config M_Connectable M_Parser.
Import ListNotations.
Local Open Scope string_scope.

Fixpoint omap {A B} (f : A -> outcome B) (l : list A) : outcome (list B) :=
  match l with
  | [] => Good []
  | x :: r => obind (f x) (fun y => obind (omap f r) (fun ys => Good (y :: ys)))
  end.
Fixpoint ofold {A B} (f : A -> B -> outcome A) (l : list B) (a : A) : outcome A :=
  match l with
  | [] => Good a
  | x :: r => obind (f a x) (fun a' => ofold f r a')
  end.

(** 17: [format!("{}_{}", original_key, i)].  The number is an [i32]; that there are fewer than 2^31 names is assumed. *)
Definition numbered (k : string) (i : nat) : string := k ++ "_" ++ NilZero.string_of_uint (Nat.to_uint i).

(** 14-23.  The loop, with the number of names still to be tried before the answer is certain; P_Pair shows that the last
    case is never an existing name. *)
Fixpoint new_key_from (fuel i : nat) (k : string) (existing : list string) : string :=
  match fuel with
  | O => numbered k i
  | S f => if mem (numbered k i) existing then new_key_from f (S i) k existing else numbered k i
  end.
Definition generate_new_key (k : string) (existing : list string) : string := new_key_from (List.length existing) 1 k existing.

(** 25-28 *)
Inductive apart := Single (c : connection) | Double (a b : connection).

Definition pop {A} (l : list A) : list A * option A :=
  match rev l with [] => ([], None) | x :: r => (rev r, Some x) end.

(** 30-50 *)
Definition break_apart_chunker (acc : list apart) (item : connection) : list apart :=
  let (acc', last) := pop acc in
  (acc' ++ match last with
           | None => [Single item]
           | Some (Single first) => [Double first item]
           | Some (Double first second) => [Double first second; Double second item]
           end)%list.

(** 52-86 *)
Definition break_apart_mapper (x : apart) : outcome apart :=
  match x with
  | Single _ => Crash "break_apart_mapper encountered None"
  | Double s e =>
    obind (match e with
           | EndC t n i c => Good (EndC t n i c)
           | MiddleC t n i _ c => Good (EndC t n i c)
           | StartC _ _ _ _ => Crash "Last item in ApartIterator::Double is a StartConnection"
           end) (fun new_end =>
    obind (match s with
           | EndC _ _ _ _ => Crash "Last item in ApartIterator::Double is a EndConnection"
           | MiddleC t n _ o c => Good (StartC t n o c)
           | StartC t n o c => Good (StartC t n o c)
           end) (fun new_start =>
    Good (Double new_start new_end)))
  end.

(** 88-97 *)
Definition apart_iterator_to_double_connection (x : apart) : outcome dconn :=
  match x with
  | Single _ => Crash "apart_iterator_to_double_connection encountered ApartIterator::Single"
  | Double a b => Good (Connections [a; b])
  end.

(** 99-106 *)
Definition break_apart (input : list connection) : outcome (list dconn) :=
  omap (fun x => obind (break_apart_mapper x) apart_iterator_to_double_connection) (fold_left break_apart_chunker input []).

Definition connmap := list (string * dconn).

(** 116-120 *)
Fixpoint insert_pairs (k : string) (pairs : list dconn) (existing : list string) (acc : connmap) : connmap :=
  match pairs with
  | [] => acc
  | p :: r => let new_key := generate_new_key k existing in insert_pairs k r (new_key :: existing) (bput new_key p acc)
  end.

(** 110-124 *)
Definition rebuild_pair_up_connections_folder (acc : connmap) (item : string * dconn) : outcome connmap :=
  match snd item with
  | JoinString _ => Crash "rebuild_joiner_folder encountered DeserializedConnection::JoinString"
  | Connections v => obind (break_apart v) (fun pairs => Good (insert_pairs (fst item) pairs (keys acc) acc))
  end.

(** 794, 805 *)
Definition pair_up (m : connmap) : outcome connmap := ofold rebuild_pair_up_connections_folder m [].

(** Sources (a port of a component) and components *)
Definition source := (ctype * string * oport)%type.
Definition component := (ctype * string)%type.
Definition component_eqb (a b : component) : bool := ctype_eqb (fst a) (fst b) && String.eqb (snd a) (snd b).
Definition source_eqb (a b : source) : bool := component_eqb (fst a) (fst b) && oport_eqb (snd a) (snd b).

(** 226-227: [*counts.entry(k).or_insert(0) += 1] *)
Fixpoint bump {K} (eqb : K -> K -> bool) (k : K) (m : list (K * nat)) : list (K * nat) :=
  match m with
  | [] => [(k, 1)]
  | (k', n) :: r => if eqb k k' then (k', S n) :: r else (k', n) :: bump eqb k r
  end.

(** 210-231 *)
Definition count_start_ends (m : connmap) : outcome (list (source * nat) * list (component * nat)) :=
  ofold (fun '(outs, ins) item =>
    match snd item with
    | JoinString _ => Crash "add_junctions::in_counts - Has JoinString"
    | Connections [StartC ts ns o _; EndC te ne _ _] => Good (bump source_eqb (ts, ns, o) outs, bump component_eqb (te, ne) ins)
    | Connections _ => Crash "add_junctions::in_counts - Not start end pair"
    end) m ([], []).

(** 240-258 *)
Definition junction_name (c : connection) : outcome (list string) :=
  match c with
  | MiddleC _ _ _ _ _ => Crash "junction_names - Has Middle"
  | StartC t n _ _ | EndC t n _ _ => Good (if ctype_eqb t CJunction then [n] else [])
  end.
(** 234-274 *)
Definition extract_junction_names (m : connmap) : outcome (list string) :=
  ofold (fun acc item =>
    match snd item with
    | JoinString _ => Crash "junction_names - Has JoinString"
    | Connections v => obind (omap junction_name v) (fun names => Good (acc ++ List.concat names)%list)
    end) m [].

(** 277-288: the keys counted at least twice *)
Definition get_multis {K} (counts : list (K * nat)) : list K :=
  map fst (filter (fun kv => negb (snd kv <? 2)%nat) counts).

(** The state of the loops of 301-340 and 347-387: the keys in use, whether the junction has been connected, what has been built *)
Record adding := Adding { ad_keys : list string; ad_added : bool; ad_acc : connmap }.

(** 301-340: one connection, for the shared source [ms] *)
Definition add_start_step (ms : source) (jn : string) (a : adding) (item : string * dconn) : outcome adding :=
  let k := fst item in
  match snd item with
  | JoinString _ => Crash "add_start_junctions_for - Has JoinString"
  | Connections [start; end_] =>
    match start, end_ with
    | StartC t n o _, EndC te ne ie _ =>
      if source_eqb (t, n, o) ms then
        let a' :=
          if ad_added a then a else
          let new_key := generate_new_key "dyn_connection" (ad_keys a) in
          Adding (new_key :: ad_keys a) true
            (bput new_key (Connections [StartC t n o None; EndC CJunction jn (InPort Finish (ip_priority ie)) None]) (ad_acc a)) in
        Good (Adding (ad_keys a') (ad_added a') (bput k (Connections [StartC CJunction jn POut None; EndC te ne ie None]) (ad_acc a')))
      else Good (Adding (ad_keys a) (ad_added a) (bput k (Connections [start; end_]) (ad_acc a)))
    | _, _ => Good (Adding (ad_keys a) (ad_added a) (bput k (Connections [start; end_]) (ad_acc a)))
    end
  | Connections _ => Crash "add_start_junctions_for - does not have 2 elements"
  end.
(** 297-341 *)
Definition add_start_junctions_for (x : list string * connmap) (ms : source) : outcome (list string * connmap) :=
  obind (extract_junction_names (snd x)) (fun names =>
  let jn := generate_new_key "junction" names in
  obind (ofold (add_start_step ms jn) (snd x) (Adding (fst x) false [])) (fun a => Good (ad_keys a, ad_acc a))).

(** 347-387: one connection, for the shared destination [me] *)
Definition add_end_step (me : component) (jn : string) (a : adding) (item : string * dconn) : outcome adding :=
  let k := fst item in
  match snd item with
  | JoinString _ => Crash "add_start_junctions_for - Has JoinString"
  | Connections [start; end_] =>
    match start, end_ with
    | StartC t n o _, EndC te ne ie _ =>
      if component_eqb (te, ne) me then
        let acc := bput k (Connections [StartC t n o None; EndC CJunction jn ie None]) (ad_acc a) in
        if ad_added a then Good (Adding (ad_keys a) true acc)
        else
          let new_key := generate_new_key "dyn_connection" (ad_keys a) in
          Good (Adding (new_key :: ad_keys a) true
            (bput new_key (Connections [StartC CJunction jn POut None; EndC te ne (InPort Finish (ip_priority ie)) None]) acc))
      else Good (Adding (ad_keys a) (ad_added a) (bput k (Connections [start; end_]) (ad_acc a)))
    | _, _ => Good (Adding (ad_keys a) (ad_added a) (bput k (Connections [start; end_]) (ad_acc a)))
    end
  | Connections _ => Crash "add_start_junctions_for - does not have 2 elements"
  end.
(** 343-388 *)
Definition add_end_junctions_for (x : list string * connmap) (me : component) : outcome (list string * connmap) :=
  obind (extract_junction_names (snd x)) (fun names =>
  let jn := generate_new_key "junction" names in
  obind (ofold (add_end_step me jn) (snd x) (Adding (fst x) false [])) (fun a => Good (ad_keys a, ad_acc a))).

(** The orders of iteration of [start_counts] (390), [end_counts] (391) and the set of launches (796) *)
Record shuffles := Shuffles {
  sh_starts : list (source * nat) -> list (source * nat);
  sh_ends : list (component * nat) -> list (component * nat);
  sh_launches : list string -> list string
}.

(** 292-403 *)
Definition add_junctions (sh : shuffles) (m : connmap) : outcome connmap :=
  obind (count_start_ends m) (fun '(start_counts, end_counts) =>
  let multi_starts := get_multis (sh_starts sh start_counts) in
  let multi_ends := get_multis (sh_ends sh end_counts) in
  obind (ofold add_start_junctions_for multi_starts (keys m, m)) (fun x =>
  obind (ofold add_end_junctions_for multi_ends x) (fun y => Good (snd y)))).

(** 549-559 *)
Definition connection_pairs (m : connmap) : list (connection * connection) :=
  flat_map (fun item => match snd item with Connections [a; b] => [(a, b)] | _ => [] end) m.

(** A set as a list without repetitions *)
Definition set_add (k : string) (l : list string) : list string := if mem k l then l else (l ++ [k])%list.

(** 547-589 *)
Definition identify_required_spies_for_launch_exits (m : connmap) : list string :=
  let pairs := connection_pairs m in
  let has_exit := flat_map (fun p => match fst p with StartC CLaunch n PExit _ => [n] | _ => [] end) pairs in
  let all_launch := fold_left (fun acc p => match fst p with StartC CLaunch n _ _ => set_add n acc | _ => acc end) pairs [] in
  filter (fun n => negb (mem n has_exit)) all_launch.

(** 656-667 *)
Fixpoint add_spies (c : config) (drains conns : list string) (to_add : list string) : config :=
  match to_add with
  | [] => c
  | launch_name :: r =>
    let new_drain_key := generate_new_key "dyn_drain" drains in
    let new_connection_key := generate_new_key "dyn_connection" conns in
    add_spies
      (Config (cf_faucet c) (cf_regulator c) (hput new_drain_key "/dev/null" (cf_drain c)) (cf_launch c)
        (bput new_connection_key
          (Connections [StartC CLaunch launch_name PExit None; EndC CDrain new_drain_key (InPort Terminate 0) None]) (cf_connection c)))
      (new_drain_key :: drains) (new_connection_key :: conns) r
  end.
(** 650-668.  With the configuration, what is printed on standard output: one line, showing a set of names. *)
Definition add_launch_exit_spies (c : config) (to_add : list string) : config * list (list string) :=
  (add_spies c (keys (cf_drain c)) (keys (cf_connection c)) to_add, [keys (cf_drain c)]).

(** src/config.rs 217-223 *)
Inductive warning :=
| RegulatorWatchingMissingBuffer (section : string) (t : ctype) (n : string)
| InConfigButMissingFlowConnection (section : string) (t : ctype) (n : string)
| InFlowConnectionButMissingConfig (t : ctype) (n : string)
| InvalidConnection (id join : string).

(** src/config.rs 442-466 (with [connections_mapper], 432-439) *)
Definition convert_one (item : string * dconn) : outcome ((string * dconn) * list warning) :=
  match snd item with
  | JoinString s =>
    obind (load_connection_from_string s) (fun r =>
    Good (match r with
          | Some l => ((fst item, Connections l), [])
          | None => (item, [InvalidConnection (fst item) s])
          end))
  | Connections _ => Good (item, [])
  end.
Definition convert_connections (m : connmap) : outcome (connmap * list warning) :=
  obind (omap convert_one m) (fun l => Good (map fst l, flat_map snd l)).

Definition with_connection (c : config) (m : connmap) : config :=
  Config (cf_faucet c) (cf_regulator c) (cf_drain c) (cf_launch c) m.

(** 791-800 *)
Definition connection_manipulation (sh : shuffles) (c : config) : outcome (config * list (list string)) :=
  obind (convert_connections (cf_connection c)) (fun '(read, _) =>
  obind (pair_up read) (fun paired =>
  obind (add_junctions sh paired) (fun m =>
  let to_add := sh_launches sh (identify_required_spies_for_launch_exits m) in
  Good (add_launch_exit_spies (with_connection c m) to_add)))).

(** 802-808 *)
Definition connection_manipulation_light (c : config) : outcome config :=
  obind (convert_connections (cf_connection c)) (fun '(read, _) =>
  obind (pair_up read) (fun paired => Good (with_connection c paired))).
