(** * S_Refusal: what a user is told when a configuration cannot be run *)
From Coq Require Import Ascii String List Bool Arith ZArith DecimalString.
From Verif Require Import M_Prog M_Motion M_Config M_Manip S_Grammar S_Manip S_Lint S_Waiter.
Import ListNotations.
Local Open Scope string_scope.

(** ** Words *)
Definition kind_word (t : ctype) : string :=
  match t with CBuffer => "Buffer" | CDrain => "Drain" | CFaucet => "Faucet" | CJunction => "Junction" | CLaunch => "Launch" | CRegulator => "Regulator" end.
Definition called (c : component) : string := kind_word (fst c) ++ ":" ++ snd c.
Definition port_word (o : oport) : string := match o with POut => "Out" | PErr => "Err" | PExit => "Exit" end.
Definition decimal (z : Z) : string := NilZero.string_of_int (Z.to_int z).

(** ** What stands in the way of building, and how it is put *)
Definition cannot_send (c : component) (why : string) : string := "AddOutput(" ++ called c ++ ", " ++ why ++ ")".
Definition cannot_receive (c : component) (why : string) : string := "AddInput(" ++ called c ++ ", " ++ why ++ ")".

(** The component has no such port. *)
Definition no_such_port (l : link) : Prop :=
  fst (lk_src l) = CDrain \/ (fst (lk_src l) = CFaucet \/ fst (lk_src l) = CRegulator) /\ lk_port l <> POut.

Inductive fault (c : config) : string -> Prop :=
| F_launch n : is_mentioned (cf_connection c) (CLaunch, n) -> lookup n (cf_launch c) = None -> fault c ("Could not find configuration for Launch " ++ n)
| F_command n lc : is_mentioned (cf_connection c) (CLaunch, n) -> lookup n (cf_launch c) = Some lc -> lc_command lc = None ->
    fault c ("Launch '" ++ n ++ "' did not have a command specified")
| F_port l : In l (links (cf_connection c)) -> no_such_port l -> fault c (cannot_send (lk_src l) ("UnsupportedPort(" ++ port_word (lk_port l) ++ ")"))
| F_used i j a b : i < j -> nth_error (links (cf_connection c)) i = Some a -> nth_error (links (cf_connection c)) j = Some b -> same_outlet a b -> fst (lk_src b) <> CJunction ->
    fault c (cannot_send (lk_src b) ("AlreadyAllocated(" ++ port_word (lk_port b) ++ ")"))
| F_faucet l : In l (links (cf_connection c)) -> fst (lk_dst l) = CFaucet -> fault c (cannot_receive (lk_dst l) "UnsupportedForControl")
| F_priority l : In l (links (cf_connection c)) -> fst (lk_dst l) <> CFaucet -> fst (lk_dst l) <> CJunction -> ip_priority (lk_in l) <> 0%Z ->
    fault c (cannot_receive (lk_dst l) ("UnsupportedPriority(" ++ decimal (ip_priority (lk_in l)) ++ ")"))
| F_taken i j a b : i < j -> nth_error (links (cf_connection c)) i = Some a -> nth_error (links (cf_connection c)) j = Some b -> lk_dst a = lk_dst b ->
    fst (lk_dst b) <> CFaucet -> fst (lk_dst b) <> CJunction -> fault c (cannot_receive (lk_dst b) "AlreadyAllocated").

(** ** What lint and the preparation say *)
Definition unused_text (place : string) (c : component) : string :=
  called c ++ " - Configuration exists in " ++ place ++ ", but this is not referenced in the connections".
Definition sentence (w : warning) : string :=
  match w with
  | InConfigButMissingFlowConnection place t n => "PA: Error: 0001: " ++ unused_text place (t, n)
  | InFlowConnectionButMissingConfig t n => "PA: Error: 0002: " ++ called (t, n) ++ " - Is referenced in the flow connections, but is missing required configuration"
  | InvalidConnection k s => "PA: Error: 0003: " ++ k ++ ":" ++ s ++ " - Could not be converted from the configuration"
  | RegulatorWatchingMissingBuffer place t n => "PA: Error: 0004: " ++ unused_text place (t, n)
  end.
(** What lint has to say about a configuration: what cannot be read or, if everything can, what does not fit. *)
Definition said_of (c : config) (w : warning) : Prop := unreadable c w \/ (forall w', ~ unreadable c w') /\ problem c w.

(** What is missing for running the configuration [c], prepared as [c2] *)
Inductive lacks (c2 c : config) : string -> Prop :=
| L_settings t n : needs_config t -> is_mentioned (cf_connection c) (t, n) -> ~ configured c2 (t, n) ->
    lacks c2 c ("PA: Error: 0002: " ++ called (t, n) ++ " - Is referenced in the flow connections, but is missing required configuration")
| L_watched r rc b : In (r, rc) (cf_regulator c) -> In b (rc_monitored rc) -> ~ is_mentioned (cf_connection c) (CBuffer, b) ->
    lacks c2 c ("PA: Error: 0004: Buffer:" ++ b ++ " - Configuration exists in regulator[""" ++ r ++ """].monitored_buffers, but this is not referenced in the connections").

(** A text is part of another. *)
Definition inside (t s : string) : Prop := exists a b, s = a ++ t ++ b.
