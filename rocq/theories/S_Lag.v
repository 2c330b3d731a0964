(** * S_Lag: how far a source is ahead of a file *)
From Coq Require Import Ascii String List Arith.
From Verif Require Import M_Prog M_Motion M_Config M_Manip M_Waiter M_Start S_Trace S_World S_Net S_Path.
Import ListNotations.

(** Where the output [s] is written directly before, once for each time. *)
Definition departures (ps : list (connection * connection)) (s : M_Manip.source) : list component :=
  flat_map (fun ab => if existsb (source_eqb s) (output_at (fst ab)) then [(conn_type (snd ab), conn_name (snd ab))] else []) ps.
(** What one pipe from [s] to [x] can hold: 8 messages in a channel and one in the hand of the one who reads it; the same again where the output goes to several places, and
    where several come together. *)
Definition several {A} (l : list A) : nat := match l with _ :: _ :: _ => 1 | _ => 0 end.
Definition holds (ps : list (connection * connection)) (s : M_Manip.source) (x : component) : nat := 9 * (1 + several (departures ps s) + several (arrivals ps x)).
(** The connections lead from the output [s] to [x], through nothing but components of the kinds [through]; the pipes can hold [h] messages. *)
Inductive leads_to (through : ctype -> Prop) (ps : list (connection * connection)) (s : M_Manip.source) : component -> nat -> Prop :=
| LT_next : forall x, In s (arrivals ps x) -> leads_to through ps s x (holds ps s x)
| LT_on : forall t n o x h, leads_to through ps s (t, n) h -> through t -> In ((t, n), o) (arrivals ps x) -> leads_to through ps s x (h + holds ps ((t, n), o) x).
(** Those that give on what they take, one message after the other; and with the buffers, which do not wait. *)
Definition at_once (t : ctype) : Prop := t = CRegulator \/ t = CJunction.
Definition in_the_end (t : ctype) : Prop := at_once t \/ t = CBuffer.

(** The messages that somebody has put into channels. *)
Definition put (tr : trace) : list bytes := flat_map (fun ev => match ev with (ESend (CData _) (VData d), AOk) => [d] | _ => [] end) tr.
Section Run.
Variables (c : config) (w : waiter) (cwd : option string) (vars : list (string * string)) (l : list nevent).
(** The output [s] has sent the messages [ms]. *)
Inductive has_sent : M_Manip.source -> list bytes -> Prop :=
| HS_faucet : forall n k, faucet_at c w cwd vars n k -> has_sent ((CFaucet, n), POut) (put (own (4 * k) l))
| HS_out : forall n k, program_at w cwd vars n k -> has_sent ((CLaunch, n), POut) (put (own (4 * k + 2) l))
| HS_err : forall n k, program_at w cwd vars n k -> has_sent ((CLaunch, n), PErr) (put (own (4 * k + 3) l))
| HS_exit : forall n k, program_at w cwd vars n k -> has_sent ((CLaunch, n), PExit) (put (own (4 * k) l)).
End Run.
