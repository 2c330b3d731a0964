(** * S_Drain: vocabulary for drains, and for what is opened *)
From Coq Require Import Ascii String List Bool Arith.
From Verif Require Import M_Prog M_Motion M_Drain S_Trace S_Motion.
Import ListNotations.

(** Effects by which something to read or write is opened. *)
Definition openings (tr : trace) : list eff :=
  flat_map (fun ev => match fst ev with
                      | EOpenRead _ | ECreate _ | EStdin | EStdout | EStderr => [fst ev]
                      | _ => []
                      end) tr.

(** What the help text of [pa2] says of a destination: "a filename, - for STDOUT, _ for STDERR or empty for
    NULL output"; and what /dev/null means on unix. *)
Inductive destination := ToFile (name : string) | ToStdout | ToStderr | ToNull.
Definition documented_destination (name : string) : destination :=
  if string_dec name "-" then ToStdout else
  if string_dec name "_" then ToStderr else
  if string_dec name "" then ToNull else ToFile name.
Definition actual_destination (name : string) : destination :=
  if string_dec name "-" then ToStdout else
  if string_dec name "_" then ToStderr else
  if string_dec name "/dev/null" then ToNull else ToFile name.
Definition opened_for (d : destination) : option eff :=
  match d with ToFile n => Some (ECreate n) | ToStdout => Some EStdout | ToStderr => Some EStderr | ToNull => None end.

(** The same for sources: "a filename, - for STDIN, or empty for NULL input". *)
Inductive source := FromFile (name : string) | FromStdin | FromNull.
Definition documented_source (name : string) : source :=
  if string_dec name "-" then FromStdin else if string_dec name "" then FromNull else FromFile name.
Definition opened_from (s : source) : option eff :=
  match s with FromFile n => Some (EOpenRead n) | FromStdin => Some EStdin | FromNull => None end.

(** A drain that has been connected. *)
Definition drain_ready (d : drain) (pl : pull) (name : string) : Prop :=
  dr_stdin d = Some pl /\ dr_write_location d = Some name /\ fresh_pull pl /\ pull_journey pl <> None.


(** What has been opened, or is about to be. *)
Definition opening_of (st : status (mres nat)) (tr : trace) : list eff :=
  openings tr ++ match st with At e => openings [(e, AOk)] | _ => [] end.
