(** * M_Connectable: src/connectable.rs, the errors of connecting *)
From Coq Require Import String List ZArith.
From Verif Require Import M_Prog M_Motion.

(** src/connectable.rs 60-63 *)
Inductive add_output_error := OutAlreadyAllocated (port : oport) | OutUnsupportedPort (port : oport).

(** src/connectable.rs 66-70 *)
Inductive add_input_error := InAlreadyAllocated | InUnsupportedPriority (p : Z) | InUnsupportedForControl.

Definition oport_eqb (a b : oport) : bool :=
  match a, b with
  | PErr, PErr | POut, POut | PExit, PExit => true
  | _, _ => false
  end.

(** src/motion.rs 100-104: [Journey::as_pull_journey] *)
Definition as_pull_journey (j : journey) : pjourney := PJ (j_src j) (j_dst j).
