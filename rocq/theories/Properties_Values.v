(** * Properties_Values: C107 to C110 *)
From Coq Require Import Ascii String List Bool Arith ZArith.
From Verif Require Import M_Prog M_Motion M_Serde M_Values S_Values P_Values.
Import ListNotations.
Local Open Scope string_scope.

Theorem C107_accepted : forall s p, output_port_from_str s = Ok p <-> written_as (oport_name p) s.
Proof. exact port_from. Qed.
Print Assumptions C107_accepted.

Theorem C107_refused : forall s, (forall p, ~ written_as (oport_name p) s) <-> output_port_from_str s = Err s.
Proof. exact port_refused. Qed.
Print Assumptions C107_refused.

Theorem C107_as_in_configuration : forall p, de_oport (VStr (oport_name p)) = Some p /\ output_port_from_str (oport_name p) = Ok p.
Proof. exact port_names. Qed.
Print Assumptions C107_as_in_configuration.

Example C107_example : output_port_from_str "EXIT" = Ok PExit /\ output_port_from_str "eXIT" = Err "eXIT" /\ de_oport (VStr "EXIT") = None.
Proof. vm_compute. auto. Qed.

Theorem C108_symmetric : forall x y, motion_error_eq x y = motion_error_eq y x.
Proof. exact error_sym. Qed.
Print Assumptions C108_symmetric.

Theorem C108_transitive : forall x y z, motion_error_eq x y = true -> motion_error_eq y z = true -> motion_error_eq x z = true.
Proof. exact error_trans. Qed.
Print Assumptions C108_transitive.

Theorem C108_equal : forall x y, motion_error_eq x y = true <-> t_error x = t_error y /\ ~ beyond_compare (t_error x).
Proof. exact error_eq. Qed.
Print Assumptions C108_equal.

Theorem C108_whatever_the_moment : forall e t i t' i' y, motion_error_eq (Timed e t i) y = motion_error_eq (Timed e t' i') y.
Proof. exact error_moment. Qed.
Print Assumptions C108_whatever_the_moment.

Example C108_example :
  motion_error_eq (Timed (SendError (J 1 (Some POut) 2 Finish) ["a"%char]) 5 0) (Timed (SendError (J 1 (Some POut) 2 Finish) ["a"%char]) 9 3) = true /\
  motion_error_eq (Timed (SendError (J 1 (Some POut) 2 Finish) ["a"%char]) 5 0) (Timed (SendError (J 1 (Some PErr) 2 Finish) ["a"%char]) 5 0) = false.
Proof. vm_compute. auto. Qed.

Theorem C109_unlike_itself_refuted : exists x, motion_error_eq x x = false.
Proof. exact not_itself. Qed.
Print Assumptions C109_unlike_itself_refuted.

Theorem C109_which : forall x, motion_error_eq x x = false <-> beyond_compare (t_error x).
Proof. exact error_itself. Qed.
Print Assumptions C109_which.

Example C109_example : motion_error_eq (Timed (LaunchSpawnError (Some "cat")) 0 0) (Timed (LaunchSpawnError (Some "cat")) 0 0) = false /\ motion_error_eq (Timed NoneError 0 0) (Timed NoneError 0 0) = true.
Proof. vm_compute. auto. Qed.

Theorem C110_told_apart : forall a b, ser_iodw a = ser_iodw b -> a = b.
Proof. exact spied_once. Qed.
Print Assumptions C110_told_apart.

Theorem C110_bytes : forall v, exists l, ser_iodw (IOData v) = VMap [("status", VStr "data"); ("data", VSeq l)] /\ List.length l = List.length v /\ Forall is_byte l.
Proof. exact spied_bytes. Qed.
Print Assumptions C110_bytes.

Example C110_example : ser_iodw (IOData ["h"%char; "010"%char]) = VMap [("status", VStr "data"); ("data", VSeq [VNum 104; VNum 10])] /\ ser_iodw (IOData []) <> ser_iodw Finished.
Proof. split; [reflexivity|discriminate]. Qed.
