(** * S_Values: what the claims about port names, spied messages and equal errors are stated with *)
From Coq Require Import Ascii String List Bool Arith ZArith.
From Verif Require Import M_Prog M_Motion M_Serde M_Values.
Import ListNotations.
Local Open Scope string_scope.

(** A letter of the alphabet as a capital; other characters as they are *)
Definition capital (c : ascii) : ascii :=
  let n := nat_of_ascii c in if andb (Nat.leb 97 n) (Nat.leb n 122) then ascii_of_nat (n - 32) else c.

Fixpoint all_capitals (s : string) : string := match s with EmptyString => EmptyString | String c r => String (capital c) (all_capitals r) end.
Definition first_capital (s : string) : string := match s with EmptyString => EmptyString | String c r => String (capital c) r end.

(** The three ways in which a name may be written *)
Definition written_as (name s : string) : Prop := s = name \/ s = first_capital name \/ s = all_capitals name.

(** The kinds of error that are never equal to anything *)
Definition beyond_compare (e : merror) : Prop :=
  (exists j, e = CloseIOError j) \/ (exists j, e = OpenIOError j) \/ (exists j r d, e = OutputClosed j r d) \/ (exists c, e = LaunchSpawnError c).

(** A number that fits in a byte *)
Definition is_byte (v : value) : Prop := exists n, v = VNum n /\ (0 <= n < 256)%Z.
