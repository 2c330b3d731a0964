(** * M_Values: the names of output ports, what a spied message looks like as JSON, and when two errors are equal *)
From Coq Require Import Ascii String List Bool Arith ZArith.
From Verif Require Import M_Prog M_Motion M_Serde.
Import ListNotations.
Local Open Scope string_scope.

(** src/connectable.rs 29-47: [OutputPort::from_str]; the error carries the text *)
Definition output_port_from_str (s : string) : result oport string :=
  if s =? "err" then Ok PErr
  else if s =? "Err" then Ok PErr
  else if s =? "ERR" then Ok PErr
  else if s =? "exit" then Ok PExit
  else if s =? "Exit" then Ok PExit
  else if s =? "EXIT" then Ok PExit
  else if s =? "out" then Ok POut
  else if s =? "Out" then Ok POut
  else if s =? "OUT" then Ok POut
  else Err s.

(** src/motion.rs 29-55: [Serialize for IODataWrapper]; [Vec<u8>] is a sequence of numbers *)
Definition ser_iodw (d : iodw) : value :=
  match d with
  | IOData v => VMap [("status", VStr "data"); ("data", VSeq (map (fun b => VNum (Z.of_nat (nat_of_ascii b))) v))]
  | Finished => VMap [("status", VStr "finished")]
  | Skipped => VMap [("status", VStr "skipped")]
  end.

(** src/motion.rs 184-199: a [MotionError] with what the other models leave out: the moment, and the error of the operating system *)
Record timed := Timed { t_error : merror; t_instant : nat; t_io : nat }.

(** Derived equality: src/motion.rs 22-27, 77-83, 92-98, 112-121; src/connectable.rs 7-21 ([bytes_eqb] is in M_Motion) *)
Definition breakable_eqb (a b : breakable) : bool := match a, b with Consume, Consume | Finish, Finish | Terminate, Terminate => true | _, _ => false end.
Definition oport_eqb (a b : oport) : bool := match a, b with PErr, PErr | POut, POut | PExit, PExit => true | _, _ => false end.
Definition option_eqb {A} (f : A -> A -> bool) (a b : option A) : bool := match a, b with Some x, Some y => f x y | None, None => true | _, _ => false end.
Definition journey_eqb (a b : journey) : bool := (j_src a =? j_src b)%nat && option_eqb oport_eqb (j_port a) (j_port b) && (j_dst a =? j_dst b)%nat && breakable_eqb (j_brk a) (j_brk b).
Definition pjourney_eqb (a b : pjourney) : bool := (pj_src a =? pj_src b)%nat && (pj_dst a =? pj_dst b)%nat.
Definition iodw_eqb (a b : iodw) : bool := match a, b with IOData x, IOData y => bytes_eqb x y | Finished, Finished | Skipped, Skipped => true | _, _ => false end.

(** src/motion.rs 301-316: [PartialEq for MotionError].  The message in a [MonitorReadError] is always [MonitorMessage::Read] and that in a
    [MonitorWriteError] always [MonitorMessage::Wrote] with the number 0 (motion.rs 497-510, 547-554), and a [RecvError] has nothing in it: they compare as equal. *)
Definition motion_error_eq (x y : timed) : bool :=
  match t_error x, t_error y with
  | RecvError j, RecvError j2 => journey_eqb j j2
  | WriteIOError j b, WriteIOError j2 b2 => bytes_eqb b b2 && journey_eqb j j2
  | ReadIOError j, ReadIOError j2 => pjourney_eqb j j2
  | SendError j a, SendError j2 a2 => journey_eqb j j2 && bytes_eqb a a2
  | MonitorReadError j, MonitorReadError j2 => (j =? j2)%nat
  | MonitorWriteError j, MonitorWriteError j2 => pjourney_eqb j j2
  | SpyWriteError s d p m, SpyWriteError s2 d2 p2 m2 => (s =? s2)%nat && (d =? d2)%nat && oport_eqb p p2 && iodw_eqb m m2
  | NoneError, NoneError => true
  | _, _ => false
  end.
