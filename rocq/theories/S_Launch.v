(** * S_Launch: vocabulary for launched programs *)
From Coq Require Import Ascii String List Bool Arith ZArith NArith.
From Verif Require Import M_Prog M_Motion M_Launch S_Trace S_Lines S_Motion S_World M_Join.
Import ListNotations.

(** A text of decimal digits, without superfluous zeros, and the number it stands for. *)
Definition digit (c : ascii) : option N :=
  let n := N_of_ascii c in if ((48 <=? n) && (n <=? 57))%N then Some (n - 48)%N else None.
Fixpoint value_from (acc : N) (t : bytes) : option N :=
  match t with
  | [] => Some acc
  | c :: r => match digit c with Some d => value_from (10 * acc + d)%N r | None => None end
  end.
Definition number (n : N) (t : bytes) : Prop :=
  t <> [] /\ value_from 0 t = Some n /\ (hd_error t = Some "0"%char -> t = ["0"%char]).
Definition decimal (z : Z) (t : bytes) : Prop :=
  if (z <? 0)%Z then exists r, t = "-"%char :: r /\ number (Z.to_N (- z)) r else number (Z.to_N z) t.

(** What the exit port should say: the code in decimal, or an underscore for a program that was killed. *)
Definition exit_text (code : option Z) (t : bytes) : Prop :=
  match code with Some z => decimal z t | None => t = ["_"%char] end.

(** An input that is a channel or a byte source (not a test double, not nothing), as it is when a component is started. *)
Definition real_pull (pl : pull) : Prop := match pl with PlBytes _ _ _ _ | PlReceiver _ _ => True | _ => False end.

(** A launch that has been connected: its input is as another component made it, its outputs are channels. *)
Definition launch_ready (l : launch) : Prop :=
  la_launched l = false /\
  (forall pl, la_stdin l = Some pl -> fresh_pull pl /\ real_pull pl) /\
  (forall ps, la_stdout l = Some ps -> real_push ps) /\
  (forall ps, la_stderr l = Some ps -> real_push ps).

(** The pipes of the child. *)
Definition child_of (tr : trace) : option (fd * fd * fd) :=
  match tr with (ESpawn _, AChild fin fout ferr) :: _ => Some (fin, fout, ferr) | _ => None end.

(** The first of several results that is an error. *)
Fixpoint first_error (l : list (mres nat)) : option merror :=
  match l with [] => None | Err e :: _ => Some e | Ok _ :: r => first_error r end.

Definition spawns (tr : trace) : list spawning := flat_map (fun ev => match fst ev with ESpawn s => [s] | _ => [] end) tr.
Definition statuses (tr : trace) : list ans := flat_map (fun ev => match ev with (EStatus, a) => [a] | _ => [] end) tr.

(** The exit port is connected to channel [n], and no other output is. *)
Definition exit_ready (l : launch) (j : journey) (n : nat) : Prop :=
  la_exit_status l = Some (j, n) /\
  forall ps d, la_stdout l = Some ps \/ la_stderr l = Some ps -> write_eff ps d <> Some (ESend (CData n) (VData d)).

(** The status of relay 2 and of relay 3 in the standing of the launch. *)
Definition relay_status (i : nat) (st : jstatus (mres nat) (mres nat) (mres nat) (mres nat)) (s : status (mres nat)) : Prop :=
  match st with
  | Before _ => False
  | During a b c => s = match i with 1 => a | 2 => b | _ => c end
  | After _ => exists r, s = Done r
  end.
