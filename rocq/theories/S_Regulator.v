(** * S_Regulator: vocabulary for pausing and resuming *)
From Coq Require Import Ascii String List Bool Arith.
From Verif Require Import M_Prog M_Motion M_Regulator M_Faucet S_Trace S_Motion S_World.
Import ListNotations.

(** A user of a handle: [true] asks to pause, [false] to resume; the answers in order. *)
Fixpoint requests (ops : list bool) (c : regulator_control) : prog (list bool * regulator_control) :=
  match ops with
  | [] => Ret ([], c)
  | o :: rest =>
    ' (ok, c') <- (if o then rc_pause c else rc_resume c) ;;
    ' (oks, c'') <- requests rest c' ;;
    Ret (ok :: oks, c'')
  end.

(** The requests that change something, starting from state [now]. *)
Fixpoint changes (now : bool) (ops : list bool) : list bool :=
  match ops with
  | [] => []
  | o :: rest => if Bool.eqb o now then changes now rest else o :: changes o rest
  end.

(** Nobody but component [i] takes from channel [c] or closes it. *)
Definition mind_own (i : nat) (c : chan) (l : list nevent) : Prop :=
  taken c (others i l) = [] /\ ~ closed_by c (others i l).

(** No answer is possible now: the component has to wait. *)
Definition blocked (w : world) (e : eff) : Prop := forall a w', ~ wstep w (e, a) w'.

(** The latest size reported on a channel, 0 before the first report. *)
Definition latest (n : nat) (tr : trace) : nat :=
  fold_left (fun old v => match v with VSize k => k | _ => old end) (taken (CSize n) tr) 0.

(** The sum of the latest sizes of the buffers that are still there. *)
Definition gone (n : nat) (tr : trace) : bool :=
  existsb (fun ev => match ev with (ETryRecv (CSize m), AClosed) => n =? m | _ => false end) tr.
Definition level (chans : list nat) (tr : trace) : nat :=
  fold_right (fun n sum => if gone n tr then sum else latest n tr + sum) 0 chans.

(** The signals given so far (accepted or not): the odd ones are pauses. *)
Definition signals (c : nat) (tr : trace) : nat := length (offered (CCtl c) tr).
Definition told_to_pause (c : nat) (tr : trace) : bool := Nat.odd (signals c tr).

(** The monitors still held: in a pass the first of these is asked first. *)
Definition let_go (n : nat) (tr : trace) : bool :=
  existsb (fun ev => match ev with (EClose (CSize m), _) => n =? m | _ => false end) tr.
Definition held (chans : list nat) (tr : trace) : list nat := filter (fun n => negb (let_go n tr)) chans.

(** Size reports taken. *)
Definition report_count (chans : list nat) (tr : trace) : nat := length (flat_map (fun n => taken (CSize n) tr) chans).

(** Between two passes neither mark is overstepped on the wrong side.  (If the marks overlap a level
    on the right side of both leaves the regulator running.) *)
Definition settled (low high c : nat) (chans : list nat) (tr : trace) : Prop :=
  if told_to_pause c tr then low < level chans tr else level chans tr < high \/ level chans tr <= low.

(** A regulator wired between [pl] and [ps] and not yet started. *)
Definition regulator_ready (r : regulator) (pl : pull) (ps : push) : Prop :=
  rg_started r = false /\ rg_stdin r = Some pl /\ rg_stdout r = Some ps /\ fresh_pull pl /\ real_push ps.

(** A faucet reading [name], wired to [ps] and not yet started; how it gets at its bytes. *)
Definition faucet_ready (f : faucet) (name : string) (ps : push) : Prop :=
  fc_started f = false /\ fc_read_location f = Some name /\ fc_stdout f = Some ps /\ real_push ps /\ fc_pull_journey f <> None.
Definition source_eff (name : string) : eff := if string_dec name "-"%string then EStdin else EOpenRead name.
