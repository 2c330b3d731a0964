(** * S_Motion: vocabulary for stating what happens at a set of outputs *)
From Coq Require Import Ascii String List Bool Arith.
From Verif Require Import M_Prog M_Motion S_Trace S_Lines.
Import ListNotations.

(** The ways a write can end: accepted, found closed, failed otherwise. *)
Inductive wout := OAcc | OClosed | OFail.

(** The effect by which message [d] is written to output [p] (none for a discarding output). *)
Definition write_eff (p : push) (d : bytes) : option eff :=
  match p with
  | PsSender _ n | PsIoSender _ n => Some (ESend (CData n) (VData d))
  | PsBytes _ _ f => Some (EWrite f d)
  | _ => None
  end.

Definition write_ans (p : push) (o : wout) : ans :=
  match p, o with
  | _, OAcc => AOk
  | PsBytes _ _ _, OClosed => ABroken
  | PsBytes _ _ _, OFail => AErr
  | _, _ => AClosed
  end.

Definition write_ev (p : push) (d : bytes) (o : wout) : trace :=
  match write_eff p d with Some e => [(e, write_ans p o)] | None => [] end.

(** Which outcomes an output can have at all. *)
Definition can_out (p : push) (o : wout) : Prop :=
  match p with
  | PsNone | PsMock _ _ => o = OAcc
  | PsSender _ _ | PsIoSender _ _ => o <> OFail
  | PsBytes _ _ _ => True
  end.

(** All write attempts of data in a trace, in order, with their outcome. *)
Definition attempts (tr : trace) : list (eff * bytes * ans) :=
  flat_map (fun ev => match ev with
                      | (ESend (CData n) (VData d), a) => [(ESend (CData n) (VData d), d, a)]
                      | (EWrite f d, a) => [(EWrite f d, d, a)]
                      | _ => []
                      end) tr.

(** Reading effects. *)
Definition is_read (e : eff) : bool :=
  match e with ERecv (CData _) | ETryRecv (CData _) | ERead _ => true | _ => false end.
(** Data-writing effects. *)
Definition is_write (e : eff) : bool :=
  match e with ESend (CData _) _ | EWrite _ _ => true | _ => false end.

(** A trace that only closes, flushes and drops. *)
Definition only_closing (tr : trace) : Prop :=
  Forall (fun ev => match fst ev with EClose _ | EDropFd _ | EFlush _ => True | _ => False end) tr.

(** The error by which a component stops when the write of [d] to [p] had outcome [o]. *)
Definition push_fail (p : push) (d : bytes) (o : wout) : option merror :=
  match push_journey p, o with
  | _, OAcc => None
  | Some j, OClosed =>
    match j_brk j with
    | Terminate => Some (OutputClosed j (match p with PsBytes _ _ _ => BrokenPipe | _ => ChannelClosed end) d)
    | _ => None
    end
  | Some j, OFail => Some (WriteIOError j d)
  | None, _ => None
  end.

(** The data among the values of a channel. *)
Definition datas (vs : list val) : list bytes :=
  flat_map (fun v => match v with VData d => [d] | _ => [] end) vs.

(** The messages an input has yielded, or could yield from what has been read of it. *)
Definition got (pl : pull) (tr : trace) : list bytes :=
  match pl with
  | PlReceiver _ n => datas (taken (CData n) tr)
  | PlBytes _ _ f _ => messages_of_reads (reads f tr)
  | PlMock _ q => q
  | PlNone => []
  end.

(** An input as it is when a component is started. *)
Definition fresh_pull (pl : pull) : Prop :=
  match pl with PlBytes _ _ _ sc => sc = split_control_new | _ => True end.

(** The effect by which an input is read, waiting or (second argument) only trying. *)
Definition read_eff (pl : pull) (try : bool) : option eff :=
  match pl with
  | PlReceiver _ n => Some (if try then ETryRecv (CData n) else ERecv (CData n))
  | PlBytes _ _ f _ => Some (ERead f)
  | _ => None
  end.

(** The input has ended: a channel has been closed and drained, a byte source reported end of file. *)
Definition ended (pl : pull) (tr : trace) : Prop :=
  match pl with
  | PlReceiver _ n => saw_end (CData n) tr
  | PlBytes _ _ f _ => In (ERead f, AData []) tr
  | _ => True
  end.

(** Messages offered to an output, accepted or not; messages accepted by it. *)
Definition offered_to (p : push) (tr : trace) : list bytes :=
  match p with
  | PsSender _ n | PsIoSender _ n => datas (offered (CData n) tr)
  | PsBytes _ _ f => flat_map (fun ev => match ev with (EWrite f' d, _) => if f =? f' then [d] else [] | _ => [] end) tr
  | _ => []
  end.
Definition accepted_by (p : push) (tr : trace) : list bytes :=
  match p with
  | PsSender _ n | PsIoSender _ n => datas (sent (CData n) tr)
  | PsBytes _ _ f => written f tr
  | _ => []
  end.

(** An output that is a channel, pipe or file (not a test double, not the discarding one). *)
Definition real_push (p : push) : Prop :=
  match p with PsSender _ _ | PsIoSender _ _ | PsBytes _ _ _ => True | _ => False end.

(** An input that is a channel. *)
Definition is_chan (pl : pull) : Prop := match pl with PlReceiver _ _ => True | _ => False end.

(** A component has let go of an input or an output. *)
Definition pull_released (pl : pull) (tr : trace) : Prop :=
  match pl with
  | PlReceiver _ n => closed_by (CData n) tr
  | PlBytes _ _ f _ => In (EDropFd f, AOk) tr
  | _ => True
  end.
Definition push_released (p : push) (tr : trace) : Prop :=
  match p with
  | PsSender _ n | PsIoSender _ n => closed_by (CData n) tr
  | PsBytes _ _ f => In (EDropFd f, AOk) tr
  | _ => True
  end.

(** The answer by which output [p] says that it is closed. *)
Definition closed_ans (p : push) : ans := match p with PsBytes _ _ _ => ABroken | _ => AClosed end.

(** Output [p] was found closed when offered [d]. *)
Definition found_closed (p : push) (d : bytes) (tr : trace) : Prop :=
  exists e, write_eff p d = Some e /\ In (e, closed_ans p) tr.

(** Where an output leads; two outputs of one component lead to different places. *)
Definition dest (p : push) : list (nat * bool) :=
  match p with
  | PsSender _ n | PsIoSender _ n => [(n, true)]
  | PsBytes _ _ f => [(f, false)]
  | _ => []
  end.
Definition distinct_outputs (pushs : list push) : Prop := NoDup (flat_map dest pushs).

Definition is_real (p : push) : bool :=
  match p with PsSender _ _ | PsIoSender _ _ | PsBytes _ _ _ => true | _ => false end.

(** The attempts [xs] are: message [d], to each of the outputs [pushs] in their order. *)
Definition offers (pushs : list push) (d : bytes) (xs : list (eff * bytes * ans)) : Prop :=
  Forall2 (fun p x => write_eff p d = Some (fst (fst x)) /\ snd (fst x) = d) (filter is_real pushs) xs.

(** Nothing is read. *)
Definition no_reads (tr : trace) : Prop := Forall (fun ev => is_read (fst ev) = false) tr.

(** Whether an input may be read without waiting. *)
Definition try_ok (pl : pull) (t : bool) : Prop :=
  t = true -> match pl with PlReceiver _ _ | PlMock _ _ => True | _ => False end.

(** Effects that only close, flush or drop. *)
Definition closing_eff (e : eff) : Prop := match e with EClose _ | EDropFd _ | EFlush _ => True | _ => False end.
