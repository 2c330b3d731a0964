(** * S_Junction: vocabulary for junctions *)
From Coq Require Import Ascii String List Bool Arith ZArith.
From Verif Require Import M_Prog M_Motion M_BackOff M_Junction S_Trace.
Import ListNotations.

(** The messages taken without waiting, in order, with the channel each came from. *)
Definition arrivals (tr : trace) : list (nat * bytes) :=
  flat_map (fun ev => match ev with (ETryRecv (CData n), AMsg (VData d)) => [(n, d)] | _ => [] end) tr.

(** The inputs that reported their end, in order. *)
Definition ends (tr : trace) : list nat :=
  flat_map (fun ev => match ev with (ETryRecv (CData n), AClosed) => [n] | _ => [] end) tr.

(** The inputs asked, in order. *)
Definition asked (tr : trace) : list nat :=
  flat_map (fun ev => match ev with (ETryRecv (CData n), _) => [n] | _ => [] end) tr.

(** The data channels closed, in order. *)
Definition closes (tr : trace) : list nat :=
  flat_map (fun ev => match ev with (EClose (CData n), _) => [n] | _ => [] end) tr.

(** [s] is an interleaving of the lists [ls]: repeatedly the head of one of them. *)
Inductive interleave {A} : list (list A) -> list A -> Prop :=
| IL_nil : forall ls, Forall (fun l => l = []) ls -> interleave ls []
| IL_cons : forall pre x l post s, interleave (pre ++ l :: post) s -> interleave (pre ++ (x :: l) :: post) (x :: s).

(** Asking in vain. *)
Definition vain (n : nat) : event := (ETryRecv (CData n), AEmpty).

(** ** Removing marked elements *)
Fixpoint unmarked {X} (bs : list bool) (l : list X) : list X :=
  match bs, l with
  | true :: bs', _ :: l' => unmarked bs' l'
  | false :: bs', x :: l' => x :: unmarked bs' l'
  | _, l => l
  end.
Fixpoint marked_from (i : nat) (bs : list bool) : list nat :=
  match bs with
  | [] => []
  | b :: bs' => (if b then [i] else []) ++ marked_from (S i) bs'
  end.
(** Positions of the marked elements, row by row. *)
Fixpoint marked_rows (i : nat) (rows : list (list bool)) : list (nat * nat) :=
  match rows with
  | [] => []
  | bs :: rows' => map (fun j => (i, j)) (marked_from 0 bs) ++ marked_rows (S i) rows'
  end.

(** How many times it has slept since it last took a message or was told of an end; counted up to 51. *)
Definition naps (tr : trace) : nat :=
  fold_left (fun k ev => match ev with
                         | (ESleep _, _) => Nat.min 51 (S k)
                         | (ETryRecv _, AMsg _) | (ETryRecv _, AClosed) => 0
                         | _ => k
                         end) tr 0.

(** ** Junctions ready to start *)
Definition io_sender (p : push) : Prop := match p with PsIoSender _ _ => True | _ => False end.
Definition receiver (p : pull) : Prop := match p with PlReceiver _ _ => True | _ => False end.
Definition pl_chan (p : pull) : nat := match p with PlReceiver _ n => n | _ => 0 end.
Definition ps_chan (p : push) : nat := match p with PsIoSender _ n => n | _ => 0 end.

Definition in_chans (j : junction) : list nat := map (fun x => pl_chan (fst x)) (jn_inputs j).
Definition out_chans (j : junction) : list nat := map ps_chan (jn_stdout j).

(** Inputs and outputs are channels, all different, as [add_input] and [add_output] make them. *)
Definition junction_ready (j : junction) : Prop :=
  jn_started j = false /\ jn_stdin j = [] /\ Forall io_sender (jn_stdout j) /\
  Forall (fun x => receiver (fst x)) (jn_inputs j) /\ NoDup (in_chans j ++ out_chans j).

(** Input channel [n] was added with priority [z]. *)
Definition priority (j : junction) (n : nat) (z : Z) : Prop := exists p, In (p, z) (jn_inputs j) /\ pl_chan p = n.

(** The inputs whose priority number is smallest, in the order in which they were added. *)
Definition first_inputs (j : junction) : list nat :=
  map (fun x => pl_chan (fst x))
    (filter (fun x => forallb (fun y => (snd x <=? snd y)%Z) (jn_inputs j)) (jn_inputs j)).

Definition mem (n : nat) (l : list nat) : bool := existsb (Nat.eqb n) l.

(** The elements of [m] occur in [l] in turn: first, second, ..., last, first, second, ... *)
Definition robin (l m : list nat) : Prop := exists k, prefix (filter (fun n => mem n m) l) (concat (repeat m k)).

(** Those of [m] that have not been closed. *)
Definition still_open (m : list nat) (tr : trace) : list nat := filter (fun n => negb (mem n (closes tr))) m.

(** ** A client of the back-off: a list of waits ([true]) and resets ([false]) *)
Fixpoint use_back_off (ops : list bool) (b : back_off) : prog unit :=
  match ops with
  | [] => Ret tt
  | true :: ops' => ' (_, b') <- back_off_wait b ;; use_back_off ops' b'
  | false :: ops' => use_back_off ops' (snd (back_off_reset b))
  end.
(** Waits since the last reset. *)
Definition waits_since_reset (ops : list bool) : nat := fold_left (fun k (o : bool) => if o then S k else 0) ops 0.
(** The delays slept. *)
Definition delays (tr : trace) : list nat := flat_map (fun ev => match ev with (ESleep ms, _) => [ms] | _ => [] end) tr.
