(** * M_Buffer: src/buffer.rs *)
From Coq Require Import Ascii String List Bool Arith ZArith.
From Verif Require Import M_Prog M_Motion M_Connectable M_BackOff S_World M_Join.
Import ListNotations.
Local Open Scope string_scope.

(** src/buffer.rs 23-28 *)
Record buffer := Buffer {
  bf_stdout_size : nat;
  bf_stdout : option push;
  bf_stdin : option pull;
  bf_monitor : option nat
}.

(** src/buffer.rs 56-63 *)
Definition buffer_new : buffer := Buffer 8 None None None.

(** src/buffer.rs 33-38.  [n] names the new channel, of capacity [bf_stdout_size]. *)
Definition buffer_add_output (b : buffer) (port : oport) (br : breakable) (src dst n : nat)
  : result (buffer * pull) add_output_error :=
  match bf_stdout b with
  | Some _ => Err (OutAlreadyAllocated port)
  | None =>
    Ok (Buffer (bf_stdout_size b) (Some (PsIoSender (J src (Some port) dst br) n)) (bf_stdin b) (bf_monitor b),
        PlReceiver (PJ src dst) n)
  end.

(** src/buffer.rs 40-49 *)
Definition buffer_add_input (b : buffer) (p : pull) (priority : Z) : result buffer add_input_error :=
  if negb (priority =? 0)%Z then Err (InUnsupportedPriority priority) else
  match bf_stdin b with
  | Some _ => Err InAlreadyAllocated
  | None => Ok (Buffer (bf_stdout_size b) (bf_stdout b) (Some p) (bf_monitor b))
  end.

(** src/buffer.rs 65-70; None for the failing assertion.  [n] names the new channel, of capacity
    [bf_stdout_size]. *)
Definition buffer_add_size_monitor (b : buffer) (n : nat) : option buffer :=
  match bf_monitor b with
  | Some _ => None
  | None => Some (Buffer (bf_stdout_size b) (bf_stdout b) (bf_stdin b) (Some n))
  end.

(** src/buffer.rs 72-74 *)
Definition buffer_set_stdout_size (b : buffer) (size : nat) : buffer :=
  Buffer size (bf_stdout b) (bf_stdin b) (bf_monitor b).

(** src/buffer.rs 113-115: the counter: size, back_off and last *)
Record counter := Counter { ct_size : nat; ct_back : back_off; ct_last : nat }.

(** src/buffer.rs 135-139: [size -= 1] of a usize.  In a debug build an underflow panics; a release build
    goes on with the largest number.  The model panics. *)
Definition minus_one (n : nat) : prog nat :=
  match n with O => Panic "attempt to subtract with overflow" | S m => Ret m end.

(** src/buffer.rs 118-130: the look at [m_in]: movement and size *)
Definition look_in (mi size : nat) : prog (bool * nat) :=
  r <- try_recv (CMon mi) ;;
  match r with
  | TOk VWrote => Ret (true, S size)
  | TOk _ => Panic "SHOULD NOT BE HERE"
  | _ => Ret (false, size)
  end.

(** src/buffer.rs 131-143: the look at [m_out] *)
Definition look_out (mo size : nat) (moved : bool) : prog (bool * nat) :=
  r <- try_recv (CMon mo) ;;
  match r with
  | TOk VRead => n <- minus_one size ;; Ret (true, n)
  | TOk _ => Panic "SHOULD NOT BE HERE"
  | _ => Ret (moved, size)
  end.

(** src/buffer.rs 144-150: the report.  None: the receiver has gone. *)
Definition report_size (sender : option nat) (size last : nat) : prog (option nat) :=
  match sender with
  | Some s =>
    if negb (last =? size)%nat then
      ok <- send (CSize s) (VSize size) ;;
      Ret (if ok then Some size else None)
    else Ret (Some last)
  | None => Ret (Some last)
  end.

(** src/buffer.rs 151: [m_in.is_empty() && m_in.is_closed() && m_out.is_empty() && m_out.is_closed()] *)
Definition both_over (mi mo : nat) : prog bool :=
  a <- is_empty (CMon mi) ;;
  if negb a then Ret false else
  b <- is_closed (CMon mi) ;;
  if negb b then Ret false else
  c <- is_empty (CMon mo) ;;
  if negb c then Ret false else
  is_closed (CMon mo).

(** src/buffer.rs 116-161: one turn of the loop.  The result is Ok(size), or None for the SendError (which
    nobody looks at). *)
Definition count_body (sender : option nat) (mi mo : nat) (s : counter) : prog (counter + option nat) :=
  ' (moved, size) <- look_in mi (ct_size s) ;;
  ' (moved, size) <- look_out mo size moved ;;
  r <- report_size sender size (ct_last s) ;;
  match r with
  | None => Ret (inr None)
  | Some last =>
    over <- both_over mi mo ;;
    if over then Ret (inr (Some size)) else
    if moved then Ret (inl (Counter size (snd (back_off_reset (ct_back s))) last))
    else
      ' (_, b) <- back_off_wait (ct_back s) ;;
      Ret (inl (Counter size b last))
  end.

(** src/buffer.rs 112-163 [total_in_buffer], with the drops of m_out, m_in and sender *)
Definition total_in_buffer (sender : option nat) (mi mo : nat) : prog (option nat) :=
  r <- iter (count_body sender mi mo) (Counter 0 back_off_new 0) ;;
  close (CMon mo) ;;;
  close (CMon mi) ;;;
  match sender with Some s => close (CSize s) | None => Ret tt end ;;;
  Ret r.

(** src/buffer.rs 169-174 [structure_motion_result] *)
Definition buffer_result (r_a r_b : mres nat) (total : option nat) : mres nat :=
  match r_a, r_b with
  | Ok stdin_count, Ok _ => Ok stdin_count
  | _, _ => Err NoneError
  end.

(** src/buffer.rs 87-91: the input and the output, or the early end.  A [stdin] already taken is
    dropped. *)
Definition buffer_ends (b : buffer) : prog (mres nat + pull * push) :=
  match bf_stdin b, bf_stdout b with
  | None, _ => Ret (inl (Err NoneError))
  | Some pl, None => drop_pull pl ;;; Ret (inl (Err NoneError))
  | Some pl, Some ps =>
    match push_journey ps with
    | None => drop_push ps ;;; drop_pull pl ;;; Ret (inl (Err NoneError))
    | Some _ => Ret (inr (pl, ps))
    end
  end.

(** src/buffer.rs 83-85, 90-110: the two halves; [u] names the unbounded channel, [mi] and [mo] the monitor
    channels, of capacity 8 *)
Definition half_a (u mi : nat) (x : pull * push) : prog (mres nat) :=
  motion (fst x) (MN None (Some mi)) None (PsSender (J 0 None 0 (push_brk (snd x))) u).
Definition half_b (u mo : nat) (spy : option nat) (x : pull * push) : prog (mres nat) :=
  motion (PlReceiver (PJ 0 0) u) (MN (Some mo) None) spy (snd x).

(** src/buffer.rs 81-182 *)
Definition buffer_start (b : buffer) (spy : option nat) (u mi mo : nat)
  : list nevent -> jstatus (mres nat) (mres nat) (option nat) (mres nat) -> Prop :=
  joined (buffer_ends b)
    (half_a u mi) (half_b u mo spy) (fun _ => total_in_buffer (bf_monitor b) mi mo)
    (fun _ r_a r_b total => Ret (buffer_result r_a r_b total)).

(** The channels inside: nobody else knows them, and they are new. *)
Definition inside (u mi mo : nat) (c : chan) : Prop := c = CData u \/ c = CMon mi \/ c = CMon mo.
Definition sealed (u mi mo : nat) (l : list nevent) : Prop :=
  forall i e a c, In (i, (e, a)) l -> on_chan e = Some c -> inside u mi mo c -> i = 1 \/ i = 2 \/ i = 3.
Definition new_inside (u mi mo : nat) (w : world) : Prop :=
  w (CData u) = fresh_chan None /\ w (CMon mi) = fresh_chan (Some 8) /\ w (CMon mo) = fresh_chan (Some 8).
