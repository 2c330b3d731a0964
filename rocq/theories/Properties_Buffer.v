(** * Properties C25 to C29, and the buffer part of C10 *)
From Coq Require Import Ascii String List Bool Arith.
From Verif Require Import M_Prog P_Prog M_Motion M_Join M_Buffer M_Poll S_Trace S_Lines S_Motion S_World S_Launch S_Buffer.
From Verif Require Import P_Split P_World P_Play P_BufferPoll P_BufferRun P_BufferEnd.
Import ListNotations.

(** A run used as an example: three lines, an output of capacity one, read once in a while; the size is
    reported. *)
Definition bf_in := PlReceiver (PJ 1 2) 1.
Definition bf_out (br : breakable) := PsIoSender (J 2 (Some POut) 3 br) 2.
Definition bf (br : breakable) (sender : option nat) : buffer := Buffer 8 (Some (bf_out br)) (Some bf_in) sender.
Definition ln (s : string) : bytes := b s ++ [lf].
Definition bf_w : world := fun c => match c with CData 2 => fresh_chan (Some 1) | CData 5 => fresh_chan None | _ => fresh_chan (Some 8) end.
Definition os (e : eff) : option ans := Some AOk.
Definition bf_a br := half_a 5 6 (bf_in, bf_out br).
Definition bf_b br := half_b 5 7 None (bf_in, bf_out br).
Definition bf_c sender := total_in_buffer sender 6 7.
Definition bf_play (br : breakable) (sender : option nat) (rounds : list (list eff)) : list nevent :=
  match play os 1000 rounds (bf_a br) (bf_b br) (bf_c sender) bf_w with Some (l, _, _, _, _) => l | None => [] end.
Definition feed := [ESend (CData 1) (VData (ln "a")); ESend (CData 1) (VData (ln "b")); ESend (CData 1) (VData (ln "c")); EClose (CData 1)].
Definition bf_rounds := [[]; feed; []; [ERecv (CData 2)]; [ERecv (CData 2)]; []].
Definition bf_run : list nevent := Eval vm_compute in bf_play Terminate (Some 8) bf_rounds.
Example bf_wired br sender : buffer_wired (bf br sender) bf_in (bf_out br) 5 6 7.
Proof.
  repeat split; try discriminate; try exact I. intros e d [H|H]; injection H as <-; discriminate.
Qed.
Example bf_new : new_inside 5 6 7 bf_w.
Proof. repeat split. Qed.
Example bf_runs : buffer_start (bf Terminate (Some 8)) None 5 6 7 bf_run (After (Done (Ok 4))) /\
  (exists w, buffer_polled (bf Terminate (Some 8)) bf_in (bf_out Terminate) None 5 6 7 bf_w bf_run 1 w /\ wrun bf_w bf_run w) /\ sealed 5 6 7 bf_run.
Proof.
  assert (HP : played os bf_rounds (bf_a Terminate) (bf_b Terminate) (bf_c (Some 8)) bf_w bf_run (Done (Ok 4)) (Done (Ok 4)) (Done (Some 0))) by (vm_compute; repeat split; reflexivity).
  apply played_sound in HP. destruct HP as ((w & HP) & H1 & H2 & H3).
  split; [exact (proj2 (from_parts _ _ _ None 5 6 7 bf_run _ _ _ (bf_wired Terminate (Some 8)) eq_refl H1 H2 H3) _ _ _ eq_refl eq_refl eq_refl)|].
  split; [exists w; split; [exact HP|exact (proj1 (polled_run _ _ _ _ _ _ _ HP))]|apply sealed_check; reflexivity].
Qed.

(** C25, for any order of the steps of the parts of the buffer and of everybody else: what has been offered to the output is at every moment a prefix of what has been received.  When the
    buffer has ended successfully it is everything, the input had ended, and the result is the number of messages and one more, unless the
    output is a Finish output that was found closed. *)
Theorem C25_fifo : forall b pl ps spy u mi mo, buffer_wired b pl ps u mi mo -> forall L st w0 w,
  buffer_start b spy u mi mo L st -> new_inside u mi mo w0 -> wrun w0 L w -> sealed u mi mo L ->
  prefix (offered_to ps (own 2 L)) (got pl (own 1 L)) /\
  (forall n, st = After (Done (Ok n)) ->
     (offered_to ps (own 2 L) = got pl (own 1 L) /\ ended pl (own 1 L) /\ n = S (length (got pl (own 1 L)))) \/
     (push_brk ps = Finish /\ exists d, found_closed ps d (own 2 L))).
Proof. exact buffer_fifo. Qed.
Print Assumptions C25_fifo.
Example C25_ex : got bf_in (own 1 bf_run) = [ln "a"; ln "b"; ln "c"] /\ offered_to (bf_out Terminate) (own 2 bf_run) = [ln "a"; ln "b"; ln "c"].
Proof. split; vm_compute; reflexivity. Qed.

(** C26: whatever the output does, the only thing the input side of the buffer ever waits for is its input, as long as there is room for
    the size reports (or nobody wants them): when neither the input side nor the counter can go on, the input side is waiting to
    receive or has ended.  For any order of steps. *)
Theorem C26_waits_only_for_input : forall b pl ps spy u mi mo, buffer_wired b pl ps u mi mo -> forall L x y z w0 w,
  buffer_start b spy u mi mo L (During x y z) -> new_inside u mi mo w0 -> wrun w0 L w -> sealed u mi mo L ->
  stands x w -> stands z w -> reports_read (bf_monitor b) w -> ~ panicked z ->
  (exists r, x = Done r) \/ (exists e, read_eff pl false = Some e /\ x = At e).
Proof. exact buffer_waits. Qed.
Print Assumptions C26_waits_only_for_input.

(** And if it does wait for something else it does not wait long: the counter takes at most four steps before it
    is able to go on. *)
Theorem C26_soon : forall b pl ps spy u mi mo, buffer_wired b pl ps u mi mo -> forall L L' x y z w0 w w',
  buffer_start b spy u mi mo (L ++ L') (During x y z) -> new_inside u mi mo w0 -> wrun w0 L w -> wrun w L' w' -> sealed u mi mo (L ++ L') ->
  own 1 L' = [] -> (forall l1 l2 w1, L' = l1 ++ l2 -> wrun w l1 w1 -> waits x w1) -> (forall e, read_eff pl false = Some e -> x <> At e) -> ~ panicked z ->
  length (own 3 L') <= 4.
Proof. exact buffer_soon. Qed.
Print Assumptions C26_soon.

(** Twenty-four lines into a buffer whose output, of capacity one, is never read. *)
Definition eight := repeat (ESend (CData 1) (VData (ln "x"))) 8.
Definition many := [eight; eight; eight; []; []; []].
Definition many_run : list nevent := Eval vm_compute in bf_play Terminate None many.
Example C26_ex : exists y, buffer_start (bf Terminate None) None 5 6 7 many_run (During (At (ERecv (CData 1))) y (At (ESleep 9))) /\
  (exists w, wrun bf_w many_run w) /\ sealed 5 6 7 many_run /\ got bf_in (own 1 many_run) = repeat (ln "x") 24 /\ taken (CData 2) (all_of many_run) = [].
Proof.
  assert (HP : played os many (bf_a Terminate) (bf_b Terminate) (bf_c None) bf_w many_run (At (ERecv (CData 1))) (At (ESend (CData 2) (VData (ln "x")))) (At (ESleep 9))) by (vm_compute; repeat split; reflexivity).
  apply played_sound in HP. destruct HP as ((w & HP) & H1 & H2 & H3).
  exists (At (ESend (CData 2) (VData (ln "x")))). split; [exact (proj1 (from_parts _ _ _ None 5 6 7 many_run _ _ _ (bf_wired Terminate None) eq_refl H1 H2 H3))|].
  split; [exists w; exact (proj1 (polled_run _ _ _ _ _ _ _ HP))|]. split; [apply sealed_check; reflexivity|]. split; vm_compute; reflexivity.
Qed.
(** Nine lines at once: the input side has to wait for the counter, which is about to sleep. *)
Definition nine_w : world := fun c => match c with CData 1 => CS None (repeat (VData (ln "x")) 9) false | _ => bf_w c end.
Definition nine_1 : trace := Eval vm_compute in match drive 200 (bf_a Terminate) (flat_map (fun _ => [AMsg (VData (ln "x")); AOk; AOk]) (seq 0 8) ++ [AMsg (VData (ln "x")); AOk]) with Some (t, _) => t | None => [] end.
Definition nine_L : list nevent := (3, (ETryRecv (CMon 6), AEmpty)) :: map (pair 1) nine_1.
Definition nine_L' : list nevent := [(3, (ETryRecv (CMon 7), AEmpty)); (3, (EIsEmpty (CMon 6), ABool false)); (3, (ESleep 0, AOk))].
Example C26_soon_ex : exists w w' x y z, buffer_start (bf Terminate None) None 5 6 7 (nine_L ++ nine_L') (During x y z) /\ new_inside 5 6 7 nine_w /\
  wrun nine_w nine_L w /\ wrun w nine_L' w' /\ sealed 5 6 7 (nine_L ++ nine_L') /\ own 1 nine_L' = [] /\ waits x w /\ waits x w' /\ ~ panicked z /\
  x <> At (ERecv (CData 1)) /\ length (own 3 nine_L') = 3.
Proof.
  assert (H1 : exec (bf_a Terminate) (own 1 (nine_L ++ nine_L')) (At (ESend (CMon 6) VWrote))).
  { eapply drive_sound with (fuel := 200) (answers := flat_map (fun _ => [AMsg (VData (ln "x")); AOk; AOk]) (seq 0 8) ++ [AMsg (VData (ln "x")); AOk]). vm_compute. reflexivity. }
  assert (H2 : exec (bf_b Terminate) (own 2 (nine_L ++ nine_L')) (At (ERecv (CData 5)))).
  { eapply drive_sound with (fuel := 200) (answers := []). vm_compute. reflexivity. }
  assert (H3 : exec (bf_c None) (own 3 (nine_L ++ nine_L')) (At (ETryRecv (CMon 6)))).
  { eapply drive_sound with (fuel := 200) (answers := [AEmpty; AEmpty; ABool false; AOk]). vm_compute. reflexivity. }
  assert (HW : exists w, wrun nine_w nine_L w /\ cs_queue (w (CMon 6)) = repeat VWrote 8 /\ cs_closed (w (CMon 6)) = false /\ cs_cap (w (CMon 6)) = Some 8 /\ wrun w nine_L' w).
  { destruct (channels_run nine_L nine_w (fun w => cs_queue (w (CMon 6)) = repeat VWrote 8 /\ cs_closed (w (CMon 6)) = false /\ cs_cap (w (CMon 6)) = Some 8 /\
      cs_queue (w (CMon 7)) = [] /\ cs_closed (w (CMon 7)) = false)) as (w & HW & HQ & HC & Hcap & HQ7 & HC7); [vm_compute; repeat split; reflexivity|].
    exists w. split; [exact HW|]. split; [exact HQ|]. split; [exact HC|]. split; [exact Hcap|].
    eapply WR_cons; [apply W_try_empty; assumption|]. eapply WR_cons; [|eapply WR_cons; [apply W_other; reflexivity|apply WR_nil]].
    replace false with (is_nil (cs_queue (w (CMon 6)))) by (rewrite HQ; reflexivity). apply W_is_empty. }
  destruct HW as (w & HW & HQ & HC & Hcap & HW').
  assert (Hwait : forall a w', ~ wstep w (ESend (CMon 6) VWrote, a) w').
  { intros a w' H. inversion H; subst; try congruence; try discriminate. match goal with HR : room _ |- _ => unfold room in HR; rewrite Hcap, HQ in HR; cbn in HR; apply Nat.lt_irrefl in HR; exact HR end. }
  exists w, w, (At (ESend (CMon 6) VWrote)), (At (ERecv (CData 5))), (At (ETryRecv (CMon 6))).
  split; [exact (proj1 (from_parts _ _ _ None 5 6 7 (nine_L ++ nine_L') _ _ _ (bf_wired Terminate None) eq_refl H1 H2 H3))|].
  split; [repeat split|]. split; [exact HW|]. split; [exact HW'|]. split; [apply sealed_check; reflexivity|]. split; [reflexivity|].
  split; [exact Hwait|]. split; [exact Hwait|]. split; [intro H; exact H|]. split; [discriminate|reflexivity].
Qed.

(** C27.  With the parts polled in turn (M_Poll), and no failing read of a byte source, the counter never
    underflows: no part of the buffer panics. *)
Theorem C27_no_underflow_partial : forall b pl ps spy u mi mo, buffer_wired b pl ps u mi mo -> forall L st w0 i w,
  buffer_start b spy u mi mo L st -> new_inside u mi mo w0 -> sealed u mi mo L ->
  buffer_polled b pl ps spy u mi mo w0 L i w -> (forall f, ~ In (ERead f, AErr) (own 1 L)) -> ~ in_panic st.
Proof. exact buffer_counts. Qed.
Print Assumptions C27_no_underflow_partial.
Example C27_ex : (exists w, buffer_polled (bf Terminate (Some 8)) bf_in (bf_out Terminate) None 5 6 7 bf_w bf_run 1 w) /\ reports 8 (own 3 bf_run) = [1; 2; 1; 0].
Proof. split; [destruct bf_runs as (_ & (w & H & _) & _); eauto|vm_compute; reflexivity]. Qed.

(** What is missing: a byte source as input whose read fails. *)
Theorem C27_byte_input_refuted : exists b pl ps L x y m w0 w,
  buffer_wired b pl ps 5 6 7 /\ buffer_start b None 5 6 7 L (During x y (Panicked m)) /\ new_inside 5 6 7 w0 /\ sealed 5 6 7 L /\
  buffer_polled b pl ps None 5 6 7 w0 L 1 w.
Proof.
  set (pl := PlBytes SrcFile (PJ 1 2) 0 split_control_new). set (ps := bf_out Terminate). set (bb := Buffer 8 (Some ps) (Some pl) None).
  assert (HW : buffer_wired bb pl ps 5 6 7).
  { repeat split; try discriminate; try exact I. intros e d [H|H]; injection H as <-; discriminate. }
  set (bos := fun e => match e with ERead _ => Some AErr | _ => Some AOk end).
  set (L := [(1, (ERead 0, AErr)); (1, (EDropFd 0, AOk)); (1, (EClose (CData 5), AOk)); (1, (EClose (CMon 6), AOk));
             (2, (ERecv (CData 5), AClosed)); (2, (ESend (CMon 7) VRead, AOk)); (2, (EClose (CData 2), AOk)); (2, (EClose (CMon 7), AOk));
             (2, (EClose (CData 5), AOk)); (2, (EClose (CData 2), AOk)); (2, (EClose (CMon 7), AOk));
             (3, (ETryRecv (CMon 6), AClosed)); (3, (ETryRecv (CMon 7), AMsg VRead))] : list nevent).
  assert (HP : played bos [[]] (half_a 5 6 (pl, ps)) (half_b 5 7 None (pl, ps)) (total_in_buffer None 6 7) bf_w L (Done (Err (ReadIOError (PJ 1 2)))) (Done (Ok 1)) (Panicked "attempt to subtract with overflow")) by (vm_compute; repeat split; reflexivity).
  apply played_sound in HP. destruct HP as ((w & HP) & H1 & H2 & H3).
  exists bb, pl, ps, L, (Done (Err (ReadIOError (PJ 1 2)))), (Done (Ok 1)), "attempt to subtract with overflow"%string, bf_w, w.
  split; [exact HW|]. split; [exact (proj1 (from_parts _ _ _ None 5 6 7 L _ _ _ HW eq_refl H1 H2 H3))|]. split; [repeat split|]. split; [apply sealed_check; reflexivity|exact HP].
Qed.
Print Assumptions C27_byte_input_refuted.

(** Whatever the order of steps, no reported size is larger than the number of messages received and one
    more. *)
Theorem C27_reports_bounded : forall b pl ps spy u mi mo, buffer_wired b pl ps u mi mo -> forall L st w0 w s,
  buffer_start b spy u mi mo L st -> new_inside u mi mo w0 -> wrun w0 L w -> sealed u mi mo L ->
  bf_monitor b = Some s -> forall n, In n (reports s (own 3 L)) -> n <= S (length (got pl (own 1 L))).
Proof. exact buffer_reports_bound. Qed.
Print Assumptions C27_reports_bounded.

(** C28: each report differs from the one before (from 0, the first).  For any order of steps. *)
Theorem C28_reports_differ : forall b pl ps spy u mi mo, buffer_wired b pl ps u mi mo -> forall L st w0 w s,
  buffer_start b spy u mi mo L st -> new_inside u mi mo w0 -> wrun w0 L w -> sealed u mi mo L ->
  bf_monitor b = Some s -> changing 0 (reports s (own 3 L)).
Proof. exact buffer_changes. Qed.
Print Assumptions C28_reports_differ.

(** The last report before a successful end is 0, with the parts polled in turn, unless the reader of the reports has gone or
    a Finish output was found closed. *)
Theorem C28_ends_empty_partial : forall b pl ps spy u mi mo, buffer_wired b pl ps u mi mo -> forall L n w0 i w s,
  buffer_start b spy u mi mo L (After (Done (Ok n))) -> new_inside u mi mo w0 -> sealed u mi mo L ->
  buffer_polled b pl ps spy u mi mo w0 L i w -> bf_monitor b = Some s ->
  last (reports s (own 3 L)) 0 = 0 \/ unread s (own 3 L) \/ (push_brk ps = Finish /\ exists d, found_closed ps d (own 2 L)).
Proof. exact buffer_ends_empty. Qed.
Print Assumptions C28_ends_empty_partial.
Example C28_ex : reports 8 (own 3 bf_run) = [1; 2; 1; 0] /\ changing 0 [1; 2; 1; 0].
Proof. split; [vm_compute; reflexivity|cbn; repeat split; discriminate]. Qed.

(** A Finish output closed early: the buffer ends successfully and the last size reported is 3. *)
Theorem C28_ends_empty_refuted : exists b pl ps L n w0 i w s,
  buffer_wired b pl ps 5 6 7 /\ buffer_start b None 5 6 7 L (After (Done (Ok n))) /\ new_inside 5 6 7 w0 /\ sealed 5 6 7 L /\
  buffer_polled b pl ps None 5 6 7 w0 L i w /\ bf_monitor b = Some s /\ last (reports s (own 3 L)) 0 = 3 /\ ~ unread s (own 3 L).
Proof.
  set (rounds := [feed ++ [EClose (CData 2)]]).
  set (L := bf_play Finish (Some 8) rounds).
  assert (HP : played os rounds (bf_a Finish) (bf_b Finish) (bf_c (Some 8)) bf_w L (Done (Ok 4)) (Done (Ok 1)) (Done (Some 3))) by (vm_compute; repeat split; reflexivity).
  apply played_sound in HP. destruct HP as ((w & HP) & H1 & H2 & H3).
  exists (bf Finish (Some 8)), bf_in, (bf_out Finish), L, 4, bf_w, 1, w, 8.
  split; [apply bf_wired|]. split; [exact (proj2 (from_parts _ _ _ None 5 6 7 L _ _ _ (bf_wired Finish (Some 8)) eq_refl H1 H2 H3) _ _ _ eq_refl eq_refl eq_refl)|].
  split; [repeat split|]. split; [apply sealed_check; reflexivity|]. split; [exact HP|]. split; [reflexivity|]. split; [vm_compute; reflexivity|].
  intros (v & HI). vm_compute in HI. intuition discriminate.
Qed.
Print Assumptions C28_ends_empty_refuted.

(** C29: the error of a failing buffer never says anything... *)
Theorem C29_names_pipe_refuted : exists b pl ps L w0 i w j d,
  buffer_wired b pl ps 5 6 7 /\ buffer_start b None 5 6 7 L (After (Done (Err NoneError))) /\ new_inside 5 6 7 w0 /\ sealed 5 6 7 L /\
  buffer_polled b pl ps None 5 6 7 w0 L i w /\ push_journey ps = Some j /\ j_brk j = Terminate /\ found_closed ps d (own 2 L).
Proof.
  set (rounds := [feed ++ [EClose (CData 2)]]).
  set (L := bf_play Terminate (Some 8) rounds).
  assert (HP : played os rounds (bf_a Terminate) (bf_b Terminate) (bf_c (Some 8)) bf_w L (Done (Ok 4)) (Done (Err (OutputClosed (J 2 (Some POut) 3 Terminate) ChannelClosed (ln "a")))) (Done (Some 3))) by (vm_compute; repeat split; reflexivity).
  apply played_sound in HP. destruct HP as ((w & HP) & H1 & H2 & H3).
  exists (bf Terminate (Some 8)), bf_in, (bf_out Terminate), L, bf_w, 1, w, (J 2 (Some POut) 3 Terminate), (ln "a").
  split; [apply bf_wired|]. split; [exact (proj2 (from_parts _ _ _ None 5 6 7 L _ _ _ (bf_wired Terminate (Some 8)) eq_refl H1 H2 H3) _ _ _ eq_refl eq_refl eq_refl)|].
  split; [repeat split|]. split; [apply sealed_check; reflexivity|]. split; [exact HP|]. split; [reflexivity|]. split; [reflexivity|].
  exists (ESend (CData 2) (VData (ln "a"))). split; [reflexivity|]. vm_compute. intuition.
Qed.
Print Assumptions C29_names_pipe_refuted.

(** ... but that it has failed is reported: a Terminate output found closed makes the buffer fail.  (The error is always
    [NoneError].) *)
Theorem C29_fails_partial : forall b pl ps spy u mi mo, buffer_wired b pl ps u mi mo -> forall L r,
  buffer_start b spy u mi mo L (After (Done r)) ->
  (forall e, r = Err e -> e = NoneError) /\
  (push_brk ps = Terminate -> (exists d, found_closed ps d (own 2 L)) -> r = Err NoneError).
Proof. exact buffer_fails. Qed.
Print Assumptions C29_fails_partial.

(** C10 for buffers: a buffer that has ended, successfully or not, has let go of its input, its output and the channel
    for its size reports. *)
Theorem C10_buffer_releases : forall b pl ps spy u mi mo, buffer_wired b pl ps u mi mo -> forall L r,
  buffer_start b spy u mi mo L (After (Done r)) ->
  pull_released pl (own 1 L) /\ push_released ps (own 2 L) /\ (forall s, bf_monitor b = Some s -> closed_by (CSize s) (own 3 L)).
Proof. exact buffer_releases. Qed.
Print Assumptions C10_buffer_releases.
Example C10_buffer_ex : pull_released bf_in (own 1 bf_run) /\ push_released (bf_out Terminate) (own 2 bf_run) /\ closed_by (CSize 8) (own 3 bf_run).
Proof. exact (let H := C10_buffer_releases _ _ _ _ _ _ _ (bf_wired Terminate (Some 8)) _ _ (proj1 bf_runs) in conj (proj1 H) (conj (proj1 (proj2 H)) (proj2 (proj2 H) 8 eq_refl))). Qed.
