(** * Properties C11 - C18, and the junction parts of C06, C09, C10 *)
From Coq Require Import Ascii String List Bool Arith ZArith.
From Verif Require Import M_Prog P_Prog M_Motion M_BackOff M_Utils M_Junction S_Trace S_Lines S_Motion S_Junction P_Split P_Utils P_JStart P_JPass.
Import ListNotations.

Definition j2 : junction :=
  fst (junction_add_output (fst (junction_add_output
    (junction_add_input (junction_add_input junction_new (PlReceiver (PJ 1 0) 1) 1) (PlReceiver (PJ 2 0) 2) 5)
    POut Terminate 0 8 8)) POut Finish 0 9 9).
Definition out8 := PsIoSender (J 0 (Some POut) 8 Terminate) 8.
Definition out9 := PsIoSender (J 0 (Some POut) 9 Finish) 9.

(** Inputs and outputs added with new channels give a junction that is ready. *)
Theorem C11_adding_inputs_and_outputs_keeps_ready : forall j port brk src dst n p priority,
  junction_ready j -> receiver p -> ~ In n (in_chans j ++ out_chans j) -> ~ In (pl_chan p) (in_chans j ++ out_chans j) ->
  junction_ready junction_new /\
  junction_ready (fst (junction_add_output j port brk src dst n)) /\ junction_ready (junction_add_input j p priority).
Proof. exact junction_adding. Qed.
Print Assumptions C11_adding_inputs_and_outputs_keeps_ready.

Example C11_ready_case : junction_ready j2.
Proof. repeat split; repeat constructor; cbn; intuition discriminate. Qed.

(** C11: at every moment there is one sequence [s], an interleaving of what was taken from the inputs, of
    which every output has been offered all but perhaps the last message; when the junction asks an
    input or has ended every output has been offered all of it; and an output that was never found
    closed has accepted everything offered. *)
Theorem C11_junction_copies_all_to_all : forall j spy tr st,
  junction_ready j -> exec (junction_start j spy) tr st ->
  exists s, interleave (map (fun n => datas (taken (CData n) tr)) (in_chans j)) s /\
    (forall p, In p (jn_stdout j) -> prefix (offered_to p tr) s /\ length s <= S (length (offered_to p tr))) /\
    (forall p, In p (jn_stdout j) -> (exists n, st = Done (Ok n) \/ st = At (ETryRecv (CData n))) -> offered_to p tr = s) /\
    (forall p, In p (jn_stdout j) -> (forall d, ~ found_closed p d tr) -> accepted_by p tr = offered_to p tr).
Proof. intros j spy tr st Hr HX. exact (outputs_same j spy Hr tr st HX). Qed.
Print Assumptions C11_junction_copies_all_to_all.

(** Two inputs, two outputs: "a", "b" from the first input, "x" from the second. *)
Example C11_case : exists tr,
  exec (junction_start j2 None) tr (Done (Ok 5)) /\
  accepted_by out8 tr = [b "a"; b "x"; b "b"] /\ accepted_by out9 tr = [b "a"; b "x"; b "b"] /\
  datas (taken (CData 1) tr) = [b "a"; b "b"] /\ datas (taken (CData 2) tr) = [b "x"].
Proof.
  eexists. split; [eapply drive_sound with (fuel := 200)
    (answers := [AMsg (VData (b "a")); AOk; AOk; AEmpty; AMsg (VData (b "x")); AOk; AOk; AMsg (VData (b "b")); AOk; AOk;
                 AClosed; AOk; AClosed; AOk; AOk; AOk]); vm_compute; reflexivity|].
  repeat split.
Qed.

(** C12: a junction that ends successfully has been told the end of every input, unless every output is a
    Finish output found closed; its last acts are to close each output once. *)
Theorem C12_ends_after_all_inputs : forall j spy tr n,
  junction_ready j -> exec (junction_start j spy) tr (Done (Ok n)) ->
  ((forall m, In m (in_chans j) -> saw_end (CData m) tr) \/
   (forall p, In p (jn_stdout j) -> push_brk p = Finish /\ exists d, found_closed p d tr)) /\
  exists pre, tr = pre ++ map (fun m => (EClose (CData m), AOk)) (out_chans j) /\
    (forall m, In m (out_chans j) -> ~ closed_by (CData m) pre) /\ (forall m, In m (in_chans j) -> closed_by (CData m) pre).
Proof. intros j spy tr n Hr HX. exact (ends_properly j spy Hr tr n HX). Qed.
Print Assumptions C12_ends_after_all_inputs.

(** At every moment: an output is about to be closed only if every input is done, and for the first time. *)
Theorem C12_outputs_closed_last : forall j spy tr n,
  junction_ready j -> exec (junction_start j spy) tr (At (EClose (CData n))) -> In n (out_chans j) ->
  ~ closed_by (CData n) tr /\ forall m, In m (in_chans j) -> closed_by (CData m) tr /\
    (saw_end (CData m) tr \/ (forall p, In p (jn_stdout j) -> push_brk p = Finish /\ exists d, found_closed p d tr)).
Proof. intros j spy tr n Hr HX. exact (closes_outputs_last j spy Hr tr n HX). Qed.
Print Assumptions C12_outputs_closed_last.

(** Only inputs that are open and have not ended are asked, and only while all outputs are open. *)
Theorem C12_asks_live_inputs : forall j spy tr n,
  junction_ready j -> exec (junction_start j spy) tr (At (ETryRecv (CData n))) ->
  In n (in_chans j) /\ ~ closed_by (CData n) tr /\ ~ saw_end (CData n) tr /\
  forall p, In p (out_chans j) -> ~ closed_by (CData p) tr.
Proof. intros j spy tr n Hr HX. exact (asks_live j spy Hr tr n HX). Qed.
Print Assumptions C12_asks_live_inputs.

(** After the end of the first input the junction goes on with the second. *)
Example C12_case : exists tr,
  exec (junction_start j2 None) tr (At (ETryRecv (CData 2))) /\ saw_end (CData 1) tr /\ closed_by (CData 1) tr.
Proof.
  eexists. split; [eapply drive_sound with (fuel := 200) (answers := [AClosed; AOk]); vm_compute; reflexivity|].
  split; [right; cbn; auto|cbn; auto].
Qed.

(** C13: an input is asked only straight after every better input that is still open was asked in vain. *)
Theorem C13_better_inputs_first : forall j spy tr n z m y,
  junction_ready j -> exec (junction_start j spy) tr (At (ETryRecv (CData n))) ->
  priority j n z -> priority j m y -> (y < z)%Z -> ~ closed_by (CData m) tr ->
  exists a b, tr = a ++ map (fun i => (ETryRecv (CData i), AEmpty)) b /\ In m b.
Proof. intros j spy tr n z m y Hr HX. exact (better_first j spy Hr tr n z m y HX). Qed.
Print Assumptions C13_better_inputs_first.

Example C13_case : exists tr,
  exec (junction_start j2 None) tr (At (ETryRecv (CData 2))) /\ priority j2 2 5 /\ priority j2 1 1 /\
  tr = [(ETryRecv (CData 1), AMsg (VData (b "a"))); (ESend (CData 8) (VData (b "a")), AOk); (ESend (CData 9) (VData (b "a")), AOk); (ETryRecv (CData 1), AEmpty)].
Proof.
  eexists. split; [eapply drive_sound with (fuel := 200) (answers := [AMsg (VData (b "a")); AOk; AOk; AEmpty]); vm_compute; reflexivity|].
  split; [eexists; split; [right; left; reflexivity|reflexivity]|]. split; [eexists; split; [left; reflexivity|reflexivity]|reflexivity].
Qed.

(** C14: the direction the documentation gives (the larger number first) is not the one implemented:
    input 1 with priority 1 is asked, and served, while input 2 with priority 5 is open and has not
    been asked at all. *)
Theorem C14_larger_number_first_refuted : exists j spy tr n z m y,
  junction_ready j /\ exec (junction_start j spy) tr (At (ETryRecv (CData n))) /\
  priority j n z /\ priority j m y /\ (z < y)%Z /\ ~ closed_by (CData m) tr /\ taken (CData n) tr <> [] /\ ~ In m (asked tr).
Proof.
  exists j2, None, [(ETryRecv (CData 1), AMsg (VData (b "a"))); (ESend (CData 8) (VData (b "a")), AOk); (ESend (CData 9) (VData (b "a")), AOk)], 1, 1%Z, 2, 5%Z.
  split; [exact C11_ready_case|].
  split; [eapply drive_sound with (fuel := 200) (answers := [AMsg (VData (b "a")); AOk; AOk]); vm_compute; reflexivity|].
  split; [eexists; split; [left; reflexivity|reflexivity]|]. split; [eexists; split; [right; left; reflexivity|reflexivity]|].
  split; [reflexivity|]. split; [cbn; unfold closed_by; cbn; intuition discriminate|]. split; [discriminate|]. cbn. intuition discriminate.
Qed.
Print Assumptions C14_larger_number_first_refuted.

(** C15: inputs of equal priority that are not the first priority are not served alike: of two inputs
    with priority 1 beside one with priority 0, the one added later may never be asked, however many
    messages the other one delivers. *)
Theorem C15_equal_priorities_refuted : exists j n m z,
  junction_ready j /\ priority j n z /\ priority j m z /\ n <> m /\
  forall k, exists tr e, exec (junction_start j None) tr (At e) /\ length (taken (CData n) tr) = k /\ ~ In m (asked tr).
Proof. exact equal_priorities_starve. Qed.
Print Assumptions C15_equal_priorities_refuted.

(** What holds: the inputs of the first (smallest) priority are asked in turn, each once before any of them
    again. *)
Theorem C15_first_inputs_in_turn_partial : forall j spy tr n,
  junction_ready j -> exec (junction_start j spy) tr (At (ETryRecv (CData n))) ->
  robin (asked tr ++ [n]) (still_open (first_inputs j) tr).
Proof. intros j spy tr n Hr HX. exact (first_round_robin j spy Hr tr n HX). Qed.
Print Assumptions C15_first_inputs_in_turn_partial.

(** C16: one pass asks the inputs in their order, a beginning of them, and at least the whole first group. *)
Theorem C16_pass_asks_in_order : forall groups outs bo spy tr st,
  Forall (Forall receiver) groups -> Forall io_sender outs ->
  exec (junction_iteration (groups, outs, bo) spy) tr st ->
  prefix (asked tr) (map pl_chan (concat groups)) /\
  (forall v s, st = Done (Ok v, s) -> prefix (map pl_chan (hd [] groups)) (asked tr)).
Proof. intros groups outs bo spy tr st H1 H2 HX. exact (pass_asks groups outs spy bo H1 H2 tr st HX). Qed.
Print Assumptions C16_pass_asks_in_order.

(** So no input is asked twice in a pass. *)
Theorem C16_at_most_once_per_pass : forall groups outs bo spy tr st,
  Forall (Forall receiver) groups -> Forall io_sender outs ->
  exec (junction_iteration (groups, outs, bo) spy) tr st ->
  NoDup (map pl_chan (concat groups)) -> NoDup (asked tr).
Proof. intros groups outs bo spy tr st H1 H2 HX. exact (pass_once groups outs spy bo H1 H2 tr st HX). Qed.
Print Assumptions C16_at_most_once_per_pass.

(** Whole runs: the inputs of the smallest priority take turns. *)
Theorem C16_first_group_round_robin : forall j spy tr n,
  junction_ready j -> exec (junction_start j spy) tr (At (ETryRecv (CData n))) ->
  robin (asked tr ++ [n]) (still_open (first_inputs j) tr).
Proof. intros j spy tr n Hr HX. exact (first_round_robin j spy Hr tr n HX). Qed.
Print Assumptions C16_first_group_round_robin.

(** Two inputs of the first priority, one always ready, one empty, and a third of lower priority. *)
Example C16_case :
  let g := [[PlReceiver (PJ 1 0) 1; PlReceiver (PJ 2 0) 2]; [PlReceiver (PJ 3 0) 3]] in
  exists tr, exec (junction_iteration (g, [out8], 0) None) tr (Done (Ok (false, 1), (g, [out8], 0))) /\ asked tr = [1; 2].
Proof.
  intro g. eexists. split; [eapply drive_sound with (fuel := 100) (answers := [AMsg (VData (b "a")); AOk; AEmpty]); vm_compute; reflexivity|reflexivity].
Qed.

(** C17: removing the marked elements, last first, and then the empty rows leaves exactly the others. *)
Theorem C17_removal_exact : forall (X : Type) (groups : list (list X)) (rows : list (list bool)),
  Forall2 (fun r g => length r = length g) rows groups ->
  remove_vec_vec (fold_left (fun vals ij => snd (remove_vec_vec_index vals (fst ij) (snd ij))) (rev (marked_rows 0 rows)) groups)
  = filter (fun g => match g with [] => false | _ => true end) (map (fun rg => unmarked (fst rg) (snd rg)) (combine rows groups)).
Proof. intros X groups rows H. exact (remove_marked rows groups H). Qed.
Print Assumptions C17_removal_exact.

Example C17_case :
  remove_vec_vec (fold_left (fun vals ij => snd (remove_vec_vec_index vals (fst ij) (snd ij)))
     (rev (marked_rows 0 [[true; false; true]; [true]; [false]])) [[1; 2; 3]; [4]; [5]]) = [[2]; [5]].
Proof. reflexivity. Qed.

(** C18: the back-off waits the square of the number of waits since the last reset, of at most 51. *)
Theorem C18_delay_after_waits : forall ops tr e,
  exec (use_back_off ops back_off_new) tr (At e) ->
  exists done rest, ops = done ++ true :: rest /\ length (delays tr) = length (filter id done) /\
    e = ESleep (Nat.min 51 (waits_since_reset done) * Nat.min 51 (waits_since_reset done)).
Proof. intros ops tr e HX. exact (back_off_delay ops tr e HX). Qed.
Print Assumptions C18_delay_after_waits.

(** A junction sleeps only after asking all its open inputs in vain, so long as its back-off says. *)
Theorem C18_junction_sleeps_when_idle : forall j spy tr ms,
  junction_ready j -> exec (junction_start j spy) tr (At (ESleep ms)) ->
  (ms = naps tr * naps tr /\ ms <= 2601) /\
  exists a b, tr = a ++ map (fun i => (ETryRecv (CData i), AEmpty)) b /\
    forall n, In n (in_chans j) -> ~ closed_by (CData n) tr -> In n b.
Proof. intros j spy tr ms Hr HX. exact (sleeps_idle_bound j spy Hr tr ms HX). Qed.
Print Assumptions C18_junction_sleeps_when_idle.

Example C18_case : exists tr, exec (use_back_off [true; true; true; false; true] back_off_new) tr (Done tt) /\ delays tr = [0; 1; 4; 0].
Proof. eexists. split; [eapply drive_sound with (fuel := 100) (answers := [AOk; AOk; AOk; AOk]); vm_compute; reflexivity|reflexivity]. Qed.
Example C18_junction_case : exists tr, exec (junction_start j2 None) tr (At (ESleep 4)) /\ naps tr = 2.
Proof.
  eexists. split; [eapply drive_sound with (fuel := 200) (answers := [AEmpty; AEmpty; AOk; AEmpty; AEmpty; AOk; AEmpty; AEmpty]); vm_compute; reflexivity|reflexivity].
Qed.

(** C06, C10 for junctions.  A junction fails only because a Terminate output was found closed (and then
    its error names that output and the message), or because its spy channel was closed; it has then let
    go of every input.  It never panics. *)
Theorem C06_junction_fails_only_for_terminate : forall j spy tr e,
  junction_ready j -> exec (junction_start j spy) tr (Done (Err e)) ->
  ((exists p jp d, In p (jn_stdout j) /\ push_journey p = Some jp /\ j_brk jp = Terminate /\ found_closed p d tr /\ e = OutputClosed jp ChannelClosed d) \/
   (spy <> None /\ exists s dd p m, e = SpyWriteError s dd p m)) /\
  (forall m, In m (in_chans j) -> closed_by (CData m) tr) /\ (forall m, In m (out_chans j) -> ~ closed_by (CData m) tr).
Proof. intros j spy tr e Hr HX. exact (fails_how j spy Hr tr e HX). Qed.
Print Assumptions C06_junction_fails_only_for_terminate.

Theorem C10_junction_never_panics : forall j spy tr s,
  junction_ready j -> ~ exec (junction_start j spy) tr (Panicked s).
Proof. intros j spy tr s Hr. exact (start_no_panic j spy Hr tr s). Qed.
Print Assumptions C10_junction_never_panics.

(** However it stops, a junction has closed all its inputs. *)
Theorem C10_junction_releases_inputs : forall j spy tr r,
  junction_ready j -> exec (junction_start j spy) tr (Done r) ->
  forall m, In m (in_chans j) -> closed_by (CData m) tr.
Proof. intros j spy tr r Hr HX. exact (releases_inputs j spy Hr tr r HX). Qed.
Print Assumptions C10_junction_releases_inputs.

(** But when it fails it leaves its other outputs open: whoever reads them waits for ever. *)
Theorem C10_junction_leaves_outputs_open_refuted : exists j spy tr e m,
  junction_ready j /\ exec (junction_start j spy) tr (Done (Err e)) /\ In m (out_chans j) /\ ~ closed_by (CData m) tr.
Proof.
  exists j2, None, [(ETryRecv (CData 1), AMsg (VData (b "a"))); (ESend (CData 8) (VData (b "a")), AClosed); (EClose (CData 1), AOk); (EClose (CData 2), AOk)],
    (OutputClosed (J 0 (Some POut) 8 Terminate) ChannelClosed (b "a")), 9.
  split; [exact C11_ready_case|].
  split; [eapply drive_sound with (fuel := 200) (answers := [AMsg (VData (b "a")); AClosed; AOk; AOk]); vm_compute; reflexivity|].
  split; [cbn; auto|]. unfold closed_by. cbn. intuition discriminate.
Qed.
Print Assumptions C10_junction_leaves_outputs_open_refuted.

(** C09 for junctions: the number reported is the number of messages taken plus the number of inputs
    that reported their end. *)
Theorem C09_junction_count : forall j spy tr n,
  junction_ready j -> exec (junction_start j spy) tr (Done (Ok n)) -> n = length (arrivals tr) + length (ends tr).
Proof. intros j spy tr n Hr HX. exact (counts j spy Hr tr n HX). Qed.
Print Assumptions C09_junction_count.
