(** * Properties of the writer between a drain and its file (src/drain.rs 69-73, src/motion.rs 438, 462) *)
From Coq Require Import Ascii String List Bool Arith.
From Verif Require Import M_Prog M_Motion M_Drain M_BufWriter S_Trace S_Motion S_Drain P_Split P_BufWriter P_BufWriterExamples.
Import ListNotations.

(** C117: at any time the file holds the first bytes of what the drain has received; if no write failed, all that has been written but for at most the last 8192 bytes, which the writer holds; and everything received
    once the drain has ended well. *)
Theorem C117_all_but_the_last : forall d pl name n f tr st s, drain_ready d pl name -> actual_destination name = ToFile n ->
  exec (drain_start d None) ((ECreate n, AFd f) :: tr) st -> stored f tr s ->
  prefix (bw_file s) (concat (got pl tr)) /\
  length (bw_held s) <= 8 * 1024 /\ ((forall x a, In (EWrite f x, a) tr -> a = AOk) -> bw_file s ++ bw_held s = concat (written f tr)) /\
  (forall k, st = Done (Ok k) -> bw_file s = concat (got pl tr)).
Proof. exact drain_file. Qed.
Print Assumptions C117_all_but_the_last.
Example C117_example : drain_ready to_out from1 "out.txt" /\ exec (drain_start to_out None) ((ECreate "out.txt", AFd 7) :: two_there) (Done (Ok 3)) /\
  stored 7 two_there (BufW [] (b "abc")) /\ got from1 two_there = [b "ab"; b "c"].
Proof. exact (conj to_out_ready (conj two_done (conj two_stored eq_refl))). Qed.
Example C117_example_large : write_whole large bw_new (BufW [] large) true.
Proof. exact large_past. Qed.

(** C118 is false: lines that have been written need not be in the file, while the drain goes on ... *)
Theorem C118_at_once_refuted : exists d pl name f tr e s, drain_ready d pl name /\ exec (drain_start d None) ((ECreate name, AFd f) :: tr) (At e) /\ stored f tr s /\
  written f tr = [b "ab"; b "c"] /\ bw_file s = [].
Proof. exists to_out, from1, "out.txt"%string, 7, two_lines, (ERecv (CData 1)), (BufW (b "abc") []). exact (conj to_out_ready (conj two_running (conj two_held (conj eq_refl eq_refl)))). Qed.
Print Assumptions C118_at_once_refuted.
(** ... nor when it has ended, if it failed: all its writes succeeded and none of it is there. *)
Theorem C118_lost_refuted : exists d pl name f tr err s, drain_ready d pl name /\ exec (drain_start d None) ((ECreate name, AFd f) :: tr) (Done (Err err)) /\ stored f tr s /\
  (forall x a, In (EWrite f x, a) tr -> a = AOk) /\ written f tr = [b "ab"; b "c"] /\ bw_file s = [].
Proof.
  exists to_out, from1, "out.txt"%string, 7, two_lost, (CloseIOError (J 0 None 1 Terminate)), (BufW (b "abc") []).
  split; [exact to_out_ready|]. split; [exact two_failed|]. split; [exact two_not_there|]. split; [|split; reflexivity].
  intros x a H. repeat (destruct H as [H|H]; [congruence|]). destruct H.
Qed.
Print Assumptions C118_lost_refuted.
