(** * Properties_News: C129, a controller that hears nothing new says nothing *)
From Coq Require Import Ascii String List Bool Arith.
From Verif Require Import M_Prog P_Prog P_Exec M_Motion M_Regulator M_Manager S_Trace S_World S_Regulator S_News P_News.
Import ListNotations.

(** Where the low mark is below the high mark, the controller of a regulator never gives more signals than
    it has had news ... *)
Theorem C129_no_more_signals_than_news : forall low high c chans tr st,
  NoDup chans -> low < high -> exec (manage_regulator low high (RC false c) chans) tr st -> signals c tr <= heard tr.
Proof. intros low high c chans tr st Hn Hm HX. exact (news_enough low high c chans Hn Hm tr st HX). Qed.
Print Assumptions C129_no_more_signals_than_news.

(** ... and between one signal and the next there has been some. *)
Theorem C129_news_between_signals : forall low high c chans a v x b,
  NoDup chans -> low < high ->
  exec (manage_regulator low high (RC false c) chans) (a ++ (ESend (CCtl c) v, x) :: b) (At (ESend (CCtl c) VUnit)) ->
  signals c b = 0 -> 1 <= heard b.
Proof. intros low high c chans a v x b Hn Hm HX Hb. exact (news_between low high c chans Hn Hm a v x b HX Hb). Qed.
Print Assumptions C129_news_between_signals.

(** With any marks in the wrong order, or equal, one report is enough for signals without end. *)
Theorem C129_marks_reversed : forall low high c n, high <= low ->
  forall k, exists tr e, heard tr = 1 /\ signals c tr >= k /\ exec (manage_regulator low high (RC false c) [n]) tr (At e).
Proof. intros low high c n Hm k. exact (flutter_all low high c n Hm k). Qed.
Print Assumptions C129_marks_reversed.

Theorem C129_marks_reversed_refuted : exists low high c chans, NoDup chans /\ high < low /\
  forall n, exists tr e, heard tr = 1 /\ signals c tr >= n /\ exec (manage_regulator low high (RC false c) chans) tr (At e).
Proof. exists 5, 3, 9, [7]. split; [repeat constructor; auto|]. split; [repeat constructor|]. exact (flutter_all 5 3 9 7 (le_S _ _ (le_S _ _ (le_n 3)))). Qed.
Print Assumptions C129_marks_reversed_refuted.

(** Marks 2 and 5: the report of 7 pauses, an empty pass says nothing, the report of 1 resumes. *)
Example C129_case : exists tr,
  exec (manage_regulator 2 5 (RC false 9) [7]) tr (At (ESend (CCtl 9) VUnit)) /\ signals 9 tr = 1 /\ heard tr = 2.
Proof.
  eexists. split; [eapply drive_sound with (fuel := 100) (answers := [AMsg (VSize 7); AOk; AEmpty; AOk; AMsg (VSize 1)]); vm_compute; reflexivity|].
  split; reflexivity.
Qed.
