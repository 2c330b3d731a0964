(** * P_UnspiedExamples: runs with the spy left out *)
From Coq Require Import Ascii String List Bool Arith ZArith.
From Verif Require Import M_Prog P_Prog M_Motion M_Connectable M_Join M_Regulator M_Junction M_Faucet M_Buffer M_Launch S_Motion S_World S_Spy S_Unspied P_Split P_SpyExamples.
Import ListNotations.

Lemma took_by tr : forallb (fun ev => if is_spying (fst ev) then match snd ev with AOk => true | _ => false end else true) tr = true -> spy_took tr.
Proof. intros H e a Hin Hs. apply (proj1 (forallb_forall _ _) H) in Hin. cbn in Hin. rewrite Hs in Hin. destruct a; try discriminate Hin. reflexivity. Qed.

Lemma sp_unspied : spy_took sp_regulator_trace /\ length sp_regulator_trace = 10 /\
  unspied sp_regulator_trace = [(ERecv (CData 1), AMsg (VData (b "ab"))); (ESend (CData 2) (VData (b "ab")), AOk);
    (ERecv (CData 1), AMsg (VData (b "c"))); (ESend (CData 2) (VData (b "c")), AClosed); (ERecv (CData 1), AClosed); (EClose (CData 2), AOk); (EClose (CData 1), AOk)].
Proof. split; [apply took_by; reflexivity|]. split; reflexivity. Qed.
Lemma sp_buffer_unspied : spy_took (all_of sp_buffer_events) /\ length sp_buffer_events = 4 /\ length (unspied_events sp_buffer_events) = 3.
Proof. split; [apply took_by; reflexivity|]. split; reflexivity. Qed.
Lemma sp_launch_unspied : spy_took (all_of sp_launch_events) /\ length sp_launch_events = 5 /\ length (unspied_events sp_launch_events) = 4.
Proof. split; [apply took_by; reflexivity|]. split; reflexivity. Qed.

(** The spy has left: the output takes the message, the regulator stops with an error.  Without a spy it would not. *)
Definition left_answers : list ans := [AMsg (VData (b "ab")); AOk; AClosed; AOk; AOk].
Definition left_trace : trace := match drive 100 (regulator_start sp_regulator (Some 7)) left_answers with Some (tr, _) => tr | None => [] end.
Lemma left_ran : exec (regulator_start sp_regulator (Some 7)) left_trace (Done (Err (SpyWriteError 4 5 POut (IOData (b "ab"))))) /\ accepted_by sp_out left_trace = [b "ab"].
Proof. split; [|reflexivity]. eapply drive_sound with (fuel := 100) (answers := left_answers). vm_compute. reflexivity. Qed.
