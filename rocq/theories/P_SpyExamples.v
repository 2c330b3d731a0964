(** * P_SpyExamples: components that are spied upon *)
From Coq Require Import Ascii String List Bool Arith ZArith.
From Verif Require Import M_Prog P_Prog M_Motion M_Connectable M_Join M_Regulator M_Junction M_Faucet M_Buffer M_Launch S_Motion S_World S_Spy P_Split.
Import ListNotations.

(** An output that may be left, and one that may not. *)
Definition sp_out : push := PsIoSender (J 4 (Some POut) 5 Consume) 2.
Definition sp_other : push := PsIoSender (J 4 (Some POut) 6 Terminate) 3.
Lemma sp_followed : followed sp_out /\ followed sp_other.
Proof. split; (split; [exact I|]); do 4 eexists; reflexivity. Qed.

Definition sp_regulator : regulator := Regulator false 8 (Some sp_out) (Some (PlReceiver (PJ 3 4) 1)) None.
Definition sp_faucet : faucet := Faucet false 8 (Some sp_out) None None (Some (PJ 0 4)) (Some "in.txt"%string).
Definition sp_junction : junction :=
  junction_add_input (junction_add_input (Junction 8 false [sp_other; sp_out] [] []) (PlReceiver (PJ 1 4) 10) 1) (PlReceiver (PJ 2 4) 11) 1.

(** "ab" is taken, "c" finds the output closed. *)
Definition sp_regulator_run : option (trace * status (mres nat)) :=
  drive 100 (regulator_start sp_regulator (Some 7)) [AMsg (VData (b "ab")); AOk; AOk; AMsg (VData (b "c")); AClosed; AOk; AClosed; AOk; AOk; AOk].
Definition sp_regulator_trace : trace := match sp_regulator_run with Some (tr, _) => tr | None => [] end.
Lemma sp_regulator_ran : exec (regulator_start sp_regulator (Some 7)) sp_regulator_trace (Done (Ok 2)).
Proof. eapply drive_sound with (fuel := 100) (answers := [AMsg (VData (b "ab")); AOk; AOk; AMsg (VData (b "c")); AClosed; AOk; AClosed; AOk; AOk; AOk]). vm_compute. reflexivity. Qed.
Lemma sp_regulator_said : talk sp_out 7 sp_regulator_trace = [inl (b "ab"); inr (IOData (b "ab")); inl (b "c"); inr (IOData (b "c")); inr Finished] /\
  reported (talk sp_out 7 sp_regulator_trace) = [b "ab"; b "c"] /\ accepted_by sp_out sp_regulator_trace = [b "ab"].
Proof. vm_compute. auto. Qed.

(** A file with "x" and a line break; nothing finds the output closed. *)
Definition nl : ascii := ascii_of_nat 10.
Definition sp_faucet_answers : list ans := [AFd 9; AData ["x"%char; nl]; AOk; AOk; AData []; AOk; AOk; AOk].
Definition sp_faucet_trace : trace := match drive 100 (faucet_start sp_faucet (Some 7)) sp_faucet_answers with Some (tr, _) => tr | None => [] end.
Lemma sp_faucet_ran : exec (faucet_start sp_faucet (Some 7)) sp_faucet_trace (Done (Ok 1)).
Proof. eapply drive_sound with (fuel := 100) (answers := sp_faucet_answers). vm_compute. reflexivity. Qed.
Lemma sp_faucet_said : talk sp_out 7 sp_faucet_trace = [inl ["x"%char; nl]; inr (IOData ["x"%char; nl]); inr Finished].
Proof. vm_compute. reflexivity. Qed.

(** Two inputs: one ends at once, then "z" comes from the other. *)
Definition sp_junction_answers : list ans :=
  [AClosed; AOk; AOk; AMsg (VData (b "z")); AOk; AOk; AOk; AOk; AOk; AClosed; AOk; AOk; AOk; AOk; AOk].
Definition sp_junction_trace : trace := match drive 100 (junction_start sp_junction (Some 7)) sp_junction_answers with Some (tr, _) => tr | None => [] end.
Lemma sp_junction_ran : exec (junction_start sp_junction (Some 7)) sp_junction_trace (Done (Ok 3)).
Proof. eapply drive_sound with (fuel := 100) (answers := sp_junction_answers). vm_compute. reflexivity. Qed.
Lemma sp_junction_said : talk sp_out 7 sp_junction_trace = [inr Finished; inl (b "z"); inr (IOData (b "z")); inr Finished].
Proof. vm_compute. reflexivity. Qed.
Lemma sp_junction_distinct : jn_stdout sp_junction = [sp_other] ++ sp_out :: [] /\ Forall (distinct sp_out) ([sp_other] ++ []).
Proof. split; [reflexivity|]. repeat constructor. discriminate. Qed.

(** A buffer that has passed on one message, and a program that has printed one. *)
Definition sp_buffer : buffer := Buffer 8 (Some sp_out) (Some (PlReceiver (PJ 3 4) 1)) None.
Definition sp_buffer_events : list nevent :=
  map (pair 2) [(ERecv (CData 30), AMsg (VData (b "ab"))); (ESend (CMon 32) VRead, AOk); (ESend (CData 2) (VData (b "ab")), AOk);
                (ESend (CSpy 7) (VSpy 4 5 POut (IOData (b "ab"))), AOk)].
Lemma sp_buffer_ran : buffer_start sp_buffer (Some 7) 30 31 32 sp_buffer_events (During (At (ERecv (CData 1))) (At (ERecv (CData 30))) (At (ETryRecv (CMon 31)))).
Proof.
  unfold buffer_start. refine (J_during _ _ _ _ _ [] sp_buffer_events (PlReceiver (PJ 3 4) 1, sp_out) _ _ _ _ _ _ _ _ _).
  - intros i _. reflexivity.
  - intros i [<-|[]]. reflexivity.
  - eapply drive_sound with (fuel := 100) (answers := []). vm_compute. reflexivity.
  - eapply drive_sound with (fuel := 100) (answers := []). vm_compute. reflexivity.
  - eapply drive_sound with (fuel := 100) (answers := [AMsg (VData (b "ab")); AOk; AOk; AOk]). vm_compute. reflexivity.
  - eapply drive_sound with (fuel := 100) (answers := []). vm_compute. reflexivity.
Qed.
Definition sp_launch : launch := Launch 4 "ls" None None None (Some sp_out) None None None false.
Definition sp_launch_events : list nevent :=
  (0, (ESpawn (launch_spawning None [] sp_launch), AChild 20 21 22)) ::
  map (pair 2) [(ERead 21, AData (b "ab")); (ERead 21, AData []); (ESend (CData 2) (VData (b "ab")), AOk);
                (ESend (CSpy 7) (VSpy 4 5 POut (IOData (b "ab"))), AOk)].
Lemma sp_launch_ran : launch_start None [] sp_launch (Some 7) sp_launch_events (During (Done (Ok 1)) (At (ERead 21)) (Done (Ok 1))).
Proof.
  unfold launch_start, sp_launch_events. match goal with |- joined _ _ _ _ _ (?x :: ?l) _ => change (x :: l) with ([x] ++ l) end.
  refine (J_during _ _ _ _ _ [_] _ (launch_relays sp_launch 20 21 22) _ _ _ _ _ _ _ _ _).
  - intros i [<-|[<-|[<-|[]]]]; reflexivity.
  - intros i [<-|[]]. reflexivity.
  - eapply drive_sound with (fuel := 100) (answers := [AChild 20 21 22]). vm_compute. reflexivity.
  - eapply drive_sound with (fuel := 100) (answers := []). vm_compute. reflexivity.
  - eapply drive_sound with (fuel := 100) (answers := [AData (b "ab"); AData []; AOk; AOk]). vm_compute. reflexivity.
  - eapply drive_sound with (fuel := 100) (answers := []). vm_compute. reflexivity.
Qed.

(** A program that has printed one message and ended with 3; its status is asked for twice. *)
Definition sp_exit : journey := J 4 (Some PExit) 9 Terminate.
Definition sp_gone : launch := Launch 4 "ls" None None None (Some sp_out) None (Some (sp_exit, 11)) None false.
Definition sp_gone_out : list ans := [AData (b "ab"); AData []; AOk; AOk; AData []; AOk; AOk; AOk; AOk].
Definition sp_gone_status : list ans := [AErr; AOk; AStatus (Some 3%Z); AOk; AOk; AOk].
Definition sp_gone_events : list nevent :=
  [(0, (ESpawn (launch_spawning None [] sp_gone), AChild 20 21 22))] ++
  map (pair 2) (match drive 100 (relay (rl_out (launch_relays sp_gone 20 21 22)) (Some 7)) sp_gone_out with Some (tr, _) => tr | None => [] end) ++
  map (pair 0) (match drive 100 (launch_finish sp_gone (Some 7) (Ok 1) (Ok 2) (Ok 1)) sp_gone_status with Some (tr, _) => tr | None => [] end).
Lemma sp_gone_ran : launch_start None [] sp_gone (Some 7) sp_gone_events (After (Done (Ok 1))).
Proof.
  unfold launch_start, sp_gone_events. refine (J_after _ _ _ _ _ [_] _ _ (launch_relays sp_gone 20 21 22) (Ok 1) (Ok 2) (Ok 1) _ _ _ _ _ _ _ _ _).
  - intros i [<-|[<-|[<-|[]]]]; reflexivity.
  - intros i [<-|[]]. vm_compute. reflexivity.
  - intros i [<-|[<-|[<-|[]]]]; vm_compute; reflexivity.
  - eapply drive_sound with (fuel := 100) (answers := [AChild 20 21 22]). vm_compute. reflexivity.
  - eapply drive_sound with (fuel := 100) (answers := []). vm_compute. reflexivity.
  - eapply drive_sound with (fuel := 100) (answers := sp_gone_out). vm_compute. reflexivity.
  - eapply drive_sound with (fuel := 100) (answers := []). vm_compute. reflexivity.
  - eapply drive_sound with (fuel := 100) (answers := sp_gone_status). vm_compute. reflexivity.
Qed.
Lemma sp_gone_said : talk sp_out 7 (own 2 sp_gone_events) = [inl (b "ab"); inr (IOData (b "ab")); inr Finished] /\
  talk (PsSender sp_exit 11) 7 (own 0 sp_gone_events) = [inl (b "3"); inr (IOData (b "3"))].
Proof. vm_compute. auto. Qed.
