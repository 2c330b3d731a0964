(** * Properties of spying: what it changes (src/motion.rs 534-543, src/launch.rs 245-256) *)
From Coq Require Import Ascii String List Bool Arith ZArith.
From Verif Require Import M_Prog M_Motion M_Connectable M_Join M_Regulator M_Junction M_Faucet M_Buffer M_Launch S_Motion S_World S_Spy S_Unspied P_Split P_SpyExamples P_Unspied P_UnspiedExamples.
Import ListNotations.

(** C125: a component that is spied upon does what it does when it is not, as long as the spy listens: the same effects,
    answers and results are possible, in the same order. *)
Theorem C125_relay : forall spy pl mon ps, watched_only (motion pl mon spy ps) (motion pl mon None ps).
Proof. exact wo_motion. Qed.
Print Assumptions C125_relay.
Theorem C125_faucet : forall s f, watched_only (faucet_start f (Some s)) (faucet_start f None).
Proof. exact wo_faucet. Qed.
Print Assumptions C125_faucet.
Theorem C125_regulator : forall s r, watched_only (regulator_start r (Some s)) (regulator_start r None).
Proof. exact wo_regulator. Qed.
Print Assumptions C125_regulator.
Theorem C125_junction : forall s j, watched_only (junction_start j (Some s)) (junction_start j None).
Proof. exact wo_junction. Qed.
Print Assumptions C125_junction.
Theorem C125_buffer : forall s b u mi mo, watched_jointly (buffer_start b (Some s) u mi mo) (buffer_start b None u mi mo).
Proof. exact wo_buffer. Qed.
Print Assumptions C125_buffer.
Theorem C125_program : forall s cwd vars l, watched_jointly (launch_start cwd vars l (Some s)) (launch_start cwd vars l None).
Proof. exact wo_launch. Qed.
Print Assumptions C125_program.
Example C125_example :
  (exec (regulator_start sp_regulator (Some 7)) sp_regulator_trace (Done (Ok 2)) /\ spy_took sp_regulator_trace /\ length sp_regulator_trace = 10 /\
   unspied sp_regulator_trace = [(ERecv (CData 1), AMsg (VData (b "ab"))); (ESend (CData 2) (VData (b "ab")), AOk);
    (ERecv (CData 1), AMsg (VData (b "c"))); (ESend (CData 2) (VData (b "c")), AClosed); (ERecv (CData 1), AClosed); (EClose (CData 2), AOk); (EClose (CData 1), AOk)]) /\
  (buffer_start sp_buffer (Some 7) 30 31 32 sp_buffer_events (During (At (ERecv (CData 1))) (At (ERecv (CData 30))) (At (ETryRecv (CMon 31)))) /\
   spy_took (all_of sp_buffer_events) /\ length sp_buffer_events = 4 /\ length (unspied_events sp_buffer_events) = 3) /\
  (launch_start None [] sp_launch (Some 7) sp_launch_events (During (Done (Ok 1)) (At (ERead 21)) (Done (Ok 1))) /\
   spy_took (all_of sp_launch_events) /\ length sp_launch_events = 5 /\ length (unspied_events sp_launch_events) = 4).
Proof. exact (conj (conj sp_regulator_ran sp_unspied) (conj (conj sp_buffer_ran sp_buffer_unspied) (conj sp_launch_ran sp_launch_unspied))). Qed.

(** C126 is false: a spy that has left makes a component fail whose output has taken everything. *)
Theorem C126_left_refuted : exists r s p tr e d, rg_stdout r = Some p /\ exec (regulator_start r (Some s)) tr (Done (Err e)) /\
  accepted_by p tr = [d] /\ offered_to p tr = [d] /\ (forall d', ~ found_closed p d' tr).
Proof.
  exists sp_regulator, 7, sp_out, left_trace. do 2 eexists. split; [reflexivity|]. split; [exact (proj1 left_ran)|]. split; [exact (proj2 left_ran)|]. split; [reflexivity|].
  intros d' (e & E & H). cbn in E. injection E as <-. vm_compute in H. intuition discriminate.
Qed.
Print Assumptions C126_left_refuted.
