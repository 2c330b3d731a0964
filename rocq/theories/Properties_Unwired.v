(** * Properties_Unwired: C67 *)
From Coq Require Import Ascii String List Bool Arith ZArith.
From Verif Require Import M_Prog P_Prog M_Motion M_Connectable M_Regulator M_Faucet M_Drain M_Junction M_Buffer M_Join S_World S_Trace S_Junction S_Unwired P_Unwired.
Import ListNotations.

(** C67 is false: a regulator without input and output, and a faucet without output, end with success; a junction without outputs takes the first message of its
    input, which is lost, and ends with success. *)
Theorem C67_error_refuted : exists r f j tr, rg_stdin r = None /\ rg_stdout r = None /\ exec (regulator_start r None) [] (Done (Ok 0)) /\
  unconnected_faucet f /\ exec (faucet_start f None) [] (Done (Ok 0)) /\
  junction_ready j /\ jn_stdout j = [] /\ exec (junction_start j None) tr (Done (Ok 1)) /\ taken (CData 1) tr <> [] /\ ~ saw_end (CData 1) tr.
Proof. exact unwired_ok. Qed.
Print Assumptions C67_error_refuted.

(** Buffers and drains do end at once with an error. *)
Theorem C67_buffer_partial : forall b spy u mi mo l js, bf_stdin b = None \/ bf_stdout b = None -> buffer_start b spy u mi mo l js ->
  own 1 l = [] /\ own 2 l = [] /\ own 3 l = [] /\ exists st, js = Before st /\ ends_at_once (Err NoneError) (own 0 l) st.
Proof. exact buffer_unwired. Qed.
Print Assumptions C67_buffer_partial.
Theorem C67_drain_partial : forall d tr st, dr_stdin d = None -> exec (drain_start d None) tr st -> ends_at_once (Err NoneError) tr st.
Proof. exact drain_unwired. Qed.
Print Assumptions C67_drain_partial.
(** The others always end at once, with success: nothing is taken or sent. *)
Theorem C67_regulator : forall r spy tr st, rg_started r = false -> rg_stdin r = None \/ rg_stdout r = None ->
  exec (regulator_start r spy) tr st -> ends_at_once (Ok 0) tr st.
Proof. exact regulator_unwired. Qed.
Print Assumptions C67_regulator.
Theorem C67_faucet : forall f spy tr st, unconnected_faucet f -> exec (faucet_start f spy) tr st -> ends_at_once (Ok 0) tr st.
Proof. exact faucet_unwired. Qed.
Print Assumptions C67_faucet.
Theorem C67_junction : forall j spy tr st, junction_ready j -> jn_inputs j = [] -> exec (junction_start j spy) tr st -> ends_at_once (Ok 0) tr st.
Proof. exact junction_unwired. Qed.
Print Assumptions C67_junction.
(** A buffer with an input only lets go of it. *)
Example C67_example : exists b, buffer_add_input buffer_new (PlReceiver (PJ 1 0) 1) 0 = Ok b /\ buffer_start b None 5 5 6 [(0, (EClose (CData 1), AOk))] (Before (Done (Err NoneError))).
Proof.
  eexists. split; [reflexivity|]. apply J_before_done; [intros i [<-|[<-|[<-|[]]]]; reflexivity|].
  eapply drive_sound with (fuel := 9) (answers := [AOk]). vm_compute. reflexivity.
Qed.
