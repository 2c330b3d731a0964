(** * Properties of spying (src/motion.rs 41-48, 534-543, src/waiter.rs 365-401, src/launch.rs 245-256) *)
From Coq Require Import Ascii String List Bool Arith ZArith.
From Verif Require Import M_Prog M_Motion M_Connectable M_Join M_Regulator M_Junction M_Faucet M_Buffer M_Launch S_Motion S_World S_Launch S_Spy P_Split P_Spy P_SpyExamples P_SpyEnd P_SpyOnce.
Import ListNotations.

(** C123: whatever a component offers to one of its outputs the spy is told of, at once, once and unchanged, and beside that only of ends. *)
Theorem C123_relay : forall pl mon s p tr st, followed p -> exec (motion pl mon (Some s) p) tr st -> told_in p s tr st.
Proof. exact spy_motion. Qed.
Print Assumptions C123_relay.
Theorem C123_faucet : forall f s p tr st, followed p -> fc_stdout f = Some p -> exec (faucet_start f (Some s)) tr st -> told_in p s tr st.
Proof. exact spy_faucet. Qed.
Print Assumptions C123_faucet.
Theorem C123_regulator : forall r s p tr st, followed p -> rg_stdout r = Some p -> exec (regulator_start r (Some s)) tr st -> told_in p s tr st.
Proof. exact spy_regulator. Qed.
Print Assumptions C123_regulator.
Theorem C123_junction : forall j s p l1 l2 tr st, followed p -> jn_stdout j = l1 ++ p :: l2 -> Forall (distinct p) (l1 ++ l2) ->
  exec (junction_start j (Some s)) tr st -> told_in p s tr st.
Proof. exact spy_junction. Qed.
Print Assumptions C123_junction.
Theorem C123_buffer : forall b s u mi mo l st p, followed p -> bf_stdout b = Some p -> buffer_start b (Some s) u mi mo l st ->
  match st with During _ out _ => told_in p s (own 2 l) out | _ => True end.
Proof. exact spy_buffer. Qed.
Print Assumptions C123_buffer.
Theorem C123_program : forall cwd vars la s l st, launch_start cwd vars la (Some s) l st ->
  match st with
  | During _ out err =>
    (forall p, followed p -> la_stdout la = Some p -> told_in p s (own 2 l) out) /\
    (forall p, followed p -> la_stderr la = Some p -> told_in p s (own 3 l) err)
  | _ => True
  end.
Proof. exact spy_launch. Qed.
Print Assumptions C123_program.
(** ... also when all parts are done: then nothing is left untold if there was no error.  The exit status is told of too, once. *)
Theorem C123_buffer_ended : forall b s u mi mo l st p, followed p -> bf_stdout b = Some p -> buffer_start b (Some s) u mi mo l (After st) ->
  told (talk p s (own 2 l)) /\ forall n, st = Done (Ok n) -> told_all (talk p s (own 2 l)).
Proof. exact spy_buffer_after. Qed.
Print Assumptions C123_buffer_ended.
Theorem C123_program_ended : forall cwd vars la s l st, launch_start cwd vars la (Some s) l (After st) ->
  (forall p, followed p -> la_stdout la = Some p -> told (talk p s (own 2 l)) /\ forall n, st = Done (Ok n) -> told_all (talk p s (own 2 l))) /\
  (forall p, followed p -> la_stderr la = Some p -> told (talk p s (own 3 l)) /\ forall n, st = Done (Ok n) -> told_all (talk p s (own 3 l))) /\
  (forall j n port, la_exit_status la = Some (j, n) -> j_port j = Some port -> told (talk (PsSender j n) s (own 0 l)) /\
     forall k, st = Done (Ok k) -> exists code m, exit_text code m /\ talk (PsSender j n) s (own 0 l) = [inl m; inr (IOData m)]).
Proof. exact spy_launch_after. Qed.
Print Assumptions C123_program_ended.
Example C123_ended_example : la_stdout sp_gone = Some sp_out /\ la_exit_status sp_gone = Some (sp_exit, 11) /\ launch_start None [] sp_gone (Some 7) sp_gone_events (After (Done (Ok 1))) /\
  talk sp_out 7 (own 2 sp_gone_events) = [inl (b "ab"); inr (IOData (b "ab")); inr Finished] /\
  talk (PsSender sp_exit 11) 7 (own 0 sp_gone_events) = [inl (b "3"); inr (IOData (b "3"))].
Proof. exact (conj eq_refl (conj eq_refl (conj sp_gone_ran sp_gone_said))). Qed.
(** The messages a spy was told of are those that were offered. *)
Theorem C123_same : forall p s tr, followed p -> told_all (talk p s tr) -> reported (talk p s tr) = offered_to p tr.
Proof. exact spy_same. Qed.
Print Assumptions C123_same.
Example C123_example : followed sp_out /\
  (fc_stdout sp_faucet = Some sp_out /\ exec (faucet_start sp_faucet (Some 7)) sp_faucet_trace (Done (Ok 1)) /\ talk sp_out 7 sp_faucet_trace = [inl ["x"%char; nl]; inr (IOData ["x"%char; nl]); inr Finished]) /\
  (rg_stdout sp_regulator = Some sp_out /\ exec (regulator_start sp_regulator (Some 7)) sp_regulator_trace (Done (Ok 2))) /\
  (jn_stdout sp_junction = [sp_other] ++ sp_out :: [] /\ Forall (distinct sp_out) ([sp_other] ++ []) /\ exec (junction_start sp_junction (Some 7)) sp_junction_trace (Done (Ok 3))) /\
  (bf_stdout sp_buffer = Some sp_out /\ buffer_start sp_buffer (Some 7) 30 31 32 sp_buffer_events (During (At (ERecv (CData 1))) (At (ERecv (CData 30))) (At (ETryRecv (CMon 31)))) /\ talk sp_out 7 (own 2 sp_buffer_events) = [inl (b "ab"); inr (IOData (b "ab"))]) /\
  (la_stdout sp_launch = Some sp_out /\ launch_start None [] sp_launch (Some 7) sp_launch_events (During (Done (Ok 1)) (At (ERead 21)) (Done (Ok 1))) /\ talk sp_out 7 (own 2 sp_launch_events) = [inl (b "ab"); inr (IOData (b "ab"))]).
Proof.
  exact (conj (proj1 sp_followed) (conj (conj eq_refl (conj sp_faucet_ran sp_faucet_said)) (conj (conj eq_refl sp_regulator_ran)
    (conj (conj (proj1 sp_junction_distinct) (conj (proj2 sp_junction_distinct) sp_junction_ran)) (conj (conj eq_refl (conj sp_buffer_ran eq_refl)) (conj eq_refl (conj sp_launch_ran eq_refl))))))).
Qed.

(** C124 is false: a message that a closed output refused is reported like one that arrived ... *)
Theorem C124_arrived_refuted : exists r s p tr n, followed p /\ rg_stdout r = Some p /\ exec (regulator_start r (Some s)) tr (Done (Ok n)) /\
  reported (talk p s tr) <> accepted_by p tr.
Proof. exists sp_regulator, 7, sp_out, sp_regulator_trace, 2. destruct sp_regulator_said as (_ & H1 & H2). split; [exact (proj1 sp_followed)|]. split; [reflexivity|]. split; [exact sp_regulator_ran|]. rewrite H1, H2. discriminate. Qed.
Print Assumptions C124_arrived_refuted.
(** ... and a junction reports an end of its output for every input that ends, messages following it. *)
Theorem C124_end_refuted : exists j s p tr n d l, followed p /\ In p (jn_stdout j) /\ exec (junction_start j (Some s)) tr (Done (Ok n)) /\
  talk p s tr = inr Finished :: inl d :: l.
Proof. exists sp_junction, 7, sp_out, sp_junction_trace, 3, (b "z"), [inr (IOData (b "z")); inr Finished]. split; [exact (proj1 sp_followed)|]. split; [right; left; reflexivity|]. split; [exact sp_junction_ran|exact sp_junction_said]. Qed.
Print Assumptions C124_end_refuted.
(** A relay (the parts of buffers and programs are relays), faucet or regulator reports at most one end of its output, and nothing is offered or reported after it. *)
Theorem C124_end_partial : forall s p, followed p ->
  (forall pl mon tr st, exec (motion pl mon (Some s) p) tr st -> (forall m, st <> Panicked m) -> ended_once (talk p s tr)) /\
  (forall f tr st, fc_stdout f = Some p -> exec (faucet_start f (Some s)) tr st -> (forall m, st <> Panicked m) -> ended_once (talk p s tr)) /\
  (forall r tr st, rg_stdout r = Some p -> exec (regulator_start r (Some s)) tr st -> (forall m, st <> Panicked m) -> ended_once (talk p s tr)).
Proof. exact ends_once. Qed.
Print Assumptions C124_end_partial.
Example C124_end_example : followed sp_out /\ rg_stdout sp_regulator = Some sp_out /\ exec (regulator_start sp_regulator (Some 7)) sp_regulator_trace (Done (Ok 2)) /\
  talk sp_out 7 sp_regulator_trace = [inl (b "ab"); inr (IOData (b "ab")); inl (b "c"); inr (IOData (b "c"))] ++ [inr Finished].
Proof. exact (conj (proj1 sp_followed) (conj eq_refl (conj sp_regulator_ran (proj1 sp_regulator_said)))). Qed.
(** An output that nobody has left has got what was reported, once the component is done. *)
Theorem C124_arrived_partial : forall A (q : prog A) p s tr st, (match p with PsSender _ _ | PsIoSender _ _ => True | _ => False end) -> exec q tr st ->
  (forall d, ~ found_closed p d tr) -> told_all (talk p s tr) -> reported (talk p s tr) = accepted_by p tr.
Proof. exact @spy_open. Qed.
Print Assumptions C124_arrived_partial.
Example C124_example : exec (faucet_start sp_faucet (Some 7)) sp_faucet_trace (Done (Ok 1)) /\ (forall d, ~ found_closed sp_out d sp_faucet_trace) /\
  reported (talk sp_out 7 sp_faucet_trace) = [["x"%char; nl]] /\ accepted_by sp_out sp_faucet_trace = [["x"%char; nl]].
Proof. refine (conj sp_faucet_ran (conj _ (conj eq_refl eq_refl))). intros d (e & E & H). cbn in E. injection E as <-. vm_compute in H. intuition discriminate. Qed.
