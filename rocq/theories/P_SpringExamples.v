(** * P_SpringExamples: what is read and what is written in a run of a regulated pipeline *)
From Coq Require Import Ascii String List Bool Arith Lia Permutation.
From Verif Require Import M_Prog M_Motion M_Config M_Manip M_Lint M_Waiter M_Regulator M_Drain M_Faucet S_Manip S_Trace S_Lines S_Motion S_World S_Network S_Net S_Junction S_Drain M_Start S_Start S_Shape S_Waiter S_Watch S_Delay S_Flow P_Text P_Parser P_ManipExamples P_NetExamples P_Crowd P_Whole P_Jam P_Shape P_ShapeExamples P_WatchExamples P_DelayRun P_Act P_DelayExamples.
Import ListNotations.
Local Open Scope string_scope.
Local Open Scope list_scope.

Definition line_of (a b : ascii) : bytes := [a; b; "010"%char].
(** The lines b1 and b2 are read from b.txt; a1 and a2 from a.txt, in two pieces that are not cut where the line ends. *)
Definition mr_reads : list bytes := [line_of "b" "1"; line_of "a" "1" ++ ["a"%char]; line_of "b" "2"; ["2"%char; "010"%char]; []; []].
Definition file_got (name : string) (tr : trace) : list bytes := match tr with (ECreate p, AFd f) :: _ => if string_dec p name then S_Trace.written f tr else [] | _ => [] end.
Section Run.
#[local] Instance reading : pausing := fun e => match e with ESleep _ | ERead _ => true | _ => false end.
Definition mr_run := crowd 500 (concat (repeat (poll_order jam jm_controllers) 14)) mr_reads (seat jam jm_controllers) jm_world.
Definition mr_events : list nevent := fst (fst mr_run).
Lemma mr_ran : whole_run jam jm_controllers jm_world mr_events (snd mr_run) (seat_outcome jam (ready (snd (fst mr_run)))).
Proof. apply (played_whole jam jm_controllers); [by_vm|by_vm|by_vm|exact jm_made]. Qed.
Lemma mr_willing : willing mr_events.
Proof. apply willing_by; by_vm. Qed.
Lemma mr_done : everybody_succeeded jam jm_controllers (seat_outcome jam (ready (snd (fst mr_run)))).
Proof. apply everybody_did_well. by_vm. Qed.
Lemma mr_b : read_from (own (4 * 1) mr_events) = [line_of "b" "1"; line_of "b" "2"].
Proof. by_vm. Qed.
Lemma mr_a : read_from (own (4 * 2) mr_events) = [line_of "a" "1"; line_of "a" "2"].
Proof. by_vm. Qed.
Lemma mr_out : file_got "out.txt" (own (4 * 3) mr_events) = [line_of "b" "1"; line_of "b" "2"; line_of "a" "1"; line_of "a" "2"].
Proof. by_vm. Qed.
Lemma mr_log : file_got "log.txt" (own (4 * 4) mr_events) = [line_of "b" "1"; line_of "b" "2"; line_of "a" "1"; line_of "a" "2"].
Proof. by_vm. Qed.
End Run.
Ltac member := first [left; reflexivity|right; member].
Lemma mr_fed_all : fed_by jam 0 [2; 5].
Proof.
  assert (H2 : fed_by jam 2 [2]) by (apply (F_made jam (nth 1 jam (NJunction (M_Junction.junction_new)))); cbn; [member|exact Logic.I|member]).
  assert (H5 : fed_by jam 5 [5]) by (apply (F_made jam (nth 2 jam (NJunction (M_Junction.junction_new)))); cbn; [member|exact Logic.I|member]).
  assert (H6 : fed_by jam 6 [5]) by (apply (F_passed jam (nth 0 jam (NJunction (M_Junction.junction_new))) 6 [[5]]); cbn; [member|exact Logic.I|member|repeat constructor; exact H5]).
  assert (H1 : fed_by jam 1 [2; 5]) by (apply (F_passed jam (nth 8 jam (NJunction (M_Junction.junction_new))) 1 [[2]; [5]]); cbn; [member|exact Logic.I|member|repeat constructor; [exact H2|exact H6]]).
  apply (F_passed jam (nth 6 jam (NJunction (M_Junction.junction_new))) 0 [[2; 5]]); cbn; [member|exact Logic.I|member|repeat constructor; exact H1].
Qed.
Lemma mr_fed_log : fed_by jam 7 [2; 5].
Proof. apply (F_passed jam (nth 7 jam (NJunction (M_Junction.junction_new))) 7 [[2; 5]]); cbn; [member|exact Logic.I|member|repeat constructor; exact mr_fed_all]. Qed.
Lemma mr_fed_out : fed_by jam 4 [2; 5].
Proof.
  apply (F_passed jam (nth 5 jam (NJunction (M_Junction.junction_new))) 4 [[2; 5]]); cbn; [member|exact Logic.I|member|]. repeat constructor.
  apply (F_passed jam (nth 7 jam (NJunction (M_Junction.junction_new))) 3 [[2; 5]]); cbn; [member|exact Logic.I|member|repeat constructor; exact mr_fed_all].
Qed.
Lemma head_is (tr : trace) (e0 : string) (ms : list bytes) : ms <> [] -> match tr with (ECreate p, AFd f) :: _ => if string_dec p e0 then S_Trace.written f tr else [] | _ => [] end = ms ->
  exists f rest, tr = (ECreate e0, AFd f) :: rest /\ S_Trace.written f tr = ms.
Proof.
  intros Hn. destruct tr as [|[e a] rest]; [congruence|]. destruct e; try congruence. destruct a; try congruence. destruct (string_dec _ _) as [->|]; [|congruence]. eauto.
Qed.

Lemma mixed_by l a1 a2 b1 b2 o os g gs : read_from (own (4 * 1) l) = [b1; b2] -> read_from (own (4 * 2) l) = [a1; a2] -> file_got "out.txt" (own (4 * 3) l) = o :: os -> file_got "log.txt" (own (4 * 4) l) = g :: gs ->
  (source_gave jam l 2 [b1; b2] /\ source_gave jam l 5 [a1; a2]) /\ target_got jam l 4 (o :: os) /\ target_got jam l 7 (g :: gs).
Proof.
  intros Eb Ea Eo Eg. destruct (head_is _ _ (o :: os) ltac:(discriminate) Eo) as (f & rest & E1 & E2). destruct (head_is _ _ (g :: gs) ltac:(discriminate) Eg) as (f' & rest' & E3 & E4).
  rewrite <- Ea, <- Eb. split; [split|split].
  - eapply SG_faucet; [reflexivity|now left].
  - eapply SG_faucet; [reflexivity|now left].
  - rewrite <- E2. eapply TG_drain; [reflexivity|now left|reflexivity|exact E1].
  - rewrite <- E4. eapply TG_drain; [reflexivity|now left|reflexivity|exact E3].
Qed.
Theorem mixed : exists w0 l wl ocs b1 b2 a1 a2, whole_run (net_of None [] jm_waiter) jm_controllers w0 l wl ocs /\ willing l /\ all_succeeded (net_of None [] jm_waiter) ocs /\
  b1 = line_of "b" "1" /\ b2 = line_of "b" "2" /\ a1 = line_of "a" "1" /\ a2 = line_of "a" "2" /\
  (fed_by (net_of None [] jm_waiter) 4 [2; 5] /\ fed_by (net_of None [] jm_waiter) 7 [2; 5]) /\
  (source_gave (net_of None [] jm_waiter) l 2 [b1; b2] /\ source_gave (net_of None [] jm_waiter) l 5 [a1; a2]) /\
  target_got (net_of None [] jm_waiter) l 4 [b1; b2; a1; a2] /\ target_got (net_of None [] jm_waiter) l 7 [b1; b2; a1; a2].
Proof.
  change (net_of None [] jm_waiter) with jam. exists jm_world, mr_events, (snd mr_run), (seat_outcome jam (ready (snd (fst mr_run)))), (line_of "b" "1"), (line_of "b" "2"), (line_of "a" "1"), (line_of "a" "2").
  split; [exact mr_ran|]. split; [exact mr_willing|]. split; [intros k Hk; apply mr_done; apply Nat.lt_lt_add_r; exact Hk|]. do 4 (split; [reflexivity|]). split; [split; [exact mr_fed_out|exact mr_fed_log]|].
  exact (mixed_by mr_events _ _ _ _ _ _ _ _ mr_b mr_a mr_out mr_log).
Qed.
