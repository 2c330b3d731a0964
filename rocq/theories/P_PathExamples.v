(** * P_PathExamples: a run of a regulated pipeline, by its connections *)
From Coq Require Import Ascii String List Bool Arith Lia Permutation.
From Verif Require Import M_Prog M_Motion M_Config M_Manip M_Lint M_Waiter M_Regulator M_Drain M_Faucet S_Manip S_Trace S_Lines S_Motion S_World S_Network S_Net S_Junction S_Drain M_Start S_Start S_Shape S_Waiter S_Watch S_Delay S_Flow S_Path P_Path P_SpringExamples P_Text P_Parser P_ManipExamples P_NetExamples P_Crowd P_Whole P_Jam P_Shape P_ShapeExamples P_WatchExamples P_DelayRun P_Act P_DelayExamples.
Import ListNotations.
Local Open Scope string_scope.
Local Open Scope list_scope.

Definition jm_steps : list (connection * connection) :=
  Eval vm_compute in match convert_connections (cf_connection jm_config) with Good (m1, _) => flat_map (fun kv => neighbours (listed (snd kv))) m1 | _ => [] end.
Lemma spelled_by m m1 : good_connections m -> convert_connections m = Good (m1, []) -> spelled m (flat_map (fun kv => neighbours (listed (snd kv))) m1).
Proof. intros [_ Hg] E. destruct (spelled_good m Hg) as (ps & H). now rewrite <- (spelled_out _ _ H _ E). Qed.
Lemma jm_spelled : spelled (cf_connection jm_config) jm_steps.
Proof.
  destruct (convert_connections (cf_connection jm_config)) as [[m1 o]|e] eqn:E; [|exfalso; vm_compute in E; discriminate]. assert (o = []) by (vm_compute in E; congruence). subst o.
  pose proof (spelled_by _ _ jm_good E) as H. replace jm_steps with (flat_map (fun kv => neighbours (listed (snd kv))) m1); [exact H|]. vm_compute in E. injection E as <-. reflexivity.
Qed.
Definition from_b : M_Manip.source := ((CFaucet, "b"%string), POut).
Definition from_a : M_Manip.source := ((CFaucet, "a"%string), POut).
Ltac arrived := vm_compute; reflexivity.
Lemma jm_all : comes_from jm_steps ((CJunction, "all"%string), POut) [from_b; from_a].
Proof.
  assert (Ha : comes_from jm_steps from_a [from_a]) by (constructor; now left). assert (Hb : comes_from jm_steps from_b [from_b]) by (constructor; now left).
  assert (Hg : comes_from jm_steps ((CRegulator, "gate"%string), POut) [from_a]).
  { apply (CF_passed jm_steps _ _ _ [[from_a]]); [now left|]. replace (arrivals jm_steps (CRegulator, "gate"%string)) with [from_a] by arrived. repeat constructor; exact Ha. }
  apply (CF_passed jm_steps _ _ _ [[from_b]; [from_a]]); [tauto|]. replace (arrivals jm_steps (CJunction, "all"%string)) with [from_b; ((CRegulator, "gate"%string), POut)] by arrived. constructor; [exact Hb|]. constructor; [exact Hg|constructor].
Qed.
Lemma jm_to_log : supplied jm_steps (CDrain, "log"%string) [from_b; from_a].
Proof. exists [[from_b; from_a]]. split; [|reflexivity]. replace (arrivals jm_steps (CDrain, "log"%string)) with [((CJunction, "all"%string), POut)] by arrived. constructor; [exact jm_all|constructor]. Qed.
Lemma jm_to_out : supplied jm_steps (CDrain, "out"%string) [from_b; from_a].
Proof.
  exists [[from_b; from_a]]. split; [|reflexivity]. replace (arrivals jm_steps (CDrain, "out"%string)) with [((CBuffer, "store"%string), POut)] by arrived. constructor; [|constructor].
  apply (CF_passed jm_steps _ _ _ [[from_b; from_a]]); [tauto|]. replace (arrivals jm_steps (CBuffer, "store"%string)) with [((CJunction, "all"%string), POut)] by arrived. constructor; [exact jm_all|constructor].
Qed.
Lemma jm_faucet n k f : lookup n (w_faucet jm_waiter) = Some f -> nth_error jam k = Some (NFaucet f (location n (cf_faucet jm_config))) -> faucet_at jm_config jm_waiter None [] n k.
Proof. intros H1 H2. exists f. auto. Qed.
Lemma pathed_by l a1 a2 b1 b2 o os g gs : read_from (own (4 * 1) l) = [b1; b2] -> read_from (own (4 * 2) l) = [a1; a2] -> file_got "out.txt" (own (4 * 3) l) = o :: os -> file_got "log.txt" (own (4 * 4) l) = g :: gs ->
  (has_given jm_config jm_waiter None [] l from_b [b1; b2] /\ has_given jm_config jm_waiter None [] l from_a [a1; a2]) /\ has_got jm_config jm_waiter None [] l (CDrain, "out"%string) (o :: os) /\ has_got jm_config jm_waiter None [] l (CDrain, "log"%string) (g :: gs).
Proof.
  intros Eb Ea Eo Eg. destruct (head_is _ _ (o :: os) ltac:(discriminate) Eo) as (f & rest & E1 & E2). destruct (head_is _ _ (g :: gs) ltac:(discriminate) Eg) as (f' & rest' & E3 & E4).
  rewrite <- Ea, <- Eb. split; [split|split].
  - apply HG_faucet. eexists. split; reflexivity.
  - apply HG_faucet. eexists. split; reflexivity.
  - rewrite <- E2. eapply HO_drain; [eexists; split; reflexivity|reflexivity|exact E1].
  - rewrite <- E4. eapply HO_drain; [eexists; split; reflexivity|reflexivity|exact E3].
Qed.
Theorem path_shown : exists ps w0 l wl ocs b1 b2 a1 a2, spelled (cf_connection jm_config) ps /\ whole_run (net_of None [] jm_waiter) jm_controllers w0 l wl ocs /\ willing l /\ all_succeeded (net_of None [] jm_waiter) ocs /\
  b1 = line_of "b" "1" /\ b2 = line_of "b" "2" /\ a1 = line_of "a" "1" /\ a2 = line_of "a" "2" /\
  (supplied ps (CDrain, "out"%string) [from_b; from_a] /\ supplied ps (CDrain, "log"%string) [from_b; from_a]) /\
  (has_given jm_config jm_waiter None [] l from_b [b1; b2] /\ has_given jm_config jm_waiter None [] l from_a [a1; a2]) /\
  has_got jm_config jm_waiter None [] l (CDrain, "out"%string) [b1; b2; a1; a2] /\ has_got jm_config jm_waiter None [] l (CDrain, "log"%string) [b1; b2; a1; a2].
Proof.
  change (net_of None [] jm_waiter) with jam. exists jm_steps, jm_world, mr_events, (snd mr_run), (seat_outcome jam (ready (snd (fst mr_run)))), (line_of "b" "1"), (line_of "b" "2"), (line_of "a" "1"), (line_of "a" "2").
  split; [exact jm_spelled|]. split; [exact mr_ran|]. split; [exact mr_willing|]. split; [intros k Hk; apply mr_done; apply Nat.lt_lt_add_r; exact Hk|]. do 4 (split; [reflexivity|]). split; [split; [exact jm_to_out|exact jm_to_log]|].
  exact (pathed_by mr_events _ _ _ _ _ _ _ _ mr_b mr_a mr_out mr_log).
Qed.
