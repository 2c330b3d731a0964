(** * P_LeadExamples: one of two files breaks; what the other gets, over pipes that give way and over pipes that do not *)
From Coq Require Import Ascii String List Bool Arith Lia Permutation ZArith.
From Verif Require Import M_Prog M_Join M_Launch M_Motion M_Config M_Manip M_Lint M_Waiter M_Regulator M_Drain M_Faucet S_Manip S_Trace S_Lines S_Motion S_World S_Network S_Net S_Junction S_Drain S_Launch M_Start S_Start S_Shape S_Waiter S_Watch S_Delay S_Flow S_Path S_Bytes P_Path P_SpringExamples P_PathExamples P_Text P_Parser P_ManipExamples P_NetExamples P_Crowd P_Whole P_Jam P_Shape P_ShapeExamples P_WatchExamples P_DelayRun P_Act P_DelayExamples P_WaiterExamples P_Bytes P_BytesExamples P_Wreck M_Parser P_LastingExamples S_Grammar S_Soft S_Lead P_SoftExamples P_SoftEndsExamples.
Import ListNotations.
Local Open Scope string_scope.
Local Open Scope list_scope.

Definition from_in : M_Manip.source := ((CFaucet, "in"%string), POut).
Definition steps_of (c : config) : list (connection * connection) := match convert_connections (cf_connection c) with Good (m1, _) => flat_map (fun kv => neighbours (listed (snd kv))) m1 | _ => [] end.
Lemma steps_spelled c : good_connections (cf_connection c) -> match convert_connections (cf_connection c) with Good (_, []) => true | _ => false end = true -> spelled (cf_connection c) (steps_of c).
Proof.
  intros Hg H. unfold steps_of. destruct (convert_connections (cf_connection c)) as [[m1 [|x o]]|e] eqn:E; try discriminate H. exact (spelled_by _ _ Hg E).
Qed.

(** ** The pipes give way *)
Definition sf_steps : list (connection * connection) := Eval vm_compute in steps_of sf_config.
Lemma sf_spelled : spelled (cf_connection sf_config) sf_steps.
Proof. exact (steps_spelled sf_config sf_good eq_refl). Qed.
Lemma sf_supplied : supplied sf_steps (CDrain, "good"%string) [from_in].
Proof.
  exists [[from_in]]. split; [|reflexivity]. replace (arrivals sf_steps (CDrain, "good"%string)) with [((CJunction, "fork"%string), POut)] by arrived. constructor; [|constructor].
  apply (CF_passed sf_steps _ _ _ [[from_in]]); [tauto|]. replace (arrivals sf_steps (CJunction, "fork"%string)) with [from_in] by arrived. repeat constructor.
Qed.
Section Broken.
#[local] Existing Instance broken.
Definition ld_lines : list bytes := map (fun a => [a; "010"%char]) ["0"; "1"; "2"; "3"; "4"; "5"; "6"; "7"; "8"; "9"; "a"; "b"; "c"; "d"; "e"; "f"]%char.
Definition ld_run := crowd 500 (concat (repeat (poll_order sf_net []) 12)) ld_lines (seat sf_net []) lw_world.
Lemma ld_ran : whole_run sf_net [] lw_world (fst (fst ld_run)) (snd ld_run) (seat_outcome sf_net (ready (snd (fst ld_run)))).
Proof. apply (played_whole sf_net []); [by_vm|by_vm|by_vm|made_of_eights]. Qed.
Lemma ld_granted : granted (fst (fst ld_run)).
Proof. apply granted_by. by_vm. Qed.
Lemma ld_locked : whole_locked sf_net [] lw_world (fst (fst ld_run)).
Proof. apply (played_locked sf_net []); by_vm. Qed.
Lemma ld_failed : match seat_outcome sf_net (ready (snd (fst ld_run))) 1 with Ended (Err _) => true | _ => false end = true.
Proof. by_vm. Qed.
Lemma ld_unhurt : forallb (fun k => forallb (fun x : event => match snd x with AErr | ABroken => negb (outward (fst x)) | _ => true end) (did k (fst (fst ld_run)))) [0; 2] = true.
Proof. by_vm. Qed.
Lemma ld_read : read_from (own (4 * 0) (fst (fst ld_run))) = ld_lines.
Proof. by_vm. Qed.
Lemma ld_got : file_got "good.txt" (own (4 * 2) (fst (fst ld_run))) = ld_lines.
Proof. by_vm. Qed.
Lemma ld_refused : existsb (fun x : nevent => match x with (16, (ESend (CData 2) _, AClosed)) => true | _ => false end) (fst (fst ld_run)) = true.
Proof. by_vm. Qed.
End Broken.
Lemma failed_is (o : S_Net.outcome) : match o with Ended (Err _) => true | _ => false end = true -> exists e, o = Ended (Err e).
Proof. destruct o as [|[m|e]|]; try discriminate. eauto. Qed.
Lemma given_in l ms : read_from (own (4 * 0) l) = ms -> has_given sf_config sf_waiter None [] l from_in ms.
Proof. intros <-. apply HG_faucet. eexists. split; reflexivity. Qed.
Lemma got_good l m ms : file_got "good.txt" (own (4 * 2) l) = m :: ms -> has_got sf_config sf_waiter None [] l (CDrain, "good"%string) (m :: ms).
Proof.
  intro E. destruct (head_is _ _ (m :: ms) ltac:(discriminate) E) as (f & rest & E1 & E2). rewrite <- E2. eapply HO_drain; [eexists; split; reflexivity|reflexivity|exact E1].
Qed.
Lemma sf_in_at k : stands_at sf_config sf_waiter None [] (CFaucet, "in"%string) k -> k = 0.
Proof. intros (f & H1 & H2). change (net_of None [] sf_waiter) with sf_net in H2. destruct k as [|[|[|[|[|k]]]]]; [reflexivity|discriminate H2..|destruct k; discriminate H2]. Qed.
Lemma sf_good_at k : stands_at sf_config sf_waiter None [] (CDrain, "good"%string) k -> k = 2.
Proof. intros (f & H1 & H2). change (net_of None [] sf_waiter) with sf_net in H2. destruct k as [|[|[|[|[|k]]]]]; try discriminate H2; [reflexivity|destruct k; discriminate H2]. Qed.
Lemma unhurt_both l : forallb (fun k => forallb (fun x : event => match snd x with AErr | ABroken => negb (outward (fst x)) | _ => true end) (did k l)) [0; 2] = true -> ~ hurt (did 0 l) /\ ~ hurt (did 2 l).
Proof. intro H. cbn [forallb] in H. apply andb_prop in H as [H1 H]. apply andb_prop in H as [H2 _]. split; now apply unhurt_by. Qed.
Theorem led_shown : good_connections (cf_connection sf_config) /\ prepares in_order sf_config sf_waiter [] /\ giving_way (cf_connection sf_config) /\ passing (cf_connection sf_config) /\ no_loop (cf_connection sf_config) /\
  exists ps, spelled (cf_connection sf_config) ps /\ arrivals ps (CDrain, "good"%string) <> [] /\ supplied ps (CDrain, "good"%string) [from_in] /\
  exists w0 l wl ocs e ms, whole_run (net_of None [] sf_waiter) [] w0 l wl ocs /\ granted l /\ whole_locked (net_of None [] sf_waiter) [] w0 l /\ ocs 1 = Ended (Err e) /\
    (forall y k, y = (CDrain, "good"%string) \/ In y (map fst [from_in]) -> stands_at sf_config sf_waiter None [] y k -> ~ hurt (did k l)) /\
    List.length ms = 16 /\ has_given sf_config sf_waiter None [] l from_in ms /\ has_got sf_config sf_waiter None [] l (CDrain, "good"%string) ms.
Proof.
  split; [exact sf_good|]. split; [exact sf_prepares|]. split; [exact sf_soft|]. split; [exact sf_passing|]. split; [exact sf_no_loop|].
  exists sf_steps. split; [exact sf_spelled|]. split; [discriminate|]. split; [exact sf_supplied|]. destruct (failed_is (seat_outcome sf_net (ready (snd (fst ld_run))) 1) ld_failed) as (e & He). destruct (unhurt_both _ ld_unhurt) as [U1 U2].
  eexists _, _, _, _, e, ld_lines. change (net_of None [] sf_waiter) with sf_net. split; [exact ld_ran|]. split; [exact ld_granted|]. split; [exact ld_locked|]. split; [exact He|]. split; [|split; [reflexivity|split; [exact (given_in _ _ ld_read)|exact (got_good _ _ _ ld_got)]]].
  intros y k [-> |[<-|[]]] Hk; [rewrite (sf_good_at k Hk)|rewrite (sf_in_at k Hk)]; assumption.
Qed.

(** ** The pipes do not give way *)
Definition hd_steps : list (connection * connection) := Eval vm_compute in steps_of hd_config.
Lemma hd_spelled : spelled (cf_connection hd_config) hd_steps.
Proof. exact (steps_spelled hd_config hd_good eq_refl). Qed.
Lemma hd_supplied : supplied hd_steps (CDrain, "good"%string) [from_in].
Proof.
  exists [[from_in]]. split; [|reflexivity]. replace (arrivals hd_steps (CDrain, "good"%string)) with [((CJunction, "fork"%string), POut)] by arrived. constructor; [|constructor].
  apply (CF_passed hd_steps _ _ _ [[from_in]]); [tauto|]. replace (arrivals hd_steps (CJunction, "fork"%string)) with [from_in] by arrived. repeat constructor.
Qed.
Section Hard.
#[local] Existing Instance broken.
Lemma hd_granted : granted (fst (fst hd_run)).
Proof. apply granted_by. by_vm. Qed.
Lemma hd_locked : whole_locked hd_net [] lw_world (fst (fst hd_run)).
Proof. apply (played_locked hd_net []); by_vm. Qed.
Lemma hd_waits : seat_outcome hd_net (ready (snd (fst hd_run))) 2 = Going.
Proof. by_vm. Qed.
Lemma hd_well : seat_outcome hd_net (ready (snd (fst hd_run))) 0 = Ended (Ok 20).
Proof. by_vm. Qed.
Lemma hd_both : forallb (fun k => forallb (fun x : event => match snd x with AErr | ABroken => negb (outward (fst x)) | _ => true end) (did k (fst (fst hd_run)))) [0; 2] = true.
Proof. by_vm. Qed.
Lemma hd_read : read_from (own (4 * 0) (fst (fst hd_run))) = repeat P_Jam.a_line 20.
Proof. by_vm. Qed.
Lemma hd_got : file_got "good.txt" (own (4 * 2) (fst (fst hd_run))) = repeat P_Jam.a_line 8.
Proof. by_vm. Qed.
End Hard.
Lemma hd_given l ms : read_from (own (4 * 0) l) = ms -> has_given hd_config hd_waiter None [] l from_in ms.
Proof. intros <-. apply HG_faucet. eexists. split; reflexivity. Qed.
Lemma hd_gets l m ms : file_got "good.txt" (own (4 * 2) l) = m :: ms -> has_got hd_config hd_waiter None [] l (CDrain, "good"%string) (m :: ms).
Proof.
  intro E. destruct (head_is _ _ (m :: ms) ltac:(discriminate) E) as (f & rest & E1 & E2). rewrite <- E2. eapply HO_drain; [eexists; split; reflexivity|reflexivity|exact E1].
Qed.
Lemma hd_in_at : stands_at hd_config hd_waiter None [] (CFaucet, "in"%string) 0.
Proof. eexists. split; reflexivity. Qed.
Lemma hd_good_at : stands_at hd_config hd_waiter None [] (CDrain, "good"%string) 2.
Proof. eexists. split; reflexivity. Qed.
Theorem left_waiting : exists c w ps, good_connections (cf_connection c) /\ prepares in_order c w [] /\ passing (cf_connection c) /\ no_loop (cf_connection c) /\ spelled (cf_connection c) ps /\
  exists x s kx ks, fst x = CDrain /\ fst (fst s) = CFaucet /\ supplied ps x [s] /\ stands_at c w None [] x kx /\ stands_at c w None [] (fst s) ks /\
  exists w0 l wl ocs, whole_run (net_of None [] w) [] w0 l wl ocs /\ granted l /\ whole_locked (net_of None [] w) [] w0 l /\
    ~ hurt (did kx l) /\ ~ hurt (did ks l) /\ went_well ocs ks /\ ocs kx = Going /\
    exists ms ms', has_given c w None [] l s ms /\ has_got c w None [] l x ms' /\ List.length ms' < List.length ms.
Proof.
  exists hd_config, hd_waiter, hd_steps. split; [exact hd_good|]. split; [exact hd_prepares|]. split; [exact hd_passing|]. split; [exact hd_no_loop|]. split; [exact hd_spelled|].
  exists (CDrain, "good"%string), from_in, 2, 0. split; [reflexivity|]. split; [reflexivity|]. split; [exact hd_supplied|]. split; [exact hd_good_at|]. split; [exact hd_in_at|].
  destruct (unhurt_both _ hd_both) as [U1 U2].
  eexists lw_world, _, _, _. change (net_of None [] hd_waiter) with hd_net. split; [exact hd_ran|]. split; [exact hd_granted|]. split; [exact hd_locked|]. split; [exact U2|]. split; [exact U1|]. split; [exists 20; exact hd_well|]. split; [exact hd_waits|].
  exists (repeat P_Jam.a_line 20), (repeat P_Jam.a_line 8). split; [exact (hd_given _ _ hd_read)|]. split; [exact (hd_gets _ _ _ hd_got)|]. rewrite !repeat_length. lia.
Qed.
