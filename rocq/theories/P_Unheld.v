(** * P_Unheld: with a buffer that nobody watches a source runs ahead without bound *)
From Coq Require Import Ascii String List Bool Arith Lia Permutation Relations.
From Verif Require Import M_Prog P_Prog P_Exec M_Join M_Motion M_Config M_Manip M_Lint M_Waiter M_Regulator M_Faucet M_Drain M_Buffer M_BackOff S_Manip S_Trace S_World S_Network S_Net M_Poll M_Start S_Start S_Shape S_Waiter S_Watch S_Delay S_Lasting P_World P_Network P_JPass P_Text P_Parser P_ManipExamples P_NetExamples P_Crowd P_Whole P_Jam P_Shape P_ShapeExamples P_LastingExamples S_Path S_Lag P_SpringExamples P_PathExamples P_LeadExamples P_LagExamples.
Import ListNotations.
Local Open Scope list_scope.

(** ** Laps of a loop *)
Fixpoint laps {I R} (fuel : nat) (body : I -> prog (I + R)) (i : I) (answers : list ans) (k : nat) : option (trace * I) :=
  match k with
  | O => Some ([], i)
  | S k' =>
    match drive fuel (body i) answers with
    | Some (tr, Done (inl i')) => match laps fuel body i' (skipn (List.length tr) answers) k' with Some (tr', i'') => Some (tr ++ tr', i'') | None => None end
    | _ => None
    end
  end.
Lemma laps_sound {I R} fuel (body : I -> prog (I + R)) tr' st : forall k i answers tr i', laps fuel body i answers k = Some (tr, i') -> exec (iter body i') tr' st -> exec (iter body i) (tr ++ tr') st.
Proof.
  induction k as [|k IH]; intros i answers tr i' E HX; cbn in E; [injection E as <- <-; exact HX|].
  destruct (drive fuel (body i) answers) as [[t1 [e|[j|r]|s]]|] eqn:ED; try discriminate E. destruct (laps fuel body j (skipn (List.length t1) answers) k) as [[t2 j']|] eqn:EL; [|discriminate E].
  injection E as <- <-. rewrite <- app_assoc. eapply exec_iter_step; [exact (drive_sound _ _ _ _ _ ED)|]. exact (IH _ _ _ _ EL HX).
Qed.
Definition rep {A} (c : list A) (n : nat) : list A := concat (repeat c n).
Lemma rep_S {A} (c : list A) n : rep c (S n) = rep c n ++ c.
Proof. unfold rep. replace (S n) with (n + 1) by lia. rewrite repeat_app, concat_app. cbn. now rewrite app_nil_r. Qed.
Lemma cycles {I R} (body : I -> prog (I + R)) (s : nat -> I) c tr st : (forall n tr' st', exec (iter body (s (S n))) tr' st' -> exec (iter body (s n)) (c ++ tr') st') ->
  (forall n, exec (iter body (s n)) tr st) -> forall n m, exec (iter body (s m)) (rep c n ++ tr) st.
Proof.
  intros HC HE. induction n as [|n IH]; intro m; [exact (HE m)|]. unfold rep. cbn [repeat concat]. rewrite <- app_assoc. apply HC. exact (IH (S m)).
Qed.
Lemma cycles_on {I R} (body : I -> prog (I + R)) (s : nat -> I) c st : (forall n tr' st', exec (iter body (s (S n))) tr' st' -> exec (iter body (s n)) (c ++ tr') st') ->
  (forall n, exec (iter body (s n)) [] st) -> forall a n m, exec (iter body (s m)) (rep c a ++ rep c n) st.
Proof.
  intros HC HE a n m. pose proof (cycles body s c [] st HC HE (a + n) m) as H. unfold rep in *. rewrite repeat_app, concat_app, app_nil_r in H. exact H.
Qed.

(** ** The first rounds, until the file holds everything up *)
Section First.
#[local] Instance halting : pausing := fun e => match e with ESleep _ | ERead _ | EWrite _ _ => true | _ => false end.
Definition ub_sched : list nat := concat (repeat (poll_order lb_net []) 3) ++ concat (repeat (filter (fun t => negb (Nat.eqb t 4)) (poll_order lb_net [])) 13).
Definition ub_run := crowd 500 ub_sched (repeat a_line 300) (seat lb_net []) lb_world.
Definition ub_first : list nevent := Eval vm_compute in fst (fst ub_run).
Lemma ub_is : fst (fst (crowd 500 ub_sched (repeat a_line 300) (seat lb_net []) lb_world)) = ub_first.
Proof. by_vm. Qed.
Lemma ub_whole : whole_run lb_net [] lb_world (fst (fst ub_run)) (snd ub_run) (seat_outcome lb_net (ready (snd (fst ub_run)))).
Proof. apply (played_whole lb_net []); [by_vm|by_vm|by_vm|exact lb_made]. Qed.
Lemma ub_same : fst (fst ub_run) = ub_first.
Proof. exact ub_is. Qed.
Lemma ub_ran : exists p, in_rounds lb_net [] lb_world ub_first p (snd ub_run).
Proof. rewrite <- ub_same. exact (proj2 ub_whole). Qed.
Lemma ub_wrun : wrun lb_world ub_first (snd ub_run).
Proof. exact (proj1 (played_sound 500 _ _ _ _ _ ub_is)). Qed.
End First.

Definition ub_line : val := VData a_line.
Definition ub_buffer : buffer := Eval vm_compute in match nth 2 lb_net (NJunction M_Junction.junction_new) with NBuffer b _ _ _ => b | _ => buffer_new end.
Definition ub_faucet : faucet := Eval vm_compute in match nth 0 lb_net (NJunction M_Junction.junction_new) with NFaucet f _ => f | _ => faucet_new "" end.
Definition read_one : trace := [(ERead 1, AData a_line); (ESend (CData 0) ub_line, AOk)].
Definition store_one : trace := [(ERecv (CData 0), AMsg ub_line); (ESend (CData 2) ub_line, AOk); (ESend (CMon 2) VWrote, AOk)].
Definition look : trace := [(ETryRecv (CMon 2), AEmpty); (ETryRecv (CMon 3), AEmpty); (EIsEmpty (CMon 2), ABool true); (EIsClosed (CMon 2), ABool false)].
Definition count_one : trace := [(ESleep 0, AOk); (ETryRecv (CMon 2), AMsg VWrote); (ETryRecv (CMon 3), AEmpty); (EIsEmpty (CMon 2), ABool true); (EIsClosed (CMon 2), ABool false)] ++ look.

Definition ub_drain : drain := Eval vm_compute in match nth 1 lb_net (NJunction M_Junction.junction_new) with NDrain d _ => d | _ => drain_new "" end.
Lemma drain_stays : exec (drain_start ub_drain None) (own 4 ub_first) (At (EWrite 1 a_line)).
Proof. apply (drive_sound 1000 _ (map snd (own 4 ub_first))). vm_compute. reflexivity. Qed.
Lemma half_stays : exec (half_b 2 3 None (PlReceiver (PJ 0 1) 0, PsIoSender (J 1 (Some POut) 2 Terminate) 1)) (own 10 ub_first) (At (ESend (CData 1) ub_line)).
Proof. apply (drive_sound 1000 _ (map snd (own 10 ub_first))). vm_compute. reflexivity. Qed.
Definition fj : journey := J 0 (Some POut) 1 Terminate.
Lemma faucet_goes n : exec (faucet_start ub_faucet None) (own 0 ub_first ++ rep read_one n) (At (ERead 1)).
Proof.
  change (own 0 ub_first) with ([(EOpenRead "in.txt"%string, AFd 1)] ++ rep read_one 15). rewrite <- app_assoc. unfold faucet_start.
  eapply exec_bind_intro; [eapply drive_sound with (fuel := 10) (answers := [AFd 1]); vm_compute; reflexivity|].
  cbn beta iota. unfold start_secret. change (fc_started ub_faucet) with false. cbn iota. apply exec_bind_at.
  refine (cycles_on _ (fun m => (PlBytes SrcFile (PJ 0 1) 1 split_control_new, [PsIoSender fj 0], m)) read_one (At (ERead 1)) _ _ 15 n 0).
  - intros m tr st H. eapply exec_iter_step; [|exact H]. eapply drive_sound with (fuel := 100) (answers := [AData a_line; AOk]). vm_compute. reflexivity.
  - intro m. eapply drive_sound with (fuel := 100) (answers := []). vm_compute. reflexivity.
Qed.
Lemma store_goes n : exec (half_a 2 2 (PlReceiver (PJ 0 1) 0, PsIoSender (J 1 (Some POut) 2 Terminate) 1)) (own 9 ub_first ++ rep store_one n) (At (ERecv (CData 0))).
Proof.
  change (own 9 ub_first) with (rep store_one 15). unfold half_a, motion. apply exec_bind_at.
  refine (cycles_on _ (fun m => (PlReceiver (PJ 0 1) 0, [PsSender (J 0 None 0 Terminate) 2], m)) store_one (At (ERecv (CData 0))) _ _ 15 n 0).
  - intros m tr st H. eapply exec_iter_step; [|exact H]. eapply drive_sound with (fuel := 100) (answers := [AMsg ub_line; AOk; AOk]). vm_compute. reflexivity.
  - intro m. eapply drive_sound with (fuel := 100) (answers := []). vm_compute. reflexivity.
Qed.
Definition counted : trace := Eval vm_compute in firstn (List.length (own 11 ub_first) - 4) (own 11 ub_first).
Lemma counter_goes n : exec (total_in_buffer None 2 3) (own 11 ub_first ++ rep count_one n) (At (ESleep 0)).
Proof.
  change (own 11 ub_first) with (counted ++ look). unfold total_in_buffer. apply exec_bind_at.
  replace ((counted ++ look) ++ rep count_one n) with (counted ++ (rep (look ++ firstn 5 count_one) n ++ look)).
  2:{ rewrite <- app_assoc. f_equal. induction n as [|n IH]; [reflexivity|]. rewrite !rep_S. rewrite (app_assoc look (rep count_one n)), <- IH, <- !app_assoc. reflexivity. }
  assert (E : exists k s, laps 100 (count_body None 2 3) (Counter 0 back_off_new 0) (map snd counted) k = Some (counted, Counter s 0 0)).
  { exists 30, 5. vm_compute. reflexivity. }
  destruct E as (k & s & E). refine (laps_sound _ _ _ _ _ _ _ _ _ E _).
  refine (cycles _ (fun m => Counter m 0 0) (look ++ firstn 5 count_one) look (At (ESleep 0)) _ _ n s).
  - intros m tr st H. change ((look ++ firstn 5 count_one) ++ tr) with ((look ++ [(ESleep 0, AOk)]) ++ (tl (firstn 5 count_one) ++ tr)). eapply exec_iter_step; [eapply drive_sound with (fuel := 100) (answers := [AEmpty; AEmpty; ABool true; ABool false; AOk]); vm_compute; reflexivity|].
    eapply exec_iter_step; [|exact H]. eapply drive_sound with (fuel := 100) (answers := [AMsg VWrote; AEmpty; ABool true; ABool false]). vm_compute. reflexivity.
  - intro m. eapply drive_sound with (fuel := 100) (answers := [AEmpty; AEmpty; ABool true; ABool false]). vm_compute. reflexivity.
Qed.

(** ** One round after the other *)
Record shape (a b c : nat) (L : list nevent) : Prop := {
  sh_faucet : own 0 L = own 0 ub_first ++ rep read_one a;
  sh_drain : own 4 L = own 4 ub_first;
  sh_store : own 9 L = own 9 ub_first ++ rep store_one b;
  sh_half : own 10 L = own 10 ub_first;
  sh_count : own 11 L = own 11 ub_first ++ rep count_one c;
  sh_none : forall t, In t [1; 2; 3; 5; 6; 7; 8] -> own t L = []
}.
Lemma own_by i t (tr : trace) : own i (map (pair t) tr) = if Nat.eqb t i then tr else [].
Proof. unfold own. induction tr as [|x tr IH]; [now destruct (Nat.eqb t i)|]. cbn. destruct (Nat.eqb t i); [cbn; f_equal; exact IH|exact IH]. Qed.
Lemma shape_first : shape 0 0 0 ub_first.
Proof. split; [reflexivity..|]. intros t Ht. cbn in Ht. repeat destruct Ht as [<-|Ht]; try contradiction; reflexivity. Qed.
Lemma shape_read a b c L : shape a b c L -> shape (S a) b c (L ++ map (pair 0) read_one).
Proof. intros [H1 H2 H3 H4 H5 H6]. split; intros; rewrite own_app, own_by; cbn [Nat.eqb]; rewrite ?app_nil_r; auto; [rewrite rep_S, app_assoc, H1; reflexivity|]. rewrite H6 by assumption. cbn in H. repeat destruct H as [<-|H]; try contradiction; reflexivity. Qed.
Lemma shape_store a b c L : shape a b c L -> shape a (S b) c (L ++ map (pair 9) store_one).
Proof. intros [H1 H2 H3 H4 H5 H6]. split; intros; rewrite own_app, own_by; cbn [Nat.eqb]; rewrite ?app_nil_r; auto; [rewrite rep_S, app_assoc, H3; reflexivity|]. rewrite H6 by assumption. cbn in H. repeat destruct H as [<-|H]; try contradiction; reflexivity. Qed.
Lemma shape_count a b c L : shape a b c L -> shape a b (S c) (L ++ map (pair 11) count_one).
Proof. intros [H1 H2 H3 H4 H5 H6]. split; intros; rewrite own_app, own_by; cbn [Nat.eqb]; rewrite ?app_nil_r; auto; [rewrite rep_S, app_assoc, H5; reflexivity|]. rewrite H6 by assumption. cbn in H. repeat destruct H as [<-|H]; try contradiction; reflexivity. Qed.

Section Shape.
Variables (a b c : nat) (L : list nevent).
Hypothesis HS : shape a b c L.
Lemma at_faucet : alone (faucet_start ub_faucet None) (seen_by 0 L) (Before (At (ERead 1))).
Proof.
  split; [|exists (At (ERead 1)); split; [reflexivity|]].
  - intros i Hi. cbn in Hi. repeat destruct Hi as [<-|Hi]; try contradiction; rewrite own_seen by lia; apply (sh_none _ _ _ _ HS); cbn; auto 8.
  - rewrite own_seen by lia. cbn [Nat.mul Nat.add]. rewrite (sh_faucet _ _ _ _ HS). apply faucet_goes.
Qed.
Lemma at_drain : alone (drain_start ub_drain None) (seen_by 1 L) (Before (At (EWrite 1 a_line))).
Proof.
  split; [|exists (At (EWrite 1 a_line)); split; [reflexivity|]].
  - intros i Hi. cbn in Hi. repeat destruct Hi as [<-|Hi]; try contradiction; rewrite own_seen by lia; apply (sh_none _ _ _ _ HS); cbn; auto 8.
  - rewrite own_seen by lia. cbn [Nat.mul Nat.add]. rewrite (sh_drain _ _ _ _ HS). apply drain_stays.
Qed.
Lemma at_buffer : buffer_start ub_buffer None 2 2 3 (seen_by 2 L) (During (At (ERecv (CData 0))) (At (ESend (CData 1) ub_line)) (At (ESleep 0))).
Proof.
  apply (J_during _ _ _ _ _ [] (seen_by 2 L) (PlReceiver (PJ 0 1) 0, PsIoSender (J 1 (Some POut) 2 Terminate) 1)).
  - intros i _. reflexivity.
  - intros i [<-|[]]. rewrite own_seen by lia. apply (sh_none _ _ _ _ HS). cbn. auto 9.
  - apply (drive_sound 10 _ []). vm_compute. reflexivity.
  - rewrite own_seen by lia. cbn [Nat.mul Nat.add]. rewrite (sh_store _ _ _ _ HS). apply store_goes.
  - rewrite own_seen by lia. cbn [Nat.mul Nat.add]. rewrite (sh_half _ _ _ _ HS). apply half_stays.
  - rewrite own_seen by lia. cbn [Nat.mul Nat.add]. rewrite (sh_count _ _ _ _ HS). apply counter_goes.
Qed.
Definition nowhere (k : nat) : S_Net.outcome := Going.
Lemma shape_runs k x : nth_error lb_net k = Some x -> comp_runs x (seen_by k L) (nowhere k).
Proof.
  intro H. destruct k as [|[|[|k]]]; cbn in H; [..|destruct k; discriminate H]; injection H as <-.
  - exists (Before (At (ERead 1))). split; [exact at_faucet|reflexivity].
  - exists (Before (At (EWrite 1 a_line))). split; [exact at_drain|reflexivity].
  - eexists. split; [exact at_buffer|]. split; [exact Logic.I|reflexivity].
Qed.

Lemma rest_alone t w : In t [0; 4; 8; 11] -> task_rests lb_net [] L t w.
Proof.
  intro Ht. split; [|intros [|m] x _ H; discriminate H]. intros x H. cbn in Ht. repeat destruct Ht as [<-|Ht]; try contradiction; cbn in H; injection H as <-; cbn.
  - exists (Before (At (ERead 1))). split; [exact at_faucet|now left].
  - exists (Before (At (EWrite 1 a_line))). split; [exact at_drain|now left].
  - eexists. split; [exact at_buffer|exact Logic.I].
  - eexists. split; [exact at_buffer|]. now left.
Qed.
Lemma rest_store w : w (CData 0) = fresh_chan (Some 8) -> task_rests lb_net [] L 9 w.
Proof.
  intro E. split; [|intros [|m] x _ H; discriminate H]. intros x H. cbn in H; injection H as <-; cbn. eexists. split; [exact at_buffer|]. right. intros x w' K. inversion K as [? ? ? Hq|? Hq Hc| | | | | | | | |? ? Ho]; subst; try (rewrite E in Hq; discriminate Hq); try (rewrite E in Hc; discriminate Hc); discriminate Ho.
Qed.
Lemma rest_half w : (exists q, w (CData 1) = CS (Some 8) q false /\ List.length q = 8) -> task_rests lb_net [] L 10 w.
Proof.
  intros (q & E & Eq). split; [|intros [|m] x _ H; discriminate H]. intros x H. cbn in H; injection H as <-; cbn. eexists. split; [exact at_buffer|]. right. intros x w' K. inversion K as [| | | | |? ? Hc Hr|? ? Hc| | | |? ? Ho]; subst.
  - rewrite E in Hr. unfold room in Hr. cbn in Hr. lia.
  - rewrite E in Hc. discriminate Hc.
  - discriminate Ho.
Qed.
End Shape.

(** What is in the channels: room where something is to be read, none before the file. *)
Record filled (w : world) : Prop := {
  fl_in : w (CData 0) = fresh_chan (Some 8);
  fl_out : exists q, w (CData 1) = CS (Some 8) q false /\ List.length q = 8;
  fl_store : exists q, w (CData 2) = CS None q false;
  fl_mi : w (CMon 2) = fresh_chan (Some 8);
  fl_mo : w (CMon 3) = fresh_chan (Some 8)
}.
Lemma filled_first : filled (snd ub_run).
Proof. split; [by_vm|eexists; split; [by_vm|reflexivity]|eexists; by_vm|by_vm|by_vm]. Qed.

(** A new message, through the pipe and into the store. *)
Lemma steps_on w : filled w -> exists w1 w2 w3, wrun w (map (pair 0) read_one) w1 /\ wrun w1 (map (pair 9) store_one) w2 /\ wrun w2 (map (pair 11) count_one) w3 /\
  (forall q, w (CData 1) = q -> w1 (CData 1) = q /\ w2 (CData 1) = q) /\ w2 (CData 0) = fresh_chan (Some 8) /\ filled w3.
Proof.
  intros [H0 H1 (q & H2) H3 H4].
  set (w1 := upd w (CData 0) (CS (Some 8) [ub_line] false)).
  set (w2a := upd w1 (CData 0) (CS (Some 8) [] false)). set (w2b := upd w2a (CData 2) (CS None (q ++ [ub_line]) false)). set (w2 := upd w2b (CMon 2) (CS (Some 8) [VWrote] false)).
  set (w3 := upd w2 (CMon 2) (CS (Some 8) [] false)).
  assert (S0 : wstep w (ESend (CData 0) ub_line, AOk) w1).
  { replace w1 with (upd w (CData 0) (CS (cs_cap (w (CData 0))) (cs_queue (w (CData 0)) ++ [ub_line]) false)) by (rewrite H0; reflexivity). apply W_send; rewrite H0; [reflexivity|unfold room; cbn; lia]. }
  assert (S1 : wstep w1 (ERecv (CData 0), AMsg ub_line) w2a) by exact (W_recv w1 (CData 0) ub_line [] eq_refl).
  assert (S2 : wstep w2a (ESend (CData 2) ub_line, AOk) w2b).
  { assert (E : w2a (CData 2) = CS None q false) by (cbn; exact H2). replace w2b with (upd w2a (CData 2) (CS (cs_cap (w2a (CData 2))) (cs_queue (w2a (CData 2)) ++ [ub_line]) false)) by (rewrite E; reflexivity). apply W_send; rewrite E; [reflexivity|exact Logic.I]. }
  assert (S3 : wstep w2b (ESend (CMon 2) VWrote, AOk) w2).
  { assert (E : w2b (CMon 2) = fresh_chan (Some 8)) by (cbn; exact H3). replace w2 with (upd w2b (CMon 2) (CS (cs_cap (w2b (CMon 2))) (cs_queue (w2b (CMon 2)) ++ [VWrote]) false)) by (rewrite E; reflexivity). apply W_send; rewrite E; [reflexivity|unfold room; cbn; lia]. }
  assert (S4 : wstep w2 (ETryRecv (CMon 2), AMsg VWrote) w3) by exact (W_try w2 (CMon 2) VWrote [] eq_refl).
  assert (E3 : w3 (CMon 3) = fresh_chan (Some 8)) by (cbn; exact H4).
  assert (S5 : wstep w3 (ETryRecv (CMon 3), AEmpty) w3) by (apply W_try_empty; rewrite E3; reflexivity).
  assert (S6 : wstep w3 (EIsEmpty (CMon 2), ABool true) w3) by exact (W_is_empty w3 (CMon 2)).
  assert (S7 : wstep w3 (EIsClosed (CMon 2), ABool false) w3) by exact (W_is_closed w3 (CMon 2)).
  assert (S8 : wstep w3 (ETryRecv (CMon 2), AEmpty) w3) by (apply W_try_empty; reflexivity).
  exists w1, w2, w3. split; [|split; [|split; [|split; [|split]]]].
  - econstructor; [apply W_other; reflexivity|]. econstructor; [exact S0|constructor].
  - econstructor; [exact S1|]. econstructor; [exact S2|]. econstructor; [exact S3|constructor].
  - econstructor; [apply W_other; reflexivity|]. econstructor; [exact S4|]. econstructor; [exact S5|]. econstructor; [exact S6|]. econstructor; [exact S7|].
    econstructor; [exact S8|]. econstructor; [exact S5|]. econstructor; [exact S6|]. econstructor; [exact S7|constructor].
  - intros x Hx. split; cbn; exact Hx.
  - reflexivity.
  - split; [reflexivity|cbn; exact H1|eexists; reflexivity|reflexivity|exact E3].
Qed.
Definition one_round : list nevent := map (pair 0) read_one ++ map (pair 9) store_one ++ map (pair 11) count_one.
Lemma round_on n L w : in_rounds lb_net [] lb_world L 0 w -> shape n n n L -> filled w -> exists w', in_rounds lb_net [] lb_world (L ++ one_round) 0 w' /\ shape (S n) (S n) (S n) (L ++ one_round) /\ filled w' /\ wrun w one_round w'.
Proof.
  intros HI HS HF. destruct (steps_on w HF) as (w1 & w2 & w3 & R1 & R2 & R3 & E1 & E0 & HF'). destruct (fl_out _ HF) as (q & Hq & Hl). destruct (E1 _ Hq) as [Q1 Q2].
  pose proof (shape_read _ _ _ _ HS) as HS1. pose proof (shape_store _ _ _ _ HS1) as HS2. pose proof (shape_count _ _ _ _ HS2) as HS3.
  pose proof (rounds_by lb_net [] lb_world 0 0 read_one L w w1 HI eq_refl R1) as I1.
  pose proof (IR_pass _ _ _ _ _ _ _ I1 eq_refl (rest_alone _ _ _ _ HS1 0 w1 ltac:(cbn; auto))) as I2. change (next_place (poll_order lb_net []) 0) with 1 in I2.
  pose proof (IR_pass _ _ _ _ _ _ _ I2 eq_refl (rest_alone _ _ _ _ HS1 4 w1 ltac:(cbn; auto))) as I3. change (next_place (poll_order lb_net []) 1) with 2 in I3.
  pose proof (IR_pass _ _ _ _ _ _ _ I3 eq_refl (rest_alone _ _ _ _ HS1 8 w1 ltac:(cbn; auto))) as I4. change (next_place (poll_order lb_net []) 2) with 3 in I4.
  pose proof (rounds_by lb_net [] lb_world 3 9 store_one _ w1 w2 I4 eq_refl R2) as I5.
  pose proof (IR_pass _ _ _ _ _ _ _ I5 eq_refl (rest_store _ _ _ _ HS2 w2 E0)) as I6. change (next_place (poll_order lb_net []) 3) with 4 in I6.
  pose proof (IR_pass _ _ _ _ _ _ _ I6 eq_refl (rest_half _ _ _ _ HS2 w2 (ex_intro _ q (conj Q2 Hl)))) as I7. change (next_place (poll_order lb_net []) 4) with 5 in I7.
  pose proof (rounds_by lb_net [] lb_world 5 11 count_one _ w2 w3 I7 eq_refl R3) as I8.
  pose proof (IR_pass _ _ _ _ _ _ _ I8 eq_refl (rest_alone _ _ _ _ HS3 11 w3 ltac:(cbn; auto))) as I9. change (next_place (poll_order lb_net []) 5) with 6 in I9.
  pose proof (IR_pass _ _ _ _ _ _ _ I9 eq_refl (rest_alone _ _ _ _ HS3 8 w3 ltac:(cbn; auto))) as I10. change (next_place (poll_order lb_net []) 6) with 0 in I10.
  exists w3. unfold one_round. rewrite !app_assoc in *. split; [exact I10|]. split; [exact HS3|]. split; [exact HF'|].
  apply wrun_app. exists w2. split; [|exact R3]. apply wrun_app. exists w1. split; [exact R1|exact R2].
Qed.
(** To the beginning of a round. *)
Lemma place_lt net cs w0 l p w : in_rounds net cs w0 l p w -> p = 0 \/ p < List.length (poll_order net cs).
Proof. induction 1; auto. unfold next_place. destruct (Nat.ltb_spec (S p) (List.length (poll_order net cs))); auto. Qed.
Lemma to_start : in_rounds lb_net [] lb_world ub_first 0 (snd ub_run).
Proof.
  destruct ub_ran as (p & HI). pose proof (place_lt _ _ _ _ _ _ HI) as Hp. change (List.length (poll_order lb_net [])) with 7 in Hp.
  assert (HA : forall p t, nth_error (poll_order lb_net []) p = Some t -> task_rests lb_net [] ub_first t (snd ub_run)).
  { intros p' t H. do 8 (destruct p' as [|p']; [cbn in H; try discriminate H; injection H as <-; first [apply (rest_alone _ _ _ _ shape_first); cbn; auto; fail|apply (rest_store _ _ _ _ shape_first), filled_first|apply (rest_half _ _ _ _ shape_first), filled_first]|]). destruct p'; discriminate H. }
  assert (HB : forall p, p < 7 -> in_rounds lb_net [] lb_world ub_first p (snd ub_run) -> in_rounds lb_net [] lb_world ub_first (if S p <? 7 then S p else 0) (snd ub_run)).
  { intros p' Hp' H. destruct (nth_error (poll_order lb_net []) p') as [t|] eqn:Et; [|apply nth_error_None in Et; change (List.length (poll_order lb_net [])) with 7 in Et; lia]. exact (IR_pass _ _ _ _ _ _ _ H Et (HA _ _ Et)). }
  destruct Hp as [->|Hp]; [exact HI|]. remember (7 - p) as d eqn:Ed. assert (Hd : d = 7 - p) by exact Ed. clear Ed. revert p HI Hp Hd. induction d as [|d IH]; intros p HI Hp Hd; [lia|].
  pose proof (HB p Hp HI) as H. destruct (Nat.ltb_spec (S p) 7) as [Hl|Hl]; [|exact H]. apply (IH (S p)); [exact H|lia|lia].
Qed.
Lemma rounds_on n : exists w, in_rounds lb_net [] lb_world (ub_first ++ rep one_round n) 0 w /\ shape n n n (ub_first ++ rep one_round n) /\ filled w /\ wrun lb_world (ub_first ++ rep one_round n) w.
Proof.
  induction n as [|n (w & HI & HS & HF & HW)].
  - exists (snd ub_run). unfold rep. cbn [repeat concat]. rewrite app_nil_r. split; [exact to_start|]. split; [exact shape_first|]. split; [exact filled_first|exact ub_wrun].
  - destruct (round_on n _ w HI HS HF) as (w' & H1 & H2 & H3 & H4). rewrite rep_S, app_assoc. exists w'. split; [exact H1|]. split; [exact H2|]. split; [exact H3|]. apply wrun_app. eauto.
Qed.
Lemma in_rep {A} (x : A) c n : In x (rep c n) -> In x c.
Proof. unfold rep. induction n as [|n IH]; [intros []|]. cbn. rewrite in_app_iff. tauto. Qed.
Lemma whole_on n : exists w, whole_run lb_net [] lb_world (ub_first ++ rep one_round n) w nowhere.
Proof.
  destruct (rounds_on n) as (w & HI & HS & HF & HW). exists w. split; [|eauto]. constructor.
  - exact (shape_runs _ _ _ _ HS).
  - intros [|m] c H; discriminate H.
  - exact HW.
  - intros t ev Hin. assert (H : forall l, forallb (fun x : nevent => existsb (Nat.eqb (fst x)) (poll_order lb_net [])) l = true -> In (t, ev) l -> In t (poll_order lb_net [])).
    { intros l H Hl. rewrite forallb_forall in H. specialize (H _ Hl). apply existsb_exists in H as (u & Hu & E). apply Nat.eqb_eq in E. cbn [fst] in E. now subst. }
    apply in_app_iff in Hin. destruct Hin as [Hin|Hin]; [apply (H ub_first); [by_vm|exact Hin]|apply (H one_round); [by_vm|exact (in_rep _ _ _ Hin)]].
  - exact lb_made.
Qed.
Lemma willing_on n : willing (ub_first ++ rep one_round n).
Proof.
  assert (H1 : willing ub_first) by (apply willing_by; by_vm). assert (H2 : willing one_round) by (apply willing_by; by_vm).
  intros e a Hin. unfold all_of in *. apply in_map_iff in Hin. destruct Hin as (x & E & Hin). apply in_app_iff in Hin. destruct Hin as [Hin|Hin]; [apply H1|apply H2, in_map_iff]; [apply in_map_iff; eauto|exists x; split; [exact E|exact (in_rep _ _ _ Hin)]].
Qed.
Lemma put_more a c : List.length (put (a ++ c)) = List.length (put a) + List.length (put c).
Proof. unfold put. now rewrite flat_map_app, app_length. Qed.
Lemma put_on n : List.length (put (own 0 ub_first ++ rep read_one n)) = 15 + n.
Proof.
  assert (E : forall m, List.length (put (rep read_one m)) = m).
  { induction m as [|m IH]; [reflexivity|]. rewrite rep_S. refine (eq_trans (put_more _ _) _). rewrite IH. change (List.length (put read_one)) with 1. lia. }
  refine (eq_trans (put_more _ _) _). rewrite E. reflexivity.
Qed.
Lemma drain_first : own 4 ub_first = [(ECreate "out.txt"%string, AFd 1); (ERecv (CData 1), AMsg ub_line)].
Proof. by_vm. Qed.
Theorem without_bound : exists c w cs ps w0 s n h, good_connections (cf_connection c) /\ prepares in_order c w cs /\ passing (cf_connection c) /\ apart (cf_connection c) /\ spelled (cf_connection c) ps /\ leads_to in_the_end ps s (CDrain, n) h /\
  forall N, exists l wl ocs ks ms, whole_run (net_of None [] w) cs w0 l wl ocs /\ willing l /\ has_sent c w None [] l s ks /\ has_got c w None [] l (CDrain, n) ms /\ List.length ms + N < List.length ks.
Proof.
  exists lb_config, lb_waiter, [], lb_steps, lb_world, from_in, "out"%string, 18. change (net_of None [] lb_waiter) with lb_net.
  refine (conj lb_good (conj lb_prepares (conj lb_passing (conj lb_apart (conj lb_spelled (conj lb_leads _)))))). intro N.
  destruct (rounds_on N) as (_ & _ & HS & _). destruct (whole_on N) as (w & HX). pose proof (willing_on N) as HW. revert HS HX HW. generalize (ub_first ++ rep one_round N). intros l HS HX HW.
  exists l, w, nowhere, (put (own (4 * 0) l)), (S_Trace.written 1 (own (4 * 1) l)). split; [exact HX|]. split; [exact HW|].
  split; [apply (HS_faucet lb_config lb_waiter None [] l "in" 0); eexists; split; reflexivity|]. split.
  - eapply (HO_drain lb_config lb_waiter None [] l "out" 1 (ECreate "out.txt"%string) 1); [eexists; split; reflexivity|reflexivity|]. change (4 * 1) with 4. rewrite (sh_drain _ _ _ _ HS). exact drain_first.
  - change (4 * 1) with 4. change (4 * 0) with 0. rewrite (sh_drain _ _ _ _ HS), (sh_faucet _ _ _ _ HS), put_on, drain_first. change (List.length (S_Trace.written 1 [(ECreate "out.txt"%string, AFd 1); (ERecv (CData 1), AMsg ub_line)])) with 0. lia.
Qed.
