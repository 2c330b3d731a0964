(** * P_Pause: pausing and resuming *)
From Coq Require Import Ascii String List Bool Arith Lia.
From Verif Require Import M_Prog P_Prog P_Exec M_Motion M_Regulator S_Trace S_Lines S_Motion S_World S_Regulator.
From Verif Require Import P_Read P_Motion P_Worker P_Flow P_Loop P_Copy P_World P_Regulator.
Import ListNotations.

Lemma even_odd n : Nat.Even n -> Nat.Odd n -> False.
Proof. intros [a Ha] [b Hb]. lia. Qed.

Lemma pause_limits c w0 a b w :
  turned (Some c) (own 0 (a ++ b)) ->
  wrun w0 (a ++ b) w -> w0 (CCtl c) = fresh_chan (Some 1) -> mind_own 0 (CCtl c) (a ++ b) ->
  Nat.Odd (length (sent (CCtl c) (all_of a))) -> sent (CCtl c) (all_of b) = [] ->
  length (attempts (own 0 b)) <= 1.
Proof.
  intros HT HW Hw0 [Hmt Hmc] Hodd Hb.
  destruct (le_lt_dec (length (attempts (own 0 b))) 1) as [H|H2]; [exact H|exfalso].
  rewrite own_app in HT.
  destruct (two_attempts (Some c) c _ _ _ eq_refl HT eq_refl H2) as (y1 & k & y2 & Ev & Hk & Hncl & Hpar).
  destruct (own_split _ _ _ _ Ev) as (b1 & b2 & -> & Hb1 & Hb2).
  destruct (own_split _ _ _ _ Hb2) as (b3 & b4 & -> & Hb3 & Hb4). clear Hb2.
  (* nobody has closed the control channel so far *)
  assert (Hopen : forall l, (exists l', a ++ b1 ++ b3 ++ b4 = l ++ l') -> (exists z, own 0 a ++ y1 ++ k = own 0 l ++ z) -> ~ closed_by (CCtl c) (all_of l)).
  { intros l (l' & El) (z & Ez) Hc. destruct (closed_own (CCtl c) 0 l Hc) as [Hc'|Hc'].
    - apply Hncl. rewrite Ez. apply in_or_app; auto.
    - apply Hmc. rewrite El, others_app. apply in_or_app; auto. }
  assert (Htk : forall l, (exists l', a ++ b1 ++ b3 ++ b4 = l ++ l') -> taken (CCtl c) (all_of l) = taken (CCtl c) (own 0 l)).
  { intros l (l' & El). apply taken_own. rewrite El, others_app, taken_app in Hmt. apply app_eq_nil in Hmt. apply Hmt. }
  assert (Hst : forall l, (exists l', a ++ b1 ++ b3 ++ b4 = l ++ l') -> forall w1, wrun w0 l w1 ->
       length (taken (CCtl c) (own 0 l)) + length (cs_queue (w1 (CCtl c))) = length (sent (CCtl c) (all_of l)) /\ length (cs_queue (w1 (CCtl c))) <= 1).
  { intros l Hl w1 Hw1. split.
    - rewrite <- Htk by exact Hl. rewrite <- app_length, (fifo _ _ _ _ Hw1), Hw0. reflexivity.
    - eapply within; [exact Hw1|now rewrite Hw0|rewrite Hw0; cbn; lia]. }
  (* the look itself *)
  rewrite !all_of_app, !sent_app' in Hb. apply app_eq_nil in Hb. destruct Hb as [Hb1s Hb]. apply app_eq_nil in Hb. destruct Hb as [Hb3s Hb4s].
  assert (Hnoend : forall l, (exists l', a ++ b1 ++ b3 ++ b4 = l ++ l') -> (exists z, own 0 a ++ y1 ++ k = own 0 l ++ z) -> ~ In (ERecv (CCtl c), AClosed) (own 0 l)).
  { intros l (l' & El) (z & Ez) HIn. apply in_split in HIn. destruct HIn as (x & y & Exy).
    destruct (own_split 0 l x ((ERecv (CCtl c), AClosed) :: y) Exy) as (l1 & l2 & El12 & Hl1 & Hl2).
    destruct (own_cons 0 l2 _ _ Hl2) as (l3 & l4 & El2 & Hl3 & Hl4). subst l2. subst l. 
    pose proof HW as HW'. rewrite El in HW'. apply wrun_app in HW'. destruct HW' as (wl & HWl & _).
    rewrite app_assoc in HWl. apply wrun_mid in HWl. destruct HWl as (w1 & w2 & HW1 & HS & _).
    assert (Hcl : cs_closed (w1 (CCtl c)) = false).
    { eapply stays_open; [exact HW1|now rewrite Hw0|]. apply Hopen.
      - rewrite El. exists ((0, (ERecv (CCtl c), AClosed)) :: l4 ++ l'). rewrite <- !app_assoc. reflexivity.
      - rewrite Ez. exists (own 0 ((0, (ERecv (CCtl c), AClosed)) :: l4) ++ z). rewrite !own_app, <- !app_assoc. reflexivity. }
    inversion HS; subst; [congruence|discriminate]. }
  assert (Heven : Nat.Even (length (taken (CCtl c) (own 0 (a ++ b1))))).
  { rewrite own_app, Hb1. destruct Hpar as [Hpar|Hpar]; [exact Hpar|]. exfalso. revert Hpar.
    rewrite <- Hb1, <- own_app. apply Hnoend.
    - exists (b3 ++ b4). now rewrite <- app_assoc.
    - exists k. rewrite own_app, Hb1, <- app_assoc. reflexivity. }
  assert (Hfirst : exists a1 k', k = (ETryRecv (CCtl c), a1) :: k').
  { unfold check in Hk. destruct Hk as [->|[->|(a1 & -> & _)]]; eauto. }
  destruct Hfirst as (a1 & k' & Ek). rewrite Ek in Hb3.
  destruct (own_cons _ _ _ _ Hb3) as (c1 & c2 & Eb3 & Hc1 & Hc2). subst b3.
  assert (HWc : wrun w0 (((a ++ b1) ++ c1) ++ (0, (ETryRecv (CCtl c), a1)) :: (c2 ++ b4)) w).
  { rewrite <- !app_assoc. rewrite <- !app_assoc in HW. cbn in HW |- *. exact HW. }
  destruct (wrun_mid _ _ _ _ _ _ HWc) as (w1 & w2 & HW1 & HS & HW2).
  assert (Hpre : exists l', a ++ b1 ++ (c1 ++ (0, (ETryRecv (CCtl c), a1)) :: c2) ++ b4 = ((a ++ b1) ++ c1) ++ l').
  { exists ((0, (ETryRecv (CCtl c), a1)) :: c2 ++ b4). rewrite <- !app_assoc. reflexivity. }
  destruct (Hst _ Hpre _ HW1) as [Hcount Hle].
  assert (Hs1 : length (sent (CCtl c) (all_of ((a ++ b1) ++ c1))) = length (sent (CCtl c) (all_of a))).
  { rewrite !all_of_app, !sent_app', Hb1s, app_nil_r.
    rewrite all_of_app, sent_app' in Hb3s. apply app_eq_nil in Hb3s. destruct Hb3s as [-> _]. now rewrite app_nil_r. }
  assert (Ht1 : taken (CCtl c) (own 0 ((a ++ b1) ++ c1)) = taken (CCtl c) (own 0 (a ++ b1))).
  { rewrite (own_app 0 (a ++ b1)), Hc1, app_nil_r. reflexivity. }
  rewrite Hs1, Ht1 in Hcount.
  assert (Hq : length (cs_queue (w1 (CCtl c))) = 1).
  { destruct (length (cs_queue (w1 (CCtl c)))) as [|[|]] eqn:E; [|reflexivity|lia].
    exfalso. rewrite Nat.add_0_r in Hcount. rewrite Hcount in Heven. eapply even_odd; eassumption. }
  (* so the look succeeds *)
  unfold check in Hk. rewrite Ek in Hk.
  destruct Hk as [Hk|[Hk|(x & Hk & _)]]; injection Hk as -> ->.
  { exfalso. inversion HS; subst; try discriminate. match goal with H : cs_queue _ = [] |- _ => rewrite H in Hq end. discriminate. }
  { exfalso. inversion HS; subst; try discriminate. match goal with H : cs_queue _ = [] |- _ => rewrite H in Hq end. discriminate. }
  inversion HS as [ | |c0 v q Hqq Ea Ew|c0 Hqq Hcc|c0 Hqq Hcc| | | | | |e0 x0 Ho Hwt]; subst; [|discriminate].
  rewrite Hqq in Hq. cbn in Hq.
  (* and the second token is not there *)
  destruct (own_cons _ _ _ _ Hc2) as (d1 & d2 & Ec2 & Hd1 & Hd2). subst c2.
  rewrite <- app_assoc in HW2. cbn in HW2.
  destruct (wrun_mid _ _ _ _ _ _ HW2) as (w3 & w4 & HW3 & HS4 & _).
  pose proof (fifo (CCtl c) _ _ _ HW3) as Hf. rewrite upd_same in Hf. cbn [cs_queue] in Hf.
  assert (q = []) by (destruct q; [reflexivity|discriminate]). subst q. cbn in Hf.
  assert (Hsd : sent (CCtl c) (all_of d1) = []).
  { rewrite all_of_app, sent_app' in Hb3s. apply app_eq_nil in Hb3s. destruct Hb3s as [_ Hb3s].
    change (all_of ((0, (ETryRecv (CCtl c), AMsg VUnit)) :: d1 ++ (0, (ERecv (CCtl c), x)) :: d2))
      with ([(ETryRecv (CCtl c), AMsg VUnit)] ++ all_of (d1 ++ (0, (ERecv (CCtl c), x)) :: d2)) in Hb3s.
    rewrite sent_app', all_of_app, sent_app' in Hb3s. cbn [app] in Hb3s.
    apply app_eq_nil in Hb3s. destruct Hb3s as [_ Hb3s]. apply app_eq_nil in Hb3s. apply Hb3s. }
  rewrite Hsd in Hf. apply app_eq_nil in Hf. destruct Hf as [_ Hf].
  set (pre := ((a ++ b1) ++ c1) ++ (0, (ETryRecv (CCtl c), AMsg VUnit)) :: d1).
  assert (Hcl : cs_closed (w3 (CCtl c)) = false).
  { assert (HWp : wrun w0 pre w3).
    { unfold pre. apply wrun_app. eexists. split; [exact HW1|]. econstructor; [exact HS|exact HW3]. }
    eapply stays_open; [exact HWp|now rewrite Hw0|]. apply Hopen.
    - exists ((0, (ERecv (CCtl c), x)) :: d2 ++ b4). unfold pre. rewrite <- !app_assoc. cbn. rewrite <- !app_assoc. reflexivity.
    - unfold pre. exists [(ERecv (CCtl c), x)]. rewrite !own_app, Hc1, own_one, Hd1. cbn. rewrite !app_nil_r, <- !app_assoc. reflexivity. }
  inversion HS4; subst; try discriminate; try congruence.
Qed.
