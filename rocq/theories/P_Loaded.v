(** * P_Loaded: a buffer that said it is not empty, and does nothing more, is waiting for whoever it writes to *)
From Coq Require Import Ascii String List Bool Arith Lia.
From Verif Require Import M_Prog P_Prog P_Exec M_Motion M_BackOff M_Regulator M_Buffer M_Join S_Trace S_Lines S_Motion S_World S_Buffer S_Network S_Net
  P_Reach P_Machine P_Copy P_World P_Ask P_Respond P_Counter P_Buffer P_BufferJoint P_BufferRun P_BufferPoll P_BufferEnd P_Patient P_NetMoves P_Follow.
From Verif Require P_Calm.
Import ListNotations.

Lemma in_cut {A} (x : A) l : In x l -> exists a b, l = a ++ x :: b.
Proof. apply in_split. Qed.
Lemma brisk_last {Y} (p : prog Y) tr w ev st w' : stuck_task p tr w -> exec p (tr ++ [ev]) st -> wstep w ev w' -> useful ev = true -> False.
Proof.
  intros HS HX HW HU. apply (HS [ev] st w' HX); [|exists [], ev; auto]. econstructor; [exact HW|constructor].
Qed.

Section Count.
Variables (s mi mo : nat) (w : world).
Hypothesis Hm : mi <> mo.
Hypothesis HF : fitting w.
Hypothesis HC : cs_closed (w (CSize s)) = false.
Hypothesis HR : ~ full (w (CSize s)).
Notation p := (total_in_buffer (Some s) mi mo).
Notation stat := (tstat (Some s) mi mo).
Notation nxt := (tnext (Some s)).

Definition tstuck (tr : trace) (t : tplace) : Prop := treach (Some s) mi mo tr t /\ stuck_task p tr w.
Lemma t_on tr t e a : tstuck tr t -> stat t = At e -> wt e a = true -> wstep w (e, a) w -> useful (e, a) = false -> tstuck (tr ++ [(e, a)]) (nxt t a).
Proof. intros [H1 H2] He Hw HS HU. split; [unfold treach in *; econstructor; eassumption|now apply stuck_on]. Qed.
Lemma t_stop tr t e a w' : tstuck tr t -> stat t = At e -> wt e a = true -> wstep w (e, a) w' -> useful (e, a) = true -> False.
Proof. intros [H1 H2] He Hw HS HU. eapply (brisk_last p tr w (e, a)); [exact H2| |exact HS|exact HU]. apply reach_total. unfold treach in *. econstructor; eassumption. Qed.
Lemma t_try tr t m : tstuck tr t -> stat t = At (ETryRecv (CMon m)) -> cs_queue (w (CMon m)) = [] /\ exists a, (a = AEmpty \/ a = AClosed) /\ tstuck (tr ++ [(ETryRecv (CMon m), a)]) (nxt t a).
Proof.
  intros HT He. destruct (queue_cases (w (CMon m))) as [E|(v & q & E)].
  - split; [exact E|]. destruct (try_mon w m E) as (a & HS & Ha). exists a. split; [exact Ha|]. apply (t_on _ _ _ _ HT He); [now destruct Ha; subst a|exact HS|now destruct Ha; subst a].
  - exfalso. eapply (t_stop _ _ _ (AMsg v) _ HT He); [|eapply W_try; exact E|reflexivity]. cbn [wt]. apply HF. rewrite E. now left.
Qed.
Definition drained : Prop := cs_queue (w (CMon mi)) = [] /\ cs_queue (w (CMon mo)) = [].
Lemma no_drop tr r : ~ tstuck tr (TDropO r).
Proof. intro H. eapply (t_stop _ _ _ AOk _ H); [reflexivity|reflexivity|apply W_close|reflexivity]. Qed.
Lemma no_rep tr size moved back last : ~ tstuck tr (TRep size moved back last).
Proof.
  intro H. eapply (t_stop _ _ _ AOk _ H); [reflexivity|reflexivity|apply W_send; [exact HC|]|reflexivity].
  destruct (room_dec (w (CSize s))) as [K|K]; [exact K|]. exfalso. apply HR. now split.
Qed.
Lemma t_drained_in tr size back last : tstuck tr (TIn size back last) -> drained.
Proof.
  intro H. destruct (t_try _ _ mi H eq_refl) as (E1 & a & Ha & H'). split; [exact E1|].
  assert (E : nxt (TIn size back last) a = TOut size false back last) by (destruct Ha; subst a; reflexivity). rewrite E in H'. exact (proj1 (t_try _ _ mo H' eq_refl)).
Qed.
Lemma t_turn_in tr size moved back last : tstuck tr (go_turn size moved back last) -> drained.
Proof.
  destruct moved; cbn [go_turn]; [apply t_drained_in|]. intro H. eapply t_drained_in. eapply (t_on _ _ _ AOk H); [reflexivity|reflexivity|now apply W_other|reflexivity].
Qed.
Ltac ask H v := let K := fresh in epose proof (t_on _ _ _ (ABool v) H eq_refl eq_refl ltac:(first [apply W_is_empty|apply W_is_closed]) eq_refl) as K; cbn [tnext] in K; destruct v; clear H; rename K into H.
Lemma t_c2 tr size moved back last : tstuck tr (TC2 size moved back last) -> drained.
Proof. intro H. ask H (cs_closed (w (CMon mo))); [now apply no_drop in H|exact (t_turn_in _ _ _ _ _ H)]. Qed.
Lemma t_e2 tr size moved back last : tstuck tr (TE2 size moved back last) -> drained.
Proof. intro H. ask H (is_nil (cs_queue (w (CMon mo)))); [exact (t_c2 _ _ _ _ _ H)|exact (t_turn_in _ _ _ _ _ H)]. Qed.
Lemma t_c1 tr size moved back last : tstuck tr (TC1 size moved back last) -> drained.
Proof. intro H. ask H (cs_closed (w (CMon mi))); [exact (t_e2 _ _ _ _ _ H)|exact (t_turn_in _ _ _ _ _ H)]. Qed.
Lemma t_e1 tr size moved back last : tstuck tr (TE1 size moved back last) -> drained.
Proof. intro H. ask H (is_nil (cs_queue (w (CMon mi)))); [exact (t_c1 _ _ _ _ _ H)|exact (t_turn_in _ _ _ _ _ H)]. Qed.
Lemma t_out tr size moved back last : tstuck tr (TOut size moved back last) -> drained /\ last = size.
Proof.
  intro H. destruct (t_try _ _ mo H eq_refl) as (E1 & a & Ha & H').
  assert (E : nxt (TOut size moved back last) a = go_rep (Some s) size moved back last) by (destruct Ha; subst a; reflexivity). rewrite E in H'. unfold go_rep in H'.
  destruct (last =? size) eqn:El; [|now apply no_rep in H']. apply Nat.eqb_eq in El. split; [exact (t_e1 _ _ _ _ _ H')|exact El].
Qed.
Lemma t_counted tr t : tstuck tr t -> ~ closed_by (CSize s) tr -> (forall x, t <> TBad x) -> drained /\ ntak (CMon mi) tr = ntak (CMon mo) tr + told (Some s) tr.
Proof.
  intros H HNC HB. destruct (counter_inv (Some s) mi mo Hm _ _ (proj1 H)) as [_ HI]. destruct t as [size back last|size moved back last|size moved back last|size moved back last|size moved back last|size moved back last|size moved back last|size back last|r|r|r|r|x]; cbn [inv_t] in HI.
  - destruct HI as (H1 & _ & _ & -> & H2). rewrite (H2 ltac:(discriminate)). split; [exact (t_drained_in _ _ _ _ H)|exact H1].
  - destruct HI as (H1 & _ & _ & ->). destruct (t_out _ _ _ _ _ H) as [K E]. rewrite E. auto.
  - now apply no_rep in H.
  - destruct HI as (H1 & _ & _ & -> & H2). rewrite (H2 ltac:(discriminate)). split; [exact (t_e1 _ _ _ _ _ H)|exact H1].
  - destruct HI as (H1 & _ & _ & -> & H2). rewrite (H2 ltac:(discriminate)). split; [exact (t_c1 _ _ _ _ _ H)|exact H1].
  - destruct HI as (H1 & _ & _ & -> & H2). rewrite (H2 ltac:(discriminate)). split; [exact (t_e2 _ _ _ _ _ H)|exact H1].
  - destruct HI as (H1 & _ & _ & -> & H2). rewrite (H2 ltac:(discriminate)). split; [exact (t_c2 _ _ _ _ _ H)|exact H1].
  - destruct HI as (H1 & _ & _ & -> & H2). rewrite (H2 ltac:(discriminate)). split; [exact (t_turn_in tr size false back (told (Some s) tr) H)|exact H1].
  - now apply no_drop in H.
  - exfalso. eapply (t_stop _ _ _ AOk _ H); [reflexivity|reflexivity|apply W_close|reflexivity].
  - exfalso. eapply (t_stop _ _ _ AOk _ H); [reflexivity|reflexivity|apply W_close|reflexivity].
  - exfalso. apply HNC. exact (size_let_go (Buffer 0 None None (Some s)) mi mo s tr (TDone r) (proj1 H) eq_refl).
  - now contradiction (HB x).
Qed.
End Count.

(** ** The halves *)
Section Halves.
Variables (b : buffer) (pj : pjourney) (i : nat) (j : journey) (o u mi mo s : nat).
Hypothesis HB : buffer_wired b (PlReceiver pj i) (PsIoSender j o) u mi mo.
Hypothesis Hs : bf_monitor b = Some s.
Variables (w0 : world) (L : list nevent) (w : world).
Hypothesis HG : comp_runs (NBuffer b u mi mo) L Going.
Hypothesis HK : stuck_comp (NBuffer b u mi mo) L w.
Hypothesis Hn : new_inside u mi mo w0.
Hypothesis HW : wrun w0 L w.
Hypothesis HL : sealed u mi mo L.
Hypothesis HF : fitting w.
Hypothesis HC : cs_closed (w (CSize s)) = false.
Hypothesis HR : ~ full (w (CSize s)).
Hypothesis F1 : ~ fault (own 1 L).
Hypothesis F2 : ~ fault (own 2 L).
Hypothesis HV : 0 < told (Some s) (own 3 L).

Lemma unrefused_of t ch : ~ fault (own t L) -> refusedb ch (own t L) = false.
Proof. intro H. destruct (refusedb ch (own t L)) eqn:E; [|reflexivity]. apply refusedb_spec in E. destruct E as (v & E). exfalso. apply H. exists (ESend ch v, AClosed). auto. Qed.
Lemma loaded : full (w (CData o)).
Proof.
  destruct (buffer_tasks _ _ _ _ _ _ _ HB I HG) as (sa & sb & sc & La & Lb & Lc & Na & Nb & Nc & Nall).
  destruct (parts_together _ _ _ None _ _ _ HB w0 L w sa sb sc Hn HW HL (proj1 (proj2 (proj2 La))) (proj1 (proj2 (proj2 Lb))) (proj1 (proj2 (proj2 Lc)))) as (pa & pb & t & HT & Ea & Eb & Et & _).
  pose proof (live_stuck _ _ _ _ _ _ _ La HK) as Sa. pose proof (live_stuck _ _ _ _ _ _ _ Lb HK) as Sb. pose proof (live_stuck _ _ _ _ _ _ _ Lc HK) as Sc. rewrite Hs in Sc.
  assert (HNC : ~ closed_by (CSize s) (own 3 L)).
  { intro K. assert (E : cs_closed (w (CSize s)) = true) by (eapply (is_closed_by _ _ _ _ _ _ _ _ _ _ _ _ _ HT) with (i := 3); now apply closedb_in). congruence. }
  pose proof (tg_t _ _ _ _ _ _ _ _ _ _ _ _ _ HT) as Rt. rewrite Hs in Rt.
  destruct (t_counted s mi mo w (wired_mm _ _ _ _ _ _ HB) HF HC HR (own 3 L) t (conj Rt Sc) HNC) as [[Q1 Q2] HS]; [intros x ->; apply (Nc x); rewrite Hs in Et; now rewrite <- Et|].
  pose proof (num_mi _ _ _ None _ _ _ HB _ _ _ _ _ _ HT) as N1. pose proof (num_mo _ _ _ None _ _ _ HB _ _ _ _ _ _ HT) as N2. pose proof (num_u _ _ _ None _ _ _ HB _ _ _ _ _ _ HT) as N3. rewrite Q1 in N1. rewrite Q2 in N2. cbn [length] in N1, N2.
  assert (A1 : nsent (CMon mi) (own 1 L) <= S (nsent (CData u) (own 1 L)) /\ (closedb (CData u) (own 1 L) = false -> nsent (CMon mi) (own 1 L) <= nsent (CData u) (own 1 L))).
  { pose proof (is_a _ _ _ None _ _ _ HB _ _ _ _ _ _ HT) as Ia. unfold inv_a in Ia. cbv zeta in Ia. pose proof (unrefused_of 1 (CData u) F1) as R1. pose proof (unrefused_of 1 (CMon mi) F1) as R2. rewrite R1, R2 in Ia. destruct Ia as (_ & _ & Ia & I2). specialize (Ia eq_refl). rewrite Ia in *. clear Ia.
    destruct pa as [ov st cnt|x ov cnt|d ov cnt|x dec ov cnt|x dec ov cnt|ov cnt|ov cnt|ov cnt|[n|e]|[n|e]|[n|e]|[n|e]|[n|e]]; try contradiction I2;
      try (destruct I2 as [[K|[(_ & K & _)|(_ & K & _)]] _]; discriminate K); try (destruct I2 as ([K|(_ & K)] & C1 & _); [|discriminate K]); try (destruct I2 as [K _]); try (split; [lia|intro; try lia; congruence]).
    - split; destruct (is_finished x); lia.
    - exfalso. cbn [mstat view psa] in Ea. assert (Xa := proj1 (proj2 (proj2 La))). rewrite <- Ea in Xa. destruct (proj2 (proj1 (proj2 La)) _ _ AOk Xa eq_refl) as (st' & X').
      exact (brisk_last _ _ _ _ _ _ Sa X' (W_close _ _) eq_refl). }
  destruct A1 as [A1 A2].
  pose proof (is_b _ _ _ None _ _ _ HB _ _ _ _ _ _ HT) as Ib.
  assert (Xb := proj1 (proj2 (proj2 Lb))). assert (Rb := proj1 (proj2 Lb)).
  destruct sb as [e|[n|er]|x]; [| | |destruct (Nb x eq_refl)].
  - destruct (step_or_block _ _ _ _ Rb Xb HF) as [H|[(ch & -> & H)|[(ch & v & -> & H)|H]]].
    + exfalso. destruct (moves_brisk _ _ _ H) as (s' & st' & w' & K1 & K2 & K3 & _). exact (Sb _ _ _ K1 K2 K3).
    + exfalso. pose proof (at_motion _ _ _ _ _ Xb) as [[K|[(q & d & [<-|[]] & K)|[(m & K & E)|[(m & K & E)|(s' & v & K & _)]]]]|[K|[(q & [<-|[]] & K)|(m & K & E)]]]; try discriminate K; try discriminate E.
      injection K as <-. destruct H as [H1 H2]. rewrite H2 in N3. cbn [length] in N3.
      assert (Er : nsent (CMon mo) (own 2 L) = ntak (CData u) (own 2 L)).
      { destruct pb as [ov st cnt|y ov cnt|d ov cnt|y dec ov cnt|y dec ov cnt|ov cnt|ov cnt|ov cnt|r|r|r|r|r]; unfold mstat in Eb; cbn in Eb; try discriminate Eb. apply Ib. }
      assert (Ec : closedb (CData u) (own 1 L) = false) by (destruct (closedb (CData u) (own 1 L)) eqn:E; [|reflexivity]; pose proof (is_closed_by _ _ _ _ _ _ _ _ _ _ _ _ _ HT _ 1 E); congruence).
      specialize (A2 Ec). lia.
    + pose proof (at_motion _ _ _ _ _ Xb) as [[K|[(q & d & [<-|[]] & K)|[(m & K & E)|[(m & K & E)|(s' & v' & K & _)]]]]|[K|[(q & [<-|[]] & K)|(m & K & E)]]]; try discriminate K; try discriminate E.
      * injection K as <- <-. exact H.
      * injection K as <-. injection E as -> ->. exfalso. destruct (caps _ _ _ _ _ _ _ _ _ _ _ _ _ HT) as (_ & _ & Ecap). exact (full_some _ Ecap H Q2).
    + exfalso. pose proof (at_motion _ _ _ _ _ Xb) as [[K|[(q & d & [<-|[]] & K)|[(m & K & E)|[(m & K & E)|(s' & v' & K & _)]]]]|[K|[(q & [<-|[]] & K)|(m & K & E)]]]; try discriminate K; try discriminate E; try (cbn in K; subst e; exact H); try (injection K as <-; exact H).
  - exfalso. assert (Eq : sawb (CData u) (own 2 L) = true).
    { destruct (copy_released (PlReceiver (PJ 0 0) u) (MN (Some mo) None) None (PsIoSender j o) I ltac:(left; discriminate) _ _ Xb) as (Hu & _). destruct (in_cut _ _ Hu) as (A & B & E). pose proof (exec_prefix _ _ _ Xb _ _ _ _ E) as XA.
      pose proof (motion_leave _ _ _ _ _ XA) as HLv. cbn in HLv. destruct HLv as [[[K|[]]|[K|K]] _].
      - exfalso. pose proof (wired_ps _ _ _ _ _ _ HB) as K'. cbn in K'. congruence.
      - apply sawb_spec. rewrite E. destruct K as [K|K]; [left|right]; apply in_or_app; now left.
      - exfalso. apply F2. rewrite E. now apply fault_app. }
    destruct (ag_end _ _ _ _ (agree' _ _ _ None _ _ _ HB _ _ _ _ _ _ HT) Eq) as [_ E2].
    assert (Er : nsent (CMon mo) (own 2 L) = ntak (CData u) (own 2 L) + 1).
    { destruct pb as [ov st cnt|y ov cnt|d ov cnt|y dec ov cnt|y dec ov cnt|ov cnt|ov cnt|ov cnt|r|r|r|r|r]; unfold mstat in Eb; cbn in Eb; try discriminate Eb. injection Eb as ->. unfold inv_b in Ib. cbv zeta in Ib. rewrite Eq in Ib. apply Ib. }
    lia.
  - exfalso. exact (F2 (P_Calm.motion_fault _ _ _ _ _ Xb)).
Qed.
End Halves.
