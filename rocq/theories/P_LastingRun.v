(** * P_LastingRun: regulated pipelines that go on and on *)
From Coq Require Import Ascii String List Bool Arith Lia Permutation.
From Verif Require Import M_Prog P_Prog P_Exec M_Motion M_Config M_BackOff M_Utils M_Regulator M_Faucet M_Drain M_Buffer M_Junction M_Launch M_Manager M_Manip M_Waiter M_Join S_Trace S_Lines S_Motion S_World S_Launch S_Regulator S_Drain S_Buffer S_Junction S_Network S_Net M_Start S_Start S_Manip S_Waiter S_Shape S_Watch S_Delay S_Lasting
  P_World P_Read P_Ask P_Regulator P_Control P_Manager P_BufferJoint P_Buffer P_BufferRun P_BufferPoll P_BufferEnd P_Link P_Phase P_Conduit P_Motion P_Respond P_Network P_NetComp P_NetMoves P_Net P_NetCost P_NetDone P_Calm P_Turn P_Rounds P_Prefix P_Later P_Whole P_Shape P_Watch P_WatchRun P_WatchMarks P_Skim P_Delay P_DelayRun P_Act P_Patient P_Counter P_Walk P_Follow P_Loaded P_WholeCost P_Fair P_Still P_Lasting P_Ahead.
Import ListNotations.

Lemma data_bytes net l : bytes_read (data_part net l) <= bytes_read l.
Proof.
  unfold bytes_read, data_part, all_of. induction l as [|x l IH]; [cbn; lia|]. cbn [filter]. destruct (_ && _); cbn [map]; rewrite ?list_sum_cons; lia.
Qed.
Lemma choked_going net cs w0 l w ocs k m cp : net_wired (map plain_comp net) -> overseen net cs -> roomy net -> polite net -> whole_run net cs w0 l w ocs -> willing l -> choked net cs l w k m cp -> ocs k = Going.
Proof.
  intros HN HO HR HP HWh HWl HC. pose proof HC as (b & u & mi & mo & s & Hk & Hb & _ & _ & Hc & _). assert (Hlt : k < length net) by (apply nth_error_Some; congruence).
  destruct (whole_fails net cs w0 l w ocs HN HO HR HP HWh HWl k ltac:(lia)) as [H|(n & H)]; [exact H|exfalso].
  pose proof (size_shut _ _ _ _ _ _ HN (proj1 HWh) k _ s _ Hk ltac:(cbn; rewrite Hb; now left) H). congruence.
Qed.

Section Net.
Variables (net : list comp) (cs : list capture) (w0 : world).
Hypothesis HN : net_wired (map plain_comp net).
Hypothesis HO : overseen net cs.
Hypothesis HR : roomy net.
Hypothesis HP : polite net.
Hypothesis HFa : forall f s, In (NFaucet f s) net -> fc_control f = None.
Variable rank : nat -> nat.
Hypothesis HRk : forall k c k' c' n, nth_error net k = Some c -> nth_error net k' = Some c' -> In n (comp_outs c) -> In n (comp_ins c') -> rank k < rank k'.
Hypothesis HAh : forall m cp k c k' c' s, nth_error cs m = Some cp -> nth_error net k = Some c -> In (rc_control (cp_control cp)) (comp_control c) -> In s (cp_monitors cp) -> nth_error net k' = Some c' -> In s (comp_monitor c') -> rank k < rank k'.

(** Where only looking and waiting is left. *)
Theorem looking_net l w ocs : whole_run net cs w0 l w ocs -> willing l -> only_looks net cs w0 l ->
  everybody_succeeded net cs ocs \/
  exists k m cp l2 ocs2, ocs k = Going /\ (forall i ev, In (i, ev) l2 -> i = 4 * (length net + m) /\ forward ev = false) /\ free_run net cs w0 (l ++ l2) w ocs2 /\ choked net cs (l ++ l2) w k m cp.
Proof.
  intros HX HW HL. destruct (still net cs w0 l w ocs rank HN HO HR HP HFa HRk HAh HX HW (looks_stuck net cs w0 HN HO l w ocs (proj1 HX) HL)) as [H|(k & m & cp & s & Hg & [I1 I2] & HC)]; [now left|right].
  assert (HE : exists st, nth_error cs m = Some cp /\ exec (controller cp) (controller_of net m l ++ s) st).
  { destruct HC as (b & u & mi & mo & x & _ & _ & Hm & _ & _ & _ & HE & _). unfold controller_of in *. rewrite own_app, own_by_mine in HE. eauto. }
  destruct HE as (st & Hm & HE). destruct (free_extend_controller net cs w0 l w ocs m cp s st w (proj1 HX) Hm HE I1) as (ocs2 & HX2).
  exists k, m, cp, (by_task (4 * (length net + m)) s), ocs2. split; [exact Hg|]. split; [|split; [exact HX2|exact HC]].
  intros i ev Hin. unfold by_task in Hin. apply in_map_iff in Hin. destruct Hin as (y & E & Hy). injection E as <- <-. split; [reflexivity|]. rewrite forallb_forall in I2. specialize (I2 y Hy). now apply negb_true_iff in I2.
Qed.

Variable f : nat -> nevent.
Hypothesis HE : whole_endless net cs w0 f.
Hypothesis HF : whole_fair net cs w0 f.
Hypothesis HL : limited f.
Hypothesis HS : statuses_come f.
Hypothesis HW : forall n, willing (so_far f n).
Theorem lasting_net : ~ choked_for_good net cs w0 f -> False.
Proof.
  destruct HS as (N & HSt). destruct HL as (M & HM). intro HNo.
  assert (HA : acyclic (map plain_comp net)).
  { exists rank. intros k c k' c' n Hk Hk' H1 H2. rewrite nth_error_map in Hk, Hk'. destruct (nth_error net k) as [x|] eqn:E; [|discriminate Hk]. destruct (nth_error net k') as [x'|] eqn:E'; [|discriminate Hk']. injection Hk as <-. injection Hk' as <-.
    rewrite plain_outs in H1. rewrite plain_ins in H2. exact (HRk _ _ _ _ _ E E' H1 H2). }
  destruct (whole_bound net cs M HN HA HO HR HFa) as (B & HB).
  refine (last_forward f N B _ _).
  { intro n. destruct (HE n) as (w & ocs & HX & _). apply (HB _ _ _ _ HX). etransitivity; [apply data_bytes|apply HM]. }
  intros (n1 & Hn1 & HLt). destruct (HE n1) as (w & ocs & HX). pose proof (late_stuck net cs w0 HN HO f HE HF N HSt n1 Hn1 HLt n1 w ocs (le_n _) (proj1 HX)) as HT.
  destruct (still net cs w0 _ w ocs rank HN HO HR HP HFa HRk HAh HX (HW n1) HT) as [H|(k & m & cp & s & Hg & HI & HC)].
  - eapply late_over; [exact HE|exact Hn1|exact (proj1 HX)|exact H].
  - destruct (late_choked net cs w0 HN f HE HF N HSt n1 Hn1 HLt w ocs k m cp s (proj1 HX) HI HC) as (n0 & _ & H). apply HNo. exists n0, k, m, cp. intros n w' ocs' Hn HX'. pose proof (H n w' ocs' Hn (proj1 HX')) as HC'. split; [|exact HC'].
    exact (choked_going net cs w0 _ w' ocs' k m cp HN HO HR HP HX' (HW n) HC').
Qed.
Theorem lasting_small : (forall n m cp ks, nth_error cs m = Some cp -> tellers net (cp_monitors cp) ks -> list_sum (map (fun k => S (received net k (so_far f n))) ks) < cp_high cp) -> False.
Proof.
  intro HSm. apply lasting_net. intros (n0 & k & m & cp & H). destruct (HE n0) as (w & ocs & HX). destruct (H n0 w ocs (le_n _) HX) as [_ HC].
  assert (Hm : nth_error cs m = Some cp) by (destruct HC as (b & u & mi & mo & s & _ & _ & Hm & _); exact Hm). destruct (P_Act.tellers_of net cs HO m cp Hm) as (ks & HT).
  pose proof (given_late _ _ _ _ _ _ HN HO (proj1 HX) m cp ks Hm HT (choked_given _ _ _ _ _ _ HO (proj1 HX) _ _ _ HC)). specialize (HSm n0 m cp ks Hm HT). lia.
Qed.
End Net.

Section Prepared.
Variables (sh : shuffles) (cwd : option string) (vars : list (string * string)) (c : config) (w : waiter) (cs : list capture).
Hypothesis Hf : S_Manip.fair sh.
Hypothesis Hgc : good_connections (cf_connection c).
Hypothesis Hnd : NoDup (keys (cf_regulator c)).
Hypothesis Hpr : prepares sh c w cs.
Hypothesis Hpa : passing (cf_connection c).
Hypothesis Hno : no_loop (cf_connection c).
Hypothesis Hwa : watches_ahead c.
Notation net := (net_of cwd vars w).

Theorem prepared_looking w0 l wl ocs : whole_run net cs w0 l wl ocs -> willing l -> only_looks net cs w0 l ->
  everybody_succeeded net cs ocs \/
  exists k m cp l2 ocs2, ocs k = Going /\ (forall i ev, In (i, ev) l2 -> i = 4 * (length net + m) /\ forward ev = false) /\ free_run net cs w0 (l ++ l2) wl ocs2 /\ choked net cs (l ++ l2) wl k m cp.
Proof.
  destruct (prepared_shape _ cwd vars _ _ _ Hf Hgc Hpr Hpa (loops_apart _ (no_loop_buffered _ Hno))) as (H1 & H2 & H3 & _ & _). destruct (prepared_ahead sh cwd vars c w cs Hf Hgc Hpr Hpa Hno Hnd Hwa) as (rank & R1 & R2).
  exact (looking_net net cs w0 H1 (prepared_overseen _ cwd vars _ _ _ Hf Hgc Hpr) H2 H3 (uncontrolled sh cwd vars c w cs Hf Hgc Hpr) rank R1 R2 l wl ocs).
Qed.
Theorem prepared_lasting w0 f : whole_endless net cs w0 f -> whole_fair net cs w0 f -> limited f -> statuses_come f -> (forall n, willing (so_far f n)) -> ~ ~ choked_for_good net cs w0 f.
Proof.
  destruct (prepared_shape _ cwd vars _ _ _ Hf Hgc Hpr Hpa (loops_apart _ (no_loop_buffered _ Hno))) as (H1 & H2 & H3 & _ & _). destruct (prepared_ahead sh cwd vars c w cs Hf Hgc Hpr Hpa Hno Hnd Hwa) as (rank & R1 & R2).
  intros X1 X2 X3 X4 X5. exact (lasting_net net cs w0 H1 (prepared_overseen _ cwd vars _ _ _ Hf Hgc Hpr) H2 H3 (uncontrolled sh cwd vars c w cs Hf Hgc Hpr) rank R1 R2 f X1 X2 X3 X4 X5).
Qed.
Theorem prepared_small_ends w0 f : whole_endless net cs w0 f -> whole_fair net cs w0 f -> limited f -> statuses_come f -> (forall n, willing (so_far f n)) ->
  (forall n m cp ks, nth_error cs m = Some cp -> tellers net (cp_monitors cp) ks -> list_sum (map (fun k => S (received net k (so_far f n))) ks) < cp_high cp) -> False.
Proof.
  destruct (prepared_shape _ cwd vars _ _ _ Hf Hgc Hpr Hpa (loops_apart _ (no_loop_buffered _ Hno))) as (H1 & H2 & H3 & _ & _). destruct (prepared_ahead sh cwd vars c w cs Hf Hgc Hpr Hpa Hno Hnd Hwa) as (rank & R1 & R2).
  intros X1 X2 X3 X4 X5. exact (lasting_small net cs w0 H1 (prepared_overseen _ cwd vars _ _ _ Hf Hgc Hpr) H2 H3 (uncontrolled sh cwd vars c w cs Hf Hgc Hpr) rank R1 R2 f X1 X2 X3 X4 X5).
Qed.
End Prepared.
