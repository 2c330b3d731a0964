(** * P_Fair: no fair run goes on for ever *)
From Coq Require Import Ascii String List Bool Arith Lia.
From Verif Require Import M_Prog P_Prog P_Exec M_Motion M_Regulator M_Faucet M_Drain M_Buffer M_Junction M_Launch M_Join M_Poll S_Trace S_Lines S_Motion S_World S_Launch S_Regulator S_Drain S_Buffer S_Junction S_Network S_Net
  P_World P_BufferPoll P_Link P_NetComp P_NetMoves P_Net P_NetCost P_Calm P_Later P_Turn.
Import ListNotations.

Lemma useless_same w ev w' : useful ev = false -> wstep w ev w' -> w' = w.
Proof. intros HU HS. inversion HS; subst; auto; exfalso; try discriminate HU; destruct c; discriminate HU. Qed.
Lemma answer_same w e a w1 a' w2 : useful (e, a) = false -> (e, a) <> (EStatus, AErr) -> wstep w (e, a) w1 -> wstep w (e, a') w2 -> a = a'.
Proof.
  intros HU HS H1 H2. destruct e as [c|c|c v|c|c|c| | | | | | | | | | | |]; try (destruct a; discriminate HU).
  - inversion H1; subst; inversion H2; subst; try congruence; try discriminate.
  - inversion H1; subst; inversion H2; subst; try congruence; try discriminate.
  - inversion H1; subst; inversion H2; subst; try congruence; try discriminate.
  - inversion H1; subst; inversion H2; subst. destruct a, a'; try discriminate; reflexivity.
  - destruct a; try discriminate HU. now destruct HS.
Qed.
Lemma so_far_S f n : so_far f (S n) = so_far f n ++ [f n].
Proof. unfold so_far. rewrite seq_S, map_app. reflexivity. Qed.

Section Fair.
Variables (net : list comp) (w0 : world).
Hypothesis HN : net_wired net.
Hypothesis HA : acyclic net.
Variable f : nat -> nevent.
Hypothesis HE : endless net w0 f.
Hypothesis HF : fair net w0 f.
Hypothesis HG : forall n, granted (so_far f n).
Hypothesis HS : forall n w ocs, net_run net w0 (so_far f n) w ocs -> sound_so_far net ocs.

Definition tracked (k : nat) (c : comp) (t n : nat) (s : trace) : Prop := exists w ocs w' oc,
  net_run net w0 (so_far f n) w ocs /\ comp_runs c (seen_by k (so_far f n) ++ by_task t s) oc /\ wrun w (by_task t s) w' /\ brisk s.

Lemma somebody_tracked n : exists k c t s, nth_error net k = Some c /\ t < 4 /\ tracked k c t n s.
Proof.
  destruct (HE n) as (w & ocs & HX). destruct (HE (S n)) as (w1 & ocs1 & HX1). destruct (f n) as [i ev] eqn:Ef.
  assert (Hk : i / 4 < length net) by (apply (nr_only _ _ _ _ _ HX1 i ev); rewrite so_far_S, Ef; apply in_or_app; right; now left).
  destruct (nth_error net (i / 4)) as [c|] eqn:Ec; [|apply nth_error_None in Ec; lia].
  assert (Hlt : i mod 4 < 4) by (apply Nat.mod_upper_bound; lia).
  assert (Hgo : ocs (i / 4) = Going).
  { destruct (not_broken net w0 HN _ _ _ HX (HG n) (HS _ _ _ HX) _ _ Ec) as [H|(r & H)]; [exact H|exfalso].
    pose proof (nr_comps _ _ _ _ _ HX _ _ Ec) as HC. rewrite H in HC. pose proof (nr_comps _ _ _ _ _ HX1 _ _ Ec) as HC1. rewrite so_far_S, Ef, seen_app in HC1.
    rewrite (task_of i) in HC1 at 3. change [(4 * (i / 4) + i mod 4, ev)] with (by_task (4 * (i / 4) + i mod 4) [ev]) in HC1. rewrite seen_mine in HC1 by exact Hlt.
    exact (comp_over _ _ _ _ _ _ _ (nw_ready _ HN _ (nth_error_In _ _ Ec)) HC Hlt HC1). }
  destruct (somebody_moves net w0 HN _ _ _ HA HX (HG n) (HS _ _ _ HX) _ Hk Hgo) as (k & c' & Hk' & t & s & w' & oc & Ht & HC & HW & HU & _).
  exists k, c', t, s. split; [exact Hk'|]. split; [exact Ht|]. exists w, ocs, w', oc. auto.
Qed.
Lemma tracked_next k c t n s : nth_error net k = Some c -> t < 4 -> tracked k c t n s -> useful (snd (f n)) = false -> snd (f n) <> (EStatus, AErr) ->
  (fst (f n) = 4 * k + t /\ exists s', length s' < length s /\ tracked k c t (S n) s') \/ (fst (f n) <> 4 * k + t /\ tracked k c t (S n) s).
Proof.
  intros Hk Ht (w & ocs & w' & oc & HX & HC & HW & HU) Hf Hst. destruct (HE (S n)) as (w1 & ocs1 & HX1). destruct (f n) as [i [e a]] eqn:Ef. cbn [fst snd] in *.
  pose proof (nr_comps _ _ _ _ _ HX1 _ _ Hk) as HC1. rewrite so_far_S, Ef, seen_app in HC1. pose proof (nw_ready _ HN _ (nth_error_In _ _ Hk)) as HR.
  assert (Hstep : wstep w (e, a) w1).
  { pose proof (nr_world _ _ _ _ _ HX1) as K. rewrite so_far_S, Ef in K. apply wrun_app in K. destruct K as (w2 & K1 & K2). rewrite (wrun_det _ _ _ K1 _ (nr_world _ _ _ _ _ HX)) in K2. inversion K2; subst. inversion H4; subst. assumption. }
  pose proof (useless_same _ _ _ Hf Hstep) as Ew. subst w1.
  destruct (Nat.eq_dec i (4 * k + t)) as [->|Hne].
  - left. split; [reflexivity|]. change [(4 * k + t, (e, a))] with (by_task (4 * k + t) [(e, a)]) in HC1. rewrite seen_mine in HC1 by exact Ht.
    destruct HU as (s0 & ev & -> & H1 & H2).
    assert (Hd : exists e2 a2 s2, s0 ++ [ev] = (e2, a2) :: s2) by (destruct s0 as [|[e2 a2] s0]; [destruct ev|]; cbn; eauto). destruct Hd as (e2 & a2 & s2 & Es). rewrite Es in HC, HW |- *.
    pose proof (comp_next _ _ _ _ _ _ _ _ _ _ _ HR Ht HC HC1) as ->. cbn [by_task map] in HW. inversion HW as [|x y w2 z w3 HW1 HW2]; subst. pose proof (answer_same _ _ _ _ _ _ Hf Hst Hstep HW1) as <-. pose proof (useless_same _ _ _ Hf HW1) as ->.
    exists s2. split; [cbn; lia|]. exists w, ocs1, w', oc. split; [exact HX1|]. split; [|split; [exact HW2|]].
    + rewrite so_far_S, Ef, seen_app. change [(4 * k + t, (e, a))] with (by_task (4 * k + t) [(e, a)]). rewrite seen_mine, <- app_assoc by exact Ht. exact HC.
    + destruct s0 as [|y s0]; cbn in Es; injection Es as -> <-; [congruence|]. exists s0, ev. split; [reflexivity|]. split; [|exact H2]. cbn [forallb] in H1. apply andb_prop in H1. apply H1.
  - right. split; [exact Hne|].
    assert (Hot : own t (seen_by k [(i, (e, a))]) = []).
    { rewrite (P_Network.own_seen k t [(i, (e, a))] Ht), own1. destruct (Nat.eqb_spec i (4 * k + t)); [contradiction|reflexivity]. }
    destruct (comp_later c (seen_by k (so_far f n)) t s oc (seen_by k [(i, (e, a))]) (ocs1 k) HR Ht) as (oc2 & K); [destruct HU as (s0 & ev & -> & _); now destruct s0|exact HC|exact HC1|exact Hot|].
    exists w, ocs1, w', oc2. split; [exact HX1|]. split; [rewrite so_far_S, Ef, seen_app, <- app_assoc; exact K|]. auto.
Qed.
Variable N : nat.
Hypothesis HSt : forall n, N <= n -> snd (f n) <> (EStatus, AErr).
Lemma tracked_useful k c t : nth_error net k = Some c -> t < 4 -> forall d s n, length s <= d -> N <= n -> tracked k c t n s -> exists m, n <= m /\ useful (snd (f m)) = true.
Proof.
  intros Hk Ht. induction d as [|d IH]; intros s n Hd Hn HT.
  - exfalso. destruct HT as (w & ocs & w' & oc & _ & _ & _ & s0 & ev & -> & _). rewrite app_length in Hd. cbn in Hd. lia.
  - assert (Hwalk : forall x, (exists m, n <= m /\ useful (snd (f m)) = true) \/ tracked k c t (n + x) s).
    { induction x as [|x IHx]; [right; now rewrite Nat.add_0_r|]. destruct IHx as [IHx|IHx]; [now left|].
      destruct (useful (snd (f (n + x)))) eqn:Eu; [left; exists (n + x); split; [lia|exact Eu]|].
      destruct (tracked_next _ _ _ _ _ Hk Ht IHx Eu (HSt (n + x) ltac:(lia))) as [(_ & s' & Hl & HT')|(_ & HT')]; [left|right; now replace (n + S x) with (S (n + x)) by lia].
      destruct (IH s' (S (n + x)) ltac:(lia) ltac:(lia) HT') as (m & Hm & Hu). exists m. split; [lia|exact Hu]. }
    destruct (HF (4 * k + t) n) as (m & Hm & Hcase). destruct (Hwalk (m - n)) as [H|H]; [exact H|]. replace (n + (m - n)) with m in H by lia.
    destruct Hcase as [Hc|Hc].
    + destruct (useful (snd (f m))) eqn:Eu; [exists m; split; [lia|exact Eu]|].
      destruct (tracked_next _ _ _ _ _ Hk Ht H Eu (HSt m ltac:(lia))) as [(_ & s' & Hl & HT')|(Hx & _)]; [|contradiction].
      destruct (IH s' (S m) ltac:(lia) ltac:(lia) HT') as (m' & Hm' & Hu). exists m'. split; [lia|exact Hu].
    + exfalso. apply Hc. destruct H as (w & ocs & w' & oc & HX & HC & HW & s0 & ev & -> & _). pose proof (net_extend net w0 _ _ _ HX k c t _ w' oc Hk Ht HC HW) as K.
      destruct (s0 ++ [ev]) as [|ev0 s1] eqn:Es; [now destruct s0|]. exists ev0, (by_task (4 * k + t) s1). do 2 eexists. exact K.
Qed.
Lemma again n : N <= n -> exists m, n <= m /\ useful (snd (f m)) = true.
Proof. intro Hn. destruct (somebody_tracked n) as (k & c & t & s & Hk & Ht & HT). eapply (tracked_useful k c t Hk Ht (length s) s n); auto. Qed.
Lemma count_step n : useful_count (so_far f (S n)) = useful_count (so_far f n) + (if useful (snd (f n)) then 1 else 0).
Proof. change (uses (all_of (so_far f (S n))) = uses (all_of (so_far f n)) + (if useful (snd (f n)) then 1 else 0)). rewrite so_far_S, all_of_app, uses_app. cbn. unfold uses. cbn [filter]. now destruct (useful (snd (f n))). Qed.
Lemma count_grows n m : n <= m -> useful_count (so_far f n) <= useful_count (so_far f m).
Proof. induction 1 as [|m H IH]; [lia|]. rewrite count_step. lia. Qed.
Lemma count_any B : exists n, N <= n /\ B <= useful_count (so_far f n).
Proof.
  induction B as [|B (n & Hn & IH)]; [exists N; lia|]. destruct (again n Hn) as (m & Hm & Hu). exists (S m). split; [lia|]. rewrite count_step, Hu. pose proof (count_grows _ _ Hm). lia.
Qed.
Theorem fair_ends : limited f -> False.
Proof.
  intros (M & HM). destruct (net_bound _ HN HA M) as (B & HB). destruct (count_any (S B)) as (n & _ & Hn). destruct (HE n) as (w & ocs & HX). pose proof (HB _ _ _ _ HX (HM n)). lia.
Qed.
End Fair.

Theorem no_endless_run net w0 f : net_wired net -> acyclic net -> polite net -> endless net w0 f -> fair net w0 f -> limited f -> statuses_come f -> (forall n, willing (so_far f n)) -> (forall n, in_turn net w0 (so_far f n)) -> False.
Proof.
  intros HN HA HP HE HF HL (N & HSt) HW HT. refine (fair_ends net w0 HN HA f HE HF (fun n => willing_granted _ (HW n)) _ N HSt HL).
  intros n w ocs HX. apply (willing_sound _ _ _ _ _ HN HP HX (HW n)). exact (in_turn_sound net w0 HN _ _ _ HX (HT n)).
Qed.
