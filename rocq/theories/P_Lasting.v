(** * P_Lasting: what is left of a regulated pipeline that runs for ever *)
From Coq Require Import Ascii String List Bool Arith Lia Permutation.
From Verif Require Import M_Prog P_Prog P_Exec M_Motion M_Config M_BackOff M_Utils M_Regulator M_Faucet M_Drain M_Buffer M_Junction M_Launch M_Manager M_Manip M_Waiter M_Join S_Trace S_Lines S_Motion S_World S_Launch S_Regulator S_Drain S_Buffer S_Junction S_Network S_Net M_Start S_Start S_Manip S_Waiter S_Shape S_Watch S_Delay S_Lasting
  P_World P_Read P_Ask P_Regulator P_Control P_Manager P_BufferJoint P_Buffer P_BufferRun P_BufferPoll P_BufferEnd P_Link P_Phase P_Conduit P_Motion P_Respond P_Network P_NetComp P_NetMoves P_Net P_NetCost P_NetDone P_Calm P_Turn P_Rounds P_Prefix P_Later P_Whole P_Shape P_Watch P_WatchRun P_WatchMarks P_Skim P_Delay P_DelayRun P_Act P_Patient P_Counter P_Walk P_Follow P_Loaded P_WholeCost P_Fair P_Still.
Import ListNotations.

(** ** One thing after the other *)
Lemma plain_next c L t e a s oc e' a' s' oc' : comp_ready (plain_comp c) -> t < 4 -> comp_runs c (L ++ by_task t ((e, a) :: s)) oc -> comp_runs c (L ++ by_task t ((e', a') :: s')) oc' -> e = e'.
Proof.
  intros HR Ht H H'. destruct c as [f name|rg|b u mi mo|j|cwd vars la|d name].
  - cbn [comp_runs] in H, H'. destruct H as (st & H & _), H' as (st' & H' & _). eapply alone_next; eassumption.
  - cbn [comp_runs] in H, H'. destruct H as (st & H & _), H' as (st' & H' & _). eapply alone_next; eassumption.
  - cbn [comp_runs] in H, H'. destruct H as (st & H & _), H' as (st' & H' & _). destruct t as [|t]; [|eapply (joined_next _ _ _ _ _ L (S t)); [lia|exact H|exact H']].
    exfalso. destruct HR as (HC & pj & i & j & o & HR). pose proof (buffer_zero b u mi mo _ _ _ _ HR ltac:(discriminate) H) as K. rewrite own_app, own_by_mine in K. apply app_eq_nil in K. now destruct K.
  - eapply comp_next; [exact HR|exact Ht|exact H|exact H'].
  - eapply comp_next; [exact HR|exact Ht|exact H|exact H'].
  - eapply comp_next; [exact HR|exact Ht|exact H|exact H'].
Qed.

Section Lasting.
Variables (net : list comp) (cs : list capture) (w0 : world).
Hypothesis HN : net_wired (map plain_comp net).
Hypothesis HO : overseen net cs.
Notation free := (free_run net cs w0).
Notation K := (length net).

Lemma free_extend l w ocs k c t s w' oc : free l w ocs -> nth_error net k = Some c -> t < 4 -> comp_runs c (seen_by k l ++ by_task t s) oc -> wrun w (by_task t s) w' ->
  exists ocs1, free (l ++ by_task (4 * k + t) s) w' ocs1.
Proof.
  intros HX Hk Ht HC HW. assert (Hlt : k < length net) by (apply nth_error_Some; congruence). exists (fun i => if i =? k then oc else ocs i). constructor.
  - intros i ci Hi. rewrite seen_app. destruct (Nat.eqb_spec i k) as [->|Hne].
    + rewrite seen_mine by exact Ht. now replace ci with c by congruence.
    + apply comp_foreign; [now apply (fr_comps _ _ _ _ _ _ HX)|]. apply seen_theirs; assumption.
  - intros m cp Hm. destruct (fr_controllers _ _ _ _ _ _ HX _ _ Hm) as (st & H1 & H2). exists st. rewrite own_app, own_by. destruct (Nat.eqb_spec (4 * k + t) (4 * (length net + m))) as [E|_]; [lia|]. rewrite app_nil_r. split; [exact H1|].
    destruct (Nat.eqb_spec (length net + m) k); [lia|exact H2].
  - apply wrun_app. exists w. split; [apply (fr_world _ _ _ _ _ _ HX)|]. eapply wrun_by. exact HW.
  - intros i ev Hin. apply in_app_or in Hin. destruct Hin as [Hin|Hin]; [now apply (fr_only _ _ _ _ _ _ HX _ _ Hin)|]. unfold by_task in Hin. apply in_map_iff in Hin. destruct Hin as (x & E & Hx). injection E as <- <-. apply (in_order_comp net cs k c); [exact Hk|].
    destruct c; cbn [comp_tasks]; cbn [In]; try (destruct t as [|[|[|[|t]]]]; lia).
    all: destruct HC as (st & (HI & _) & _); destruct (Nat.eq_dec t 0) as [->|Hn]; [left; lia|exfalso]; assert (Kt : In t [1; 2; 3]) by (cbn; lia); specialize (HI t Kt); rewrite own_app, own_by_mine in HI; apply app_eq_nil in HI; destruct HI as [_ HI]; subst s; destruct Hx.
  - exact (fr_made _ _ _ _ _ _ HX).
Qed.
Lemma free_extend_controller l w ocs m cp s st w' : free l w ocs -> nth_error cs m = Some cp -> exec (controller cp) (controller_of net m l ++ s) st -> wrun w (by_task 0 s) w' ->
  exists ocs1, free (l ++ by_task (4 * (K + m)) s) w' ocs1.
Proof.
  intros HX Hm HE HW. assert (Hlt : m < length cs) by (apply nth_error_Some; congruence).
  exists (fun i => if i =? length net + m then outcome_of (A := mres nat) (B := mres nat) (C := option nat) (Before st) else ocs i).
  assert (EB : by_task (4 * (length net + m)) s = by_task (4 * (length net + m) + 0) s) by now rewrite Nat.add_0_r. constructor.
  - intros i ci Hi. assert (i < length net) by (apply nth_error_Some; congruence). destruct (Nat.eqb_spec i (length net + m)); [lia|]. rewrite seen_app. apply comp_foreign; [now apply (fr_comps _ _ _ _ _ _ HX)|]. rewrite EB. apply seen_theirs; lia.
  - intros m' cp' Hm'. rewrite own_app, own_by. destruct (Nat.eqb_spec (length net + m') (length net + m)) as [E|Hne].
    + assert (m' = m) by lia. subst m'. rewrite Nat.eqb_refl. replace cp' with cp by congruence. exists st. split; [exact HE|reflexivity].
    + destruct (Nat.eqb_spec (4 * (length net + m)) (4 * (length net + m'))) as [E|_]; [lia|]. rewrite app_nil_r. exact (fr_controllers _ _ _ _ _ _ HX _ _ Hm').
  - apply wrun_app. exists w. split; [apply (fr_world _ _ _ _ _ _ HX)|]. eapply wrun_by. exact HW.
  - intros i ev Hin. apply in_app_or in Hin. destruct Hin as [Hin|Hin]; [now apply (fr_only _ _ _ _ _ _ HX _ _ Hin)|]. unfold by_task in Hin. apply in_map_iff in Hin. destruct Hin as (x & E & _). injection E as <- <-. unfold poll_order. apply in_or_app. right. apply in_or_app. right. apply in_or_app. right. apply in_or_app. left.
    unfold controller_tasks. apply in_map_iff. exists (length net + m). split; [reflexivity|]. apply in_seq. lia.
  - exact (fr_made _ _ _ _ _ _ HX).
Qed.

(** Who a task belongs to. *)
Lemma whose i : In i (poll_order net cs) -> (exists k c t, i = 4 * k + t /\ t < 4 /\ nth_error net k = Some c) \/ exists m cp, i = 4 * (K + m) /\ nth_error cs m = Some cp.
Proof.
  intro H. destruct (nth_error net (i / 4)) as [c|] eqn:E.
  - left. exists (i / 4), c, (i mod 4). split; [apply task_of|]. split; [apply Nat.mod_upper_bound; lia|exact E].
  - right. destruct (order_rest net cs i H E) as (m & Ei & Hm). destruct (nth_error cs m) as [cp|] eqn:Ec; [|apply nth_error_None in Ec; lia]. eauto.
Qed.
Lemma mine_in l i ev s : In (i, ev) (l ++ by_task i (ev :: s)).
Proof. apply in_or_app. right. now left. Qed.

Lemma free_next l i e a s e' a' s' w ocs w' ocs' : free (l ++ by_task i ((e, a) :: s)) w ocs -> free (l ++ by_task i ((e', a') :: s')) w' ocs' -> e = e'.
Proof.
  intros H H'. destruct (whose i (fr_only _ _ _ _ _ _ H _ _ (mine_in _ _ _ _))) as [(k & c & t & -> & Ht & Hk)|(m & cp & -> & Hm)].
  - pose proof (fr_comps _ _ _ _ _ _ H _ _ Hk) as C. pose proof (fr_comps _ _ _ _ _ _ H' _ _ Hk) as C'. rewrite seen_app, seen_mine in C, C' by exact Ht.
    exact (plain_next _ _ _ _ _ _ _ _ _ _ _ (ready_of _ HN _ (nth_error_In _ _ Hk)) Ht C C').
  - destruct (fr_controllers _ _ _ _ _ _ H _ _ Hm) as (st & C & _). destruct (fr_controllers _ _ _ _ _ _ H' _ _ Hm) as (st' & C' & _). rewrite own_app, own_by_mine in C, C'.
    pose proof (exec_det _ _ _ (exec_prefix _ _ _ C _ _ _ _ eq_refl) _ (exec_prefix _ _ _ C' _ _ _ _ eq_refl)) as E. now injection E.
Qed.
(** What one may do does not depend on what the others do meanwhile, as long as they only look. *)
Lemma free_later l w ocs i s w' ocs' j ev ocs1 : free l w ocs -> s <> [] -> free (l ++ by_task i s) w' ocs' -> j <> i -> free (l ++ [(j, ev)]) w ocs1 ->
  exists ocs2, free ((l ++ [(j, ev)]) ++ by_task i s) w' ocs2.
Proof.
  intros HX Hs H Hj H1. destruct s as [|ev0 s]; [congruence|].
  assert (HW : wrun w (by_task i (ev0 :: s)) w').
  { pose proof (fr_world _ _ _ _ _ _ H) as W. apply wrun_app in W. destruct W as (w2 & W1 & W2). now rewrite (wrun_det _ _ _ W1 _ (fr_world _ _ _ _ _ _ HX)) in W2. }
  destruct (whose i (fr_only _ _ _ _ _ _ H _ _ (mine_in _ _ _ _))) as [(k & c & t & -> & Ht & Hk)|(m & cp & -> & Hm)].
  - pose proof (fr_comps _ _ _ _ _ _ H _ _ Hk) as C. rewrite seen_app, seen_mine in C by exact Ht. pose proof (fr_comps _ _ _ _ _ _ H1 _ _ Hk) as C1. rewrite seen_app in C1.
    assert (Hot : own t (seen_by k [(j, ev)]) = []) by (rewrite (P_Network.own_seen k t [(j, ev)] Ht), own1; destruct (Nat.eqb_spec j (4 * k + t)); [contradiction|reflexivity]).
    destruct (comp_later_any c (seen_by k l) t (ev0 :: s) _ (seen_by k [(j, ev)]) _ Ht ltac:(discriminate) C C1 Hot) as (oc2 & C2).
    eapply free_extend; [exact H1|exact Hk|exact Ht| |eapply wrun_by; exact HW]. rewrite seen_app, <- app_assoc. exact C2.
  - destruct (fr_controllers _ _ _ _ _ _ H _ _ Hm) as (st & C & _). rewrite own_app, own_by_mine in C.
    eapply free_extend_controller; [exact H1|exact Hm| |eapply wrun_by; exact HW]. unfold controller_of. rewrite own_app, own1. destruct (Nat.eqb_spec j (4 * (K + m))); [contradiction|]. rewrite app_nil_r. exact C.
Qed.

(** ** Nothing but looking *)
Lemma comp_forward l w ocs k c t e a : free l w ocs -> nth_error net k = Some c -> t < 4 -> In (4 * k + t, (e, a)) l -> useful (e, a) = true -> forward (e, a) = true.
Proof.
  intros HX Hk Ht Hin HU. unfold forward. rewrite HU. cbn [andb].
  assert (Hdiv : (4 * k + t) / 4 = k /\ (4 * k + t) mod 4 = t) by (split; [rewrite Nat.mul_comm, Nat.div_add_l, Nat.div_small by lia; lia|rewrite Nat.add_comm, Nat.mul_comm, Nat.mod_add, Nat.mod_small by lia; reflexivity]).
  destruct (who_may _ _ _ _ _ _ HN HO HX _ _ _ Hin) as [(c' & Hc' & _ & H)|(m & cp & E & Hm & _)].
  - destruct e as [x|x|x v|x|x|x| | | | | | | | | | | |]; auto; destruct x; auto; destruct a; auto; exfalso; destruct H as [H|[(n8 & _ & [H|[H|H]])|(_ & n9 & _ & [(v9 & H)|H])]]; try discriminate H; contradiction H.
  - exfalso. assert (k < length net) by (apply nth_error_Some; congruence). lia.
Qed.
Lemma swift_stuck l w ocs : free l w ocs -> (forall i s w' ocs', free (l ++ by_task i s) w' ocs' -> ~ swift s) -> stuck_net net cs l w.
Proof.
  intros HX H. split.
  - intros k c Hk t s oc w' Ht HC HW (s0 & [e a] & -> & H1 & H2). destruct (free_extend _ _ _ _ _ _ _ _ _ HX Hk Ht HC HW) as (ocs1 & HX1). apply (H _ _ _ _ HX1).
    exists s0, (e, a). split; [reflexivity|]. split.
    + rewrite forallb_forall in *. intros ev Hev. specialize (H1 ev Hev). unfold forward. apply negb_true_iff in H1. now rewrite H1.
    + eapply (comp_forward _ _ _ k c t e a HX1 Hk Ht); [|exact H2]. apply in_or_app. right. unfold by_task. apply in_map_iff. exists (e, a). split; [reflexivity|]. apply in_or_app. right. now left.
  - intros m cp s st w' Hm HE HW HS. destruct (free_extend_controller _ _ _ _ _ _ _ _ HX Hm HE HW) as (ocs1 & HX1). exact (H _ _ _ _ HX1 HS).
Qed.
Lemma looks_stuck l w ocs : free l w ocs -> only_looks net cs w0 l -> stuck_net net cs l w.
Proof.
  intros HX HL. apply (swift_stuck l w ocs HX). intros i s w' ocs' HX' (s0 & ev & -> & _ & H2).
  assert (E : forward ev = false); [|congruence]. apply (HL _ _ _ HX' i). unfold by_task. apply in_map_iff. exists ev. split; [reflexivity|]. apply in_or_app. right. now left.
Qed.

(** ** For ever *)
Variable f : nat -> nevent.
Hypothesis HE : whole_endless net cs w0 f.
Hypothesis HF : whole_fair net cs w0 f.
Variable N : nat.
Hypothesis HSt : forall n, N <= n -> snd (f n) <> (EStatus, AErr).

Lemma whole_step n w ocs w1 ocs1 : free (so_far f n) w ocs -> free (so_far f (S n)) w1 ocs1 -> wstep w (snd (f n)) w1.
Proof.
  intros HX HX1. pose proof (fr_world _ _ _ _ _ _ HX1) as W. rewrite so_far_S in W. apply wrun_app in W. destruct W as (w2 & W1 & W2). rewrite (wrun_det _ _ _ W1 _ (fr_world _ _ _ _ _ _ HX)) in W2.
  inversion W2 as [|x y w3 z w4 W3 W4 E1 E2]; subst. inversion W4; subst. destruct (f n); cbn in *. congruence.
Qed.
(** A way task [i] can go. *)
Definition way (i n : nat) (s : trace) : Prop := exists w ocs w' ocs', free (so_far f n) w ocs /\ free (so_far f n ++ by_task i s) w' ocs'.
Lemma way_next i n ev s : way i n (ev :: s) -> N <= n -> forward (snd (f n)) = false ->
  (f n = (i, ev) /\ way i (S n) s) \/ (fst (f n) <> i /\ way i (S n) (ev :: s)).
Proof.
  intros (w & ocs & w' & ocs' & HX & H) Hn Hf. destruct (HE (S n)) as (w1 & ocs1 & HX1 & _). pose proof (whole_step _ _ _ _ _ HX HX1) as Hstep. pose proof (idle_same _ _ _ Hf Hstep) as ->.
  pose proof (HSt n Hn) as Hst. destruct (f n) as [j [e a]] eqn:Ef. cbn [fst snd] in *. destruct (Nat.eq_dec j i) as [->|Hne].
  - left. destruct ev as [e' a']. pose proof HX1 as HX1'. rewrite so_far_S, Ef in HX1'. change [(i, (e, a))] with (by_task i [(e, a)]) in HX1'. pose proof (free_next _ _ _ _ _ _ _ _ _ _ _ _ HX1' H) as <-.
    pose proof (fr_world _ _ _ _ _ _ H) as W. apply wrun_app in W. destruct W as (w2 & W1 & W2). rewrite (wrun_det _ _ _ W1 _ (fr_world _ _ _ _ _ _ HX)) in W2. cbn [by_task map] in W2. inversion W2 as [|x y w3 z w4 W3 W4 E1 E2]; subst.
    pose proof (idle_answer _ _ _ _ _ _ Hf Hst Hstep W3) as <-. split; [reflexivity|]. exists w, ocs1, w', ocs'. split; [exact HX1|]. rewrite so_far_S, Ef, <- app_assoc. exact H.
  - right. split; [exact Hne|]. rewrite so_far_S, Ef in HX1. destruct (free_later _ _ _ i (ev :: s) _ _ j (e, a) ocs1 HX ltac:(discriminate) H Hne HX1) as (ocs2 & H2).
    exists w, ocs1, w', ocs2. rewrite so_far_S, Ef. auto.
Qed.
Lemma way_could i n ev s : way i n (ev :: s) -> whole_could net cs w0 (so_far f n) i.
Proof. intros (w & ocs & w' & ocs' & _ & H). exists ev, (by_task i s), w', ocs'. exact H. Qed.
(** It goes that way, unless somebody does more than look first. *)
Lemma way_taken i s : forall n, N <= n -> way i n s -> (exists m, n <= m /\ forward (snd (f m)) = true) \/ exists m, n <= m /\ own i (so_far f m) = own i (so_far f n) ++ s.
Proof.
  induction s as [|ev s IH]; intros n Hn HT; [right; exists n; split; [lia|now rewrite app_nil_r]|].
  assert (Hwalk : forall x, (exists m, n <= m /\ forward (snd (f m)) = true) \/ (exists m, n <= m /\ m < n + x /\ f m = (i, ev) /\ own i (so_far f m) = own i (so_far f n) /\ way i (S m) s) \/ (own i (so_far f (n + x)) = own i (so_far f n) /\ way i (n + x) (ev :: s))).
  { induction x as [|x IHx]; [right; right; now rewrite Nat.add_0_r|]. destruct IHx as [IHx|[(m & H1 & H2 & H3)|(H1 & IHx)]]; [now left|right; left; exists m; split; [lia|]; split; [lia|exact H3]|].
    destruct (forward (snd (f (n + x)))) eqn:Eu; [left; exists (n + x); split; [lia|exact Eu]|].
    destruct (way_next _ _ _ _ IHx ltac:(lia) Eu) as [(H2 & H3)|(H2 & H3)]; [right; left; exists (n + x); split; [lia|]; split; [lia|]; auto|right; right].
    replace (n + S x) with (S (n + x)) by lia. split; [|exact H3]. rewrite so_far_S, own_app, H1. destruct (f (n + x)) as [j ev']. cbn [fst] in H2. rewrite own1. destruct (Nat.eqb_spec j i); [contradiction|apply app_nil_r]. }
  assert (Hgo : forall m, n <= m -> f m = (i, ev) -> own i (so_far f m) = own i (so_far f n) -> way i (S m) s -> (exists m, n <= m /\ forward (snd (f m)) = true) \/ exists m, n <= m /\ own i (so_far f m) = own i (so_far f n) ++ ev :: s).
  { intros m Hm Ef Eo HT'. destruct (IH (S m) ltac:(lia) HT') as [(m' & H1 & H2)|(m' & H1 & H2)]; [left; exists m'; split; [lia|exact H2]|right; exists m'; split; [lia|]].
    rewrite H2, so_far_S, own_app, Ef, own1, Nat.eqb_refl, Eo, <- app_assoc. reflexivity. }
  destruct (HF i n) as (m & Hm & Hcase). destruct (Hwalk (m - n)) as [H|[(m' & H1 & _ & H3 & H4 & H5)|(H1 & H2)]]; [now left|now apply (Hgo m')|]. replace (n + (m - n)) with m in H1, H2 by lia.
  destruct Hcase as [Hc|Hc]; [|exfalso; apply Hc; eapply way_could; exact H2].
  destruct (forward (snd (f m))) eqn:Eu; [left; eauto|]. destruct (way_next _ _ _ _ H2 ltac:(lia) Eu) as [(H3 & H4)|(H3 & _)]; [|contradiction]. now apply (Hgo m).
Qed.

Lemma fwds_step n : fwds (all_of (so_far f (S n))) = fwds (all_of (so_far f n)) + (if forward (snd (f n)) then 1 else 0).
Proof. rewrite so_far_S, all_of_app, fwds_app. unfold fwds. cbn. now destruct (forward (snd (f n))). Qed.
Lemma fwds_grows n m : n <= m -> fwds (all_of (so_far f n)) <= fwds (all_of (so_far f m)).
Proof. induction 1 as [|m H IH]; [lia|]. rewrite fwds_step. lia. Qed.
(** Where there is a bound, there is a last time. *)
Lemma last_forward B : (forall n, fwds (all_of (so_far f n)) <= B) -> ~ ~ exists n1, N <= n1 /\ forall n, n1 <= n -> forward (snd (f n)) = false.
Proof.
  intros HB HNo. assert (HU : forall b, ~ ~ exists n, N <= n /\ b <= fwds (all_of (so_far f n))).
  { induction b as [|b IH]; [intro H; apply H; exists N; lia|]. intro H. apply IH. intros (n & Hn & Hb). apply HNo. exists n. split; [exact Hn|]. intros n' Hn'.
    destruct (forward (snd (f n'))) eqn:E; [|reflexivity]. exfalso. apply H. exists (S n'). split; [lia|]. rewrite fwds_step, E. pose proof (fwds_grows _ _ Hn'). lia. }
  apply (HU (S B)). intros (n & _ & H). specialize (HB n). lia.
Qed.

Section Late.
Variable n1 : nat.
Hypothesis Hn1 : N <= n1.
Hypothesis HL : forall n, n1 <= n -> forward (snd (f n)) = false.
Lemma late_same w ocs : free (so_far f n1) w ocs -> forall n, n1 <= n -> forall w' ocs', free (so_far f n) w' ocs' -> w' = w.
Proof.
  intro HX. induction 1 as [|n Hn IH]; intros w' ocs' HX'; [exact (wrun_det _ _ _ (fr_world _ _ _ _ _ _ HX') _ (fr_world _ _ _ _ _ _ HX))|].
  destruct (HE n) as (w1 & ocs1 & HX1 & _). rewrite (idle_same _ _ _ (HL n Hn) (whole_step _ _ _ _ _ HX1 HX')). eapply IH. exact HX1.
Qed.
Lemma late_stuck n w ocs : n1 <= n -> free (so_far f n) w ocs -> stuck_net net cs (so_far f n) w.
Proof.
  intros Hn HX. apply (swift_stuck _ _ _ HX). intros i s w' ocs' HX' (s0 & ev & -> & _ & H2).
  destruct (way_taken i (s0 ++ [ev]) n ltac:(lia)) as [(m & Hm & Hf)|(m & Hm & Eo)]; [exists w, ocs, w', ocs'; auto|rewrite (HL m) in Hf by lia; discriminate Hf|].
  assert (Hin : exists x, n <= x /\ f x = (i, ev)); [|destruct Hin as (x & Hx & Ef); specialize (HL x ltac:(lia)); rewrite Ef in HL; cbn [snd] in HL; congruence].
  assert (Hgen : forall m, n <= m -> exists z, own i (so_far f m) = own i (so_far f n) ++ z /\ forall y, In y z -> exists x, n <= x /\ f x = (i, y)).
  { induction 1 as [|m' Hm' (z & Ez & IH)]; [exists []; split; [now rewrite app_nil_r|intros y []]|]. rewrite so_far_S, own_app, Ez. destruct (f m') as [j y'] eqn:Ef. rewrite own1. destruct (Nat.eqb_spec j i) as [->|_].
    - exists (z ++ [y']). split; [now rewrite app_assoc|]. intros y Hy. apply in_app_or in Hy. destruct Hy as [Hy|[<-|[]]]; [auto|]. exists m'. auto.
    - exists z. split; [now rewrite app_nil_r|exact IH]. }
  destruct (Hgen m Hm) as (z & Ez & Hz). rewrite Eo in Ez. apply app_inv_head in Ez. subst z. apply Hz. apply in_or_app. right. now left.
Qed.
Lemma late_over n w ocs : free (so_far f n) w ocs -> everybody_succeeded net cs ocs -> False.
Proof.
  intros HX HS. destruct (HE (S n)) as (w1 & ocs1 & HX1 & _). rewrite so_far_S in HX1. destruct (f n) as [i ev] eqn:Ef.
  destruct (whose i (fr_only _ _ _ _ _ _ HX1 _ _ (mine_in _ _ _ []))) as [(k & c & t & -> & Ht & Hk)|(m & cp & -> & Hm)].
  - assert (k < K) by (apply nth_error_Some; congruence). destruct (HS k ltac:(lia)) as (r & Er). pose proof (fr_comps _ _ _ _ _ _ HX _ _ Hk) as C. rewrite Er in C.
    pose proof (fr_comps _ _ _ _ _ _ HX1 _ _ Hk) as C1. change [(4 * k + t, ev)] with (by_task (4 * k + t) [ev]) in C1. rewrite seen_app, seen_mine in C1 by exact Ht. exact (comp_over_any _ _ _ _ _ _ _ C Ht C1).
  - assert (m < length cs) by (apply nth_error_Some; congruence). destruct (HS (K + m) ltac:(lia)) as (r & Er). destruct (fr_controllers _ _ _ _ _ _ HX _ _ Hm) as (st & C & Eo). rewrite Er in Eo. destruct st as [e|x|s]; try discriminate Eo.
    destruct (fr_controllers _ _ _ _ _ _ HX1 _ _ Hm) as (st1 & C1 & _). rewrite own_last, Nat.eqb_refl in C1. destruct (done_last _ _ _ C _ _ C1) as [Z _]. discriminate Z.
Qed.
(** The controller that cannot signal waits for ever. *)
Lemma late_choked w ocs k m cp s : free (so_far f n1) w ocs -> idlers w s -> choked net cs (so_far f n1 ++ by_task (4 * (K + m)) s) w k m cp ->
  exists n0, n1 <= n0 /\ forall n w' ocs', n0 <= n -> free (so_far f n) w' ocs' -> choked net cs (so_far f n) w' k m cp.
Proof.
  intros HX (HW & _) (b & u & mi & mo & x & A1 & A2 & A3 & A4 & A5 & A6 & A7 & A8 & A9). unfold controller_of in A7. rewrite own_app, own_by_mine in A7.
  destruct (way_taken (4 * (K + m)) s n1 Hn1) as [(j & Hj & Hf)|(n0 & H0 & Eo)].
  { destruct (free_extend_controller _ _ _ m cp s _ w HX A3 A7 HW) as (ocs1 & HX1). exists w, ocs, w, ocs1. auto. }
  { rewrite (HL j Hj) in Hf. discriminate Hf. }
  exists n0. split; [exact H0|].
  assert (HC : forall n, n0 <= n -> own (4 * (K + m)) (so_far f n) = own (4 * (K + m)) (so_far f n1) ++ s).
  { induction 1 as [|n Hn IH]; [exact Eo|]. rewrite so_far_S, own_app, IH. destruct (f n) as [j [e a]] eqn:Ef. rewrite own1. destruct (Nat.eqb_spec j (4 * (K + m))) as [->|_]; [exfalso|apply app_nil_r].
    destruct (HE (S n)) as (w2 & ocs2 & HX2 & _). destruct (HE n) as (w3 & ocs3 & HX3 & _). pose proof (whole_step _ _ _ _ _ HX3 HX2) as Hst. rewrite Ef in Hst. cbn [snd] in Hst.
    pose proof (late_same _ _ HX n ltac:(lia) _ _ HX3) as ->. pose proof (late_same _ _ HX (S n) ltac:(lia) _ _ HX2) as ->.
    destruct (fr_controllers _ _ _ _ _ _ HX2 _ _ A3) as (st & C & _). rewrite so_far_S, own_app, Ef, own1, Nat.eqb_refl, IH in C. pose proof (exec_det _ _ _ (exec_prefix _ _ _ C _ _ _ _ eq_refl) _ A7) as E. injection E as ->.
    specialize (HL n ltac:(lia)). rewrite Ef in HL. cbn [snd] in HL. inversion Hst; subst; try congruence; try discriminate. }
  intros n w' ocs' Hn HX'. pose proof (late_same _ _ HX n ltac:(lia) _ _ HX') as ->. exists b, u, mi, mo, x. unfold controller_of. rewrite (HC n Hn). auto 12.
Qed.
End Late.
End Lasting.
