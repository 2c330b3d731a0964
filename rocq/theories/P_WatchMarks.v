(** * P_WatchMarks: what is told at the marks is what is heard *)
From Coq Require Import Ascii String List Bool Arith Lia Permutation.
From Verif Require Import M_Prog P_Prog P_Exec M_Motion M_Config M_Regulator M_Faucet M_Drain M_Buffer M_Junction M_Launch M_Manager M_Waiter M_Join S_Trace S_Lines S_Motion S_World S_Launch S_Regulator S_Drain S_Buffer S_Junction S_Network S_Net M_Start S_Watch
  P_Read P_Motion P_Worker P_Flow P_Loop P_Regulator P_World P_Ask P_Control P_Manager P_Pause P_BufferJoint P_Buffer P_BufferRun P_BufferEnd P_Link P_Phase P_Conduit P_Network P_Net P_NetComp P_NetCost P_Turn P_Whole P_Watch P_WatchRun P_Prefix.
Import ListNotations.

Lemma own_cut t (l : list nevent) : forall t1 ev t2, own t l = t1 ++ ev :: t2 -> exists l0 l1, l = l0 ++ (t, ev) :: l1 /\ own t l0 = t1.
Proof.
  induction l as [|[i e] l IH]; intros t1 ev t2 E; [destruct t1; discriminate E|]. change ((i, e) :: l) with ([(i, e)] ++ l) in E. rewrite own_app, own1 in E. destruct (i =? t) eqn:Ei.
  - apply Nat.eqb_eq in Ei. subst i. destruct t1 as [|e' t1]; cbn in E; injection E as -> E.
    + exists [], l. auto.
    + destruct (IH _ _ _ E) as (l0 & l1 & -> & E0). exists ((t, e') :: l0), l1. split; [reflexivity|]. change ((t, e') :: l0) with ([(t, e')] ++ l0). rewrite own_app, own1, Nat.eqb_refl, E0. reflexivity.
  - destruct (IH _ _ _ E) as (l0 & l1 & -> & E0). exists ((i, e) :: l0), l1. split; [reflexivity|]. change ((i, e) :: l0) with ([(i, e)] ++ l0). rewrite own_app, own1, Ei, E0. reflexivity.
Qed.
Lemma sent_nth c tr : forall i, i < length (sent c tr) -> exists t1 v t2, tr = t1 ++ (ESend c v, AOk) :: t2 /\ length (sent c t1) = i.
Proof.
  induction tr as [|[e a] tr IH]; intros i H; [cbn in H; lia|]. change ((e, a) :: tr) with ([(e, a)] ++ tr) in H. rewrite sent_app', app_length in H.
  destruct (length (sent c [(e, a)])) as [|n] eqn:En.
  - destruct (IH i) as (t1 & v & t2 & -> & E); [lia|]. exists ((e, a) :: t1), v, t2. split; [reflexivity|]. change ((e, a) :: t1) with ([(e, a)] ++ t1). rewrite sent_app', app_length. lia.
  - assert (HE : exists v, e = ESend c v /\ a = AOk /\ n = 0).
    { destruct e; try discriminate En. destruct a; try discriminate En. cbn in En. destruct (chan_eqb c c0) eqn:Ec; [|discriminate En]. apply chan_eqb_eq in Ec. subst. cbn in En. exists v. split; [reflexivity|]. split; [reflexivity|lia]. }
    destruct HE as (v & -> & -> & ->). destruct i as [|i]; [exists [], v, tr; auto|]. destruct (IH i) as (t1 & v' & t2 & -> & E); [lia|]. exists ((ESend c v, AOk) :: t1), v', t2. split; [reflexivity|].
    change ((ESend c v, AOk) :: t1) with ([(ESend c v, AOk)] ++ t1). rewrite sent_app', app_length. lia.
Qed.

Lemma flat_map_nil' {A B} (f : A -> list B) xs : (forall x, In x xs -> f x = []) -> flat_map f xs = [].
Proof. induction xs as [|x xs IH]; intro H; [reflexivity|]. cbn. rewrite (H x) by now left. apply IH. intros y Hy. apply H. now right. Qed.
Lemma own_cons_same t ev (m : list nevent) : own t ((t, ev) :: m) = ev :: own t m.
Proof. unfold own. cbn. now rewrite Nat.eqb_refl. Qed.
Lemma all_seen k (m : list nevent) : all_of (seen_by k m) = all_of m.
Proof. unfold all_of, seen_by. rewrite map_map. apply map_ext. now intros [i ev]. Qed.

Section Run.
Variables (net : list comp) (cs : list capture) (w0 : world) (l : list nevent) (w : world) (ocs : nat -> S_Net.outcome).
Hypothesis HN : net_wired (map plain_comp net).
Hypothesis HO : overseen net cs.
Hypothesis HX : free_run net cs w0 l w ocs.

Lemma told_by k c x : nth_error net k = Some c -> In x (comp_control c) -> exists m cp, nth_error cs m = Some cp /\ rc_control (cp_control cp) = x.
Proof.
  intros Hk Hx. assert (H : In x (map (fun c => rc_control (cp_control c)) cs)) by (eapply Permutation_in; [apply (ov_controls _ _ HO)|]; apply in_flat_map; exists c; split; [exact (nth_error_In _ _ Hk)|exact Hx]).
  apply in_map_iff in H. destruct H as (cp & E & H). destruct (In_nth_error _ _ H) as (m & Hm). eauto.
Qed.
(** No signal is refused before the last accepted one. *)
Lemma all_accepted m cp a v b : nth_error cs m = Some cp -> l = a ++ (4 * (length net + m), (ESend (CCtl (rc_control (cp_control cp))) v, AOk)) :: b ->
  length (offered (CCtl (rc_control (cp_control cp))) (own (4 * (length net + m)) a)) = given (rc_control (cp_control cp)) a.
Proof.
  intros Hm E. unfold given. pose proof (fr_world _ _ _ _ _ _ HX) as HW. rewrite E in HW. destruct (run_before _ _ _ _ HW) as (z & W1 & W2). set (c := CCtl _) in *.
  assert (HS : forall i e x, In (i, (e, x)) a -> is_send c e -> i = 4 * (length net + m)).
  { intros i e x Hin (v' & ->). eapply ctl_sender; eauto. rewrite E. apply in_or_app. left. exact Hin. }
  rewrite <- (offered_all c _ _ HS). f_equal. symmetry. apply (sent_offered_run c _ _ _ W1). intros i v' Hin.
  apply in_split in Hin. destruct Hin as (a1 & a2 & Ea). rewrite Ea in W1. destruct (run_before _ _ _ _ W1) as (y & Y1 & Y2). inversion Y2 as [|i' ev' w1 l' w2 HS1 HW1]; subst.
  pose proof (step_closed c _ _ _ HS1) as Hc. assert (Hz : cs_closed (z c) = true).
  { assert (Y2' : wrun y ((i, (ESend c v', AClosed)) :: a2) z) by exact Y2. eapply stays_closed; [exact Y2'|exact Hc]. }
  inversion W2 as [|i' ev' w2' l' w3 HS2 HW2]; subst. pose proof (step_open c _ _ _ HS2). congruence.
Qed.
Theorem led_run m cp k c : nth_error cs m = Some cp -> nth_error net k = Some c -> In (rc_control (cp_control cp)) (comp_control c) -> led net cp m k (rc_control (cp_control cp)) l.
Proof.
  intros Hm Hk Hx. set (x := rc_control (cp_control cp)) in *. pose proof (fr_world _ _ _ _ _ _ HX) as HW.
  assert (HT : taken (CCtl x) (all_of l) = taken (CCtl x) (own (4 * k) l)) by (apply taken_all; intros i e a Hin He; eapply ctl_taker; eauto).
  assert (HC : w0 (CCtl x) = fresh_chan (Some 1)) by (apply (mw_controls _ _ (fr_made _ _ _ _ _ _ HX) c); [exact (nth_error_In _ _ Hk)|exact Hx]).
  pose proof (fifo (CCtl x) _ _ _ HW) as HF. rewrite HC in HF. cbn [cs_queue fresh_chan app] in HF. rewrite HT in HF.
  pose proof (within (CCtl x) _ _ _ 1 HW ltac:(now rewrite HC) ltac:(rewrite HC; cbn; lia)) as HL.
  assert (HG : given x l = heard k x l + length (cs_queue (w (CCtl x)))) by (unfold given, heard; now rewrite <- HF, app_length).
  split; [lia|]. intros i Hi. assert (HS : sent (CCtl x) (all_of l) = sent (CCtl x) (own (4 * (length net + m)) l)) by (apply sent_all; intros j e a Hin (v & ->); eapply ctl_sender; eauto).
  assert (Hi' : i < length (sent (CCtl x) (own (4 * (length net + m)) l))) by (rewrite <- HS; unfold given in HG; lia).
  destruct (sent_nth _ _ _ Hi') as (t1 & v & t2 & Et & Ei). destruct (own_cut _ _ _ _ _ Et) as (l0 & l1 & El & E0). exists l0, ((4 * (length net + m), (ESend (CCtl x) v, AOk)) :: l1). split; [exact El|].
  assert (HG0 : given x l0 = i).
  { unfold given. rewrite <- Ei, <- E0. f_equal. apply sent_all. intros j e a Hin (v' & ->). eapply ctl_sender; eauto. rewrite El. apply in_or_app. left. exact Hin. }
  split; [exact HG0|]. unfold controller_of. destruct (fr_controllers _ _ _ _ _ _ HX _ _ Hm) as (st & X & _). rewrite Et, <- E0 in X. pose proof (controller_manages _ _ _ (exec_prefix _ _ _ X _ _ _ _ eq_refl)) as Y.
  pose proof (nth_error_In _ _ Hm) as Hi0. rewrite (unpaused cp (ov_running _ _ HO _ Hi0)) in Y. destruct (manager_signal _ _ _ _ (monitors_once _ _ HO _ Hi0) _ _ _ Y) as (_ & _ & Z). fold x in Z. unfold told_to_pause, signals in Z.
  pose proof (all_accepted m cp l0 v l1 Hm El) as HA. fold x in HA. rewrite HA, HG0 in Z. exact Z.
Qed.
(** Between the passes. *)
Theorem settled_run m cp n : nth_error cs m = Some cp -> exec (controller cp) (controller_of net m l) (At (ESleep n)) -> S_Regulator.settled (cp_low cp) (cp_high cp) (rc_control (cp_control cp)) (cp_monitors cp) (controller_of net m l).
Proof.
  intros Hm Y. apply controller_manages in Y. pose proof (nth_error_In _ _ Hm) as Hi0. rewrite (unpaused cp (ov_running _ _ HO _ Hi0)) in Y.
  apply (manager_settled _ _ _ _ (monitors_once _ _ HO _ Hi0) _ _ Y). eauto.
Qed.

(** Who closes. *)
Lemma ctl_closer m cp k c t a : nth_error cs m = Some cp -> nth_error net k = Some c -> In (rc_control (cp_control cp)) (comp_control c) -> In (t, (EClose (CCtl (rc_control (cp_control cp))), a)) l -> t = 4 * k \/ t = 4 * (length net + m).
Proof.
  intros Hm Hk Hx Hin. destruct (who_may _ _ _ _ _ _ HN HO HX _ _ _ Hin) as [(c' & Hc & Ht & [H|[(n' & Hn' & [H|[H|H]])|(_ & n' & _ & [(v' & H)|H])]])|(m' & c' & -> & Hm' & H)]; try discriminate H; try contradiction H.
  - left. injection H as <-. pose proof (nth_unique comp_control net _ _ _ _ _ (one_control _ _ HO) Hc Hk Hn' Hx) as E. rewrite E in *. rewrite Hk in Hc. injection Hc as <-. destruct c; cbn in Hx; try contradiction Hx; cbn in Ht; lia.
  - right. cbn in H. f_equal. f_equal. symmetry. exact (nth_map_unique (fun c => rc_control (cp_control c)) cs _ _ _ _ (ov_one_control _ _ HO) Hm Hm' H).
Qed.
Lemma comp_turned k c x : nth_error net k = Some c -> In x (comp_control c) -> turned (Some x) (own (4 * k) l).
Proof.
  intros Hk Hx. pose proof (fr_comps _ _ _ _ _ _ HX _ _ Hk) as HC. pose proof (ready_of _ HN _ (nth_error_In _ _ Hk)) as HR. replace (4 * k) with (4 * k + 0) by lia. rewrite <- own_seen by lia.
  destruct c as [f name|r|b u mi mo|j|cwd vars la|d name]; cbn in Hx; try contradiction Hx; cbn [plain_comp comp_ready] in HR.
  - destruct HR as (_ & j & o & HR). destruct HC as (st & (_ & s & _ & HY) & _). assert (HR' : faucet_ready f name (PsIoSender j o)) by exact HR. pose proof (faucet_turned _ _ _ _ _ _ HR' HY) as HT.
    destruct (fc_control f) as [n|]; [|contradiction Hx]. destruct Hx as [<-|[]]. exact HT.
  - destruct HR as (_ & pj & i & j & o & HR). destruct HC as (st & (_ & s & _ & HY) & _). assert (HR' : regulator_ready r (PlReceiver pj i) (PsIoSender j o)) by exact HR. pose proof (regulator_turned _ _ _ _ _ _ HR' HY) as HT.
    destruct (rg_control r) as [n|]; [|contradiction Hx]. destruct Hx as [<-|[]]. exact HT.
Qed.
Lemma open_passes_one m cp k c a b : nth_error cs m = Some cp -> nth_error net k = Some c -> In (rc_control (cp_control cp)) (comp_control c) -> l = a ++ b -> Nat.Odd (given (rc_control (cp_control cp)) a) -> given (rc_control (cp_control cp)) b = 0 ->
  (forall t z, ~ In (t, (EClose (CCtl (rc_control (cp_control cp))), z)) l) -> length (attempts (own (4 * k) b)) <= 1.
Proof.
  intros Hm Hk Hx El Ha Hb Hc. set (x := rc_control (cp_control cp)) in *. replace (4 * k) with (4 * k + 0) by lia. rewrite <- own_seen by lia.
  pose proof (wrun_seen k _ _ _ (fr_world _ _ _ _ _ _ HX)) as HW. rewrite El, seen_app in HW.
  apply (pause_limits x w0 (seen_by k a) (seen_by k b) w); auto.
  - rewrite <- seen_app, <- El, own_seen, Nat.add_0_r by lia. exact (comp_turned k c x Hk Hx).
  - apply (mw_controls _ _ (fr_made _ _ _ _ _ _ HX) c); [exact (nth_error_In _ _ Hk)|exact Hx].
  - rewrite <- seen_app, <- El. split.
    + unfold others. apply flat_map_nil'. intros [e y] Hin. apply in_map_iff in Hin. destruct Hin as ([i ev] & E & Hin). cbn in E. subst ev. apply filter_In in Hin. destruct Hin as [Hin Hi]. cbn in Hi.
      destruct (seen_in _ _ _ _ Hin) as (i' & Hin' & Ei).
      assert (HT : is_take (CCtl x) e -> False).
      { intro T. pose proof (ctl_taker _ _ _ _ _ _ HN HO HX k c x i' e y Hk Hx Hin' T) as E. subst i'. rewrite Nat.mul_comm, Nat.div_mul, Nat.mod_mul, Nat.eqb_refl in Ei by lia. subst i. discriminate Hi. }
      destruct e; try reflexivity; destruct y; try reflexivity; destruct (chan_eqb (CCtl x) c0) eqn:Ec; try reflexivity; apply chan_eqb_eq in Ec; subst c0; exfalso; apply HT; [now left|now right].
    + unfold closed_by, others. intro Hin. apply in_map_iff in Hin. destruct Hin as ([i ev] & E & Hin). cbn in E. subst ev. apply filter_In in Hin. destruct Hin as [Hin _]. destruct (seen_in _ _ _ _ Hin) as (i' & Hin' & _). exact (Hc _ _ Hin').
  - rewrite all_seen. exact Ha.
  - rewrite all_seen. apply length_zero_iff_nil. exact Hb.
Qed.
Lemma turned_closed x h1 y h2 : turned (Some x) (h1 ++ (EClose (CCtl x), y) :: h2) -> closed_by (CCtl x) [(EClose (CCtl x), y)] -> attempts h2 = [].
Proof.
  intros (h & t & E & (h' & w' & k' & -> & HT & HQ & _ & HK) & HC) Hy. destruct Hy as [Hy|[]]. injection Hy as ->.
  assert (HNC : ~ closed_by (CCtl x) ((h' ++ w') ++ k')).
  { unfold closed_by. rewrite !in_app_iff. intros [[H|H]|H]; [exact (turns_not_closed _ _ _ HT H)|exact (quiet_not_closed _ _ HQ H)|]. destruct HK as [->|(c & _ & ->)]; [destruct H|]. destruct H as [H|[]]; discriminate H. }
  destruct (cut_split _ _ _ _ E) as [(z & Ez & Et)|(z & -> & Et)].
  - destruct z as [|ev z].
    + cbn in Et. rewrite <- Et in HC. inversion HC; subst. now apply only_closing_attempts.
    + injection Et as <- Et. exfalso. apply HNC. rewrite Ez. apply in_or_app. right. now left.
  - rewrite Et in HC. apply Forall_app in HC. destruct HC as [_ HC]. inversion HC; subst. now apply only_closing_attempts.
Qed.
End Run.
Lemma close_ok w a w' c : wstep w (EClose c, a) w' -> a = AOk /\ cs_closed (w' c) = true.
Proof. intros H. inversion H; subst; try discriminate. split; [reflexivity|]. unfold upd. now rewrite ?chan_eqb_refl. Qed.
Lemma wrun_head x i ev m y : wrun x ((i, ev) :: m) y -> exists z, wstep x ev z /\ wrun z m y.
Proof. intro H. inversion H; subst. eauto. Qed.
Lemma eff_close_dec (e : eff) c : e = EClose c \/ e <> EClose c.
Proof. destruct e as [| | |c'| | | | | | | | | | | | | |]; try (right; discriminate). destruct (chan_eqb c c') eqn:E; [apply chan_eqb_eq in E; subst; now left|right; intro K; injection K as ->; now rewrite chan_eqb_refl in E]. Qed.
Lemma first_closing c (m : list nevent) : (forall j b, ~ In (j, (EClose c, b)) m) \/ exists m1 i a m2, m = m1 ++ (i, (EClose c, a)) :: m2 /\ forall j b, ~ In (j, (EClose c, b)) m1.
Proof.
  induction m as [|[k [e b]] m IH]; [left; intros j b []|]. destruct (eff_close_dec e c) as [->|D]; [right; exists [], k, b, m; split; [reflexivity|intros j d []]|].
  destruct IH as [IH|(m1 & i' & a' & m2 & -> & Hm)]; [left|right].
  - intros j d [K|K]; [congruence|exact (IH _ _ K)].
  - exists ((k, (e, b)) :: m1), i', a', m2. split; [reflexivity|]. intros j d [K|K]; [congruence|exact (Hm _ _ K)].
Qed.
Lemma attempts_close c a t : attempts ((EClose c, a) :: t) = attempts t.
Proof. reflexivity. Qed.
Section Pause.
Variables (net : list comp) (cs : list capture) (w0 : world) (l : list nevent) (w : world) (ocs : nat -> S_Net.outcome).
Hypothesis HN : net_wired (map plain_comp net).
Hypothesis HO : overseen net cs.
Hypothesis HX : free_run net cs w0 l w ocs.
Theorem passes_one m cp k c a b : nth_error cs m = Some cp -> nth_error net k = Some c -> In (rc_control (cp_control cp)) (comp_control c) -> l = a ++ b -> Nat.Odd (given (rc_control (cp_control cp)) a) -> given (rc_control (cp_control cp)) b = 0 ->
  length (attempts (own (4 * k) b)) <= 1.
Proof.
  intros Hm Hk Hx El Ha Hb. set (x := rc_control (cp_control cp)) in *.
  destruct (first_closing (CCtl x) l) as [D|(p & t & z & q & Ep & Hp)]; [exact (open_passes_one _ _ _ _ _ _ HN HO HX m cp k c a b Hm Hk Hx El Ha Hb D)|].
  pose proof HX as HX1. rewrite Ep in HX1. pose proof (fr_world _ _ _ _ _ _ HX1) as HW. destruct (run_before _ _ _ _ HW) as (w1 & W1 & W2).
  destruct (wrun_head _ _ _ _ _ W2) as (w2 & HS & HW2). destruct (close_ok _ _ _ _ HS) as [-> HC2].
  assert (HQ : given x q = 0) by (unfold given; now rewrite (no_sent_closed _ _ _ _ HW2 HC2)).
  assert (HG : given x a + given x b = given x p + given x q).
  { unfold given. rewrite <- !app_length, <- !sent_app', <- !all_of_app, <- El, Ep. rewrite !all_of_app. cbn. rewrite !sent_app'. cbn. reflexivity. }
  assert (Et : t = 4 * k).
  { destruct (ctl_closer _ _ _ _ _ _ HN HO HX1 m cp k c t AOk Hm Hk Hx) as [E|E]; [apply in_or_app; right; now left|exact E|]. exfalso. rewrite E in *.
    destruct (fr_controllers _ _ _ _ _ _ HX1 _ _ Hm) as (st & X & _). rewrite own_app, own_cons_same in X. pose proof (controller_manages _ _ _ (exec_prefix _ _ _ X _ _ _ _ eq_refl)) as Y.
    pose proof (nth_error_In _ _ Hm) as Hi0. rewrite (unpaused cp (ov_running _ _ HO _ Hi0)) in Y. destruct (manager_closing _ _ _ _ (monitors_once _ _ HO _ Hi0) _ _ Y) as (_ & Z & _).
    unfold told_to_pause, signals in Z. fold x in Z.
    assert (EO : length (offered (CCtl x) (own (4 * (length net + m)) p)) = given x p).
    { unfold given. rewrite <- (offered_all (CCtl x) (4 * (length net + m)) p). f_equal. symmetry. apply (sent_offered_run _ _ _ _ W1).
      - intros i v Hin. apply in_own in Hin. eapply open_no_end; [exact W1|exact Hp| |exact Hin]. destruct (mw_new _ _ (fr_made _ _ _ _ _ _ HX) (CCtl x)) as (cap & ->). reflexivity.
      - intros i e y Hin (v & ->). eapply (ctl_sender _ _ _ _ _ _ HN HO HX1); eauto. apply in_or_app. left. exact Hin. }
    rewrite EO in Z. replace (given x p) with (given x a) in Z by lia. apply Nat.odd_spec in Ha. congruence. }
  rewrite Et in *. pose proof (comp_turned _ _ _ _ _ _ HN HX1 k c x Hk Hx) as HT. rewrite own_app, own_cons_same in HT. pose proof (turned_closed _ _ _ _ HT ltac:(now left)) as HA.
  rewrite Ep in El. destruct (cut_split _ _ _ _ El) as [(z & -> & Eb)|(z & Ea & ->)].
  - destruct z as [|ev z]; cbn [app] in Eb.
    + rewrite <- Eb, own_cons_same. rewrite attempts_close, HA. cbn. lia.
    + injection Eb as <- Eb. rewrite Eb, own_app, attempts_app in HA. apply app_eq_nil in HA. destruct HA as [_ ->]. cbn. lia.
  - destruct (free_before _ _ _ _ _ _ _ HX1) as (w9 & o9 & HX9 & _). rewrite Ea in HX9, Hp.
    assert (Hz : given x z = 0) by (unfold given in *; rewrite all_of_app, sent_app', app_length in Hb; lia).
    pose proof (open_passes_one _ _ _ _ _ _ HN HO HX9 m cp k c a z Hm Hk Hx eq_refl Ha Hz Hp) as H. rewrite own_app, own_cons_same, attempts_app, app_length. rewrite attempts_close, HA. cbn [attempts flat_map app length]. lia.
Qed.
End Pause.

(** ** What a level is made of *)
Lemma datas_le vs : length (datas vs) <= length vs.
Proof. unfold datas. induction vs as [|v vs IH]; [reflexivity|]. cbn. rewrite app_length. destruct v; cbn; lia. Qed.
Lemma taken_own_le c t (m : list nevent) : length (taken c (own t m)) <= length (taken c (all_of m)).
Proof.
  induction m as [|[i ev] m IH]; [reflexivity|]. change ((i, ev) :: m) with ([(i, ev)] ++ m). rewrite own_app, all_of_app, !taken_app, !app_length. rewrite own1. destruct (i =? t); cbn [all_of map snd]; [|cbn [taken flat_map length]]; lia.
Qed.
Lemma latest_from n tr : latest n tr = 0 \/ In (VSize (latest n tr)) (taken (CSize n) tr).
Proof.
  unfold latest. generalize (taken (CSize n) tr) as vs. intro vs.
  assert (H : forall s, fold_left (fun old v => match v with VSize k => k | _ => old end) vs s = s \/ In (VSize (fold_left (fun old v => match v with VSize k => k | _ => old end) vs s)) vs).
  { induction vs as [|v vs IH]; intro s; [now left|]. cbn [fold_left]. destruct (IH (match v with VSize k => k | _ => s end)) as [E|E]; [|right; now right]. rewrite E. destruct v; auto. right. now left. }
  exact (H 0).
Qed.
Section Level.
Variables (net : list comp) (cs : list capture) (w0 : world) (l : list nevent) (w : world) (ocs : nat -> S_Net.outcome).
Hypothesis HN : net_wired (map plain_comp net).
Hypothesis HO : overseen net cs.
Hypothesis HX : free_run net cs w0 l w ocs.

Lemma plain_nth k c : nth_error net k = Some c -> nth_error (map plain_comp net) k = Some (plain_comp c).
Proof. intro H. now rewrite nth_error_map, H. Qed.
Lemma free_sealed k b u mi mo : nth_error net k = Some (NBuffer b u mi mo) -> sealed u mi mo (seen_by k l).
Proof.
  intros Hk i e a c Hin He Hc. destruct (seen_in _ _ _ _ Hin) as (i' & Hin' & Ei).
  destruct (who_may _ _ _ _ _ _ HN HO HX _ _ _ Hin') as [(c' & Hc' & _ & Hm)|(m' & c' & -> & Hm' & H)].
  2:{ exfalso. destruct e as [|[]|[] []|[]| | | | | | | | | | | | | |]; try contradiction H; try discriminate He; injection He as <-; destruct Hc as [Hc|[Hc|Hc]]; discriminate Hc. }
  assert (HM : comp_may c' (i' mod 4) e).
  { destruct Hm as [H|[(n' & _ & [H|[H|H]])|(_ & n' & _ & [(v' & H)|H])]]; [exact H|..]; exfalso; subst e; injection He as <-; destruct Hc as [Hc|[Hc|Hc]]; discriminate Hc. }
  assert (Ek : i' / 4 = k).
  { pose proof (plain_nth _ _ Hk) as Pk. pose proof (plain_nth _ _ Hc') as Pc. cbn [plain_comp] in Pk. destruct Hc as [->|Hc].
    - apply (store_apart _ HN _ _ _ _ _ _ _ Pk Pc). rewrite plain_ins, plain_outs, plain_stores, !in_app_iff. destruct e as [x|x|x v|x|x|x| | | | | | | | | | | |]; try discriminate He; injection He as ->; cbn in HM; try contradiction HM; try (destruct v; try contradiction HM); rewrite ?in_app_iff in HM; tauto.
    - assert (HC : exists m, c = CMon m /\ (m = mi \/ m = mo)) by (destruct Hc as [->| ->]; eauto). destruct HC as (m & -> & Hmm). apply (counts_apart _ HN _ _ _ _ _ _ _ _ Pk Pc Hmm). rewrite plain_counts.
      destruct e as [x|x|x v|x|x|x| | | | | | | | | | | |]; try discriminate He; injection He as ->; cbn in HM; try contradiction HM; try (destruct v; try contradiction HM); tauto. }
  rewrite Ek, Nat.eqb_refl in Ei. assert (Hlt : i' mod 4 < 4) by (apply Nat.mod_upper_bound; lia).
  destruct i as [|[|[|[|i]]]]; auto; [|lia]. exfalso.
  pose proof (fr_comps _ _ _ _ _ _ HX _ _ Hk) as (st & HC & _). destruct (ready_of _ HN _ (nth_error_In _ _ Hk)) as (_ & pj & x & j & o & HR).
  assert (HR' : buffer_wired b (PlReceiver pj x) (PsIoSender j o) u mi mo) by exact HR. pose proof (buffer_zero _ _ _ _ _ _ _ _ HR' ltac:(discriminate) HC) as H0. apply in_own in Hin. rewrite H0 in Hin. destruct Hin.
Qed.
Lemma report_bound m cp ch k c : nth_error cs m = Some cp -> In ch (cp_monitors cp) -> nth_error net k = Some c -> In ch (comp_monitor c) -> latest ch (controller_of net m l) <= S (received net k l).
Proof.
  intros Hm Hch Hk Hch'.
  destruct (latest_from ch (controller_of net m l)) as [->|HI]; [lia|]. unfold received. rewrite Hk. unfold controller_of in *. set (n := latest _ _) in *.
  destruct c as [f name|r|b u mi mo|j|cwd vars la|d name]; cbn in Hch'; try contradiction Hch'. destruct (bf_monitor b) as [ch0|] eqn:Eb; [|destruct Hch']. destruct Hch' as [->|[]].
  assert (HP : In (VSize n) (sent (CSize ch) (own (4 * k + 3) l))).
  { assert (HS : forall i e a, In (i, (e, a)) l -> is_send (CSize ch) e -> i = 4 * k + 3) by (intros i e a Hin (v & ->); eapply (size_sender _ _ _ _ _ _ HN HO HX); [exact Hk| |exact Hin]; cbn; rewrite Eb; now left).
    rewrite <- (sent_all _ _ _ HS). pose proof (fifo (CSize ch) _ _ _ (fr_world _ _ _ _ _ _ HX)) as HF. destruct (mw_new _ _ (fr_made _ _ _ _ _ _ HX) (CSize ch)) as (cap & Ec). rewrite Ec in HF. cbn [fresh_chan cs_queue app] in HF.
    rewrite <- HF. apply in_or_app. left. rewrite (taken_all (CSize ch) (4 * (length net + m))); [exact HI|]. intros i e a Hin He. eapply (size_taker _ _ _ _ _ _ HN HO HX); eauto. }
  destruct (ready_of _ HN _ (nth_error_In _ _ Hk)) as (_ & pj & x & j & o & HR). assert (HR' : buffer_wired b (PlReceiver pj x) (PsIoSender j o) u mi mo) by exact HR.
  pose proof (fr_comps _ _ _ _ _ _ HX _ _ Hk) as (st & HC & _).
  assert (HB : n <= S (length (got (PlReceiver pj x) (own 1 (seen_by k l))))).
  { refine (buffer_reports_bound b _ _ None _ _ _ HR' _ _ _ _ ch HC (mw_inside _ _ (fr_made _ _ _ _ _ _ HX) _ _ _ _ (nth_error_In _ _ Hk)) (wrun_seen k _ _ _ (fr_world _ _ _ _ _ _ HX)) (free_sealed _ _ _ _ _ Hk) Eb n _).
    unfold reports. apply in_flat_map. exists (VSize n). split; [|now left]. rewrite own_seen by lia. exact HP. }
  rewrite own_seen in HB by lia. cbn [got] in HB. cbn [comp_ins]. destruct HR' as (E1 & _). rewrite E1.
  pose proof (datas_le (taken (CData x) (own (4 * k + 1) l))). pose proof (taken_own_le (CData x) (4 * k + 1) l). cbn. lia.
Qed.
Theorem level_bound m cp ks : nth_error cs m = Some cp -> tellers net (cp_monitors cp) ks -> level (cp_monitors cp) (controller_of net m l) <= list_sum (map (fun k => S (received net k l)) ks).
Proof.
  intros Hm HT. assert (H : forall ch k c, In ch (cp_monitors cp) -> nth_error net k = Some c -> In ch (comp_monitor c) -> latest ch (controller_of net m l) <= S (received net k l)) by (intros ch k c Hch; exact (report_bound m cp ch k c Hm Hch)).
  unfold tellers in HT. induction HT as [|ch k chs ks (c & Hk & Hc) HT IH]; [cbn; lia|].
  specialize (IH (fun ch' k' c' Hin => H ch' k' c' (or_intror Hin))). specialize (H ch k c (or_introl eq_refl) Hk Hc). cbn [map list_sum fold_right level].
  fold (level chs (controller_of net m l)). change (fold_right Init.Nat.add 0 (map (fun k => S (received net k l)) ks)) with (list_sum (map (fun k => S (received net k l)) ks)). destruct (gone ch _); lia.
Qed.
End Level.
Lemma list_sum_cons x xs : list_sum (x :: xs) = x + list_sum xs.
Proof. reflexivity. Qed.
Lemma received_grows net k a b : received net k a <= received net k (a ++ b).
Proof.
  unfold received. destruct (nth_error net k) as [c|]; [|lia]. induction (comp_ins c) as [|n ns IH]; [reflexivity|]. cbn [map]. rewrite !list_sum_cons. apply Nat.add_le_mono; [|exact IH]. rewrite all_of_app, taken_app, app_length. lia.
Qed.
Theorem not_early net cs w0 l w ocs m cp k c ks : net_wired (map plain_comp net) -> overseen net cs -> free_run net cs w0 l w ocs ->
  nth_error cs m = Some cp -> nth_error net k = Some c -> In (rc_control (cp_control cp)) (comp_control c) -> tellers net (cp_monitors cp) ks -> 0 < heard k (rc_control (cp_control cp)) l ->
  cp_high cp <= list_sum (map (fun k => S (received net k l)) ks).
Proof.
  intros HN HO HX Hm Hk Hx HT Hh. destruct (led_run _ _ _ _ _ _ HN HO HX m cp k c Hm Hk Hx) as [_ HL]. destruct (HL 0 Hh) as (l0 & l1 & -> & _ & H). cbn in H. destruct (free_before _ _ _ _ _ _ _ HX) as (w1 & o1 & HX1 & _).
  etransitivity; [exact H|]. etransitivity; [exact (level_bound _ _ _ _ _ _ HN HO HX1 m cp ks Hm HT)|]. clear. induction ks as [|k ks IH]; [cbn; lia|]. cbn [map]. rewrite !list_sum_cons. pose proof (received_grows net k l0 l1). lia.
Qed.
