(** * P_Still: a pipeline in which everybody only looks and waits *)
From Coq Require Import Ascii String List Bool Arith Lia Permutation.
From Verif Require Import M_Prog P_Prog P_Exec M_Motion M_Config M_BackOff M_Utils M_Regulator M_Faucet M_Drain M_Buffer M_Junction M_Launch M_Manager M_Manip M_Waiter M_Join S_Trace S_Lines S_Motion S_World S_Launch S_Regulator S_Drain S_Buffer S_Junction S_Network S_Net M_Start S_Start S_Manip S_Waiter S_Shape S_Watch S_Delay S_Lasting
  P_World P_Read P_Ask P_Regulator P_Control P_Manager P_BufferJoint P_Buffer P_BufferRun P_BufferEnd P_Link P_Phase P_Conduit P_Motion P_Respond P_Network P_NetComp P_NetMoves P_Net P_NetCost P_NetDone P_Calm P_Turn P_Rounds P_Prefix P_Later P_Whole P_Shape P_Watch P_WatchRun P_WatchMarks P_Skim P_Delay P_DelayRun P_Act P_Patient P_Counter P_Walk P_Follow P_Loaded P_WholeCost.
Import ListNotations.

(** ** Whoever hears that it is to pause *)
Lemma check_even x k : check (Some x) k -> (forall c, ~ In (ERecv (CCtl c), AClosed) k) -> Nat.Even (length (taken (CCtl x) k)).
Proof.
  intros [->|[->|(a & -> & Hw)]] H; [exists 0; reflexivity|exists 0; reflexivity|]. destruct a; try discriminate Hw; [|exfalso; eapply H; right; left; reflexivity].
  exists 1. cbn. rewrite Nat.eqb_refl. reflexivity.
Qed.
Lemma turns_even x tr : turns (Some x) tr -> (forall c, ~ In (ERecv (CCtl c), AClosed) tr) -> Nat.Even (length (taken (CCtl x) tr)).
Proof.
  induction 1 as [|h w k HT IH Hq Ha Hk]; intro H; [exists 0; reflexivity|]. rewrite !taken_app, !app_length, (quiet_taken x _ Hq). cbn [length]. rewrite Nat.add_0_r.
  assert (H1 := IH (fun c Hin => H c (in_or_app _ _ _ (or_introl (in_or_app _ _ _ (or_introl Hin)))))). assert (H2 := check_even x k Hk (fun c Hin => H c (in_or_app _ _ _ (or_intror Hin)))).
  destruct H1 as [a ->], H2 as [b ->]. exists (a + b). lia.
Qed.
Lemma waits_odd r pj i j o x tr : regulator_ready r (PlReceiver pj i) (PsIoSender j o) -> rg_control r = Some x -> exec (regulator_start r None) tr (At (ERecv (CCtl x))) ->
  (forall c, ~ In (ERecv (CCtl c), AClosed) tr) -> Nat.Odd (length (taken (CCtl x) tr)).
Proof.
  intros HR Hx HX HC. destruct (proj2 (resp_regulators r _ _ _ None HR) _ _ (AMsg VUnit) HX eq_refl) as (st & HX').
  pose proof (regulator_turned _ _ _ _ _ _ HR HX') as (h & t & E & (h' & q & k & -> & Ht & Hq & Hat & Hk) & Hc). rewrite Hx in *.
  assert (Ev : Nat.Even (length (taken (CCtl x) (tr ++ [(ERecv (CCtl x), AMsg VUnit)])))).
  { destruct t as [|y t _] using rev_ind.
    - rewrite app_nil_r in E. destruct Hk as [->|(c & _ & ->)].
      + rewrite app_nil_r in E. destruct q as [|y q _] using rev_ind.
        * rewrite app_nil_r in E. rewrite E. apply turns_even; [exact Ht|]. intros c Hin. rewrite <- E in Hin. apply in_app_or in Hin. destruct Hin as [Hin|[Hin|[]]]; [exact (HC c Hin)|discriminate Hin].
        * exfalso. rewrite app_assoc in E. apply app_inj_tail in E. destruct E as [_ <-]. apply Forall_app in Hq. destruct Hq as [_ Hq]. inversion Hq as [|? ? K _]. exact K.
      + exfalso. apply app_inj_tail in E. destruct E as [_ E]. discriminate E.
    - exfalso. rewrite app_assoc in E. apply app_inj_tail in E. destruct E as [_ <-]. apply Forall_app in Hc. destruct Hc as [_ Hc]. inversion Hc as [|? ? K _]. exact K. }
  rewrite taken_app, app_length in Ev. cbn in Ev. rewrite Nat.eqb_refl in Ev. cbn in Ev. destruct Ev as [n Ev]. exists (n - 1). lia.
Qed.

(** ** The size heard last *)
Lemma latest_last n tr : latest n tr = last (flat_map (fun v => match v with VSize k => [k] | _ => [] end) (taken (CSize n) tr)) 0.
Proof.
  unfold latest. generalize (taken (CSize n) tr) as vs. intro vs.
  assert (H : forall s, fold_left (fun old v => match v with VSize k => k | _ => old end) vs s = last (flat_map (fun v => match v with VSize k => [k] | _ => [] end) vs) s); [|apply H].
  induction vs as [|v vs IH]; intro s; [reflexivity|]. cbn [fold_left flat_map]. rewrite IH. destruct v; try reflexivity. cbn [app]. clear. destruct (flat_map _ vs) as [|x xs] eqn:E; [reflexivity|]. cbn [last]. clear. revert x. induction xs as [|y xs IH]; intro x; [reflexivity|]. exact (IH y).
Qed.
Lemma level_some chans tr : 0 < level chans tr -> exists n, In n chans /\ S_Regulator.gone n tr = false /\ 0 < latest n tr.
Proof.
  induction chans as [|n chans IH]; cbn [level fold_right]; [lia|]. fold (level chans tr). intro H. destruct (gone n tr) eqn:E; [destruct (IH H) as (k & H1 & H2); exists k; split; [now right|exact H2]|].
  destruct (latest n tr) as [|v] eqn:Ev; [destruct (IH H) as (k & H1 & H2); exists k; split; [now right|exact H2]|]. exists n. split; [now left|]. split; [exact E|lia].
Qed.
Lemma offered_sent x tr : (forall v, ~ In (ESend (CCtl x) v, AClosed) tr) -> (forall e a, In (e, a) tr -> wt e a = true) -> offered (CCtl x) tr = sent (CCtl x) tr.
Proof.
  intros H HW. induction tr as [|[e a] tr IH]; [reflexivity|]. cbn [offered sent flat_map]. fold (offered (CCtl x) tr) (sent (CCtl x) tr).
  rewrite IH by (try (intros v Hin; apply (H v); now right); intros e' a' Hin; apply HW; now right). f_equal.
  destruct e as [c|c|c v|c|c|c| | | | | | | | | | | |]; try reflexivity. pose proof (HW _ _ (or_introl eq_refl)) as Hw. destruct a; try discriminate Hw; try reflexivity.
  destruct (chan_eqb (CCtl x) c) eqn:E; [|reflexivity]. apply chan_eqb_eq in E. subst c. exfalso. apply (H v). now left.
Qed.
Lemma idle_taken w s c : idlers w s -> (forall e a, In (e, a) s -> wt e a = true) -> (exists n, c = CSize n) -> taken c s = [].
Proof.
  intros HI HW (n & ->). destruct (taken (CSize n) s) as [|v r] eqn:E; [reflexivity|]. exfalso. assert (Hin : In v (taken (CSize n) s)) by (rewrite E; now left). unfold taken in Hin. apply in_flat_map in Hin. destruct Hin as ([e a] & Hin & Hv).
  destruct (idlers_in _ _ _ HI Hin) as [Hf _]. destruct e as [c|c|c v'|c|c|c| | | | | | | | | | | |]; try contradiction Hv; destruct a; try contradiction Hv; destruct c; cbn in Hv, Hf; try contradiction Hv; discriminate Hf.
Qed.

(** ** Downstream of whoever has no room to write somebody can move *)
Section Ahead.
Variables (net : list comp) (w0 : world).
Hypothesis HN : net_wired net.
Variables (l : list nevent) (w : world) (ocs : nat -> S_Net.outcome).
Hypothesis HX : net_run net w0 l w ocs.
Hypothesis HG : granted l.
Hypothesis HS : sound_so_far net ocs.
Variable rank : nat -> nat.
Hypothesis HR : forall k c k' c' n, nth_error net k = Some c -> nth_error net k' = Some c' -> In n (comp_outs c) -> In n (comp_ins c') -> rank k < rank k'.
Lemma moves_ahead : forall d k c, list_max (map rank (seq 0 (length net))) - rank k <= d -> nth_error net k = Some c -> blocked_out c w ->
  exists k' c', rank k < rank k' /\ nth_error net k' = Some c' /\ ocs k' = Going /\ can_move c' (seen_by k' l) w.
Proof.
  induction d as [d IH] using lt_wf_ind. intros k c Hd Hk (n & Hn & Hf).
  destruct (reader_of _ HN _ _ _ Hk Hn) as (k' & c' & Hk' & Hn'). pose proof (HR _ _ _ _ _ Hk Hk' Hn Hn') as Hrk.
  destruct (not_broken _ _ HN _ _ _ HX HG HS _ _ Hk') as [Ho'|(r & Ho')].
  - pose proof (nr_comps _ _ _ _ _ HX _ _ Hk') as HC. rewrite Ho' in HC.
    destruct (comp_moves c' _ w (nw_ready _ HN _ (nth_error_In _ _ Hk')) HC (net_ok _ _ HN _ _ _ HX _ _ Hk')) as [H|[H|H]].
    + exists k', c'. auto.
    + assert (Hlt : k' < length net) by (apply nth_error_Some; congruence). pose proof (rank_le net rank _ Hlt).
      destruct (IH (list_max (map rank (seq 0 (length net))) - rank k')) with (k := k') (c := c') as (k2 & c2 & H1 & H2); try assumption; [lia|lia|]. exists k2, c2. split; [lia|exact H2].
    + exfalso. pose proof (proj2 H n Hn' (proj1 Hf)) as Hq. destruct (nr_room _ _ _ _ _ HX n) as (cap & E); [apply in_flat_map; exists c; split; [exact (nth_error_In _ _ Hk)|exact Hn]|].
      apply (proj2 Hf). unfold room. rewrite (cap_same _ _ _ _ (nr_world _ _ _ _ _ HX)), E, Hq. cbn. lia.
  - exfalso. assert (K : cs_closed (w (CData n)) = true) by (eapply (ended_closed _ _ HN _ _ _ HX HG HS); [exact Hk'|exact Ho'|apply in_or_app; now left]). destruct Hf. congruence.
Qed.
End Ahead.

(** ** Everybody stands *)
Definition swift (s : trace) : Prop := exists s0 ev, s = s0 ++ [ev] /\ forallb (fun ev => negb (forward ev)) s0 = true /\ forward ev = true.
Definition stuck_net (net : list comp) (cs : list capture) (l : list nevent) (w : world) : Prop :=
  (forall k c, nth_error net k = Some c -> stuck_comp c (seen_by k l) w) /\
  forall m cp s st w', nth_error cs m = Some cp -> exec (controller cp) (controller_of net m l ++ s) st -> wrun w (by_task 0 s) w' -> ~ swift s.

Section Still.
Variables (net : list comp) (cs : list capture) (w0 : world) (l : list nevent) (w : world) (ocs : nat -> S_Net.outcome).
Hypothesis HN : net_wired (map plain_comp net).
Hypothesis HO : overseen net cs.
Hypothesis HX : free_run net cs w0 l w ocs.
Hypothesis HT : stuck_net net cs l w.
Notation K := (length net).
Notation ctl cp := (rc_control (cp_control cp)).

Definition at_rest (cp : capture) (tr : trace) : Prop :=
  (forall e a, In (e, a) tr -> wt e a = true) /\ S_Regulator.settled (cp_low cp) (cp_high cp) (ctl cp) (cp_monitors cp) tr /\ (exists n, In n (cp_monitors cp) /\ S_Regulator.gone n tr = false) /\
  forall n, In n (cp_monitors cp) -> S_Regulator.gone n tr = false -> dry (w (CSize n)).
Definition at_signal (cp : capture) (tr : trace) : Prop := exec (controller cp) tr (At (ESend (CCtl (ctl cp)) VUnit)) /\ full (w (CCtl (ctl cp))).
Lemma controller_stands m cp : nth_error cs m = Some cp ->
  (forall n, In n (cp_monitors cp) -> cs_closed (w (CSize n)) = true) /\ cs_closed (w (CCtl (ctl cp))) = true /\ (exists n, ocs (K + m) = Ended (Ok n)) \/
  exists s, idlers w s /\ (forall e a, In (e, a) s -> wt e a = true) /\ (at_signal cp (controller_of net m l ++ s) \/ at_rest cp (controller_of net m l ++ s)).
Proof.
  intro Hm. pose proof (nth_error_In _ _ Hm) as Hi0. destruct (fr_controllers _ _ _ _ _ _ HX _ _ Hm) as (st & HE & Ho). fold (controller_of net m l) in HE.
  pose proof (monitors_once _ _ HO _ Hi0) as Hnd. pose proof (unpaused cp (ov_running _ _ HO _ Hi0)) as Eu.
  assert (HC : forall ch, closed_by ch (controller_of net m l) -> cs_closed (w ch) = true).
  { intros ch Hc. apply (closes_it ch _ _ _ (fr_world _ _ _ _ _ _ HX)). unfold controller_of, closed_by in *. eapply own_all. exact Hc. }
  destruct st as [e|r|x].
  - right. pose proof (controller_manages _ _ _ HE) as HM. rewrite Eu in HM. destruct (manager_walk _ _ _ _ Hnd w _ _ (free_fitting _ _ _ _ _ _ HN HO HX) HM) as (s & HI & HW). exists s. split; [exact HI|].
    assert (HLift : forall tr st, exec (manage_regulator (cp_low cp) (cp_high cp) (RC false (ctl cp)) (cp_monitors cp)) tr st -> forall e a, In (e, a) tr -> wt e a = true) by (intros; eapply exec_wt; eassumption).
    assert (HAt : forall tr e, exec (manage_regulator (cp_low cp) (cp_high cp) (RC false (ctl cp)) (cp_monitors cp)) tr (At e) -> exec (controller cp) tr (At e)) by (intros tr e0 H; unfold controller; rewrite Eu; apply exec_bind_at; exact H).
    destruct HW as [(e1 & H1 & (a & w2 & Hw & HS & Hf))|[[H1 H2]|((st & H1) & H2 & H3 & H4)]].
    + exfalso. destruct (proj2 (resp_controller cp) _ _ a (HAt _ _ H1) Hw) as (st & H3). rewrite <- app_assoc in H3. apply (proj2 HT m cp (s ++ [(e1, a)]) st w2 Hm H3).
      * unfold by_task. rewrite map_app. apply wrun_app. exists w. split; [exact (proj1 HI)|]. cbn [map]. econstructor; [exact HS|constructor].
      * exists s, (e1, a). split; [reflexivity|]. split; [exact (proj2 HI)|exact Hf].
    + split; [intros e0 a Hin; eapply HLift; [exact H1|apply in_or_app; right; exact Hin]|]. left. split; [apply HAt; exact H1|exact H2].
    + split; [intros e0 a Hin; eapply HLift; [exact H1|apply in_or_app; right; exact Hin]|]. right. split; [eapply HLift; exact H1|]. auto.
  - left. unfold controller in HE. apply exec_bind_inv in HE. destruct HE as [(t1 & t2 & n & E & H1 & H2)|[(e' & E & _)|(s & E & _)]]; try discriminate E. apply exec_ret_inv in H2. destruct H2 as [-> Er]. rewrite app_nil_r in E. subst t1.
    rewrite Eu in H1. destruct (manager_done _ _ _ _ Hnd _ _ H1) as (Hg & _ & _ & Hc). split; [|split; [exact (HC _ Hc)|exists n; rewrite Ho; injection Er as ->; reflexivity]].
    intros s Hs. destruct (Hg s Hs) as [_ Hl]. unfold S_Regulator.let_go in Hl. rewrite existsb_exists in Hl. destruct Hl as ([e a] & Hin & Hl). destruct e as [| | |[]| | | | | | | | | | | | | |]; try discriminate Hl. apply Nat.eqb_eq in Hl. subst n0.
    assert (Ea : a = AOk) by (pose proof (exec_wt _ _ _ H1 _ _ Hin) as Kw; destruct a; try discriminate Kw; reflexivity). subst a. exact (HC _ Hin).
  - exfalso. unfold controller in HE. apply exec_bind_inv in HE. destruct HE as [(t1 & t2 & n & E & H1 & H2)|[(e' & E & _)|(s' & E & H1)]]; try discriminate E; [apply exec_ret_inv in H2; destruct H2 as [_ H2]; discriminate H2|].
    rewrite Eu in H1. exact (manager_no_panic _ _ _ _ Hnd _ _ H1).
Qed.
Lemma gone_closed m s n : idlers w s -> S_Regulator.gone n (controller_of net m l ++ s) = true -> cs_closed (w (CSize n)) = true.
Proof.
  intros HI Hg. unfold gone in Hg. apply existsb_exists in Hg. destruct Hg as ([e a] & Hin & Hg). destruct e as [|[]| | | | | | | | | | | | | | | |]; try discriminate Hg. destruct a; try discriminate Hg. apply Nat.eqb_eq in Hg. subst n0.
  apply in_app_or in Hin. destruct Hin as [Hin|Hin].
  - unfold controller_of in Hin. eapply (shut_closed _ _ _ _ _ (fr_world _ _ _ _ _ _ HX)). left. right. exact Hin.
  - destruct (idlers_in _ _ _ HI Hin) as [_ HS]. inversion HS; subst; [assumption|discriminate].
Qed.

(** Who has ended does not tell its size any more. *)
Lemma size_shut k c s r : nth_error net k = Some c -> In s (comp_monitor c) -> ocs k = Ended r -> cs_closed (w (CSize s)) = true.
Proof.
  intros Hk Hs Ho. pose proof (fr_comps _ _ _ _ _ _ HX _ _ Hk) as HC. rewrite Ho in HC. pose proof (ready_of _ HN _ (nth_error_In _ _ Hk)) as HR. apply (closes_it _ _ _ _ (fr_world _ _ _ _ _ _ HX)).
  destruct c as [f name|g|b u mi mo|j|cwd vars la|d name]; cbn in Hs; try contradiction Hs. destruct (bf_monitor b) as [s'|] eqn:Eb; [|destruct Hs]. destruct Hs as [->|[]].
  destruct HR as (_ & pj & i & j & o & HR). assert (HR' : buffer_wired b (PlReceiver pj i) (PsIoSender j o) u mi mo) by exact HR. destruct HC as (st & HC & HM & E).
  destruct st as [st|x y z|st]; cbn in HM, E.
  - destruct (buffer_parts _ _ _ _ _ _ _ _ _ HR' HC) as (a & b' & c & _ & _ & _ & []).
  - exfalso. destruct x, y, z; try discriminate E; exact (HM _ _ _ eq_refl eq_refl eq_refl) || (cbn in HM; tauto).
  - destruct st as [e|r0|m]; try discriminate E. injection E as <-. destruct (buffer_releases _ _ _ _ _ _ _ HR' _ _ HC) as (_ & _ & H). pose proof (H s Eb) as Hc. unfold closed_by in *. rewrite own_seen in Hc by lia. eapply own_all. exact Hc.
Qed.
Hypothesis HR : roomy net.
Lemma full_chokes k c s : nth_error net k = Some c -> In s (comp_monitor c) -> full (w (CSize s)) -> exists m cp t, idlers w t /\ choked net cs (l ++ by_task (4 * (K + m)) t) w k m cp.
Proof.
  intros Hk Hs Hf. pose proof (fr_world _ _ _ _ _ _ HX) as HW. pose proof (fr_made _ _ _ _ _ _ HX) as HM. destruct (heard_by net cs HO k c s Hk Hs) as (m & cp & Hm & Hs').
  destruct (full_length w0 l w (CSize s) (comp_size c) HW (mw_sizes _ _ HM _ _ (nth_error_In _ _ Hk) Hs) Hf) as [F1 F2].
  destruct (controller_stands m cp Hm) as [(H & _)|(t & HI & Hwt & [[HE Hfl]|(_ & _ & _ & Hd)])].
  - exfalso. rewrite (H s Hs') in F1. discriminate F1.
  - exists m, cp, t. split; [exact HI|]. destruct (told_of net cs HO m cp Hm) as (k' & c' & Hk' & Hx). destruct (full_length w0 l w _ 1 HW (mw_controls _ _ HM _ _ (nth_error_In _ _ Hk') Hx) Hfl) as [F3 F4].
    destruct c as [f name|r|b u mi mo|j|cwd vars la|d name]; cbn in Hs; try contradiction Hs. destruct (bf_monitor b) as [s'|] eqn:Eb; [|destruct Hs]. destruct Hs as [->|[]].
    exists b, u, mi, mo, s. split; [exact Hk|]. split; [exact Eb|]. split; [exact Hm|]. split; [exact Hs'|]. split; [exact F1|]. split; [exact F2|]. split; [|auto].
    unfold controller_of in *. rewrite own_app, own_by, Nat.eqb_refl. exact HE.
  - exfalso. destruct (S_Regulator.gone s (controller_of net m l ++ t)) eqn:Eg; [pose proof (gone_closed m t s HI Eg); congruence|]. destruct (Hd s Hs' Eg) as [_ Hq]. rewrite Hq in F2.
    assert (0 < comp_size c); [|cbn in F2; lia]. apply HR; [exact (nth_error_In _ _ Hk)|]. pose proof (ready_of _ HN _ (nth_error_In _ _ Hk)) as Hrd. destruct c; cbn in Hs; try contradiction Hs. destruct Hrd as (_ & pj & i & j & o & Hrd). cbn in Hrd.
    assert (E : bf_stdout b = Some (PsIoSender j o)) by exact (proj1 (proj2 Hrd)). cbn. rewrite E. discriminate.
Qed.

Hypothesis HP : polite net.
Hypothesis HWl : willing l.
Variable rank : nat -> nat.
Hypothesis HRk : forall k c k' c' n, nth_error net k = Some c -> nth_error net k' = Some c' -> In n (comp_outs c) -> In n (comp_ins c') -> rank k < rank k'.
Hypothesis HAh : forall m cp k c k' c' s, nth_error cs m = Some cp -> nth_error net k = Some c -> In (ctl cp) (comp_control c) -> In s (cp_monitors cp) -> nth_error net k' = Some c' -> In s (comp_monitor c') -> rank k < rank k'.
Hypothesis HFa : forall f s, In (NFaucet f s) net -> fc_control f = None.
Hypothesis HFine : forall k, k < K -> ocs k = Going \/ exists n, ocs k = Ended (Ok n).
Hypothesis HNF : forall k c s, nth_error net k = Some c -> In s (comp_monitor c) -> ~ full (w (CSize s)).

(** A regulator that waits has a buffer ahead of it that cannot write. *)
Lemma paused_ahead k c : nth_error net k = Some c -> paused_comp c (seen_by k l) w -> exists k' c', nth_error net k' = Some c' /\ rank k < rank k' /\ blocked_out c' w.
Proof.
  intros Hk (r & x & -> & Hx & HE & Hd). pose proof (fr_world _ _ _ _ _ _ HX) as HW. pose proof (nth_error_In _ _ Hk) as Hik. rewrite own_seen in HE by lia. replace (4 * k + 0) with (4 * k) in HE by lia.
  assert (Hxc : In x (comp_control (NRegulator r))) by (cbn; rewrite Hx; now left). destruct (told_by _ _ HO k _ x Hk Hxc) as (m & cp & Hm & Ex). subst x. set (x := ctl cp) in *.
  destruct (controller_stands m cp Hm) as [(_ & H & _)|(t & HI & Hwt & [[_ [_ Hfl]]|(Hwa & Hset & _ & Hdry)])].
  { exfalso. fold x in H. destruct Hd as [Hd _]. congruence. }
  { exfalso. fold x in Hfl. apply Hfl. destruct Hd as [_ Hd]. unfold room. rewrite (cap_same _ _ _ _ HW). rewrite (mw_controls _ _ (fr_made _ _ _ _ _ _ HX) _ _ Hik Hxc), Hd. cbn. lia. }
  destruct (ready_of _ HN _ Hik) as (_ & pj & i & j & o & Hr). assert (Hr' : regulator_ready r (PlReceiver pj i) (PsIoSender j o)) by exact Hr.
  (* the regulator has heard an odd number of signals, and has heard them all *)
  assert (Hnc : forall y, ~ In (ERecv (CCtl y), AClosed) (own (4 * k) l)).
  { intros y Hin. assert (y = x); [|subst y; destruct Hd as [Hd _]; rewrite (shut_closed _ _ _ (4 * k) (CCtl x) HW) in Hd; [discriminate Hd|left; left; exact Hin]].
    apply in_own in Hin. destruct (who_may _ _ _ _ _ _ HN HO HX _ _ _ Hin) as [(c' & Hc & _ & [H|[(n & Hn & [H|[H|H]])|(_ & n & _ & [(v' & H)|H])]])|(m' & c' & _ & _ & H)]; try discriminate H; try contradiction H.
    rewrite P_Whole.div4 in Hc. rewrite Hk in Hc. injection Hc as <-. cbn in Hn. rewrite Hx in Hn. destruct Hn as [<-|[]]. injection H as <-. reflexivity. }
  pose proof (waits_odd _ _ _ _ _ _ _ Hr' Hx HE Hnc) as Hodd.
  assert (Hgiven : length (sent (CCtl x) (controller_of net m l)) = length (taken (CCtl x) (own (4 * k) l))).
  { pose proof (fifo (CCtl x) _ _ _ HW) as HF. rewrite (mw_controls _ _ (fr_made _ _ _ _ _ _ HX) _ _ Hik Hxc) in HF. destruct Hd as [_ Hd]. rewrite Hd, app_nil_r in HF. cbn [cs_queue fresh_chan app] in HF.
    rewrite (taken_all (CCtl x) (4 * k)) in HF by (intros; eapply (ctl_taker _ _ _ _ _ _ HN HO HX); eauto). rewrite (sent_all (CCtl x) (4 * (K + m))) in HF by (intros ? ? ? ? (v & ->); eapply (ctl_sender _ _ _ _ _ _ HN HO HX); eauto).
    unfold controller_of. now rewrite HF. }
  assert (Htold : told_to_pause x (controller_of net m l ++ t) = true).
  { unfold told_to_pause, signals. rewrite offered_sent; [|intros v Hin|exact Hwa].
    - rewrite sent_app', app_length. assert (E : sent (CCtl x) t = []).
      { destruct (sent (CCtl x) t) as [|v q] eqn:E; [reflexivity|]. exfalso. assert (Hin : In v (sent (CCtl x) t)) by (rewrite E; now left). unfold sent in Hin. apply in_flat_map in Hin. destruct Hin as ([e a] & Hin & Hv).
        destruct (idlers_in _ _ _ HI Hin) as [Hf _]. destruct e as [c|c|c v'|c|c|c| | | | | | | | | | | |]; try contradiction Hv. destruct a; try contradiction Hv. destruct c; cbn in Hv, Hf; try contradiction Hv; discriminate Hf. }
      rewrite E. cbn [length]. rewrite Nat.add_0_r, Hgiven. now apply Nat.odd_spec.
    - apply in_app_or in Hin. destruct Hd as [Hd _]. destruct Hin as [Hin|Hin].
      + unfold controller_of in Hin. apply in_own in Hin. rewrite (P_Net.found_closed _ _ _ _ _ _ HW Hin) in Hd. discriminate Hd.
      + destruct (idlers_in _ _ _ HI Hin) as [_ HS]. assert (Hcl : cs_closed (w (CCtl x)) = true) by (clear - HS; generalize dependent x; intros x HS; inversion HS; subst; try assumption; discriminate). rewrite Hcl in Hd. discriminate Hd. }
  fold x in Hset. unfold S_Regulator.settled in Hset. rewrite Htold in Hset. destruct (level_some _ _ (Nat.le_lt_trans _ _ _ (Nat.le_0_l _) Hset)) as (s & Hs & Hg & Hlat). pose proof (Hdry s Hs Hg) as Hds.
  (* the buffer that told it *)
  assert (Hsn : exists k' c', nth_error net k' = Some c' /\ In s (comp_monitor c')).
  { assert (H : In s (flat_map comp_monitor net)) by (eapply Permutation_in; [apply Permutation_sym, (ov_monitors _ _ HO)|]; apply in_flat_map; exists cp; split; [exact (nth_error_In _ _ Hm)|exact Hs]).
    apply in_flat_map in H. destruct H as (c' & Hc' & H). destruct (In_nth_error _ _ Hc') as (k' & Hk'). eauto. }
  destruct Hsn as (k' & c' & Hk' & Hs'). exists k', c'. split; [exact Hk'|]. split; [exact (HAh m cp k _ k' c' s Hm Hk Hxc Hs Hk' Hs')|].
  assert (Hlt' : k' < K) by (apply nth_error_Some; congruence).
  assert (Hgo : ocs k' = Going) by (destruct (HFine k' Hlt') as [H|(n & H)]; [exact H|exfalso]; pose proof (size_shut _ _ _ _ Hk' Hs' H); destruct Hds; congruence).
  pose proof (fr_comps _ _ _ _ _ _ HX _ _ Hk') as HC. rewrite Hgo in HC. pose proof (HNF k' c' s Hk' Hs') as Hnf. pose proof (proj1 HT _ _ Hk') as Hst.
  pose proof (ready_of _ HN _ (nth_error_In _ _ Hk')) as Hrd. destruct c' as [f name|g|b u mi mo|j'|cwd vars la|d name]; cbn in Hs'; try contradiction Hs'. destruct (bf_monitor b) as [s'|] eqn:Eb; [|destruct Hs']. destruct Hs' as [->|[]].
  destruct Hrd as (_ & pj' & i' & j' & o' & Hrd). assert (Hrd' : buffer_wired b (PlReceiver pj' i') (PsIoSender j' o') u mi mo) by exact Hrd.
  assert (HCalm : forall q, q < 3 -> ~ fault (own q (seen_by k' l))).
  { intros q Hq (ev & Hin & Hamiss). destruct (delays _ _ _ _ _ _ HN HO HR HX) as (w' & ocs' & HX' & _).
    rewrite own_seen in Hin by lia. destruct ev as [e a]. assert (He : control_eff e = false).
    { apply in_own in Hin. destruct (who_may _ _ _ _ _ _ HN HO HX _ _ _ Hin) as [(c' & Hc & _ & [H|[(n & Hn & H)|(E3 & _)]])|(m' & c' & E & _)].
      - exact (may_loud _ _ _ H).
      - exfalso. replace (4 * k' + q) with (q + k' * 4) in Hc by lia. rewrite Nat.div_add, (Nat.div_small q 4) in Hc by lia. cbn in Hc. rewrite Hk' in Hc. injection Hc as <-. destruct Hn.
      - exfalso. replace (4 * k' + q) with (q + k' * 4) in E3 by lia. rewrite Nat.mod_add, Nat.mod_small in E3 by lia. lia.
      - exfalso. lia. }
    assert (Hin' : In (e, a) (own (4 * k' + q) (data_part net l))).
    { rewrite data_own; [|replace (4 * k' + q) with (q + k' * 4) by lia; rewrite Nat.div_add, (Nat.div_small q 4) by lia; exact Hlt']. unfold skim. apply filter_In. split; [exact Hin|]. cbn [fst]. now rewrite He. }
    rewrite (all_calm _ _ HN (polite_plain _ HP) _ _ _ HX' (willing_data _ _ HWl) (e, a)) in Hamiss; [discriminate Hamiss|]. eapply own_all. exact Hin'. }
  exists o'. assert (Eo : bf_stdout b = Some (PsIoSender j' o')) by exact (proj1 (proj2 Hrd')). split; [cbn; rewrite Eo; now left|].
  refine (loaded b pj' i' j' o' u mi mo s Hrd' Eb w0 (seen_by k' l) w HC Hst (mw_inside _ _ (fr_made _ _ _ _ _ _ HX) _ _ _ _ (nth_error_In _ _ Hk')) (wrun_seen k' _ _ _ HW) (free_sealed _ _ _ _ _ _ HN HO HX _ _ _ _ _ Hk') (free_fitting _ _ _ _ _ _ HN HO HX) (proj1 Hds) Hnf (HCalm 1 ltac:(lia)) (HCalm 2 ltac:(lia)) _).
  (* it was told last what the controller knows *)
  assert (Hsm : In s (comp_monitor (NBuffer b u mi mo))) by (cbn; rewrite Eb; now left).
  assert (Esz : taken (CSize s) (controller_of net m l ++ t) = sent (CSize s) (own (4 * k' + 3) l)).
  { rewrite taken_app, (idle_taken w t (CSize s) HI Hwt ltac:(eauto)), app_nil_r.
    pose proof (fifo (CSize s) _ _ _ HW) as HF. destruct (mw_new _ _ (fr_made _ _ _ _ _ _ HX) (CSize s)) as (cap & Ec). rewrite Ec in HF. destruct Hds as [_ Hq]. rewrite Hq, app_nil_r in HF. cbn [cs_queue fresh_chan app] in HF.
    rewrite (taken_all (CSize s) (4 * (K + m))) in HF by (intros; eapply (size_taker _ _ _ _ _ _ HN HO HX); eauto). rewrite (sent_all (CSize s) (4 * k' + 3)) in HF by (intros ? ? ? ? (v & ->); eapply (size_sender _ _ _ _ _ _ HN HO HX); eauto). exact HF. }
  unfold told, reports_of, reports. rewrite own_seen by lia. rewrite <- Esz, <- latest_last. exact Hlat.
Qed.
End Still.

Theorem still net cs w0 l w ocs rank : net_wired (map plain_comp net) -> overseen net cs -> roomy net -> polite net -> (forall f s, In (NFaucet f s) net -> fc_control f = None) ->
  (forall k c k' c' n, nth_error net k = Some c -> nth_error net k' = Some c' -> In n (comp_outs c) -> In n (comp_ins c') -> rank k < rank k') ->
  (forall m cp k c k' c' s, nth_error cs m = Some cp -> nth_error net k = Some c -> In (rc_control (cp_control cp)) (comp_control c) -> In s (cp_monitors cp) -> nth_error net k' = Some c' -> In s (comp_monitor c') -> rank k < rank k') ->
  whole_run net cs w0 l w ocs -> willing l -> stuck_net net cs l w ->
  everybody_succeeded net cs ocs \/ exists k m cp s, ocs k = Going /\ idlers w s /\ choked net cs (l ++ by_task (4 * (length net + m)) s) w k m cp.
Proof.
  intros HN HO HR HP HFa HRk HAh HWh HWl HT. pose proof HWh as [HX _]. pose proof (whole_fails net cs w0 l w ocs HN HO HR HP HWh HWl) as HFine'.
  assert (HFine : forall k, k < length net -> ocs k = Going \/ exists n, ocs k = Ended (Ok n)) by (intros k Hk; apply HFine'; lia).
  destruct (either_all (fun k c => exists s, In s (comp_monitor c) /\ full (w (CSize s))) (fun k c => forall s, In s (comp_monitor c) -> ~ full (w (CSize s))) net) as [(k & c & Hk & s & Hs & Hf)|HNF].
  { intros k c _. induction (comp_monitor c) as [|s ss IH]; [right; intros s []|]. destruct IH as [(s' & H1 & H2)|IH]; [left; exists s'; split; [now right|exact H2]|].
    destruct (cs_closed (w (CSize s))) eqn:Ec; [|destruct (room_dec (w (CSize s))) as [Hr|Hr]].
    - right. intros s' [<-|H] [F1 F2]; [congruence|]. apply (IH s' H). now split.
    - right. intros s' [<-|H] [F1 F2]; [contradiction|]. apply (IH s' H). now split.
    - left. exists s. split; [now left|]. now split. }
  { right. destruct (full_chokes _ _ _ _ _ _ HN HO HX HT HR k c s Hk Hs Hf) as (m & cp & t & HI & HC). exists k, m, cp, t. split; [|auto]. assert (Hlt : k < length net) by (apply nth_error_Some; congruence).
    destruct (HFine k Hlt) as [H|(n & H)]; [exact H|]. exfalso. pose proof (size_shut _ _ _ _ _ _ HN HX k c s _ Hk Hs H). destruct Hf. congruence. }
  destruct (delays net cs w0 l w ocs HN HO HR HX) as (w' & ocs' & HX' & Hs & Hw').
  assert (HQ : forall k c, nth_error net k = Some c -> ocs k = Going -> followed c (seen_by k l) (seen_by k (data_part net l)) w w').
  { intros k c Hk Hg. apply comp_follow.
    - exact (ready_of _ HN _ (nth_error_In _ _ Hk)).
    - intros f s E. subst c. exact (HFa _ _ (nth_error_In _ _ Hk)).
    - apply thin_seen. apply nth_error_Some. congruence.
    - intros i Hi n v Hin. rewrite own_seen in Hin by lia. apply in_own in Hin. exact (never_refused _ _ _ _ _ _ HN HO HX _ _ _ Hin).
    - exact Hw'.
    - exact (free_fitting _ _ _ _ _ _ HN HO HX).
    - exact (HNF k c Hk).
    - rewrite <- Hg. exact (fr_comps _ _ _ _ _ _ HX _ _ Hk).
    - exact (proj1 HT _ _ Hk). }
  assert (HX2 : net_run (map plain_comp net) w0 (data_part net l) w' ocs).
  { destruct HX' as [K1 K2 K3 K4 K5 K6]. constructor; auto. intros k c Hk. rewrite nth_error_map in Hk. destruct (nth_error net k) as [c0|] eqn:E; [|discriminate Hk]. injection Hk as <-.
    assert (Hlt : k < length net) by (apply nth_error_Some; congruence). destruct (HFine k Hlt) as [Hg|(n & En)]; [rewrite Hg; exact (proj1 (HQ k c0 E Hg))|].
    rewrite <- (Hs k); [|exact Hlt|rewrite En; discriminate]. apply K1. rewrite nth_error_map, E. reflexivity. }
  assert (HSo : sound_so_far (map plain_comp net) ocs).
  { intros k c Hk HF. assert (Hlt : k < length net) by (rewrite <- (map_length plain_comp); apply nth_error_Some; congruence). destruct (HFine k Hlt) as [Hg|(n & Hn)]; destruct c; cbn in HF; try contradiction HF; try (destruct HF as (e & HF)); congruence. }
  assert (HRp : forall k c k' c' n, nth_error (map plain_comp net) k = Some c -> nth_error (map plain_comp net) k' = Some c' -> In n (comp_outs c) -> In n (comp_ins c') -> rank k < rank k').
  { intros k c k' c' n Hk Hk' Hn Hn'. rewrite nth_error_map in Hk, Hk'. destruct (nth_error net k) as [c0|] eqn:E0; [|discriminate Hk]. destruct (nth_error net k') as [c1|] eqn:E1; [|discriminate Hk'].
    injection Hk as <-. injection Hk' as <-. rewrite outs_plain in Hn. assert (Hi : comp_ins (plain_comp c1) = comp_ins c1) by now destruct c1. rewrite Hi in Hn'. exact (HRk _ _ _ _ _ E0 E1 Hn Hn'). }
  pose proof (willing_granted _ (willing_data net _ HWl)) as HG.
  (* whoever could move is a regulator that waits *)
  assert (HMp : forall k c, nth_error (map plain_comp net) k = Some c -> can_move c (seen_by k (data_part net l)) w' -> exists c0, nth_error net k = Some c0 /\ paused_comp c0 (seen_by k l) w).
  { intros k c Hk HM. rewrite nth_error_map in Hk. destruct (nth_error net k) as [c0|] eqn:E; [|discriminate Hk]. injection Hk as <-. exists c0. split; [reflexivity|].
    assert (Hlt : k < length net) by (apply nth_error_Some; congruence). destruct (HFine k Hlt) as [Hg|(n & En)].
    - destruct (proj2 (HQ k c0 E Hg)) as [H|H]; [exact H|contradiction].
    - exfalso. destruct HM as (t & s & w2 & oc & Ht & HC & HWs & (s0 & ev & -> & _ & _) & _).
      assert (K : comp_runs (plain_comp c0) (seen_by k (data_part net l)) (Ended (Ok n))) by (rewrite <- En; apply (nr_comps _ _ _ _ _ HX2); rewrite nth_error_map, E; reflexivity).
      destruct (s0 ++ [ev]) as [|ev1 s] eqn:Es; [destruct s0; discriminate Es|]. cbn [by_task map] in HC. exact (comp_over _ _ _ t ev1 _ _ (ready_of _ HN _ (nth_error_In _ _ E)) K Ht HC). }
  assert (HNo : forall d k c, list_max (map rank (seq 0 (length net))) - rank k <= d -> nth_error net k = Some c -> paused_comp c (seen_by k l) w -> False).
  { induction d as [d IH] using lt_wf_ind. intros k c Hd Hk Hp. destruct (paused_ahead _ _ _ _ _ _ HN HO HX HT HR HP HWl rank HAh HFine (fun k c s Hk => HNF k c Hk s) k c Hk Hp) as (kb & cb & Hkb & Hrb & Hb).
    destruct (moves_ahead _ _ HN _ _ _ HX2 HG HSo rank HRp _ kb (plain_comp cb) (le_n _)) as (k2 & c2 & Hr2 & Hk2 & _ & HM2).
    - now apply plain_nth.
    - destruct Hb as (n & Hn & Hf). exists n. rewrite outs_plain. split; [exact Hn|]. rewrite (Hw' (CData n) eq_refl). exact Hf.
    - destruct (HMp _ _ Hk2 HM2) as (c3 & Hk3 & Hp3). assert (Hlt : k2 < length net) by (apply nth_error_Some; congruence). pose proof (rank_le net rank _ Hlt).
      refine (IH (list_max (map rank (seq 0 (length net))) - rank k2) _ k2 c3 (le_n _) Hk3 Hp3). lia. }
  destruct (some_going (length net) ocs) as [(k0 & Hk0 & Hg0)|Hno].
  - exfalso. destruct (somebody_moves _ w0 HN (data_part net l) w' ocs (ex_intro _ rank HRp) HX2 HG HSo k0 ltac:(rewrite map_length; exact Hk0) Hg0) as (k & c & Hk & HM).
    destruct (HMp _ _ Hk HM) as (c0 & Hk1 & Hp). exact (HNo _ _ _ (le_n _) Hk1 Hp).
  - left. assert (HS : forall k, k < length net -> exists n, ocs k = Ended (Ok n)) by (intros k Hk; destruct (HFine k Hk) as [Hg|H]; [destruct (Hno k Hk Hg)|exact H]).
    intros k Hk. destruct (Nat.lt_ge_cases k (length net)) as [Hlt|Hge]; [exact (HS k Hlt)|]. set (m := k - length net). replace k with (length net + m) in * by lia.
    destruct (nth_error cs m) as [cp|] eqn:Hm; [|apply nth_error_None in Hm; lia].
    destruct (controller_stands _ _ _ _ _ _ HN HO HX HT m cp Hm) as [(_ & _ & H)|(t & HI & Hwt & [[_ [Hc _]]|(_ & _ & (n & Hn & Hg) & Hd)])]; [exact H|exfalso..].
    + destruct (told_of _ _ HO m cp Hm) as (k' & c' & Hk' & Hx). destruct (HS k') as (n & Hn); [apply nth_error_Some; congruence|]. rewrite (told_shut net cs w0 l w ocs HN k' c' _ n HX Hk' Hx Hn) in Hc. discriminate Hc.
    + destruct (tellers_of _ _ HO m cp Hm) as (ks & HTl). assert (Hsn : exists k' c', nth_error net k' = Some c' /\ In n (comp_monitor c')).
      { assert (H : In n (flat_map comp_monitor net)) by (eapply Permutation_in; [apply Permutation_sym, (ov_monitors _ _ HO)|]; apply in_flat_map; exists cp; split; [exact (nth_error_In _ _ Hm)|exact Hn]).
        apply in_flat_map in H. destruct H as (c' & Hc' & H). destruct (In_nth_error _ _ Hc') as (k' & Hk'). eauto. }
      destruct Hsn as (k' & c' & Hk' & Hs'). destruct (HS k') as (n' & Hn'); [apply nth_error_Some; congruence|]. pose proof (size_shut _ _ _ _ _ _ HN HX k' c' n _ Hk' Hs' Hn') as Hcl. destruct (Hd n Hn Hg). congruence.
Qed.
