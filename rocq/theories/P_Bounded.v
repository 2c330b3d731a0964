(** * P_Bounded: how much a buffer holds that its own regulator feeds *)
From Coq Require Import Ascii String List Bool Arith Lia Permutation.
From Verif Require Import M_Prog P_Prog P_Exec M_Motion M_Config M_Regulator M_Faucet M_Drain M_Buffer M_Junction M_Launch M_Manager M_Waiter M_Join S_Trace S_Lines S_Motion S_World S_Launch S_Regulator S_Drain S_Buffer S_Junction S_Network S_Net M_Start S_Watch
  P_Read P_Motion P_Worker P_Flow P_Loop P_Regulator P_World P_Ask P_Control P_Manager P_Pause P_Reach P_BufferJoint P_Buffer P_BufferRun P_BufferEnd P_Link P_Phase P_Conduit P_Network P_Net P_NetComp P_NetCost P_Turn P_Whole P_Watch P_WatchRun P_WatchMarks P_Prefix P_Near P_Held.
Import ListNotations.

Lemma own_cut2 t (l : list nevent) : forall t1 ev t2, own t l = t1 ++ ev :: t2 -> exists l0 l1, l = l0 ++ (t, ev) :: l1 /\ own t l0 = t1 /\ own t l1 = t2.
Proof.
  intros t1 ev t2 E. destruct (own_cut _ _ _ _ _ E) as (l0 & l1 & -> & E0). exists l0, l1. split; [reflexivity|]. split; [exact E0|].
  rewrite own_app, own_cons_same, E0 in E. apply app_inv_head in E. now injection E.
Qed.
Definition sizes (vs : list val) : list nat := flat_map (fun v => match v with VSize n => [n] | _ => [] end) vs.
Lemma sizes_app a b : sizes (a ++ b) = sizes a ++ sizes b.
Proof. apply flat_map_app. Qed.
Lemma sizes_le vs : length (sizes vs) <= length vs.
Proof. induction vs as [|v vs IH]; [reflexivity|]. unfold sizes in *. cbn [flat_map]. rewrite app_length. destruct v; cbn [length app]; lia. Qed.
Lemma latest_last n tr : latest n tr = last (sizes (taken (CSize n) tr)) 0.
Proof.
  unfold latest. generalize 0 as s. induction (taken (CSize n) tr) as [|v vs IH]; intro s; [reflexivity|]. cbn [fold_left]. rewrite IH. destruct v; try reflexivity. cbn [sizes flat_map app]. now rewrite last_cons.
Qed.
Lemma latest_app n a b : latest n (a ++ b) = last (sizes (taken (CSize n) b)) (latest n a).
Proof. rewrite !latest_last, taken_app, sizes_app. generalize (sizes (taken (CSize n) a)) as xs. intro xs. generalize 0. induction xs as [|x xs IH]; intro p; [reflexivity|]. cbn [app]. now rewrite !last_cons. Qed.
Lemma gone_app n a b : gone n (a ++ b) = gone n a || gone n b.
Proof. apply existsb_app. Qed.
Lemma level_has n chans tr : In n chans -> gone n tr = false -> latest n tr <= level chans tr.
Proof.
  intros Hin Hg. induction chans as [|x xs IH]; [destruct Hin|]. cbn [level fold_right]. fold (level xs tr). destruct Hin as [->|Hin]; [rewrite Hg; lia|]. specialize (IH Hin). destruct (gone x tr); lia.
Qed.
Lemma last_offer c tr : 0 < length (offered c tr) -> exists t1 v a t2, tr = t1 ++ (ESend c v, a) :: t2 /\ offered c t2 = [].
Proof.
  induction tr as [|[e a] tr IH]; intro H; [cbn in H; lia|]. destruct (offered c tr) as [|x xs] eqn:Eo.
  - change ((e, a) :: tr) with ([(e, a)] ++ tr) in H. rewrite offered_app, Eo, app_nil_r in H.
    destruct e; try (cbn in H; lia). cbn in H. destruct (chan_eqb c c0) eqn:Ec; [|cbn in H; lia]. apply chan_eqb_eq in Ec. subst c0. exists [], v, a, tr. auto.
  - destruct (IH ltac:(cbn; lia)) as (t1 & v & a' & t2 & -> & E). exists ((e, a) :: t1), v, a', t2. auto.
Qed.
Lemma first_gone n tr : gone n tr = true -> exists t1 t2, tr = t1 ++ (ETryRecv (CSize n), AClosed) :: t2 /\ gone n t1 = false.
Proof.
  induction tr as [|[e a] tr IH]; intro H; [discriminate H|]. destruct (gone n [(e, a)]) eqn:E1.
  - cbn in E1. rewrite orb_false_r in E1. destruct e as [|[]| | | | | | | | | | | | | | | |]; try discriminate E1; destruct a; try discriminate E1. apply Nat.eqb_eq in E1. subst. exists [], tr. auto.
  - change ((e, a) :: tr) with ([(e, a)] ++ tr) in H. rewrite gone_app, E1 in H. destruct (IH H) as (t1 & t2 & -> & E). exists ((e, a) :: t1), t2. split; [reflexivity|].
    change ((e, a) :: t1) with ([(e, a)] ++ t1). now rewrite gone_app, E1.
Qed.
Lemma ntak_app c a b : ntak c (a ++ b) = ntak c a + ntak c b.
Proof. unfold ntak. now rewrite taken_app, app_length. Qed.
Lemma sent_attempts n tr : (forall v a, In (ESend (CData n) v, a) tr -> exists d, v = VData d) -> length (sent (CData n) tr) <= length (attempts tr).
Proof.
  induction tr as [|[e a] tr IH]; intro H; [reflexivity|]. change ((e, a) :: tr) with ([(e, a)] ++ tr). rewrite sent_app', attempts_app, !app_length.
  specialize (IH (fun v b Hin => H v b (or_intror Hin))). enough (length (sent (CData n) [(e, a)]) <= length (attempts [(e, a)])) by lia.
  destruct e as [| |[q|q|q|q|q] v| | | | | | | | | | | | | | |]; try (cbn; lia); try (destruct a; cbn; lia). destruct a; cbn; try lia. rename q into n0. destruct (n =? n0) eqn:En; [|cbn; lia]. apply Nat.eqb_eq in En. subst n0. destruct (H v AOk (or_introl eq_refl)) as (d & ->). cbn. lia.
Qed.
Lemma sent_le c tr : length (sent c tr) <= length (offered c tr).
Proof.
  induction tr as [|[e a] tr IH]; [reflexivity|]. change ((e, a) :: tr) with ([(e, a)] ++ tr). rewrite sent_app', offered_app, !app_length. enough (length (sent c [(e, a)]) <= length (offered c [(e, a)])) by lia.
  destruct e; cbn; try lia. destruct a; cbn; destruct (chan_eqb c c0); cbn; lia.
Qed.
Lemma odd_S n : Nat.odd (S n) = negb (Nat.odd n).
Proof. now rewrite Nat.odd_succ, <- Nat.negb_odd. Qed.
Lemma refused_closed c w a w' v : wstep w (ESend c v, a) w' -> a = AOk \/ a = AClosed /\ cs_closed (w c) = true.
Proof. intro H. inversion H; subst; auto; try discriminate. Qed.

Section Bounded.
Variables (net : list comp) (cs : list capture) (w0 : world).
Hypothesis HN : net_wired (map plain_comp net).
Hypothesis HO : overseen net cs.
Variables (m : nat) (cp : capture) (k : nat) (r : regulator) (kb : nat) (b : buffer) (u mi mo s o : nat).
Hypothesis Hm : nth_error cs m = Some cp.
Hypothesis Hk : nth_error net k = Some (NRegulator r).
Hypothesis Hx : In (rc_control (cp_control cp)) (comp_control (NRegulator r)).
Hypothesis Hb : nth_error net kb = Some (NBuffer b u mi mo).
Hypothesis Hs : bf_monitor b = Some s.
Hypothesis Hsm : In s (cp_monitors cp).
Hypothesis Ho : In o (comp_outs (NRegulator r)).
Hypothesis Hi : In o (comp_ins (NBuffer b u mi mo)).
Notation x := (rc_control (cp_control cp)).
Notation tc := (4 * (length net + m)).
Notation ctl l := (own tc l).
Notation R l := (ntak (CData o) (own (4 * kb + 1) l)).
Notation T l := (ntak (CData u) (own (4 * kb + 2) l)).

Lemma cp_in : In cp cs. Proof. exact (nth_error_In _ _ Hm). Qed.
Lemma s_mon : In s (comp_monitor (NBuffer b u mi mo)). Proof. cbn. rewrite Hs. now left. Qed.
Lemma wired_b : exists pj j o', buffer_wired b (PlReceiver pj o) (PsIoSender j o') u mi mo.
Proof.
  destruct (ready_of _ HN _ (nth_error_In _ _ Hb)) as (_ & pj & i & j & o' & HR). assert (HR' : buffer_wired b (PlReceiver pj i) (PsIoSender j o') u mi mo) by exact HR.
  pose proof HR' as (E1 & _). cbn in Hi. rewrite E1 in Hi. destruct Hi as [<-|[]]. eauto.
Qed.

Section Run.
Variables (l : list nevent) (w : world) (ocs : nat -> S_Net.outcome).
Hypothesis HX : free_run net cs w0 l w ocs.

(** The channel between them. *)
Lemma not_store n c : In n (flat_map comp_outs net) -> In c net -> In n (comp_stores c) -> False.
Proof.
  intros H1 H2 H3. pose proof (nw_outs _ HN) as H. apply (P_JStart.nodup_app_disj _ _ n H).
  - apply in_flat_map in H1. destruct H1 as (c' & Hc & H1). apply in_flat_map. exists (plain_comp c'). split; [now apply in_map|]. now rewrite plain_outs.
  - apply in_flat_map. exists (plain_comp c). split; [now apply in_map|]. now rewrite plain_stores.
Qed.
Lemma o_out : In o (flat_map comp_outs net).
Proof. apply in_flat_map. exists (NRegulator r). split; [exact (nth_error_In _ _ Hk)|exact Ho]. Qed.
Lemma data_sender t v a : In (t, (ESend (CData o) v, a)) l -> t = 4 * k /\ exists d, v = VData d.
Proof.
  intro Hin. destruct (who_may _ _ _ _ _ _ HN HO HX _ _ _ Hin) as [(c & Hc & Ht & [H|[(n' & Hn' & [H|[H|H]])|(_ & n' & _ & [(v' & H)|H])]])|(m' & c' & -> & Hm' & H)]; try discriminate H; try contradiction H.
  cbn in H. destruct v as [d| | | | |]; try contradiction H. split; [|eauto]. apply in_app_or in H. destruct H as [H|H]; [|exfalso; exact (not_store _ _ o_out (nth_error_In _ _ Hc) H)].
  assert (E : t / 4 = k).
  { pose proof (plain_nth _ _ _ Hk) as Pk. pose proof (plain_nth _ _ _ Hc) as Pc. refine (P_NetCost.nth_unique comp_outs (map plain_comp net) _ _ _ _ o _ Pc Pk _ _); [exact (P_JStart.nodup_app_l _ _ (nw_outs _ HN))|now rewrite plain_outs|now rewrite plain_outs]. }
  rewrite E in *. rewrite Hk in Hc. injection Hc as <-. cbn in Ht. lia.
Qed.
Lemma data_taker t e a : In (t, (e, a)) l -> is_take (CData o) e -> t = 4 * kb + 1.
Proof.
  intros Hin HT. assert (H : exists c, nth_error net (t / 4) = Some c /\ In o (comp_ins c)).
  { destruct (who_may _ _ _ _ _ _ HN HO HX _ _ _ Hin) as [(c & Hc & Ht & [H|[(n' & Hn' & [H|[H|H]])|(_ & n' & _ & [(v' & H)|H])]])|(m' & c' & -> & Hm' & H)]; destruct HT as [->| ->]; try discriminate H; try contradiction H; exists c; (split; [exact Hc|]); cbn in H; destruct H as [H _].
    - apply in_app_or in H. destruct H as [H|H]; [exact H|]. exfalso. exact (not_store _ _ o_out (nth_error_In _ _ Hc) H).
    - exact H. }
  destruct H as (c & Hc & Hoc).
  assert (E : t / 4 = kb).
  { pose proof (plain_nth _ _ _ Hb) as Pk. pose proof (plain_nth _ _ _ Hc) as Pc. refine (P_NetCost.nth_unique comp_ins (map plain_comp net) _ _ _ _ o (nw_ins _ HN) Pc Pk _ _); now rewrite plain_ins. }
  rewrite (task_of t), E. f_equal. destruct wired_b as (pj & j & o' & HR). pose proof (fr_comps _ _ _ _ _ _ HX _ _ Hb) as (st & HC & _).
  pose proof (buffer_parts _ _ _ _ _ _ _ _ _ HR HC) as (sa & sb & sc & Ha & Hb' & Hc' & _). pose proof (buffer_zero _ _ _ _ _ _ _ _ HR ltac:(discriminate) HC) as H0. pose proof (wired_pl _ _ _ _ _ _ HR) as Hiu. cbn in Hiu.
  pose proof (P_Net.in_seen' l t (e, a) Hin) as Hin'. rewrite E in Hin'. assert (Hlt : t mod 4 < 4) by (apply Nat.mod_upper_bound; lia). apply in_own in Hin'.
  destruct (t mod 4) as [|[|[|[|q]]]]; [rewrite H0 in Hin'; destruct Hin'|reflexivity| | |lia]; exfalso.
  - pose proof (all_motion _ _ _ _ _ _ _ Hb' Hin') as HM. destruct HM as [[H|[(q & d & [<-|[]] & H)|[(n & H & K)|[(n & H & K)|(z & v & H & K)]]]]|[H|[(q & [<-|[]] & H)|(n & H & K)]]]; destruct HT as [->| ->]; try discriminate H; try discriminate K; try (cbn in H; congruence).
  - apply total_reach in Hc'. destruct Hc' as (t' & Hc' & _). apply t_traces in Hc'. rewrite Forall_forall in Hc'. specialize (Hc' _ Hin'). cbn in Hc'. destruct HT as [->| ->]; cbn in Hc'; [contradiction|destruct Hc'; discriminate].
Qed.
Lemma taken_o : length (taken (CData o) (all_of l)) = R l.
Proof. unfold ntak. f_equal. apply taken_all. intros i e a Hin He. eapply data_taker; eassumption. Qed.
Lemma sent_o : sent (CData o) (all_of l) = sent (CData o) (own (4 * k) l).
Proof. apply sent_all. intros i e a Hin (v & ->). eapply data_sender; eassumption. Qed.
Lemma between : R l + length (cs_queue (w (CData o))) = length (sent (CData o) (own (4 * k) l)) /\ length (cs_queue (w (CData o))) <= rg_stdout_size r.
Proof.
  pose proof (mw_outs _ _ (fr_made _ _ _ _ _ _ HX) _ _ (nth_error_In _ _ Hk) Ho) as H0. pose proof (fr_world _ _ _ _ _ _ HX) as HW. split.
  - pose proof (fifo (CData o) _ _ _ HW) as HF. rewrite H0 in HF. cbn [fresh_chan cs_queue app] in HF. rewrite <- taken_o, <- sent_o, <- HF. now rewrite app_length.
  - apply (within (CData o) _ _ _ _ HW); rewrite H0; cbn; [reflexivity|lia].
Qed.

(** The buffer. *)
Lemma buffer_tog : exists pj j o' sa sb t, buffer_wired b (PlReceiver pj o) (PsIoSender j o') u mi mo /\ together (PlReceiver pj o) (PsIoSender j o') None (bf_monitor b) u mi mo w0 (seen_by kb l) w sa sb t.
Proof.
  destruct wired_b as (pj & j & o' & HR). pose proof (fr_comps _ _ _ _ _ _ HX _ _ Hb) as (st & HC & _). pose proof (buffer_parts _ _ _ _ _ _ _ _ _ HR HC) as (sa & sb & sc & Ha & Hb' & Hc & _).
  destruct (parts_together _ _ _ _ _ _ _ HR _ _ _ _ _ _ (mw_inside _ _ (fr_made _ _ _ _ _ _ HX) _ _ _ _ (nth_error_In _ _ Hb)) (wrun_seen kb _ _ _ (fr_world _ _ _ _ _ _ HX)) (free_sealed _ _ _ _ _ _ HN HO HX _ _ _ _ _ Hb) Ha Hb' Hc) as (pa & pb & t & HT & _).
  exists pj, j, o', pa, pb, t. split; [exact HR|exact HT].
Qed.
Lemma store_held : length (cs_queue (w (CData u))) + T l <= R l.
Proof. destruct buffer_tog as (pj & j & o' & sa & sb & t & HR & HT). pose proof (store_taken _ _ _ _ _ _ _ _ HR _ _ _ _ _ _ HT) as H. now rewrite !own_seen in H by lia. Qed.
Lemma held_told : refusedb (CSize s) (own (4 * kb + 3) l) = false -> R l <= T l + last (reports s (own (4 * kb + 3) l)) 0 + 11.
Proof.
  intro Hr. destruct buffer_tog as (pj & j & o' & sa & sb & t & HR & HT). pose proof (holds_near _ _ _ _ _ _ _ _ s HR Hs _ _ _ _ _ _ HT) as H. rewrite !own_seen in H by lia. exact (H Hr).
Qed.
Lemma told_climb : climbing 0 (reports s (own (4 * kb + 3) l)).
Proof. destruct buffer_tog as (pj & j & o' & sa & sb & t & HR & HT). pose proof (reports_climb _ _ _ _ _ _ _ _ s HR Hs _ _ _ _ _ _ HT) as H. now rewrite own_seen in H by lia. Qed.

(** The sizes told. *)
Lemma told_heard : exists q, reports s (own (4 * kb + 3) l) = sizes (taken (CSize s) (ctl l)) ++ q /\ length q <= bf_stdout_size b.
Proof.
  pose proof (mw_sizes _ _ (fr_made _ _ _ _ _ _ HX) _ _ (nth_error_In _ _ Hb) s_mon) as H0. pose proof (fr_world _ _ _ _ _ _ HX) as HW.
  pose proof (fifo (CSize s) _ _ _ HW) as HF. rewrite H0 in HF. cbn [fresh_chan cs_queue app] in HF.
  exists (sizes (cs_queue (w (CSize s)))). split.
  - unfold reports. fold (sizes (sent (CSize s) (own (4 * kb + 3) l))). rewrite <- sizes_app. f_equal.
    rewrite <- (sent_all (CSize s) (4 * kb + 3) l), <- HF by (intros i e a Hin (v & ->); eapply (size_sender _ _ _ _ _ _ HN HO HX); [exact Hb|exact s_mon|exact Hin]).
    f_equal. symmetry. rewrite <- (taken_all (CSize s) tc l); [reflexivity|]. intros i e a Hin He. eapply (size_taker _ _ _ _ _ _ HN HO HX); eauto.
  - etransitivity; [apply sizes_le|]. apply (within (CSize s) _ _ _ _ HW); rewrite H0; cbn; [reflexivity|lia].
Qed.
Lemma told_near : last (reports s (own (4 * kb + 3) l)) 0 <= latest s (ctl l) + bf_stdout_size b.
Proof.
  pose proof told_climb as HC. destruct told_heard as (q & E & Hq). rewrite E in *. apply climbing_app in HC. destruct HC as [_ HC]. apply climbing_last in HC. rewrite <- latest_last in HC.
  replace (last (sizes (taken (CSize s) (ctl l)) ++ q) 0) with (last q (latest s (ctl l))); [lia|]. rewrite latest_last. clear. generalize 0 as p, (sizes (taken (CSize s) (ctl l))) as xs. intros p xs. revert p.
  induction xs as [|y xs IH]; intro p; [reflexivity|]. cbn [app]. now rewrite !last_cons.
Qed.

(** The controller. *)
Lemma controller_goes : gone s (ctl l) = false -> exists e, exec (manage_regulator (cp_low cp) (cp_high cp) (RC false x) (cp_monitors cp)) (ctl l) (At e).
Proof.
  intro Hg. destruct (fr_controllers _ _ _ _ _ _ HX _ _ Hm) as (st & X & _). unfold controller in X. rewrite (unpaused cp (ov_running _ _ HO _ cp_in)) in X. cbn [rc_control] in X.
  apply exec_bind_inv in X. destruct X as [(t1 & t2 & n & E & H1 & H2)|[(e & E & H)|(z & E & H)]].
  - apply exec_ret_inv in H2. destruct H2 as [-> _]. rewrite app_nil_r in E. rewrite <- E in H1. destruct (manager_done _ _ _ _ (monitors_once _ _ HO _ cp_in) _ _ H1) as (H & _). destruct (H _ Hsm). congruence.
  - exists e. exact H.
  - exfalso. exact (manager_no_panic _ _ _ _ (monitors_once _ _ HO _ cp_in) _ _ H).
Qed.
Lemma controller_at t1 e a t2 : ctl l = t1 ++ (e, a) :: t2 -> exec (manage_regulator (cp_low cp) (cp_high cp) (RC false x) (cp_monitors cp)) t1 (At e).
Proof.
  intro E. destruct (fr_controllers _ _ _ _ _ _ HX _ _ Hm) as (st & X & _). pose proof (controller_manages _ _ _ (exec_prefix _ _ _ X _ _ _ _ E)) as Y. now rewrite (unpaused cp (ov_running _ _ HO _ cp_in)) in Y.
Qed.
Lemma size_closer t a : In (t, (EClose (CSize s), a)) l -> t = 4 * kb + 3 \/ t = tc.
Proof.
  intro Hin. destruct (who_may _ _ _ _ _ _ HN HO HX _ _ _ Hin) as [(c' & Hc & Ht & [H|[(n' & Hn' & [H|[H|H]])|(E3 & n' & Hn' & [(v' & H)|H])]])|(m' & c' & -> & Hm' & H)]; try discriminate H; try contradiction H.
  - left. injection H as <-. pose proof (P_NetCost.nth_unique comp_monitor net _ _ _ _ s (one_monitor _ _ HO) Hc Hb Hn' s_mon) as E. pose proof (Nat.div_mod t 4 ltac:(lia)). lia.
  - right. cbn in H. f_equal. f_equal. exact (P_NetCost.nth_unique cp_monitors cs _ _ _ _ s (ov_one_monitor _ _ HO) Hm' Hm H Hsm).
Qed.
Lemma size_closed_by : cs_closed (w (CSize s)) = true -> closedb (CSize s) (own (4 * kb + 3) l) = true \/ gone s (ctl l) = true.
Proof.
  intro Hc. rewrite (closed_run (CSize s) _ _ _ (fr_world _ _ _ _ _ _ HX)) in Hc. rewrite (mw_sizes _ _ (fr_made _ _ _ _ _ _ HX) _ _ (nth_error_In _ _ Hb) s_mon) in Hc. cbn [fresh_chan cs_closed orb] in Hc.
  apply closedb_spec in Hc. apply all_in in Hc. destruct Hc as (t & Hin). destruct (size_closer _ _ Hin) as [->| ->].
  - left. apply closedb_spec. now apply own_in.
  - right. apply in_own in Hin. apply in_split in Hin. destruct Hin as (t1 & t2 & E). pose proof (manager_effects _ _ _ _ (monitors_once _ _ HO _ cp_in) _ _ (controller_at _ _ _ _ E)) as H. cbn in H. rewrite E, gone_app, H. reflexivity.
Qed.
End Run.

(** No report is refused as long as the controller listens. *)
Lemma never_refused l w ocs : free_run net cs w0 l w ocs -> gone s (ctl l) = false -> refusedb (CSize s) (own (4 * kb + 3) l) = false.
Proof.
  intros HX Hg. destruct (refusedb (CSize s) (own (4 * kb + 3) l)) eqn:Er; [exfalso|reflexivity]. unfold refusedb in Er. apply existsb_exists in Er. destruct Er as ([e a] & Hin & He).
  destruct e as [| |c v| | | | | | | | | | | | | | |]; try discriminate He. destruct a; try discriminate He. apply chan_eqb_eq in He. subst c. apply in_split in Hin. destruct Hin as (t1 & t2 & E).
  destruct (own_cut2 _ _ _ _ _ E) as (l0 & l1 & El & E0 & _). pose proof HX as HX0. rewrite El in HX0. destruct (free_before _ _ _ _ _ _ _ HX0) as (w1 & o1 & HX1 & HW). destruct (wrun_head _ _ _ _ _ HW) as (w2 & HS & _).
  destruct (refused_closed _ _ _ _ _ HS) as [H|[_ Hc]]; [discriminate H|]. destruct (size_closed_by _ _ _ HX1 Hc) as [H|H]; [|rewrite El, own_app, gone_app, H in Hg; discriminate Hg].
  rewrite E0 in H. destruct wired_b as (pj & j & o' & HR). pose proof (fr_comps _ _ _ _ _ _ HX _ _ Hb) as (st & HC & _). pose proof (buffer_parts _ _ _ _ _ _ _ _ _ HR HC) as (sa & sb & sc & _ & _ & Hc' & _).
  rewrite own_seen in Hc' by lia. pose proof (exec_prefix _ _ _ Hc' _ _ _ _ E) as Hp. destruct (total_reach _ _ _ _ _ Hp) as (t & Ht & Et & _). destruct (counter_ended _ _ _ _ _ s Ht Hs) as [HE _]. specialize (HE H). destruct t; try contradiction HE. discriminate Et.
Qed.

Notation top := (Nat.max (S (cp_low cp)) (cp_high cp)).
(** While the regulator has not been told to pause. *)
Lemma bound_open l w ocs : free_run net cs w0 l w ocs -> gone s (ctl l) = false -> told_to_pause x (ctl l) = false -> R l <= T l + top + bf_stdout_size b + 11.
Proof.
  intros HX Hg Ht. pose proof (held_told _ _ _ HX (never_refused _ _ _ HX Hg)) as H1. pose proof (told_near _ _ _ HX) as H2. enough (latest s (ctl l) <= top) by lia.
  destruct (controller_goes _ _ _ HX Hg) as (e & HE). destruct (manager_near _ _ _ _ (monitors_once _ _ HO _ cp_in) _ _ HE) as (_ & h0 & t & E & HC & Hs0 & Hn).
  assert (Hg0 : gone s h0 = false) by (rewrite E, gone_app in Hg; now apply orb_false_iff in Hg).
  assert (Ht0 : told_to_pause x h0 = false).
  { unfold told_to_pause, signals in *. rewrite E, offered_app, app_length in Ht. rewrite Hs0, Nat.add_0_r in Ht. exact Ht. }
  specialize (HC Ht0). pose proof (level_has s _ h0 Hsm Hg0) as HL. unfold P_Near.top in HC.
  destruct (told_heard _ _ _ HX) as (q & Eq & _). pose proof (told_climb _ _ _ HX) as HCl. rewrite Eq in HCl. apply climbing_app in HCl. destruct HCl as [HCl _]. rewrite E, taken_app, sizes_app in HCl. apply climbing_app in HCl. destruct HCl as [_ HCl].
  apply climbing_last in HCl. rewrite <- latest_last in HCl. rewrite E, latest_app. pose proof (sizes_le (taken (CSize s) t)). specialize (Hn s). lia.
Qed.
(** The same when it has been told to pause: what is on its way may still come. *)
Lemma bound_told l w ocs : free_run net cs w0 l w ocs -> gone s (ctl l) = false -> R l <= T l + top + bf_stdout_size b + rg_stdout_size r + 12.
Proof.
  intros HX Hg. destruct (told_to_pause x (ctl l)) eqn:Ht; [|pose proof (bound_open _ _ _ HX Hg Ht); lia].
  assert (Hpos : 0 < length (offered (CCtl x) (ctl l))).
  { unfold told_to_pause, signals in Ht. destruct (length (offered (CCtl x) (ctl l))); [discriminate Ht|lia]. }
  destruct (last_offer _ _ Hpos) as (t1 & v & a & t2 & E & E2). destruct (own_cut2 _ _ _ _ _ E) as (l0 & l1 & El & E0 & E1). pose proof HX as HX0. rewrite El in HX0. destruct (free_before _ _ _ _ _ _ _ HX0) as (w1 & o1 & HX1 & HW).
  destruct (wrun_head _ _ _ _ _ HW) as (w2 & HS & HW2).
  assert (Hg0 : gone s (ctl l0) = false) by (rewrite E0; rewrite E, gone_app in Hg; now apply orb_false_iff in Hg).
  assert (Hsig : signals x (ctl l) = S (signals x (ctl l0))).
  { unfold signals. rewrite E, E0. change ((ESend (CCtl x) v, a) :: t2) with ([(ESend (CCtl x) v, a)] ++ t2). rewrite !offered_app, E2, app_nil_r, app_length. cbn. rewrite Nat.eqb_refl. cbn. lia. }
  assert (Ht0 : told_to_pause x (ctl l0) = false).
  { unfold told_to_pause in *. rewrite Hsig, odd_S in Ht. now apply negb_true_iff in Ht. }
  pose proof (bound_open _ _ _ HX1 Hg0 Ht0) as HB.
  assert (Hsend : forall i e y, In (i, (e, y)) l -> is_send (CCtl x) e -> i = tc) by (intros i e y Hin (v' & ->); exact (ctl_sender _ _ _ _ _ _ HN HO HX m cp i v' y Hm Hin)).
  assert (HA : length (attempts (own (4 * k) l1)) <= 1).
  { destruct (refused_closed _ _ _ _ _ HS) as [->|[-> Hc]].
    - set (ev := (tc, (ESend (CCtl x) v, AOk))) in *. apply (passes_one _ _ _ _ _ _ HN HO HX m cp k _ (l0 ++ [ev]) l1 Hm Hk Hx).
      + rewrite El, <- app_assoc. reflexivity.
      + assert (EG : given x (l0 ++ [ev]) = signals x (ctl l)).
        { unfold given. rewrite all_of_app, sent_app', app_length. pose proof (all_accepted _ _ _ _ _ _ HN HO HX0 m cp l0 v l1 Hm eq_refl) as H. unfold given in H. unfold signals in Hsig |- *. rewrite Hsig, H. cbn. rewrite Nat.eqb_refl. cbn. lia. }
        rewrite EG. unfold told_to_pause in Ht. now apply Nat.odd_spec.
      + unfold given. rewrite (sent_all (CCtl x) tc l1).
        * rewrite E1. pose proof (sent_le (CCtl x) t2) as H. rewrite E2 in H. cbn in H. lia.
        * intros i e y Hin. apply (Hsend i e y). rewrite El. apply in_or_app. right. now right.
    - rewrite (closed_run (CCtl x) _ _ _ (fr_world _ _ _ _ _ _ HX1)) in Hc. rewrite (mw_controls _ _ (fr_made _ _ _ _ _ _ HX1) _ _ (nth_error_In _ _ Hk) Hx) in Hc. cbn [fresh_chan cs_closed orb] in Hc.
      apply closedb_spec in Hc. apply all_in in Hc. destruct Hc as (t & Hin). destruct (ctl_closer _ _ _ _ _ _ HN HO HX1 m cp k _ t AOk Hm Hk Hx Hin) as [->| ->].
      + pose proof (comp_turned _ _ _ _ _ _ HN HX k _ x Hk Hx) as HT. apply in_own in Hin. apply in_split in Hin. destruct Hin as (h1 & h2 & Eh). rewrite El, own_app, Eh, <- app_assoc in HT. cbn [app] in HT.
        pose proof (turned_closed _ _ _ _ HT ltac:(now left)) as HA. change ((tc, (ESend (CCtl x) v, AClosed)) :: l1) with ([(tc, (ESend (CCtl x) v, AClosed))] ++ l1) in HA. rewrite own_app, !attempts_app in HA. apply app_eq_nil in HA. destruct HA as [_ HA]. apply app_eq_nil in HA. destruct HA as [_ ->]. cbn. lia.
      + exfalso. apply in_own in Hin. rewrite E0 in Hin. destruct (manager_near _ _ _ _ (monitors_once _ _ HO _ cp_in) _ _ (controller_at _ _ _ HX _ _ _ _ E)) as (H & _). exact (H Hin). }
  destruct (between _ _ _ HX1) as [B1 B2]. destruct (between _ _ _ HX) as [B3 _].
  assert (HT : T l0 <= T l) by (rewrite El, own_app, ntak_app; lia).
  assert (HSn : length (sent (CData o) (own (4 * k) l)) <= length (sent (CData o) (own (4 * k) l0)) + 1).
  { rewrite El, own_app, sent_app', app_length. change ((tc, (ESend (CCtl x) v, a)) :: l1) with ([(tc, (ESend (CCtl x) v, a))] ++ l1). rewrite own_app, sent_app', app_length.
    assert (H0 : length (sent (CData o) (own (4 * k) [(tc, (ESend (CCtl x) v, a))])) = 0) by (rewrite own1; destruct (tc =? 4 * k); [destruct a; reflexivity|reflexivity]).
    assert (H1 : length (sent (CData o) (own (4 * k) l1)) <= length (attempts (own (4 * k) l1))).
    { apply sent_attempts. intros v' y Hin. apply in_own in Hin. apply (data_sender _ _ _ HX (4 * k) v' y). rewrite El. apply in_or_app. right. now right. }
    lia. }
  lia.
Qed.
(** And when the buffer no longer reports. *)
Lemma bound_any l w ocs : free_run net cs w0 l w ocs -> R l <= T l + top + bf_stdout_size b + rg_stdout_size r + 12.
Proof.
  intro HX. destruct (gone s (ctl l)) eqn:Hg; [|exact (bound_told _ _ _ HX Hg)]. destruct (first_gone _ _ Hg) as (t1 & t2 & E & Hg1). destruct (own_cut2 _ _ _ _ _ E) as (l0 & l1 & El & E0 & _).
  pose proof HX as HX0. rewrite El in HX0. destruct (free_before _ _ _ _ _ _ _ HX0) as (w1 & o1 & HX1 & HW). destruct (wrun_head _ _ _ _ _ HW) as (w2 & HS & _). rewrite <- E0 in Hg1.
  assert (Hc : cs_closed (w1 (CSize s)) = true) by (inversion HS; subst; try discriminate; assumption).
  destruct (size_closed_by _ _ _ HX1 Hc) as [H|H]; [|congruence]. destruct (buffer_tog _ _ _ HX1) as (pj & j & o' & sa & sb & t & HR & HT).
  pose proof (shut_in _ _ _ _ _ _ _ _ s HR Hs _ _ _ _ _ _ HT) as HSh. rewrite !own_seen in HSh by lia. specialize (HSh H (never_refused _ _ _ HX1 Hg1)).
  destruct (buffer_tog _ _ _ HX) as (pj' & j' & o'' & sa' & sb' & t' & HR' & HT').
  pose proof (tg_a _ _ _ _ _ _ _ _ _ _ _ _ _ HT') as HA. rewrite own_seen in HA by lia. rewrite El, own_app in HA. pose proof (a_after _ _ _ _ _ (wired_pl _ _ _ _ _ _ HR') _ _ _ HA HSh) as HZ.
  pose proof (bound_told _ _ _ HX1 Hg1) as HB. rewrite El, !own_app, !ntak_app. lia.
Qed.
Theorem bounded l w ocs : free_run net cs w0 l w ocs -> length (cs_queue (w (CData u))) <= top + bf_stdout_size b + rg_stdout_size r + 12.
Proof. intro HX. pose proof (bound_any _ _ _ HX). pose proof (store_held _ _ _ HX). lia. Qed.
End Bounded.
