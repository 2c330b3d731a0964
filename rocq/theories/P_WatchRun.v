(** * P_WatchRun: who talks to whom in a pipeline with controllers *)
From Coq Require Import Ascii String List Bool Arith Lia Permutation.
From Verif Require Import M_Prog P_Prog P_Exec M_Motion M_Config M_Regulator M_Faucet M_Drain M_Buffer M_Junction M_Launch M_Manager M_Waiter M_Join S_Trace S_Lines S_Motion S_World S_Launch S_Regulator S_Drain S_Buffer S_Junction S_Network S_Net M_Start S_Watch
  P_Read P_Motion P_Worker P_Flow P_World P_Ask P_Control P_Manager P_BufferJoint P_Buffer P_BufferRun P_BufferEnd P_Link P_Phase P_Conduit P_Network P_NetComp P_Whole.
Import ListNotations.

(** ** What a component may do that is told or tells *)
Definition told_may (c : comp) (e : eff) : Prop := exists n, In n (comp_control c) /\ (e = ERecv (CCtl n) \/ e = ETryRecv (CCtl n) \/ e = EClose (CCtl n)).
Definition tells_may (c : comp) (t : nat) (e : eff) : Prop := t = 3 /\ exists n, In n (comp_monitor c) /\ ((exists v, e = ESend (CSize n) v) \/ e = EClose (CSize n)).
Definition ruled_may (c : comp) (t : nat) (e : eff) : Prop := comp_may c t e \/ told_may c e \/ tells_may c t e.

Lemma all_gate_ctl pl ps ctl tr st e a : exec (start_secret false (Some pl) (Some ps) ctl None) tr st -> In (e, a) tr -> gate_eff pl ctl None ps e.
Proof. intros HX Hin. destruct (orderly_all _ _ _ (gate_orderly _ _ _ _) _ _ HX) as [HW _]. unfold within_eff in HW. rewrite Forall_forall in HW. exact (HW _ Hin). Qed.
Lemma gate_ruled c t pl ps ctl e : ~ is_junction c -> pull_chan_in pl (comp_ins c ++ comp_stores c) -> push_chan_in ps (comp_outs c ++ comp_stores c) ->
  (forall n, ctl = Some n -> In n (comp_control c)) -> gate_eff pl ctl None ps e -> ruled_may c t e.
Proof.
  intros HJ Hpl Hps Hc [H|[H|[(x & H & Hx)|(x & H & ->)]]].
  - left. apply (gate_may c t pl ps); auto. left. exact H.
  - left. apply (gate_may c t pl ps); auto. right. left. exact H.
  - right. left. exists x. split; [auto|]. tauto.
  - right. left. exists x. auto.
Qed.
Lemma alone_ruled c p L st : alone p L st -> (forall tr s e a, exec p tr s -> In (e, a) tr -> ruled_may c 0 e) -> forall t e a, t < 4 -> In (t, (e, a)) L -> ruled_may c t e.
Proof.
  intros (HI & s & _ & HX) H t e a Ht Hin. apply in_own in Hin. destruct t as [|t]; [eapply H; eassumption|].
  rewrite (HI (S t)) in Hin by (cbn; lia). destruct Hin.
Qed.
Lemma ruled_within c L oc : comp_ready (plain_comp c) -> comp_runs c L oc -> forall t e a, t < 4 -> In (t, (e, a)) L -> ruled_may c t e.
Proof.
  destruct c as [f name|r|b u mi mo|j|cwd vars la|d name]; intros HR HX; cbn [plain_comp] in HR.
  - destruct HR as (_ & j & o & HR). destruct HX as (st & HX & _). eapply alone_ruled; [exact HX|]. intros tr s e a HY Hin.
    assert (HR' : faucet_ready f name (PsIoSender j o)) by exact HR.
    assert (EO : comp_outs (NFaucet f name) = [o]) by (destruct HR' as (_ & _ & E & _); cbn; now rewrite E).
    assert (Hs : comp_may (NFaucet f name) 0 (source_eff name)) by (unfold source_eff; destruct (string_dec _ _); exact I).
    destruct (faucet_run _ _ _ _ _ _ HR' HY) as [[-> _]|[(j' & _ & -> & _)|(d & rest & k & j' & -> & HZ)]].
    + destruct Hin.
    + destruct Hin as [E|[]]. injection E as <- <-. now left.
    + destruct Hin as [E|Hin]; [injection E as <- <-; now left|]. eapply gate_ruled; [..|eapply all_gate_ctl; eassumption]; try exact I; [intros []| |].
      * cbn [push_chan_in]. rewrite EO. now left.
      * intros n E. cbn. rewrite E. now left.
  - destruct HR as (_ & pj & i & j & o & HR). destruct HX as (st & HX & _). eapply alone_ruled; [exact HX|]. intros tr s e a HY Hin.
    assert (HR' : regulator_ready r (PlReceiver pj i) (PsIoSender j o)) by exact HR.
    rewrite (regulator_gate _ _ _ _ HR') in HY. destruct HR' as (_ & E1 & E2 & _).
    eapply gate_ruled; [..|eapply all_gate_ctl; eassumption]; [intros []|..]; cbn; [rewrite E1; now left|rewrite E2; now left|]. intros n E. rewrite E. now left.
  - destruct HR as (_ & pj & i & j & o & HR). destruct HX as (st & HX & _ & _).
    assert (HR' : buffer_wired b (PlReceiver pj i) (PsIoSender j o) u mi mo) by exact HR. clear HR. rename HR' into HR. pose proof (buffer_parts _ _ _ _ _ _ _ _ _ HR HX) as (sa & sb & sc & Ha & Hb & Hc & _).
    assert (H0 : own 0 L = []).
    { assert (EE : buffer_ends b = Ret (inr (PlReceiver pj i, PsIoSender j o))) by (destruct HR as (E1 & E2 & _); unfold buffer_ends; now rewrite E1, E2).
      unfold buffer_start in HX. rewrite EE in HX. destruct HX as [L e Hi HX|L s Hi HX|L r Hi HX|L0 L x a b' c K0 K1 HX HA HB HZ|L0 L L1 x a b' c st K0 K1 K2 HX HA HB HZ HF];
        apply exec_ret_inv in HX; destruct HX as [HX E]; try discriminate E.
      - now rewrite own_app, HX, (K1 0) by now left.
      - apply exec_ret_inv in HF. destruct HF as [HF _]. now rewrite !own_app, HX, HF, (K1 0) by now left. }
    destruct HR as (E1 & E2 & _). intros t e a Ht Hin. apply in_own in Hin.
    assert (Ei : comp_ins (NBuffer b u mi mo) = [i]) by (cbn; now rewrite E1). assert (Eo : comp_outs (NBuffer b u mi mo) = [o]) by (cbn; now rewrite E2).
    destruct t as [|[|[|[|t]]]]; [rewrite H0 in Hin; destruct Hin| | | |lia].
    + left. eapply motion_may; [..|exact (all_motion _ _ _ _ _ _ _ Ha Hin)]; [intros []|cbn [fst pull_chan_in]; rewrite Ei; now left|cbn [push_chan_in]; apply in_or_app; right; now left|].
      intros m [K|K]; [discriminate K|]. injection K as <-. now left.
    + left. eapply motion_may; [..|exact (all_motion _ _ _ _ _ _ _ Hb Hin)]; [intros []|cbn [fst pull_chan_in]; apply in_or_app; right; now left|cbn [push_chan_in snd]; rewrite Eo; now left|].
      intros m [K|K]; [|discriminate K]. injection K as <-. right; now left.
    + destruct (total_reach _ _ _ _ _ Hc) as (tp & HT & _). apply t_traces in HT. rewrite Forall_forall in HT. specialize (HT _ Hin). cbn [fst] in HT.
      assert (Hm : forall s, bf_monitor b = Some s -> In s (comp_monitor (NBuffer b u mi mo))) by (intros s E; cbn; rewrite E; now left).
      destruct e as [[]|[]|[] v|[]|[]|[]| | | | | | | | | | | |]; try contradiction HT; cbn in HT; try (left; cbn; intuition; fail); right; right; (split; [reflexivity|]); eexists; (split; [apply Hm; exact HT|eauto]).
  - intros t e a Ht Hin. left. eapply comp_within; eassumption.
  - intros t e a Ht Hin. left. eapply comp_within; eassumption.
  - intros t e a Ht Hin. left. eapply comp_within; eassumption.
Qed.

(** ** What a controller may do *)
Definition rules_may (c : capture) (e : eff) : Prop :=
  match e with
  | ETryRecv (CSize n) | EClose (CSize n) => In n (cp_monitors c)
  | ESend (CCtl n) _ | EClose (CCtl n) => n = rc_control (cp_control c)
  | ESleep _ => True
  | _ => False
  end.
Lemma controller_manages c tr e : exec (controller c) tr (At e) -> exec (manage_regulator (cp_low c) (cp_high c) (cp_control c) (cp_monitors c)) tr (At e).
Proof.
  intro H. unfold controller in H. apply exec_bind_inv in H. destruct H as [(t1 & t2 & n & -> & _ & H2)|[(e' & E & H)|(s & E & _)]]; [|injection E as <-; exact H|discriminate E].
  apply exec_ret_inv in H2. destruct H2 as [_ E]. discriminate E.
Qed.
Lemma unpaused c : rc_paused (cp_control c) = false -> cp_control c = RC false (rc_control (cp_control c)).
Proof. destruct (cp_control c) as [p n]. cbn. intros ->. reflexivity. Qed.
Lemma gone_asked n tr : gone n tr = true -> exists a, In (ETryRecv (CSize n), a) tr.
Proof.
  unfold gone. rewrite existsb_exists. intros ([e a] & Hin & H). destruct e as [|[]| | | | | | | | | | | | | | | |]; try discriminate H. destruct a; try discriminate H. apply Nat.eqb_eq in H. subst. eauto.
Qed.
Lemma controller_may c tr st : NoDup (cp_monitors c) -> rc_paused (cp_control c) = false -> exec (controller c) tr st -> forall e a, In (e, a) tr -> rules_may c e.
Proof.
  intros Hn Hp HX.
  assert (HT : forall n a, In (ETryRecv (CSize n), a) tr -> In n (cp_monitors c)).
  { intros n a Hin. apply in_split in Hin. destruct Hin as (t1 & t2 & E). pose proof (controller_manages _ _ _ (exec_prefix _ _ _ HX _ _ _ _ E)) as H. rewrite (unpaused c Hp) in H.
    apply (manager_effects _ _ _ _ Hn) in H. destruct H as [H _]. unfold held in H. apply filter_In in H. apply H. }
  intros e a Hin. pose proof Hin as Hin0. apply in_split in Hin. destruct Hin as (t1 & t2 & E). pose proof (controller_manages _ _ _ (exec_prefix _ _ _ HX _ _ _ _ E)) as H. rewrite (unpaused c Hp) in H.
  apply (manager_effects _ _ _ _ Hn) in H. destruct e as [|[]|[] []|[]| | | | | | | | | | | | | |]; try contradiction H; cbn; auto; [now apply (HT _ _ Hin0)|].
  apply gone_asked in H. destruct H as (b & H). apply (HT n b). rewrite E. apply in_or_app. now left.
Qed.

(** ** Who uses which channel *)
Section Run.
Variables (net : list comp) (cs : list capture) (w0 : world) (l : list nevent) (w : world) (ocs : nat -> S_Net.outcome).
Hypothesis HN : net_wired (map plain_comp net).
Hypothesis HO : overseen net cs.
Hypothesis HX : free_run net cs w0 l w ocs.
Notation K := (length net).

Lemma one_control : NoDup (flat_map comp_control net).
Proof. eapply Permutation_NoDup; [symmetry; apply (ov_controls _ _ HO)|apply (ov_one_control _ _ HO)]. Qed.
Lemma one_monitor : NoDup (flat_map comp_monitor net).
Proof. eapply Permutation_NoDup; [symmetry; apply (ov_monitors _ _ HO)|apply (ov_one_monitor _ _ HO)]. Qed.
Lemma ready_of c : In c net -> comp_ready (plain_comp c).
Proof. intro H. apply (nw_ready _ HN). now apply in_map. Qed.
Lemma monitors_once c : In c cs -> NoDup (cp_monitors c).
Proof. intro H. exact (P_Calm.nodup_part cp_monitors cs c (ov_one_monitor _ _ HO) H). Qed.
Lemma who_may t e a : In (t, (e, a)) l -> (exists c, nth_error net (t / 4) = Some c /\ In t (comp_tasks (t / 4) c) /\ ruled_may c (t mod 4) e) \/
  exists m c, t = 4 * (K + m) /\ nth_error cs m = Some c /\ rules_may c e.
Proof.
  intro Hin. pose proof (fr_only _ _ _ _ _ _ HX _ _ Hin) as Ho. destruct (nth_error net (t / 4)) as [c|] eqn:Hk.
  - left. exists c. split; [reflexivity|]. split; [exact (order_comp net cs t _ c Ho eq_refl Hk)|].
    eapply ruled_within; [apply ready_of, (nth_error_In _ _ Hk)|exact (fr_comps _ _ _ _ _ _ HX _ _ Hk)|apply Nat.mod_upper_bound; lia|]. apply P_Net.in_seen'. exact Hin.
  - right. destruct (order_rest net cs t Ho Hk) as (m & Et & Hm). destruct (nth_error cs m) as [c|] eqn:Hc; [|apply nth_error_None in Hc; lia]. exists m, c. split; [exact Et|]. split; [exact Hc|].
    destruct (fr_controllers _ _ _ _ _ _ HX _ _ Hc) as (st & X & _). rewrite <- Et in X. pose proof (nth_error_In _ _ Hc) as Hi. refine (controller_may c _ _ (monitors_once _ Hi) (ov_running _ _ HO _ Hi) X e a _). now apply in_own.
Qed.
Lemma nth_map_unique {A} (f : A -> nat) (xs : list A) k k' c c' : NoDup (map f xs) -> nth_error xs k = Some c -> nth_error xs k' = Some c' -> f c = f c' -> k = k'.
Proof.
  intros Hn Hk Hk' E. apply (proj1 (NoDup_nth_error (map f xs)) Hn); [rewrite map_length; apply nth_error_Some; congruence|]. rewrite !nth_error_map, Hk, Hk'. cbn. now rewrite E.
Qed.
Lemma ctl_sender m c t v a : nth_error cs m = Some c -> In (t, (ESend (CCtl (rc_control (cp_control c))) v, a)) l -> t = 4 * (K + m).
Proof.
  intros Hm Hin. destruct (who_may _ _ _ Hin) as [(c' & _ & _ & [H|[(n & _ & [H|[H|H]])|(_ & n & _ & [(v' & H)|H])]])|(m' & c' & -> & Hm' & H)]; try discriminate H; [contradiction H|].
  cbn in H. f_equal. f_equal. symmetry. exact (nth_map_unique (fun c => rc_control (cp_control c)) cs _ _ _ _ (ov_one_control _ _ HO) Hm Hm' H).
Qed.
Lemma ctl_taker k c n t e a : nth_error net k = Some c -> In n (comp_control c) -> In (t, (e, a)) l -> is_take (CCtl n) e -> t = 4 * k.
Proof.
  intros Hk Hn Hin [->| ->]; (destruct (who_may _ _ _ Hin) as [(c' & Hc & Ht & [H|[(n' & Hn' & [H|[H|H]])|(_ & n' & _ & [(v' & H)|H])]])|(m' & c' & -> & Hm' & H)]; try discriminate H; try contradiction H);
    injection H as <-; pose proof (P_NetCost.nth_unique comp_control net _ _ _ _ n one_control Hc Hk Hn' Hn) as E; rewrite E in *; rewrite Hk in Hc; injection Hc as <-; destruct c; cbn in Hn; try contradiction Hn; cbn in Ht; lia.
Qed.
Lemma size_sender k c n t v a : nth_error net k = Some c -> In n (comp_monitor c) -> In (t, (ESend (CSize n) v, a)) l -> t = 4 * k + 3.
Proof.
  intros Hk Hn Hin. destruct (who_may _ _ _ Hin) as [(c' & Hc & Ht & [H|[(n' & Hn' & [H|[H|H]])|(E3 & n' & Hn' & [(v' & H)|H])]])|(m' & c' & -> & Hm' & H)]; try discriminate H; try contradiction H.
  injection H as <- <-. pose proof (P_NetCost.nth_unique comp_monitor net _ _ _ _ n one_monitor Hc Hk Hn' Hn) as E. pose proof (Nat.div_mod t 4 ltac:(lia)). lia.
Qed.
Lemma size_taker m c n t e a : nth_error cs m = Some c -> In n (cp_monitors c) -> In (t, (e, a)) l -> is_take (CSize n) e -> t = 4 * (K + m).
Proof.
  intros Hm Hn Hin [->| ->]; (destruct (who_may _ _ _ Hin) as [(c' & Hc & Ht & [H|[(n' & Hn' & [H|[H|H]])|(_ & n' & _ & [(v' & H)|H])]])|(m' & c' & -> & Hm' & H)]; try discriminate H; try contradiction H).
  cbn in H. f_equal. f_equal. exact (P_NetCost.nth_unique cp_monitors cs _ _ _ _ n (ov_one_monitor _ _ HO) Hm' Hm H Hn).
Qed.
End Run.
