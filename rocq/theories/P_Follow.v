(** * P_Follow: a component that is not told to pause does what it would do without regulation *)
From Coq Require Import Ascii String List Bool Arith Lia.
From Verif Require Import M_Prog P_Prog P_Exec M_Motion M_BackOff M_Regulator M_Faucet M_Drain M_Buffer M_Junction M_Launch M_Join M_Waiter S_Trace S_Lines S_Motion S_World S_Launch S_Regulator S_Drain S_Buffer S_Junction S_Network S_Net M_Start S_Start S_Watch S_Delay
  P_Machine P_Control P_Phase P_World P_JPass P_Ask P_Respond P_Buffer P_BufferRun P_NetMoves P_NetCost P_NetComp P_NetSteps P_Later P_Prefix P_Fair P_WatchRun P_Skim P_Delay P_Act P_Network P_Regulator P_Control P_Link.
Import ListNotations.

(** ** After it was allowed to go on, a regulator asks for a message *)
Definition asked_ctl (ev : event) : Prop := match ev with (ERecv (CCtl _), _) | (ETryRecv (CCtl _), AEmpty) | (ETryRecv (CCtl _), AClosed) => True | _ => False end.
Lemma asked_control ev : asked_ctl ev -> control_eff (fst ev) = true.
Proof. destruct ev as [[[]|[]| | | | | | | | | | | | | | | |] []]; cbn; try contradiction; reflexivity. Qed.
Definition receiving (j : pjourney) (i : nat) (s : motion_state) : Prop := exists p, fst s = (PlReceiver j i, [p]).
Lemma worker_first j i p spy st : exec (motion_worker (PlReceiver j i) mn_empty [p] spy false) [] st -> st = At (ERecv (CData i)).
Proof.
  unfold motion_worker. intro H. cbn [motion_read] in H. unfold recv in H. destruct (exec_bind_inv _ _ _ _ H) as [(t1 & t2 & x & E & H1 & _)|[(e & -> & H1)|(m & -> & H1)]].
  - symmetry in E. apply app_eq_nil in E. destruct E as [-> _]. unfold recv_data, recv in H1; rewrite !bind_vis in H1. apply exec_vis_inv in H1. destruct H1 as [[_ K]|(a & tr' & E & _)]; [discriminate K|discriminate E].
  - unfold recv_data, recv in H1; rewrite !bind_vis in H1. apply exec_vis_inv in H1. destruct H1 as [[_ K]|(a & tr' & E & _)]; [injection K as ->; reflexivity|discriminate E].
  - unfold recv_data, recv in H1; rewrite !bind_vis in H1. apply exec_vis_inv in H1. destruct H1 as [[_ K]|(a & tr' & E & _)]; [discriminate K|discriminate E].
Qed.
Lemma receiving_like {R} j i p (x : R * pull * list push) : like (PlReceiver j i) (snd (fst x)) /\ Forall2 likep [p] (snd x) -> exists q, snd (fst x) = PlReceiver j i /\ snd x = [q].
Proof.
  intros [H1 H2]. destruct x as [[r pl] ps]. cbn [fst snd] in *. destruct pl; try contradiction H1. destruct H1 as [-> ->]. inversion H2 as [|? q ? ? _ H3]; subst. inversion H3; subst. eauto.
Qed.
Lemma control_asked ctl tr ev st : exec (control ctl) (tr ++ [ev]) st -> asked_ctl ev -> st = Done tt.
Proof.
  destruct ctl as [c|]; [|intro H; apply exec_ret_inv in H; destruct H as [H _]; destruct tr; discriminate H]. unfold control, try_recv. rewrite bind_vis. intros H Ha.
  apply exec_vis_inv in H. destruct H as [[H _]|(a & tr' & E & Hw & H)]; [destruct tr; discriminate H|].
  destruct a; try discriminate Hw; rewrite bind_ret in H.
  - unfold recv in H. rewrite bind_vis in H. apply exec_vis_inv in H. destruct H as [[-> ->]|(b & tr2 & -> & Hw2 & H)].
    + destruct tr as [|x tr]; [cbn in E; injection E as ->; contradiction Ha|]. cbn in E. injection E as _ E. destruct tr; discriminate E.
    + destruct b; try discriminate Hw2; rewrite bind_ret in H; apply exec_ret_inv in H; now destruct H.
  - apply exec_ret_inv in H. now destruct H.
  - apply exec_ret_inv in H. now destruct H.
Qed.
Lemma body_asked ctl spy brk j i s tr ev st : receiving j i s -> exec (gate_body ctl spy brk s) (tr ++ [ev]) st -> asked_ctl ev -> exists s', st = Done (inl s') /\ receiving j i s'.
Proof.
  destruct s as [[pl ps] n]. intros (p & E) HX Ha. cbn in E. injection E as -> ->. unfold gate_body in HX.
  assert (Hno : forall t1 st1, exec (motion_worker (PlReceiver j i) mn_empty [p] spy false) t1 st1 -> In ev t1 -> False).
  { intros t1 st1 H Hin. destruct (worker_loud _ _ _ _ _ H) as [HW _]. unfold within_eff in HW. rewrite Forall_forall in HW. specialize (HW ev Hin). destruct ev as [e a]. rewrite (asked_control (e, a) Ha) in HW. discriminate HW. }
  assert (Hcut : forall t1 t2, tr ++ [ev] = t1 ++ t2 -> ~ In ev t1 -> exists t3, t2 = t3 ++ [ev]).
  { intros t1 t2 E Hn. destruct t2 as [|x t2 _] using rev_ind; [rewrite app_nil_r in E; destruct Hn; rewrite <- E; apply in_or_app; right; now left|]. rewrite app_assoc in E. apply app_inj_tail in E. destruct E as [_ ->]. eauto. }
  destruct (exec_bind_inv _ _ _ _ HX) as [(t1 & t2 & x & E & H1 & H2)|[(e & -> & H1)|(m & -> & H1)]].
  2:{ exfalso. eapply Hno; [exact H1|]. apply in_or_app. right. now left. }
  2:{ exfalso. eapply Hno; [exact H1|]. apply in_or_app. right. now left. }
  destruct (Hcut t1 t2 E (fun K => Hno _ _ H1 K)) as (t3 & ->). destruct (receiving_like _ _ _ _ (proj2 (worker_loud _ _ _ _ _ H1))) as (q & E1 & E2). destruct x as [[r pl'] ps']. cbn [fst snd] in E1, E2. subst pl' ps'.
  assert (HC : forall t st', exec (control ctl ;;; Ret (inl (PlReceiver j i, [q], S n)) : prog (motion_state + mres nat * pull * list push)) (t ++ [ev]) st' -> exists s', st' = Done (inl s') /\ receiving j i s').
  { intros t st' H. destruct (exec_bind_inv _ _ _ _ H) as [(t5 & t6 & u & E5 & H5 & H6)|[(e & -> & H5)|(m & -> & H5)]].
    - apply exec_ret_inv in H6. destruct H6 as [_ ->]. eexists. split; [reflexivity|]. exists q. reflexivity.
    - pose proof (control_asked _ _ _ _ H5 Ha) as K. discriminate K.
    - pose proof (control_asked _ _ _ _ H5 Ha) as K. discriminate K. }
  assert (HE : forall R t (x : R) st', exec (Ret x) (t ++ [ev]) st' -> False) by (intros R t x st' H; apply exec_ret_inv in H; destruct H as [H _]; destruct t; discriminate H).
  destruct r as [[[|] rd]|e]; cbn [wr_finished] in H2.
  - exfalso. destruct (exec_bind_inv _ _ _ _ H2) as [(t5 & t6 & u & E5 & H5 & H6)|[(e & _ & H5)|(m & _ & H5)]].
    + apply exec_ret_inv in H6. destruct H6 as [-> _]. rewrite app_nil_r in E5. subst t5. destruct ctl as [c|]; [|exact (HE _ _ _ _ H5)]. cbn [close_ctl] in H5. apply close_inv in H5. destruct H5 as [[H5 _]|[H5 _]]; [destruct t3; discriminate H5|].
      destruct t3 as [|y t3]; [|cbn in H5; injection H5 as _ H5; destruct t3; discriminate H5]. cbn in H5. injection H5 as ->. exact Ha.
    + destruct ctl as [c|]; [|exact (HE _ _ _ _ H5)]. cbn [close_ctl] in H5. apply close_inv in H5. destruct H5 as [[H5 _]|[H5 K]]; [destruct t3; discriminate H5|discriminate K].
    + destruct ctl as [c|]; [|exact (HE _ _ _ _ H5)]. cbn [close_ctl] in H5. apply close_inv in H5. destruct H5 as [[H5 _]|[H5 K]]; [destruct t3; discriminate H5|discriminate K].
  - exact (HC _ _ H2).
  - destruct e; try (destruct (HE _ _ _ _ H2)). destruct brk; try (destruct (HE _ _ _ _ H2)). exact (HC _ _ H2).
Qed.
Lemma body_first ctl spy brk j i s st : receiving j i s -> exec (gate_body ctl spy brk s) [] st -> st = At (ERecv (CData i)).
Proof.
  destruct s as [[pl ps] n]. intros (p & E) HX. cbn in E. injection E as -> ->. unfold gate_body in HX.
  destruct (exec_bind_inv _ _ _ _ HX) as [(t1 & t2 & x & E & H1 & H2)|[(e & -> & H1)|(m & -> & H1)]].
  - symmetry in E. apply app_eq_nil in E. destruct E as [-> _]. pose proof (worker_first _ _ _ _ _ H1) as K. discriminate K.
  - pose proof (worker_first _ _ _ _ _ H1) as K. injection K as ->. reflexivity.
  - pose proof (worker_first _ _ _ _ _ H1) as K. discriminate K.
Qed.
Lemma body_receiving ctl spy brk j i s tr s' : receiving j i s -> exec (gate_body ctl spy brk s) tr (Done (inl s')) -> receiving j i s'.
Proof.
  destruct s as [[pl ps] n]. intros (p & E) HX. cbn in E. injection E as -> ->. unfold gate_body in HX.
  destruct (exec_bind_inv _ _ _ _ HX) as [(t1 & t2 & x & E & H1 & H2)|[(e & E & H1)|(m & E & H1)]]; try discriminate E.
  destruct (receiving_like _ _ _ _ (proj2 (worker_loud _ _ _ _ _ H1))) as (q & E1 & E2). destruct x as [[r pl'] ps']. cbn [fst snd] in E1, E2. subst pl' ps'.
  assert (HC : forall t, exec (control ctl ;;; Ret (inl (PlReceiver j i, [q], S n)) : prog (motion_state + mres nat * pull * list push)) t (Done (inl s')) -> receiving j i s').
  { intros t H. destruct (exec_bind_inv _ _ _ _ H) as [(t5 & t6 & u & E5 & H5 & H6)|[(e & E5 & H5)|(m & E5 & H5)]]; try discriminate E5. apply exec_ret_inv in H6. destruct H6 as [_ H6]. injection H6 as ->. exists q. reflexivity. }
  destruct r as [[[|] rd]|e]; cbn [wr_finished] in H2.
  - destruct (exec_bind_inv _ _ _ _ H2) as [(t5 & t6 & u & E5 & H5 & H6)|[(e & E5 & H5)|(m & E5 & H5)]]; try discriminate E5. apply exec_ret_inv in H6. destruct H6 as [_ H6]. discriminate H6.
  - exact (HC _ H2).
  - destruct e; try (apply exec_ret_inv in H2; destruct H2 as [_ H2]; discriminate H2). destruct brk; try (apply exec_ret_inv in H2; destruct H2 as [_ H2]; discriminate H2). exact (HC _ H2).
Qed.
Lemma gate_asked ctl spy brk j i ev : asked_ctl ev -> forall n s tr st, length tr <= n -> receiving j i s -> exec (iter (gate_body ctl spy brk) s) (tr ++ [ev]) st -> st = At (ERecv (CData i)).
Proof.
  intros Ha. induction n as [|n IH]; intros s tr st Hn Hs HX.
  all: destruct (exec_iter_inv _ _ _ _ HX) as [(t1 & t2 & s' & E & H1 & H2)|[(r & -> & H1)|[(e & -> & H1)|(m & -> & H1)]]].
  all: try (destruct (body_asked _ _ _ _ _ _ _ _ _ Hs H1 Ha) as (s' & K & _); discriminate K).
  all: pose proof (body_receiving _ _ _ _ _ _ _ _ Hs H1) as Hs'.
  all: assert (Hne : t1 <> []) by (intros ->; pose proof (body_first _ _ _ _ _ _ _ Hs H1) as K; discriminate K).
  all: destruct t2 as [|x t2 _] using rev_ind; [|rewrite app_assoc in E; apply app_inj_tail in E; destruct E as [E ->]].
  1,3: destruct (exec_iter_inv _ _ _ _ H2) as [(t3 & t4 & s2 & E3 & H3 & H4)|[(r & -> & H3)|[(e & -> & H3)|(m & -> & H3)]]];
    [symmetry in E3; apply app_eq_nil in E3; destruct E3 as [-> _]|..]; pose proof (body_first _ _ _ _ _ _ _ Hs' H3) as K; try discriminate K; injection K as ->; reflexivity.
  - destruct tr; [|cbn in Hn; lia]. destruct t1; [congruence|discriminate E].
  - apply (IH s' t2 st); [|exact Hs'|exact H2]. subst tr. rewrite app_length in Hn. destruct t1; [congruence|cbn in Hn; lia].
Qed.
Lemma regulator_asked r j i ps tr ev st : regulator_ready r (PlReceiver j i) ps -> asked_ctl ev -> exec (regulator_start r None) (tr ++ [ev]) st -> st = At (ERecv (CData i)).
Proof.
  intros HR Ha HX. rewrite (regulator_gate _ _ _ _ HR) in HX. unfold start_secret in HX.
  assert (H0 : receiving j i (PlReceiver j i, [ps], 0)) by (exists ps; reflexivity).
  destruct (exec_bind_inv _ _ _ _ HX) as [(t1 & t2 & [[x pl] qs] & E & H1 & H2)|[(e & -> & H1)|(m & -> & H1)]].
  2:{ pose proof (gate_asked _ _ _ _ _ _ Ha _ _ _ _ (le_n _) H0 H1) as K. injection K as ->. reflexivity. }
  2:{ pose proof (gate_asked _ _ _ _ _ _ Ha _ _ _ _ (le_n _) H0 H1) as K. discriminate K. }
  exfalso. destruct t2 as [|y t2 _] using rev_ind.
  - rewrite app_nil_r in E. subst t1. pose proof (gate_asked _ _ _ _ _ _ Ha _ _ _ _ (le_n _) H0 H1) as K. discriminate K.
  - rewrite app_assoc in E. apply app_inj_tail in E. destruct E as [_ <-].
    assert (HW : works (fun e => control_eff e = false) (fun _ => True) (drop_pushes qs ;;; drop_pull pl ;;; Ret x)).
    { eapply works_bind; [exact (proj2 (drops_loud PlNone qs))|]. intros _ _. eapply works_bind; [exact (proj1 (drops_loud pl []))|]. intros _ _. now apply works_ret. }
    destruct (HW _ _ H2) as [K _]. unfold within_eff in K. apply Forall_app in K. destruct K as [_ K]. inversion K as [|? ? K1 _]; subst. destruct ev as [e a]. rewrite (asked_control (e, a) Ha) in K1. discriminate K1.
Qed.

(** ** One task *)
Definition stuck_task {Y} (p : prog Y) (tr : trace) (w : world) : Prop := forall s st w', exec p (tr ++ s) st -> wrun w (by_task 0 s) w' -> ~ brisk s.
Lemma brisk_cons ev s : useful ev = false -> brisk (ev :: s) -> brisk s.
Proof.
  intros Hu (s0 & x & E & H1 & H2). destruct s0 as [|y s0]; cbn in E; injection E as -> ->; [congruence|]. exists s0, x. split; [reflexivity|]. split; [|exact H2]. cbn [forallb] in H1. apply andb_prop in H1. apply H1.
Qed.
Lemma cons_brisk ev s : useful ev = false -> brisk s -> brisk (ev :: s).
Proof. intros Hu (s0 & x & -> & H1 & H2). exists (ev :: s0), x. split; [reflexivity|]. split; [|exact H2]. cbn [forallb]. now rewrite Hu, H1. Qed.
Lemma one_brisk ev : useful ev = true -> brisk [ev].
Proof. intro H. exists [], ev. auto. Qed.
Lemma brisk_some s : brisk s -> s <> [].
Proof. intros (s0 & x & -> & _). now destruct s0. Qed.
Lemma stuck_on {Y} (p : prog Y) tr w ev : stuck_task p tr w -> useful ev = false -> wstep w ev w -> stuck_task p (tr ++ [ev]) w.
Proof.
  intros HS Hu Hw s st w' HX HW HB. apply (HS (ev :: s) st w'); [rewrite <- app_assoc in HX; exact HX| |now apply cons_brisk]. cbn [by_task map]. econstructor; [exact Hw|exact HW].
Qed.
Lemma task_follow {Y} (p q : prog Y) w : skims p q eq -> responds p ->
  forall s tr w1 st w2, (exists st0, exec p tr st0) -> unrefused tr -> stuck_task p tr w -> agree w1 w ->
  (forall tr' e, exec p tr' (At e) -> unrefused tr' -> control_eff e = true -> exists a w3, wt e a = true /\ wstep w (e, a) w3 /\ useful (e, a) = true) ->
  exec q (skim tr ++ s) st -> wrun w1 (by_task 0 s) w2 -> brisk s -> False.
Proof.
 intros HS HR. induction s as [|[e a] s IH]; intros tr w1 st w2 (st0 & HX) HU HK HA HC HQ HW HB; [exact (brisk_some _ HB eq_refl)|].
  destruct (HS _ _ HX HU) as (st1 & HX1 & HT).
  pose proof (exec_prefix _ _ _ HQ _ _ _ _ eq_refl) as HE. pose proof (exec_det _ _ _ HE _ HX1) as E1. subst st1.
  destruct st0 as [e0|r|m]; cbn in HT; [|destruct HT as (b & K & _); discriminate K|discriminate HT].
  destruct (control_eff e0) eqn:Ee.
  - destruct (HC tr e0 HX HU Ee) as (b & w3 & Hw & Hs & Hf). destruct (proj2 HR _ _ _ HX Hw) as (st2 & HX2).
    refine (HK [(e0, b)] st2 w3 HX2 _ (one_brisk _ Hf)). cbn. econstructor; [exact Hs|constructor].
  - destruct HT as [HT|HT]; [congruence|]. injection HT as <-.
    assert (Hw : wt e a = true) by (apply (exec_wt _ _ _ HQ); apply in_or_app; right; now left).
    destruct (proj2 HR _ _ _ HX Hw) as (st2 & HX2). cbn [by_task map] in HW. inversion HW as [|? ? w3 ? ? HS1 HW1]; subst.
    destruct (step_agree _ w _ _ HS1 Ee HA) as (w4 & HS4 & HA4). destruct (useful (e, a)) eqn:Eu.
    + refine (HK [(e, a)] st2 w4 HX2 _ (one_brisk _ Eu)). cbn. econstructor; [exact HS4|constructor].
    + pose proof (useless_same _ _ _ Eu HS4) as ->. pose proof (useless_same _ _ _ Eu HS1) as ->.
      refine (IH (tr ++ [(e, a)]) w1 st w2 _ _ (stuck_on _ _ _ _ HK Eu HS4) HA HC _ HW1 (brisk_cons _ _ Eu HB)); [eauto| |].
      * intros n v Hin. apply in_app_or in Hin. destruct Hin as [Hin|[E|[]]]; [exact (HU _ _ Hin)|]. injection E as -> _. discriminate Ee.
      * rewrite skim_app. unfold skim at 2. cbn [filter fst]. rewrite Ee. cbn [negb]. rewrite <- app_assoc. exact HQ.
Qed.

(** ** One component *)
Definition stuck_comp (c : comp) (L : list nevent) (w : world) : Prop := forall t s oc w', t < 4 -> comp_runs c (L ++ by_task t s) oc -> wrun w (by_task t s) w' -> ~ brisk s.
Definition paused_comp (c : comp) (L : list nevent) (w : world) : Prop :=
  exists r x, c = NRegulator r /\ rg_control r = Some x /\ exec (regulator_start r None) (own 0 L) (At (ERecv (CCtl x))) /\ dry (w (CCtl x)).
Definition followed (c : comp) (L L' : list nevent) (w w1 : world) : Prop :=
  comp_runs (plain_comp c) L' Going /\ (paused_comp c L w \/ ~ can_move (plain_comp c) L' w1).
Lemma agree_run w1 w s : agree w1 w -> (forall e a, In (e, a) s -> control_eff e = false) -> forall t w2, wrun w1 (by_task t s) w2 -> exists w3, wrun w (by_task t s) w3.
Proof.
  revert w1 w. induction s as [|[e a] s IH]; intros w1 w HA HL t w2 HW; [exists w; constructor|]. cbn [by_task map] in HW. inversion HW as [|? ? w4 ? ? H1 H2]; subst.
  destruct (step_agree _ w _ _ H1 (HL e a (or_introl eq_refl)) HA) as (w5 & H3 & H4). destruct (IH _ _ H4 (fun e' a' H => HL e' a' (or_intror H)) _ _ H2) as (w6 & H5). exists w6. cbn [by_task map]. econstructor; eassumption.
Qed.
Lemma loud_by t s : t < 4 -> (forall e a, In (e, a) s -> control_eff e = false) -> thin (by_task t s) (by_task t s).
Proof. intros Ht. induction s as [|[e a] s IH]; intro HL; [constructor|]. cbn [by_task map]. apply T_keep; [intros _; exact (HL e a (or_introl eq_refl))|]. apply IH. intros e' a' H. exact (HL e' a' (or_intror H)). Qed.
Lemma may_by c L t s oc : comp_ready c -> t < 4 -> comp_runs c (L ++ by_task t s) oc -> forall e a, In (e, a) s -> control_eff e = false.
Proof. intros HR Ht HX e a Hin. apply (may_loud c t). eapply comp_within; [exact HR|exact HX|exact Ht|]. apply in_or_app. right. apply in_map_iff. exists (e, a). auto. Qed.

(** Components that are not regulated. *)
Lemma plain_follow c L L' w w1 : plain_comp c = c -> comp_ready c -> comp_control c = [] -> comp_monitor c = [] -> ~ is_buffer c -> thin L L' -> (forall i, i < 4 -> unrefused (own i L)) -> agree w1 w ->
  comp_runs c L Going -> stuck_comp c L w -> followed c L L' w w1.
Proof.
  intros Ep HR E1 E2 HB HT HU HA HX HK. rewrite <- Ep in HR.
  assert (HL : loud L [0; 1; 2; 3]).
  { intros i e a Hi Hin. assert (Hi' : i < 4) by (cbn in Hi; lia). destruct (ruled_within c L Going HR HX i e a Hi' Hin) as [H|[(n & H & _)|(_ & n & H & _)]]; [exact (may_loud _ _ _ H)|rewrite E1 in H; destruct H|rewrite E2 in H; destruct H]. }
  split.
  - destruct (comp_mirrors c L L' HR HT HU HX) as [(t & Y & p & tr & e & HLv & He)|[H _]]; [exfalso|exact H].
    destruct (wt_some e) as (a & Ha). destruct (live_answer _ _ _ _ _ _ a HLv Ha) as (oc & HC). destruct (ruled_within c _ _ HR HC t e a (proj1 HLv)) as [H|[(n & H & _)|(_ & n & H & _)]];
      [apply in_or_app; right; now left|rewrite (may_loud _ _ _ H) in He; discriminate He|rewrite E1 in H; destruct H|rewrite E2 in H; destruct H].
  - right. rewrite Ep in *. intros (t & s & w' & oc & Ht & HC & HW & HBr & _). pose proof (may_by _ _ _ _ _ HR Ht HC) as HLs. destruct (agree_run _ _ _ HA HLs _ _ HW) as (w3 & HW3).
    assert (HT2 : thin (L ++ by_task t s) (L' ++ by_task t s)) by (apply thin_app; [exact HT|now apply loud_by]).
    assert (HL2 : loud (L ++ by_task t s) [0; 1; 2; 3]).
    { intros i e a Hi Hin. apply in_app_or in Hin. destruct Hin as [Hin|Hin]; [exact (HL _ _ _ Hi Hin)|]. apply in_map_iff in Hin. destruct Hin as ([e' a'] & E & Hin). injection E as _ -> ->. exact (HLs _ _ Hin). }
    assert (HC' : exists oc', comp_runs c (L ++ by_task t s) oc').
    { destruct c as [f name|r|b u mi mo|j|cwd vars la|d name].
      - destruct HC as (st & HC & _). exists (outcome_of st), st. split; [|reflexivity]. exact (alone_thick _ _ _ _ HL2 HT2 HC).
      - destruct HC as (st & HC & _). exists (outcome_of st), st. split; [|reflexivity]. exact (alone_thick _ _ _ _ HL2 HT2 HC).
      - destruct HB. exact Logic.I.
      - destruct HC as (st & HC & _). exists (outcome_of st), st. split; [|reflexivity]. exact (alone_thick _ _ _ _ HL2 HT2 HC).
      - destruct HC as (st & HC & Hm & _). exists (outcome_of st), st. split; [|auto]. unfold launch_start in *. eapply joined_thick; [exact HL2|exact HT2|exact HC].
      - destruct HC as (st & HC & _). exists (outcome_of st), st. split; [|reflexivity]. exact (alone_thick _ _ _ _ HL2 HT2 HC). }
    destruct HC' as (oc' & HC'). exact (HK t s oc' w3 Ht HC' HW3 HBr).
Qed.

(** Regulators. *)
Lemma alone_zero p L t s st : t < 4 -> alone p (L ++ by_task t s) st -> s <> [] -> t = 0.
Proof.
  intros Ht (HI & _) Hs. destruct (Nat.eq_dec t 0) as [E|Hn]; [exact E|exfalso]. assert (K : In t [1; 2; 3]) by (cbn; lia). specialize (HI t K). rewrite own_app, own_by, Nat.eqb_refl in HI. apply app_eq_nil in HI. destruct HI as [_ HI]. congruence.
Qed.
Lemma regulator_follow r L L' w w1 : comp_ready (plain_comp (NRegulator r)) -> thin L L' -> unrefused (own 0 L) -> agree w1 w -> fitting w ->
  comp_runs (NRegulator r) L Going -> stuck_comp (NRegulator r) L w -> followed (NRegulator r) L L' w w1.
Proof.
  intros HR HT HU HA HF HX HK. pose proof HR as (_ & pj & i & j & o & HR0). assert (HRr : regulator_ready r (PlReceiver pj i) (PsIoSender j o)) by exact HR0.
  pose proof (skims_regulator r pj i _ None HRr) as HS. pose proof (resp_regulators _ _ _ _ None HRr) as HRe. set (q := regulator_start (Regulator (rg_started r) (rg_stdout_size r) (rg_stdout r) (rg_stdin r) None) None) in *.
  assert (HX0 := HX). destruct HX as (st & HAl & Hg). pose proof HAl as (HI & s0 & -> & HE). destruct s0 as [e|x|m]; try discriminate Hg.
  assert (HQI : idle [1; 2; 3] L') by (eapply thin_idle; [exact HT|cbn; intros; lia|exact HI]).
  assert (HQ : forall e', exec q (skim (own 0 L)) (At e') -> comp_runs (plain_comp (NRegulator r)) L' Going).
  { intros e' H. exists (Before (At e')). split; [|reflexivity]. split; [exact HQI|]. exists (At e'). split; [reflexivity|]. rewrite (thin_own _ _ 0 HT) by lia. exact H. }
  assert (HP : forall s st, exec (regulator_start r None) (own 0 L ++ s) st -> comp_runs (NRegulator r) (L ++ by_task 0 s) (outcome_of (Before st : standing))).
  { intros s st H. exists (Before st). split; [|reflexivity]. split; [apply idle_by; [exact HI|cbn; lia]|]. exists st. split; [reflexivity|]. rewrite own_app, own_by. exact H. }
  assert (HStep : forall s0 e' a w3, exec (regulator_start r None) (own 0 L ++ s0) (At e') -> forallb (fun ev => negb (useful ev)) s0 = true -> wrun w (by_task 0 s0) w -> wt e' a = true -> wstep w (e', a) w3 -> useful (e', a) = true -> False).
  { intros s0 e' a w3 H1 H2 H3 H4 H5 H6. destruct (proj2 HRe _ _ _ H1 H4) as (st & H7). rewrite <- app_assoc in H7. apply (HK 0 (s0 ++ [(e', a)]) _ w3 ltac:(lia) (HP _ _ H7)).
    - unfold by_task. rewrite map_app. apply wrun_app. exists w. split; [exact H3|]. cbn. econstructor; [exact H5|constructor].
    - exists s0, (e', a). auto. }
  assert (HM : forall e', exec q (skim (own 0 L)) (At e') -> (forall a w3, wt e' a = true -> wstep w (e', a) w3 -> useful (e', a) = true -> False) -> ~ can_move (plain_comp (NRegulator r)) L' w1).
  { intros e' H1 H2 (t & s & w' & oc & Ht & HC & HW & HBr & _). pose proof (may_by _ _ _ _ _ HR Ht HC) as HLs. pose proof (brisk_some _ HBr) as Hne. destruct s as [|[e2 a] s]; [congruence|].
    assert (Hact : active e2) by (eapply (restless_active (plain_comp (NRegulator r))); [exact HR|exact Logic.I|exact HC|exact Ht|apply in_or_app; right; now left]).
    destruct HC as (st & HC & _). pose proof (alone_zero _ _ _ _ _ Ht HC Hne) as ->. destruct HC as (_ & s1 & -> & HE2). rewrite own_app, own_by, (thin_own _ _ 0 HT) in HE2 by lia. cbn [Nat.eqb] in HE2.
    pose proof (exec_prefix _ _ _ HE2 _ _ _ _ eq_refl) as HZ. pose proof (exec_det _ _ _ HZ _ H1) as E. injection E as ->.
    cbn [by_task map] in HW. inversion HW as [|? ? w4 ? ? HS1 _]; subst. destruct (step_agree _ w _ _ HS1 (HLs e' a (or_introl eq_refl)) HA) as (w5 & HS5 & _).
    apply (H2 a w5); [apply (exec_wt _ _ _ HE2); apply in_or_app; right; now left|exact HS5|apply Hact]. }
  assert (Hnil : forall e', exec (regulator_start r None) (own 0 L) (At e') -> exec (regulator_start r None) (own 0 L ++ []) (At e')) by (intros; now rewrite app_nil_r).
  assert (HAsk : forall ev st, asked_ctl ev -> exec (regulator_start r None) (own 0 L ++ [ev]) st -> st = At (ERecv (CData i)) /\ exec q (skim (own 0 L)) (At (ERecv (CData i)))).
  { intros ev st Ha H. pose proof (regulator_asked _ _ _ _ _ _ _ HRr Ha H) as ->. split; [reflexivity|]. destruct (HS _ _ H) as (st' & H1 & H2).
    - intros n v Hin. apply in_app_or in Hin. destruct Hin as [Hin|[E|[]]]; [exact (HU _ _ Hin)|]. subst ev. destruct Ha.
    - cbn in H2. destruct H2 as [H2|H2]; [discriminate H2|]. subst st'. rewrite skim_app in H1. unfold skim at 2 in H1. cbn [filter fst] in H1. rewrite (asked_control _ Ha) in H1. cbn [negb] in H1. now rewrite app_nil_r in H1. }
  destruct (control_eff e) eqn:Ee.
  - assert (HMy : ruled_may (NRegulator r) 0 e).
    { destruct (wt_some e) as (a & Ha). destruct (proj2 HRe _ _ _ HE Ha) as (st & H). eapply ruled_within; [exact HR|exact (HP _ _ H)|lia|]. apply in_or_app. right. now left. }
    destruct HMy as [H|[(n & Hn & H)|(E3 & _)]]; [rewrite (may_loud _ _ _ H) in Ee; discriminate Ee| |discriminate E3].
    assert (Hrc : rg_control r = Some n) by (cbn in Hn; destruct (rg_control r) as [y|]; [destruct Hn as [->|[]]; reflexivity|destruct Hn]).
    destruct H as [->|[->| ->]].
    + destruct (cs_queue (w (CCtl n))) as [|v qu] eqn:Eq.
      * destruct (cs_closed (w (CCtl n))) eqn:Ec; [exfalso; refine (HStep [] _ AClosed w (Hnil _ HE) eq_refl _ eq_refl _ eq_refl); [constructor|now apply W_recv_end]|].
        destruct (proj2 HRe _ _ _ HE (eq_refl : wt (ERecv (CCtl n)) AClosed = true)) as (st & H). destruct (HAsk (ERecv (CCtl n), AClosed) st Logic.I H) as [_ H1].
        split; [exact (HQ _ H1)|]. left. exists r, n. split; [reflexivity|]. split; [exact Hrc|]. split; [exact HE|]. split; assumption.
      * exfalso. refine (HStep [] _ (AMsg v) _ (Hnil _ HE) eq_refl _ _ _ eq_refl); [constructor|change (fits (CCtl n) v = true); apply HF; rewrite Eq; now left|eapply W_recv; exact Eq].
    + destruct (cs_queue (w (CCtl n))) as [|v qu] eqn:Eq.
      * destruct (cs_closed (w (CCtl n))) eqn:Ec; [exfalso; refine (HStep [] _ AClosed w (Hnil _ HE) eq_refl _ eq_refl _ eq_refl); [constructor|now apply W_try_end]|].
        destruct (proj2 HRe _ _ _ HE (eq_refl : wt (ETryRecv (CCtl n)) AEmpty = true)) as (st & H). destruct (HAsk (ETryRecv (CCtl n), AEmpty) st Logic.I H) as [-> H1].
        split; [exact (HQ _ H1)|]. right. apply (HM _ H1). intros a w3 K1 K2 K3. refine (HStep [(ETryRecv (CCtl n), AEmpty)] _ a w3 H eq_refl _ K1 K2 K3). cbn. econstructor; [now apply W_try_empty|constructor].
      * exfalso. refine (HStep [] _ (AMsg v) _ (Hnil _ HE) eq_refl _ _ _ eq_refl); [constructor|change (fits (CCtl n) v = true); apply HF; rewrite Eq; now left|eapply W_try; exact Eq].
    + exfalso. refine (HStep [] _ AOk _ (Hnil _ HE) eq_refl _ eq_refl _ eq_refl); [constructor|apply W_close].
  - destruct (HS _ _ HE HU) as (st' & H1 & [H2| ->]); [congruence|]. split; [exact (HQ _ H1)|]. right. apply (HM _ H1). intros a w3 K1 K2 K3. refine (HStep [] _ a w3 (Hnil _ HE) eq_refl _ K1 K2 K3). constructor.
Qed.

(** Buffers. *)
Lemma live_stuck c L t {Y} (p : prog Y) tr st w : live c L t p tr st -> stuck_comp c L w -> stuck_task p tr w.
Proof. intros (Ht & _ & _ & HG) HK s st' w' HX HW HB. destruct (HG _ _ HX) as (oc & HC). exact (HK t s oc w' Ht HC (wrun_by 0 t _ _ _ HW) HB). Qed.
Lemma total_control s mi mo tr e : exec (total_in_buffer s mi mo) tr (At e) -> control_eff e = true -> exists n, s = Some n /\ ((exists v, e = ESend (CSize n) v) \/ e = EClose (CSize n)).
Proof.
  intros HX He. destruct (total_reach _ _ _ _ _ HX) as (t & _ & Et & _). destruct t; cbn in Et; try discriminate Et; try (injection Et as <-; discriminate He).
  - destruct s as [n|]; [|discriminate Et]. injection Et as <-. eauto.
  - destruct s as [n|]; [|discriminate Et]. injection Et as <-. eauto.
Qed.
Lemma size_useful w n e : (exists v, e = ESend (CSize n) v) \/ e = EClose (CSize n) -> ~ full (w (CSize n)) -> exists a w3, wt e a = true /\ wstep w (e, a) w3 /\ useful (e, a) = true.
Proof.
  intros [(v & ->)| ->] Hf.
  - destruct (cs_closed (w (CSize n))) eqn:Ec; [exists AClosed, w; split; [reflexivity|]; split; [now apply W_send_closed|reflexivity]|].
    destruct (room_dec (w (CSize n))) as [Hr|Hr]; [exists AOk; eexists; split; [reflexivity|]; split; [now apply W_send|reflexivity]|]. destruct Hf. split; assumption.
  - exists AOk. eexists. split; [reflexivity|]. split; [apply W_close|reflexivity].
Qed.
Lemma buffer_follow b u mi mo L L' w w1 : let c := NBuffer b u mi mo in comp_ready (plain_comp c) -> thin L L' -> (forall i, i < 4 -> unrefused (own i L)) -> agree w1 w -> (forall n, In n (comp_monitor c) -> ~ full (w (CSize n))) ->
  comp_runs c L Going -> stuck_comp c L w -> followed c L L' w w1.
Proof.
  intros c HR HT HU HA HF HX HK. pose proof HR as (_ & pj & i & j & o & HR0). assert (HW : buffer_wired b (PlReceiver pj i) (PsIoSender j o) u mi mo) by exact HR0.
  assert (HWp : buffer_wired (Buffer (bf_stdout_size b) (bf_stdout b) (bf_stdin b) None) (PlReceiver pj i) (PsIoSender j o) u mi mo) by exact HR0.
  assert (HMon : forall n, bf_monitor b = Some n -> ~ full (w (CSize n))) by (intros n E; apply HF; cbn; rewrite E; now left).
  destruct (buffer_tasks _ _ _ _ _ _ _ HW Logic.I HX) as (sa & sb & sc & La & Lb & Lc & _).
  assert (HLo : loud L [0; 1; 2]).
  { intros t e a Ht Hin. assert (Ht' : t < 4 /\ t <> 3) by (cbn in Ht; lia). destruct (ruled_within c L Going HR HX t e a (proj1 Ht') Hin) as [H|[(n & [] & _)|(E & _)]]; [exact (may_loud _ _ _ H)|tauto]. }
  assert (HSt : forall t Y (p : prog Y) tr e a w3, live c L t p tr (At e) -> wt e a = true -> wstep w (e, a) w3 -> useful (e, a) = true -> False).
  { intros t Y p tr e a w3 HL Hw Hs Hu. destruct (live_answer _ _ _ _ _ _ a HL Hw) as (oc & HC). refine (HK t [(e, a)] oc w3 (proj1 HL) HC _ (one_brisk _ Hu)). cbn. econstructor; [exact Hs|constructor]. }
  split.
  - destruct (buffer_mirrors b pj i j o u mi mo L L' HW HLo (HU 3 ltac:(lia)) HT HX) as [(t & Y & p & tr & e & HL & He)|[H _]]; [exfalso|exact H].
    assert (HM : ruled_may c t e).
    { destruct (wt_some e) as (a & Ha). destruct (live_answer _ _ _ _ _ _ a HL Ha) as (oc & HC). eapply ruled_within; [exact HR|exact HC|exact (proj1 HL)|]. apply in_or_app. right. now left. }
    destruct HM as [H|[(n & [] & _)|(_ & n & Hn & H)]]; [rewrite (may_loud _ _ _ H) in He; discriminate He|].
    destruct (size_useful w n e H (HF n Hn)) as (a & w3 & Hw & Hs & Hu). exact (HSt _ _ _ _ _ _ _ HL Hw Hs Hu).
  - right. intros (t & s & w' & oc & Ht & HC & HWr & HBr & _). pose proof (may_by _ _ _ _ _ HR Ht HC) as HLs. destruct HC as (st & HC & _).
    destruct (buffer_parts _ _ _ _ _ _ _ _ _ HWp HC) as (xa & xb & xc & Xa & Xb & Xc & _). rewrite own_app, own_by in Xa, Xb, Xc.
    assert (O1 : own 1 L' = own 1 L) by (apply same_own; [exact HT|lia|eapply loud_one; [exact HLo|cbn; auto]]).
    assert (O2 : own 2 L' = own 2 L) by (apply same_own; [exact HT|lia|eapply loud_one; [exact HLo|cbn; auto]]).
    assert (O3 : own 3 L' = skim (own 3 L)) by (apply thin_own; [exact HT|lia]). destruct (agree_run _ _ _ HA HLs _ _ HWr) as (w3 & HW3).
    destruct t as [|[|[|[|t]]]]; [| | | |lia]; cbn [Nat.eqb] in Xa, Xb, Xc.
    + pose proof (buffer_zero _ _ _ _ _ _ _ _ HWp ltac:(discriminate) HC) as K. rewrite own_app, own_by in K. cbn in K. apply app_eq_nil in K. destruct K as [_ K]. exact (brisk_some _ HBr K).
    + rewrite O1 in Xa. exact (live_stuck _ _ _ _ _ _ _ La HK _ _ _ Xa (wrun_by _ 0 _ _ _ HW3) HBr).
    + rewrite O2 in Xb. exact (live_stuck _ _ _ _ _ _ _ Lb HK _ _ _ Xb (wrun_by _ 0 _ _ _ HW3) HBr).
    + rewrite O3 in Xc. pose proof Lc as (_ & Rc & Ec & _). cbn [bf_monitor] in Xc.
      refine (task_follow _ _ w (skims_total (bf_monitor b) mi mo) Rc s (own 3 L) w1 _ w' _ (HU 3 ltac:(lia)) (live_stuck _ _ _ _ _ _ _ Lc HK) HA _ Xc (wrun_by _ 0 _ _ _ HWr) HBr); [eauto|].
      intros tr' e HX' _ He. destruct (total_control _ _ _ _ _ HX' He) as (n & En & Hn). exact (size_useful w n e Hn (HMon n En)).
Qed.
Lemma comp_follow c L L' w w1 : comp_ready (plain_comp c) -> (forall f s, c = NFaucet f s -> fc_control f = None) -> thin L L' -> (forall i, i < 4 -> unrefused (own i L)) -> agree w1 w -> fitting w ->
  (forall n, In n (comp_monitor c) -> ~ full (w (CSize n))) -> comp_runs c L Going -> stuck_comp c L w -> followed c L L' w w1.
Proof.
  intros HR HN HT HU HA HF HM HX HK. destruct c as [f name|r|b u mi mo|j|cwd vars la|d name].
  - assert (Ep : plain_comp (NFaucet f name) = NFaucet f name) by (specialize (HN f name eq_refl); destruct f; cbn in *; now rewrite HN). rewrite Ep in HR. apply plain_follow; auto. cbn. now rewrite (HN f name eq_refl).
  - apply regulator_follow; auto. apply HU. lia.
  - apply buffer_follow; auto.
  - apply plain_follow; auto.
  - apply plain_follow; auto.
  - apply plain_follow; auto.
Qed.
