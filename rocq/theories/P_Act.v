(** * P_Act: what has to hold when a regulated pipeline has come to a standstill *)
From Coq Require Import Ascii String List Bool Arith Lia Permutation.
From Verif Require Import M_Prog P_Prog P_Exec M_Motion M_Config M_BackOff M_Utils M_Regulator M_Faucet M_Drain M_Buffer M_Junction M_Launch M_Manager M_Manip M_Waiter M_Join S_Trace S_Lines S_Motion S_World S_Launch S_Regulator S_Drain S_Buffer S_Junction S_Network S_Net M_Start S_Start S_Manip S_Waiter S_Shape S_Watch S_Delay
  P_World P_Ask P_Regulator P_Control P_Manager P_BufferJoint P_Buffer P_BufferRun P_BufferEnd P_Link P_Phase P_Conduit P_Motion P_Respond P_Network P_NetComp P_NetMoves P_Net P_NetCost P_NetDone P_Calm P_Turn P_Rounds P_Prefix P_Later P_Whole P_Shape P_Watch P_WatchRun P_WatchMarks P_Skim P_Delay P_DelayRun.
Import ListNotations.

(** ** Programs that can be regulated respond *)
Lemma resp_close_ctl ctl : responds (close_ctl ctl).
Proof. destruct ctl; [apply resp_close|apply resp_ret]. Qed.
Lemma resp_control ctl : responds (control ctl).
Proof.
  destruct ctl as [x|]; [|apply resp_ret]. unfold control. apply resp_bind; [apply resp_try_recv|]. intros tr [v| |] _; try apply resp_ret.
  apply resp_bind; [unfold recv; resp_effect|intros; apply resp_ret].
Qed.
Lemma resp_gate_turn ctl spy brk s : responds (gate_body ctl spy brk s).
Proof.
  destruct s as [[pl ps] n]. cbn. apply resp_bind; [apply resp_worker|]. intros tr [[[w|w] pl'] ps'] _.
  - destruct (wr_finished w); (apply resp_bind; [first [apply resp_close_ctl|apply resp_control]|intros; apply resp_ret]).
  - destruct w; try apply resp_ret. destruct brk; try apply resp_ret. apply resp_bind; [apply resp_control|]. intros. apply resp_ret.
Qed.
Lemma resp_gates pl spy ps ctl : busy_ends pl ps -> responds (start_secret false (Some pl) (Some ps) ctl spy).
Proof.
  intro HB. unfold start_secret. apply resp_bind.
  - apply (resp_iter _ one_push); [intros; apply resp_gate_turn|intros; eapply gate_turn; eassumption|exists ps; auto].
  - intros tr [[r pl'] ps'] _. apply resp_bind; [apply resp_drop_pushes|]. intros. apply resp_bind; [apply resp_drop_pull|]. intros. apply resp_ret.
Qed.
Lemma resp_faucets f name ps spy : faucet_ready f name ps -> responds (faucet_start f spy).
Proof.
  intros (H1 & H2 & H3 & H4 & H5). unfold faucet_start. apply resp_bind.
  - unfold faucet_source. destruct (fc_pull_journey f); [|apply resp_ret]. destruct (fc_read_location f); [|apply resp_ret]. destruct (string_dec _ _); resp_effect.
  - intros tr [pl|e] HX; [|apply resp_ret]. rewrite H1, H3. apply resp_gates. unfold faucet_source in HX. rewrite H2 in HX. destruct (fc_pull_journey f); [|contradiction].
    destruct (string_dec _ _); apply exec_vis_inv in HX; destruct HX as [[_ HX]|(a & tr' & _ & Hw & HX)]; try discriminate HX; destruct a; try discriminate Hw; apply exec_ret_inv in HX; destruct HX as [_ HX]; try discriminate HX; injection HX as ->; exact H4.
Qed.
Lemma resp_regulators r pj i ps spy : regulator_ready r (PlReceiver pj i) ps -> responds (regulator_start r spy).
Proof. intros (H1 & H2 & H3 & H4 & _). unfold regulator_start. rewrite H1, H2, H3. apply resp_gates. exact Logic.I. Qed.

Lemma resp_poll ms : forall i rm tot rd, responds (poll_monitors ms i rm tot rd).
Proof.
  induction ms as [|m ms IH]; intros; cbn [poll_monitors]; [apply resp_ret|]. apply resp_bind; [apply resp_try_recv|]. intros tr [v| |] _.
  - destruct v; try apply resp_panic. apply resp_bind; [apply IH|]. intros t [[[a b] c] d] _. apply resp_ret.
  - apply resp_bind; [apply IH|]. intros t [[[a b] c] d] _. apply resp_ret.
  - apply resp_bind; [apply IH|]. intros t [[[a b] c] d] _. apply resp_ret.
Qed.
Lemma resp_remove idx : forall ms, responds (remove_monitors idx ms).
Proof.
  induction idx as [|i idx IH]; intro ms; cbn [remove_monitors]; [apply resp_ret|]. destruct (vec_remove i ms) as [[m|] ms']; [|apply resp_panic]. apply resp_bind; [apply resp_close|]. intros. apply IH.
Qed.
Lemma resp_pause_if b c s : responds (pause_if b c s).
Proof.
  unfold pause_if, rc_pause. destruct b; [|apply resp_ret]. apply resp_bind; [|intros tr [x y] _; apply resp_ret]. destruct (rc_paused c); [apply resp_ret|]. apply resp_bind; [apply resp_send|]. intros. apply resp_ret.
Qed.
Lemma resp_resume_if b c s : responds (resume_if b c s).
Proof.
  unfold resume_if, rc_resume. destruct b; [|apply resp_ret]. apply resp_bind; [|intros tr [x y] _; apply resp_ret]. destruct (negb _); [apply resp_ret|]. apply resp_bind; [apply resp_send|]. intros. apply resp_ret.
Qed.
Lemma resp_manage low high s : responds (manage_body low high s).
Proof.
  unfold manage_body. apply resp_bind; [apply resp_poll|]. intros t1 [[[ms1 rm] tot] rd] _. apply resp_bind; [apply resp_pause_if|]. intros t2 [c1 s1] _. apply resp_bind; [apply resp_resume_if|]. intros t3 [c2 s2] _.
  apply resp_bind; [apply resp_remove|]. intros t4 [|m ms2] _; [apply resp_bind; [apply resp_close|]; intros; apply resp_ret|]. destruct (rd =? 0); [|apply resp_ret].
  apply resp_bind; [unfold back_off_wait; apply resp_bind; [apply resp_sleep|]; intros; apply resp_ret|]. intros t5 [x y] _. apply resp_ret.
Qed.
Lemma manage_turn low high s tr s' : exec (manage_body low high s) tr (Done (inl s')) -> tr <> [].
Proof.
  intros HX ->. unfold manage_body in HX. apply exec_bind_nil in HX. destruct HX as ([[[ms1 rm] tot] rd] & H1 & HX). apply exec_bind_nil in HX. destruct HX as ([c1 s1] & _ & HX). apply exec_bind_nil in HX. destruct HX as ([c2 s2] & _ & HX).
  apply exec_bind_nil in HX. destruct HX as (ms2 & H4 & HX). destruct (ms_monitors s) as [|m ms].
  - cbn [poll_monitors] in H1. apply exec_ret_inv in H1. destruct H1 as [_ H1]. injection H1 as -> -> -> ->. cbn [rev remove_monitors] in H4. apply exec_ret_inv in H4. destruct H4 as [_ H4]. injection H4 as ->.
    apply exec_bind_nil in HX. destruct HX as (u & HX & _). exact (vis_not_nil _ _ _ HX).
  - cbn [poll_monitors] in H1. apply exec_bind_nil in H1. destruct H1 as (u & H1 & _). exact (vis_not_nil _ _ _ H1).
Qed.
Lemma resp_controller cp : responds (controller cp).
Proof.
  unfold controller. apply resp_bind; [|intros; apply resp_ret]. unfold manage_regulator. apply (resp_iter _ (fun _ => True)); [intros; apply resp_manage| |exact Logic.I].
  intros i tr i' _ HX. split; [exact Logic.I|]. exact (manage_turn _ _ _ _ _ HX).
Qed.

(** ** From the run without regulation back to the run with it *)
Lemma thin_unsplit L : forall A' B', thin L (A' ++ B') -> exists A B, L = A ++ B /\ thin A A' /\ thin B B'.
Proof.
  induction L as [|x L IH]; intros A' B' H.
  - inversion H as [E1 E2| |]. symmetry in E2. apply app_eq_nil in E2. destruct E2 as [-> ->]. exists [], []. split; [reflexivity|split; constructor].
  - destruct A' as [|y A']; [exists [], (x :: L); split; [reflexivity|split; [constructor|exact H]]|]. inversion H as [|i e a M M' He HT|i e a M M' He HT]; subst.
    + destruct (IH _ _ HT) as (A & B & -> & H1 & H2). exists ((i, (e, a)) :: A), B. split; [reflexivity|]. split; [now constructor|exact H2].
    + destruct (IH (y :: A') B' HT) as (A & B & -> & H1 & H2). exists ((i, (e, a)) :: A), B. split; [reflexivity|]. split; [now apply T_drop|exact H2].
Qed.
Lemma thin_app A A' B B' : thin A A' -> thin B B' -> thin (A ++ B) (A' ++ B').
Proof. induction 1; intro H2; cbn [app]; [exact H2|constructor; auto|apply T_drop; auto]. Qed.
Lemma thin_wake L L' is : thin L L' -> (forall i, In i is -> i < 4) -> loud L is -> idle is L' -> idle is L.
Proof. intros H Hi HL HI i Hin. rewrite <- (same_own _ _ i H (Hi i Hin) (loud_one _ _ _ HL Hin)). exact (HI i Hin). Qed.
Lemma loud_sub L is js : loud L is -> (forall i, In i js -> In i is) -> loud L js.
Proof. intros H HS i e a Hi. apply H. auto. Qed.

Lemma joined_thick {X A B C R} pre p1 p2 p3 post L L' (st : jstatus A B C R) : loud L [0; 1; 2; 3] -> thin L L' -> @joined X A B C R pre p1 p2 p3 post L' st -> joined pre p1 p2 p3 post L st.
Proof.
  assert (I3 : forall i, In i [1; 2; 3] -> i < 4) by (cbn; intros; lia). assert (I0 : forall i, In i [0] -> i < 4) by (cbn; intros; lia).
  assert (S3 : forall i, In i [1; 2; 3] -> In i [0; 1; 2; 3]) by (cbn; intros; tauto). assert (S0 : forall i, In i [0] -> In i [0; 1; 2; 3]) by (cbn; intros; tauto).
  assert (J0 : In 0 [0; 1; 2; 3]) by (cbn; auto). assert (J1 : In 1 [0; 1; 2; 3]) by (cbn; auto). assert (J2 : In 2 [0; 1; 2; 3]) by (cbn; auto). assert (J3 : In 3 [0; 1; 2; 3]) by (cbn; auto).
  assert (O : forall i M M', In i [0; 1; 2; 3] -> thin M M' -> loud M [0; 1; 2; 3] -> own i M = own i M') by (intros i M M' Hi HT HL; symmetry; apply same_own; [exact HT|cbn in Hi; lia|eapply loud_one; eassumption]).
  assert (W3 : forall M M', thin M M' -> loud M [0; 1; 2; 3] -> idle [1; 2; 3] M' -> idle [1; 2; 3] M) by (intros M M' HT HL; eapply thin_wake; [exact HT|exact I3|eapply loud_sub; eassumption]).
  assert (W0 : forall M M', thin M M' -> loud M [0; 1; 2; 3] -> idle [0] M' -> idle [0] M) by (intros M M' HT HL; eapply thin_wake; [exact HT|exact I0|eapply loud_sub; eassumption]).
  intros HL HT HX. destruct HX as [L' e Hi HX|L' s Hi HX|L' r Hi HX|L0 L' x a b c K0 K1 HX HA HB HZ|L0 L' L1 x a b c st K0 K1 K2 HX HA HB HZ HF].
  - apply J_before_at; [eapply W3; eassumption|]. now rewrite (O 0 _ _ J0 HT HL).
  - apply J_before_panic; [eapply W3; eassumption|]. now rewrite (O 0 _ _ J0 HT HL).
  - apply J_before_done; [eapply W3; eassumption|]. now rewrite (O 0 _ _ J0 HT HL).
  - destruct (thin_unsplit _ _ _ HT) as (M0 & M1 & -> & T0 & T1). apply loud_app in HL. destruct HL as [HL0 HL1].
    apply (J_during _ _ _ _ _ _ _ x); [eapply W3; eassumption|eapply W0; eassumption|..].
    + now rewrite (O 0 _ _ J0 T0 HL0).
    + now rewrite (O 1 _ _ J1 T1 HL1).
    + now rewrite (O 2 _ _ J2 T1 HL1).
    + now rewrite (O 3 _ _ J3 T1 HL1).
  - destruct (thin_unsplit _ _ _ HT) as (M0 & M12 & -> & T0 & T12). destruct (thin_unsplit _ _ _ T12) as (M1 & M2 & -> & T1 & T2). apply loud_app in HL. destruct HL as [HL0 HL]. apply loud_app in HL. destruct HL as [HL1 HL2].
    apply (J_after _ _ _ _ _ _ _ _ x a b c); [eapply W3; eassumption|eapply W0; eassumption|eapply W3; eassumption|..].
    + now rewrite (O 0 _ _ J0 T0 HL0).
    + now rewrite (O 1 _ _ J1 T1 HL1).
    + now rewrite (O 2 _ _ J2 T1 HL1).
    + now rewrite (O 3 _ _ J3 T1 HL1).
    + now rewrite (O 0 _ _ J0 T2 HL2).
Qed.
Lemma alone_thick p L L' st : loud L [0; 1; 2; 3] -> thin L L' -> alone p L' st -> alone p L st.
Proof.
  intros HL HT (HI & s & E & HX). split; [eapply thin_wake; [exact HT|cbn; intros; lia|eapply loud_sub; [exact HL|cbn; tauto]|exact HI]|]. exists s. split; [exact E|].
  rewrite <- (same_own _ _ 0 HT); [exact HX|lia|eapply loud_one; [exact HL|now left]].
Qed.

(** A component that goes on stands before something that has to do with regulation, or stands where it would stand without it; what it would do next then, it may do next. *)
Lemma exec_wt {A} (p : prog A) tr st : exec p tr st -> forall e a, In (e, a) tr -> wt e a = true.
Proof. induction 1 as [x|x|e k|p tr st HX IH|e k x tr st Hw HX IH]; intros e' a' Hin; try contradiction Hin; [now apply IH|]. destruct Hin as [E|Hin]; [injection E as -> ->; exact Hw|now apply IH]. Qed.
Definition held_up (c : comp) (L : list nevent) : Prop := exists t Y (p : prog Y) tr e, live c L t p tr (At e) /\ control_eff e = true.
Definition mirrors (c : comp) (L L' : list nevent) : Prop :=
  comp_runs (plain_comp c) L' Going /\ forall t e a oc, t < 4 -> comp_runs (plain_comp c) (L' ++ [(t, (e, a))]) oc -> exists oc', comp_runs c (L ++ [(t, (e, a))]) oc'.

Lemma alone_mirrors c p q L L' : skims p q eq -> responds p -> unrefused (own 0 L) -> thin L L' ->
  (forall L oc, comp_runs c L oc <-> exists st, alone p L st /\ oc = outcome_of st) -> (forall L oc, comp_runs (plain_comp c) L oc <-> exists st, alone q L st /\ oc = outcome_of st) ->
  comp_runs c L Going -> held_up c L \/ mirrors c L L'.
Proof.
  intros HS HR HU HT HP HQ HX. apply HP in HX. destruct HX as (st & HA & Hg). pose proof HA as (HI & s & -> & HX). destruct s as [e|r|m]; try discriminate Hg.
  destruct (control_eff e) eqn:Ee.
  - left. destruct (alone_live c p L (Before (At e)) e) as (e' & HL); [intros M st HM; apply HP; eauto|exact HR|exact HA|reflexivity|now left|].
    exists 0, (mres nat), p, (own 0 L), e'. split; [exact HL|]. destruct HL as (_ & _ & HE & _). pose proof (exec_det _ _ _ HE _ HX) as E. injection E as ->. exact Ee.
  - right. destruct (HS _ _ HX HU) as (st' & HX' & [K| ->]); [congruence|]. split.
    + apply HQ. exists (Before (At e)). split; [|reflexivity]. split; [eapply thin_idle; [exact HT|cbn; intros; lia|exact HI]|]. exists (At e). split; [reflexivity|]. now rewrite (thin_own _ _ 0 HT) by lia.
    + intros t e' a oc Ht HC. apply HQ in HC. destruct HC as (st & (HI' & s & -> & HY) & _).
      assert (t = 0) as -> by (destruct (Nat.eq_dec t 0); [assumption|]; assert (K : In t [1; 2; 3]) by (cbn; lia); specialize (HI' t K); rewrite own_app in HI'; apply app_eq_nil in HI'; destruct HI' as [_ HI']; unfold own in HI'; cbn in HI'; rewrite Nat.eqb_refl in HI'; discriminate HI').
      rewrite own_app, (thin_own _ _ 0 HT) in HY by lia. cbn in HY. pose proof (exec_prefix _ _ _ HY _ _ _ _ eq_refl) as HZ. pose proof (exec_det _ _ _ HZ _ HX') as E. injection E as ->.
      assert (Hw : wt e a = true) by (apply (exec_wt _ _ _ HY); apply in_or_app; right; now left).
      destruct (proj2 HR _ _ _ HX Hw) as (st & HN). exists (outcome_of (Before st : standing)). apply HP. exists (Before st). split; [|reflexivity]. split.
      * change [(0, (e, a))] with (by_task 0 [(e, a)]). apply idle_by; [exact HI|cbn; lia].
      * exists st. split; [reflexivity|]. rewrite own_app. exact HN.
Qed.

Lemma own_last L t ev i : own i (L ++ [(t, ev)]) = if t =? i then own i L ++ [ev] else own i L.
Proof. rewrite own_app. unfold own at 2. cbn [filter fst]. destruct (t =? i); [reflexivity|apply app_nil_r]. Qed.
Lemma live_next c L t {Y} (p : prog Y) tr st e a st' : live c L t p tr st -> exec p (tr ++ [(e, a)]) st' -> exists oc, comp_runs c (L ++ [(t, (e, a))]) oc.
Proof. intros (_ & _ & _ & HG) HX. exact (HG [(e, a)] st' HX). Qed.
Lemma live_answer c L t {Y} (p : prog Y) tr e a : live c L t p tr (At e) -> wt e a = true -> exists oc, comp_runs c (L ++ [(t, (e, a))]) oc.
Proof. intros HL Hw. pose proof HL as (_ & HR & HX & _). destruct (proj2 HR _ _ _ HX Hw) as (st & K). exact (live_next _ _ _ _ _ _ _ _ _ HL K). Qed.

Lemma buffer_mirrors b pj i j o u mi mo L L' : let c := NBuffer b u mi mo in buffer_wired b (PlReceiver pj i) (PsIoSender j o) u mi mo -> loud L [0; 1; 2] -> unrefused (own 3 L) -> thin L L' -> comp_runs c L Going -> held_up c L \/ mirrors c L L'.
Proof.
  intros c HW HL HU HT HX. destruct (buffer_tasks _ _ _ _ _ _ _ HW Logic.I HX) as (sa & sb & sc & La & Lb & Lc & Na & Nb & Nc & Nall).
  assert (HE : (exists e, sc = At e /\ control_eff e = true) \/ forall e, sc = At e -> control_eff e = false).
  { destruct sc as [e|r|m]; [|right; discriminate|right; discriminate]. destruct (control_eff e) eqn:Ee; [left; eauto|right]. intros e' E. congruence. }
  destruct HE as [(e & -> & Ee)|HE]; [left; exists 3; do 3 eexists; exists e; split; [exact Lc|exact Ee]|right].
  pose proof Lc as (_ & Rc & Xc & _). destruct (skims_total _ _ _ _ _ Xc HU) as (sc' & Xc' & Sc).
  assert (Es : sc' = sc) by (destruct sc as [e|r|m]; cbn in Sc; [destruct Sc as [Sc|Sc]; [rewrite (HE e eq_refl) in Sc; discriminate Sc|exact Sc]|destruct Sc as (r' & -> & <-); reflexivity|exact Sc]). subst sc'.
  assert (O1 : own 1 L' = own 1 L) by (apply same_own; [exact HT|lia|eapply loud_one; [exact HL|cbn; auto]]).
  assert (O2 : own 2 L' = own 2 L) by (apply same_own; [exact HT|lia|eapply loud_one; [exact HL|cbn; auto]]).
  assert (O3 : own 3 L' = skim (own 3 L)) by (apply thin_own; [exact HT|lia]).
  split.
  - destruct (buffer_thin b pj i j o u mi mo L L' Going HW HL HU HT HX) as (oc' & (st' & HX' & HM' & E') & _).
    assert (HW' : buffer_wired (Buffer (bf_stdout_size b) (bf_stdout b) (bf_stdin b) None) (PlReceiver pj i) (PsIoSender j o) u mi mo) by exact HW.
    exists st'. split; [exact HX'|]. split; [exact HM'|].
    destruct (buffer_parts _ _ _ _ _ _ _ _ _ HW' HX') as (xa & xb & xc & Ya & Yb & Yc & HS).
    rewrite O1 in Ya. rewrite O2 in Yb. rewrite O3 in Yc. pose proof (exec_det _ _ _ Ya _ (proj1 (proj2 (proj2 La)))) as E1. pose proof (exec_det _ _ _ Yb _ (proj1 (proj2 (proj2 Lb)))) as E2. pose proof (exec_det _ _ _ Yc _ Xc') as E3. subst xa xb xc.
    destruct st' as [s|a b0 c0|s]; [destruct HS|destruct HS as (<- & <- & <-)|destruct HS as (ra & rb & rc & -> & -> & -> & ->); exfalso; apply Nall; eauto 8].
    destruct sa as [ea|ra|ma]; [| |destruct (Na ma eq_refl)]; (destruct sb as [eb|rb|mb]; [| |destruct (Nb mb eq_refl)]); (destruct sc as [ec|rc|mc]; [| |destruct (Nc mc eq_refl)]); reflexivity.
  - intros t e a oc Ht (st' & HX' & _).
    assert (HW' : buffer_wired (Buffer (bf_stdout_size b) (bf_stdout b) (bf_stdin b) None) (PlReceiver pj i) (PsIoSender j o) u mi mo) by exact HW.
    destruct (buffer_parts _ _ _ _ _ _ _ _ _ HW' HX') as (xa & xb & xc & Ya & Yb & Yc & _). rewrite own_last in Ya, Yb, Yc.
    destruct t as [|[|[|[|t]]]]; [exfalso| | | |lia].
    + pose proof (buffer_zero _ _ _ _ _ _ _ _ HW' ltac:(discriminate) HX') as K. rewrite own_last in K. cbn in K. apply app_eq_nil in K. destruct K as [_ K]. discriminate K.
    + cbn [Nat.eqb] in Ya. rewrite O1 in Ya. exact (live_next _ _ _ _ _ _ _ _ _ La Ya).
    + cbn [Nat.eqb] in Yb. rewrite O2 in Yb. exact (live_next _ _ _ _ _ _ _ _ _ Lb Yb).
    + cbn [Nat.eqb] in Yc. rewrite O3 in Yc. pose proof (exec_prefix _ _ _ Yc _ _ _ _ eq_refl) as HZ. pose proof (exec_det _ _ _ HZ _ Xc') as E. subst sc. apply (live_answer _ _ _ _ _ _ _ Lc). apply (exec_wt _ _ _ Yc). apply in_or_app. right. now left.
Qed.
Lemma comp_mirrors c L L' : comp_ready (plain_comp c) -> thin L L' -> (forall i, i < 4 -> unrefused (own i L)) -> comp_runs c L Going -> held_up c L \/ mirrors c L L'.
Proof.
  intros HR HT HU HX. pose proof (ruled_within c L Going HR HX) as HM.
  assert (HL : comp_control c = [] -> comp_monitor c = [] -> loud L [0; 1; 2; 3]).
  { intros E1 E2 i e a Hi Hin. assert (Hi' : i < 4) by (cbn in Hi; lia). destruct (HM i e a Hi' Hin) as [H|[(n & H & _)|(_ & n & H & _)]]; [exact (may_loud _ _ _ H)|rewrite E1 in H; destruct H|rewrite E2 in H; destruct H]. }
  assert (HM' : plain_comp c = c -> forall t e a oc, t < 4 -> comp_runs c (L' ++ [(t, (e, a))]) oc -> thin (L ++ [(t, (e, a))]) (L' ++ [(t, (e, a))]) /\ (loud L [0; 1; 2; 3] -> loud (L ++ [(t, (e, a))]) [0; 1; 2; 3])).
  { intros Ep t e a oc Ht HC. rewrite Ep in HR. assert (He : control_eff e = false) by (apply (may_loud c t); eapply comp_within; [exact HR|exact HC|exact Ht|apply in_or_app; right; now left]).
    split; [apply thin_app; [exact HT|]; apply T_keep; [auto|constructor]|]. intros HLo t' e' a' Ht' Hin. apply in_app_or in Hin. destruct Hin as [Hin|[E|[]]]; [eapply HLo; eassumption|congruence]. }
  destruct c as [f name|r|b u mi mo|j|cwd vars la|d name]; cbn [plain_comp] in *.
  - destruct HR as (_ & j & o & HR). assert (HR' : faucet_ready f name (PsIoSender j o)) by exact HR.
    refine (alone_mirrors _ _ _ _ _ (skims_faucet f name _ None HR') (resp_faucets _ _ _ _ HR') (HU 0 ltac:(lia)) HT _ _ HX); intros; reflexivity.
  - destruct HR as (_ & pj & i & j & o & HR). assert (HR' : regulator_ready r (PlReceiver pj i) (PsIoSender j o)) by exact HR.
    refine (alone_mirrors _ _ _ _ _ (skims_regulator r pj i _ None HR') (resp_regulators _ _ _ _ _ HR') (HU 0 ltac:(lia)) HT _ _ HX); intros; reflexivity.
  - destruct HR as (_ & pj & i & j & o & HR). assert (HR' : buffer_wired b (PlReceiver pj i) (PsIoSender j o) u mi mo) by exact HR. eapply buffer_mirrors; [exact HR'| |exact (HU 3 ltac:(lia))|exact HT|exact HX].
    intros t e a Ht Hin. assert (Ht' : t < 4 /\ t <> 3) by (cbn in Ht; lia). destruct (HM t e a (proj1 Ht') Hin) as [H|[(n & [] & _)|(E & _)]]; [exact (may_loud _ _ _ H)|tauto].
  - right. specialize (HL eq_refl eq_refl). split.
    + destruct HX as (st & (HI & s & -> & HX) & Hg). exists (Before s). split; [|exact Hg]. split; [eapply thin_idle; [exact HT|cbn; intros; lia|exact HI]|]. exists s. split; [reflexivity|]. rewrite (same_own _ _ 0 HT); [exact HX|lia|]. eapply loud_one; [exact HL|cbn; auto].
    + intros t e a oc Ht HC. destruct (HM' eq_refl t e a oc Ht HC) as [K1 K2]. destruct HC as (st & HC & _). exists (outcome_of st), st. split; [|reflexivity]. exact (alone_thick _ _ _ _ (K2 HL) K1 HC).
  - right. specialize (HL eq_refl eq_refl). split.
    + destruct HX as (st & HX & Hm & Hg). exists st. split; [|auto]. unfold launch_start in *. eapply joined_thin; [exact HL|exact HT|exact HX].
    + intros t e a oc Ht HC. destruct (HM' eq_refl t e a oc Ht HC) as [K1 K2]. destruct HC as (st & HC & Hm & _). exists (outcome_of st), st. split; [|auto]. unfold launch_start in *. eapply joined_thick; [exact (K2 HL)|exact K1|exact HC].
  - right. specialize (HL eq_refl eq_refl). split.
    + destruct HX as (st & (HI & s & -> & HX) & Hg). exists (Before s). split; [|exact Hg]. split; [eapply thin_idle; [exact HT|cbn; intros; lia|exact HI]|]. exists s. split; [reflexivity|]. rewrite (same_own _ _ 0 HT); [exact HX|lia|]. eapply loud_one; [exact HL|cbn; auto].
    + intros t e a oc Ht HC. destruct (HM' eq_refl t e a oc Ht HC) as [K1 K2]. destruct HC as (st & HC & _). exists (outcome_of st), st. split; [|reflexivity]. exact (alone_thick _ _ _ _ (K2 HL) K1 HC).
Qed.

(** ** One more step *)
Lemma either_all {A} (P Q : nat -> A -> Prop) xs : (forall k x, nth_error xs k = Some x -> P k x \/ Q k x) -> (exists k x, nth_error xs k = Some x /\ P k x) \/ forall k x, nth_error xs k = Some x -> Q k x.
Proof.
  revert P Q. induction xs as [|y xs IH]; intros P Q H; [right; intros [|k] x E; discriminate E|].
  destruct (H 0 y eq_refl) as [H0|H0]; [left; exists 0, y; auto|].
  destruct (IH (fun k => P (S k)) (fun k => Q (S k)) (fun k x E => H (S k) x E)) as [(k & x & E & K)|K]; [left; exists (S k), x; auto|right]. intros [|k] x E; [injection E as <-; exact H0|now apply K].
Qed.

Section Act.
Variables (net : list comp) (cs : list capture) (w0 : world) (l : list nevent) (w : world) (ocs : nat -> S_Net.outcome).
Hypothesis HN : net_wired (map plain_comp net).
Hypothesis HO : overseen net cs.
Hypothesis HX : free_run net cs w0 l w ocs.

Lemma act_comp k c t e a oc w1 : nth_error net k = Some c -> t < 4 -> comp_runs c (seen_by k l ++ [(t, (e, a))]) oc -> wstep w (e, a) w1 -> exists ocs1, free_run net cs w0 (l ++ [(4 * k + t, (e, a))]) w1 ocs1.
Proof.
  intros Hk Ht HC HS. assert (Hlt : k < length net) by (apply nth_error_Some; congruence). exists (fun i => if i =? k then oc else ocs i).
  change [(4 * k + t, (e, a))] with (by_task (4 * k + t) [(e, a)]). constructor.
  - intros i ci Hi. rewrite seen_app. destruct (Nat.eqb_spec i k) as [->|Hne].
    + rewrite seen_mine by exact Ht. now replace ci with c by congruence.
    + apply comp_foreign; [now apply (fr_comps _ _ _ _ _ _ HX)|]. apply seen_theirs; assumption.
  - intros m cp Hm. destruct (fr_controllers _ _ _ _ _ _ HX _ _ Hm) as (st & H1 & H2). exists st. rewrite own_app, own_by. destruct (Nat.eqb_spec (4 * k + t) (4 * (length net + m))) as [E|_]; [lia|]. rewrite app_nil_r. split; [exact H1|].
    destruct (Nat.eqb_spec (length net + m) k); [lia|exact H2].
  - apply wrun_app. exists w. split; [apply (fr_world _ _ _ _ _ _ HX)|]. econstructor; [exact HS|constructor].
  - intros i ev Hin. apply in_app_or in Hin. destruct Hin as [Hin|[E|[]]]; [now apply (fr_only _ _ _ _ _ _ HX _ _ Hin)|]. injection E as <- <-. apply (in_order_comp net cs k c); [exact Hk|].
    destruct c; cbn [comp_tasks]; cbn [In]; try (destruct t as [|[|[|[|t]]]]; lia).
    all: destruct HC as (st & (HI & _) & _); destruct (Nat.eq_dec t 0) as [->|Hn]; [left; lia|exfalso]; assert (K : In t [1; 2; 3]) by (cbn; lia); specialize (HI t K); rewrite own_last, Nat.eqb_refl in HI; apply app_eq_nil in HI; destruct HI as [_ HI]; discriminate HI.
  - exact (fr_made _ _ _ _ _ _ HX).
Qed.
Lemma act_controller m cp e a w1 : nth_error cs m = Some cp -> exec (controller cp) (controller_of net m l) (At e) -> wt e a = true -> wstep w (e, a) w1 ->
  exists ocs1, free_run net cs w0 (l ++ [(4 * (length net + m), (e, a))]) w1 ocs1.
Proof.
  intros Hm HE Hw HS. assert (Hlt : m < length cs) by (apply nth_error_Some; congruence). destruct (proj2 (resp_controller cp) _ _ _ HE Hw) as (st & HE').
  exists (fun i => if i =? length net + m then outcome_of (A := mres nat) (B := mres nat) (C := option nat) (Before st) else ocs i).
  assert (EB : [(4 * (length net + m), (e, a))] = by_task (4 * (length net + m) + 0) [(e, a)]) by (cbn [by_task map]; now rewrite Nat.add_0_r). constructor.
  - intros i ci Hi. assert (i < length net) by (apply nth_error_Some; congruence). destruct (Nat.eqb_spec i (length net + m)); [lia|]. rewrite seen_app. apply comp_foreign; [now apply (fr_comps _ _ _ _ _ _ HX)|]. rewrite EB. apply seen_theirs; lia.
  - intros m' cp' Hm'. rewrite own_last. destruct (Nat.eqb_spec (length net + m') (length net + m)) as [E|Hne].
    + assert (m' = m) by lia. subst m'. rewrite Nat.eqb_refl. replace cp' with cp by congruence. exists st. split; [exact HE'|reflexivity].
    + destruct (Nat.eqb_spec (4 * (length net + m)) (4 * (length net + m'))) as [E|_]; [lia|]. exact (fr_controllers _ _ _ _ _ _ HX _ _ Hm').
  - apply wrun_app. exists w. split; [apply (fr_world _ _ _ _ _ _ HX)|]. econstructor; [exact HS|constructor].
  - intros i ev Hin. apply in_app_or in Hin. destruct Hin as [Hin|[E|[]]]; [now apply (fr_only _ _ _ _ _ _ HX _ _ Hin)|]. injection E as <- <-. unfold poll_order. apply in_or_app. right. apply in_or_app. right. apply in_or_app. right. apply in_or_app. left.
    unfold controller_tasks. apply in_map_iff. exists (length net + m). split; [reflexivity|]. apply in_seq. lia.
  - exact (fr_made _ _ _ _ _ _ HX).
Qed.

Lemma free_fitting : fitting w.
Proof.
  eapply fitting_run; [apply (fr_world _ _ _ _ _ _ HX)| |].
  - intros c v Hv. destruct (mw_new _ _ (fr_made _ _ _ _ _ _ HX) c) as (cap & E). rewrite E in Hv. destruct Hv.
  - intros i c v a Hin. pose proof Hin as Hin0. destruct (who_may _ _ _ _ _ _ HN HO HX _ _ _ Hin) as [(cm & Hc & Ht & [H|[(n' & Hn' & [H|[H|H]])|(E3 & n & Hn & [(v' & H)|H])]])|(m' & c' & -> & Hm' & H)]; try discriminate H.
    + destruct c; try contradiction H; destruct v; try contradiction H; reflexivity.
    + injection H as -> <-. pose proof (fr_comps _ _ _ _ _ _ HX _ _ Hc) as HC. pose proof (ready_of _ HN _ (nth_error_In _ _ Hc)) as HR. destruct cm as [f name|r|b u mi mo|j|cwd vars la|d name]; cbn in Hn; try contradiction Hn.
      cbn [plain_comp comp_ready] in HR. destruct HR as (_ & pj & ii & j & o & HR). assert (HR' : buffer_wired b (PlReceiver pj ii) (PsIoSender j o) u mi mo) by exact HR.
      destruct HC as (st & HC & _). destruct (buffer_parts _ _ _ _ _ _ _ _ _ HR' HC) as (sa & sb & sc & _ & _ & Hc3 & _). destruct (bf_monitor b) as [s|]; [|destruct Hn].
      assert (Hin3 : In (ESend (CSize n) v, a) (own 3 (seen_by (i / 4) l))) by (rewrite own_seen by lia; apply in_own; replace (4 * (i / 4) + 3) with i by (pose proof (Nat.div_mod i 4 ltac:(lia)); lia); exact Hin0).
      apply in_split in Hin3. destruct Hin3 as (h1 & h2 & Eh). rewrite Eh in Hc3. pose proof (exec_prefix _ _ _ Hc3 _ _ _ _ eq_refl) as HP. destruct (total_reach _ _ _ _ _ HP) as (t & _ & Et & _). destruct t; cbn in Et; try discriminate Et. injection Et as _ <-. reflexivity.
    + cbn in H. destruct c; try contradiction H. destruct (fr_controllers _ _ _ _ _ _ HX _ _ Hm') as (st & Y & _). apply in_own in Hin0. apply in_split in Hin0. destruct Hin0 as (h1 & h2 & Eh). rewrite Eh in Y.
      pose proof (controller_manages _ _ _ (exec_prefix _ _ _ Y _ _ _ _ eq_refl)) as Y'. pose proof (nth_error_In _ _ Hm') as Hi0. rewrite (unpaused c' (ov_running _ _ HO _ Hi0)) in Y'. destruct (manager_signal _ _ _ _ (monitors_once _ _ HO _ Hi0) _ _ _ Y') as (_ & -> & _). reflexivity.
Qed.

(** ** Nobody does anything any more *)
Hypothesis HK : whole_locked net cs w0 l.
Lemma still_comp k c t e a oc w1 : nth_error net k = Some c -> t < 4 -> comp_runs c (seen_by k l ++ [(t, (e, a))]) oc -> wstep w (e, a) w1 -> False.
Proof. intros Hk Ht HC HS. destruct (act_comp k c t e a oc w1 Hk Ht HC HS) as (ocs1 & H). discriminate (HK _ _ _ H). Qed.
Lemma still_controller m cp e a w1 : nth_error cs m = Some cp -> exec (controller cp) (controller_of net m l) (At e) -> wt e a = true -> wstep w (e, a) w1 -> False.
Proof. intros Hm HE Hw HS. destruct (act_controller m cp e a w1 Hm HE Hw HS) as (ocs1 & H). discriminate (HK _ _ _ H). Qed.

(** A controller has ended or cannot tell. *)
Lemma controller_still m cp : nth_error cs m = Some cp ->
  (exists n, exec (manage_regulator (cp_low cp) (cp_high cp) (cp_control cp) (cp_monitors cp)) (controller_of net m l) (Done n)) \/
  (exec (controller cp) (controller_of net m l) (At (ESend (CCtl (rc_control (cp_control cp))) VUnit)) /\ full (w (CCtl (rc_control (cp_control cp))))).
Proof.
  intro Hm. pose proof (nth_error_In _ _ Hm) as Hi0. destruct (fr_controllers _ _ _ _ _ _ HX _ _ Hm) as (st & HE & _). fold (controller_of net m l) in HE. destruct st as [e|r|s].
  - pose proof (controller_manages _ _ _ HE) as Y. rewrite (unpaused cp (ov_running _ _ HO _ Hi0)) in Y. pose proof (manager_effects _ _ _ _ (monitors_once _ _ HO _ Hi0) _ _ Y) as HM.
    destruct e as [|[]|[] []|[]| | | | | | |ms| | | | | | |]; try contradiction HM.
    + exfalso. destruct (cs_queue (w (CSize n))) as [|v q] eqn:Eq.
      * destruct (cs_closed (w (CSize n))) eqn:Ec; [eapply still_controller with (a := AClosed)|eapply still_controller with (a := AEmpty)]; try exact Hm; try exact HE; try reflexivity; [now apply W_try_end|now apply W_try_empty].
      * eapply still_controller with (a := AMsg v); [exact Hm|exact HE|change (fits (CSize n) v = true); apply free_fitting; rewrite Eq; now left|eapply W_try; exact Eq].
    + right. subst n. split; [exact HE|]. set (x := rc_control (cp_control cp)) in *. destruct (cs_closed (w (CCtl x))) eqn:Ec.
      * exfalso. eapply still_controller with (a := AClosed); [exact Hm|exact HE|reflexivity|now apply W_send_closed].
      * split; [exact Ec|]. intro Hr. eapply still_controller with (a := AOk); [exact Hm|exact HE|reflexivity|now apply W_send].
    + exfalso. eapply still_controller with (a := AOk); [exact Hm|exact HE|reflexivity|apply W_close].
    + exfalso. eapply still_controller with (a := AOk); [exact Hm|exact HE|reflexivity|apply W_close].
    + exfalso. eapply still_controller with (a := AOk); [exact Hm|exact HE|reflexivity|apply W_other; reflexivity].
  - left. unfold controller in HE. apply exec_bind_inv in HE. destruct HE as [(t1 & t2 & n & E & H1 & H2)|[(e' & E & _)|(s & E & _)]]; try discriminate E. apply exec_ret_inv in H2. destruct H2 as [-> _]. rewrite app_nil_r in E. rewrite E. eauto.
  - exfalso. unfold controller in HE. apply exec_bind_inv in HE. destruct HE as [(t1 & t2 & n & E & H1 & H2)|[(e' & E & _)|(s' & E & H1)]]; try discriminate E; [apply exec_ret_inv in H2; destruct H2 as [_ H2]; discriminate H2|].
    rewrite (unpaused cp (ov_running _ _ HO _ Hi0)) in H1. exact (manager_no_panic _ _ _ _ (monitors_once _ _ HO _ Hi0) _ _ H1).
Qed.
(** A component that stands before something that has to do with regulation cannot hear or cannot tell. *)
Lemma held_still k c : nth_error net k = Some c -> held_up c (seen_by k l) ->
  (exists x, In x (comp_control c) /\ dry (w (CCtl x))) \/ exists s, In s (comp_monitor c) /\ full (w (CSize s)).
Proof.
  intros Hk (t & Y & p & tr & e & HL & He). pose proof (ready_of _ HN _ (nth_error_In _ _ Hk)) as HR. pose proof HL as (Ht & _).
  assert (HA : forall a w1, wt e a = true -> wstep w (e, a) w1 -> False) by (intros a w1 Hw HS; destruct (live_answer _ _ _ _ _ _ a HL Hw) as (oc & HC); exact (still_comp _ _ _ _ _ _ _ Hk Ht HC HS)).
  assert (HM : ruled_may c t e).
  { destruct (wt_some e) as (a & Ha). destruct (live_answer _ _ _ _ _ _ a HL Ha) as (oc & HC). eapply ruled_within; [exact HR|exact HC|exact Ht|]. apply in_or_app. right. now left. }
  pose proof free_fitting as HF. destruct HM as [H|[(n & Hn & [->|[->| ->]])|(_ & n & Hn & [(v & ->)| ->])]].
  - rewrite (may_loud _ _ _ H) in He. discriminate He.
  - left. exists n. split; [exact Hn|]. destruct (cs_queue (w (CCtl n))) as [|v q] eqn:Eq.
    + split; [|exact Eq]. destruct (cs_closed (w (CCtl n))) eqn:Ec; [|reflexivity]. exfalso. eapply (HA AClosed); [reflexivity|now apply W_recv_end].
    + exfalso. eapply (HA (AMsg v)); [change (fits (CCtl n) v = true); apply HF; rewrite Eq; now left|eapply W_recv; exact Eq].
  - exfalso. destruct (cs_queue (w (CCtl n))) as [|v q] eqn:Eq.
    + destruct (cs_closed (w (CCtl n))) eqn:Ec; [eapply (HA AClosed)|eapply (HA AEmpty)]; try reflexivity; [now apply W_try_end|now apply W_try_empty].
    + eapply (HA (AMsg v)); [change (fits (CCtl n) v = true); apply HF; rewrite Eq; now left|eapply W_try; exact Eq].
  - exfalso. eapply (HA AOk); [reflexivity|apply W_close].
  - right. exists n. split; [exact Hn|]. destruct (cs_closed (w (CSize n))) eqn:Ec; [exfalso; eapply (HA AClosed); [reflexivity|now apply W_send_closed]|]. split; [exact Ec|]. intro Hr. eapply (HA AOk); [reflexivity|now apply W_send].
  - exfalso. eapply (HA AOk); [reflexivity|apply W_close].
Qed.
End Act.

Section Stand.
Variables (net : list comp) (cs : list capture) (w0 : world) (l : list nevent) (w : world) (ocs : nat -> S_Net.outcome).
Hypothesis HN : net_wired (map plain_comp net).
Hypothesis HO : overseen net cs.

Lemma full_length ch n : wrun w0 l w -> w0 ch = fresh_chan (Some n) -> full (w ch) -> cs_closed (w ch) = false /\ length (cs_queue (w ch)) = n.
Proof.
  intros HW E [H1 H2]. split; [exact H1|]. pose proof (within ch _ _ _ n HW ltac:(now rewrite E) ltac:(rewrite E; cbn; lia)) as HL.
  unfold room in H2. rewrite (cap_same ch _ _ _ HW), E in H2. cbn in H2. lia.
Qed.
Lemma told_of m cp : nth_error cs m = Some cp -> exists k c, nth_error net k = Some c /\ In (rc_control (cp_control cp)) (comp_control c).
Proof.
  intro Hm. assert (H : In (rc_control (cp_control cp)) (flat_map comp_control net)).
  { eapply Permutation_in; [apply Permutation_sym, (ov_controls _ _ HO)|]. apply in_map_iff. exists cp. split; [reflexivity|exact (nth_error_In _ _ Hm)]. }
  apply in_flat_map in H. destruct H as (c & Hc & H). destruct (In_nth_error _ _ Hc) as (k & Hk). eauto.
Qed.
Lemma heard_by k c s : nth_error net k = Some c -> In s (comp_monitor c) -> exists m cp, nth_error cs m = Some cp /\ In s (cp_monitors cp).
Proof.
  intros Hk Hs. assert (H : In s (flat_map cp_monitors cs)) by (eapply Permutation_in; [apply (ov_monitors _ _ HO)|]; apply in_flat_map; exists c; split; [exact (nth_error_In _ _ Hk)|exact Hs]).
  apply in_flat_map in H. destruct H as (cp & Hc & H). destruct (In_nth_error _ _ Hc) as (m & Hm). eauto.
Qed.

Lemma held_choked k c : free_run net cs w0 l w ocs -> whole_locked net cs w0 l -> nth_error net k = Some c -> held_up c (seen_by k l) -> exists m cp, choked net cs l w k m cp.
Proof.
  intros HX HK Hk HH. pose proof (fr_world _ _ _ _ _ _ HX) as HW. pose proof (fr_made _ _ _ _ _ _ HX) as HM.
  assert (HC : forall m cp ch, nth_error cs m = Some cp -> closed_by ch (controller_of net m l) -> cs_closed (w ch) = true).
  { intros m cp ch Hm Hc. apply (closes_it ch _ _ _ HW). unfold controller_of, closed_by in *. eapply own_all. exact Hc. }
  assert (HF : forall m cp, nth_error cs m = Some cp -> full (w (CCtl (rc_control (cp_control cp)))) -> cs_closed (w (CCtl (rc_control (cp_control cp)))) = false /\ length (cs_queue (w (CCtl (rc_control (cp_control cp))))) = 1).
  { intros m cp Hm Hf. destruct (told_of m cp Hm) as (k' & c' & Hk' & Hx). apply full_length; [exact HW|exact (mw_controls _ _ HM _ _ (nth_error_In _ _ Hk') Hx)|exact Hf]. }
  destruct (held_still _ _ _ _ _ _ HN HO HX HK k c Hk HH) as [(x & Hx & Hd)|(s & Hs & Hf)].
  - exfalso. destruct (told_by _ _ HO k c x Hk Hx) as (m & cp & Hm & <-). pose proof (nth_error_In _ _ Hm) as Hi0. destruct (controller_still _ _ _ _ _ _ HN HO HX HK m cp Hm) as [(n & HE)|[HE Hfl]].
    + rewrite (unpaused cp (ov_running _ _ HO _ Hi0)) in HE. destruct (manager_done _ _ _ _ (monitors_once _ _ HO _ Hi0) _ _ HE) as (_ & _ & _ & Hc). pose proof (HC m cp _ Hm Hc) as K. destruct Hd as [Hd _]. congruence.
    + destruct (HF m cp Hm Hfl) as [_ K]. destruct Hd as [_ Hd]. rewrite Hd in K. discriminate K.
  - destruct (heard_by k c s Hk Hs) as (m & cp & Hm & Hs'). pose proof (nth_error_In _ _ Hm) as Hi0. exists m, cp. destruct (full_length (CSize s) (comp_size c) HW (mw_sizes _ _ HM _ _ (nth_error_In _ _ Hk) Hs) Hf) as [F1 F2].
    destruct c as [f name|r|b u mi mo|j|cwd vars la|d name]; cbn in Hs; try contradiction Hs. destruct (bf_monitor b) as [s'|] eqn:Eb; [|destruct Hs]. destruct Hs as [->|[]].
    exists b, u, mi, mo, s. split; [exact Hk|]. split; [exact Eb|]. split; [exact Hm|]. split; [exact Hs'|]. split; [exact F1|]. split; [exact F2|].
    destruct (controller_still _ _ _ _ _ _ HN HO HX HK m cp Hm) as [(n & HE)|[HE Hfl]]; [exfalso|split; [exact HE|exact (HF m cp Hm Hfl)]].
    rewrite (unpaused cp (ov_running _ _ HO _ Hi0)) in HE. destruct (manager_done _ _ _ _ (monitors_once _ _ HO _ Hi0) _ _ HE) as (Hg & _). destruct (Hg s Hs') as [_ Hl].
    unfold let_go in Hl. rewrite existsb_exists in Hl. destruct Hl as ([e a] & Hin & Hl). destruct e as [| | |[]| | | | | | | | | | | | | |]; try discriminate Hl. apply Nat.eqb_eq in Hl. subst n0.
    assert (Ea : a = AOk) by (destruct (exec_wt _ _ _ HE _ _ Hin); destruct a; try reflexivity; cbn in *; pose proof (exec_wt _ _ _ HE _ _ Hin) as K; discriminate K). subst a.
    pose proof (HC m cp _ Hm Hin) as K. congruence.
Qed.

(** Who has ended well cannot be told anything any more. *)
Lemma told_shut k c x n : free_run net cs w0 l w ocs -> nth_error net k = Some c -> In x (comp_control c) -> ocs k = Ended (Ok n) -> cs_closed (w (CCtl x)) = true.
Proof.
  intros HX Hk Hx Ho. pose proof (fr_comps _ _ _ _ _ _ HX _ _ Hk) as HC. rewrite Ho in HC. pose proof (ready_of _ HN _ (nth_error_In _ _ Hk)) as HR. apply (closes_it _ _ _ _ (fr_world _ _ _ _ _ _ HX)).
  assert (HQ : closed_by (CCtl x) (own 0 (seen_by k l)) -> closed_by (CCtl x) (all_of l)) by (unfold closed_by; rewrite own_seen by lia; apply own_all).
  destruct c as [f name|r|b u mi mo|j|cwd vars la|d name]; cbn in Hx; try contradiction Hx.
  - destruct HR as (_ & j & o & HR). change (faucet_ready f name (PsIoSender j o)) in HR. destruct (fc_control f) as [y|] eqn:Ef; [|destruct Hx]. destruct Hx as [->|[]].
    destruct HC as (st & (_ & s & Es & HE) & E). subst st. cbn in E. destruct s as [e|r|s]; try discriminate E. injection E as <-.
    destruct (faucet_run _ _ _ _ _ _ HR HE) as [[_ H]|[(j' & _ & _ & H & _)|(d & rest & q & j' & E & HY)]]; try discriminate H.
    apply HQ. rewrite E. right. destruct (gate_released (PlBytes q j' d split_control_new) (PsIoSender j o) _ _ eq_refl rest _ HY) as (_ & _ & H). exact (H x n Ef eq_refl).
  - destruct HR as (_ & pj & i & j & o & HR). change (regulator_ready r (PlReceiver pj i) (PsIoSender j o)) in HR. destruct (rg_control r) as [y|] eqn:Ef; [|destruct Hx]. destruct Hx as [->|[]].
    destruct HC as (st & (_ & s & Es & HE) & E). subst st. cbn in E. destruct s as [e|r'|s]; try discriminate E. injection E as <-.
    rewrite (regulator_gate _ _ _ _ HR) in HE. destruct HR as (_ & _ & _ & Hf & _). destruct (gate_released _ _ _ _ Hf _ _ HE) as (_ & _ & H). apply HQ. exact (H x n Ef eq_refl).
Qed.

Hypothesis HR : roomy net.
Hypothesis HP : polite net.
Hypothesis HA : acyclic net.
Theorem standstill_net : whole_run net cs w0 l w ocs -> willing l -> whole_locked net cs w0 l -> all_succeeded net ocs \/ exists k m cp, ocs k = Going /\ choked net cs l w k m cp.
Proof.
  intros HWh HWl HK. pose proof HWh as [HX _]. pose proof (whole_fails net cs w0 l w ocs HN HO HR HP HWh HWl) as HFine.
  destruct (either_all (fun k c => ocs k = Going /\ held_up c (seen_by k l)) (fun k c => (exists n, ocs k = Ended (Ok n)) \/ (ocs k = Going /\ mirrors c (seen_by k l) (seen_by k (data_part net l)))) net) as [(k & c & Hk & Hg & HH)|HQ].
  { intros k c Hk. assert (Hlt : k < length net) by (apply nth_error_Some; congruence). destruct (HFine k ltac:(lia)) as [Hg|Hn]; [|auto].
    destruct (comp_mirrors c (seen_by k l) (seen_by k (data_part net l))) as [H|H]; [exact (ready_of _ HN _ (nth_error_In _ _ Hk))|now apply thin_seen| |rewrite <- Hg; exact (fr_comps _ _ _ _ _ _ HX _ _ Hk)|auto|auto].
    intros i Hi n v Hin. rewrite own_seen in Hin by lia. apply in_own in Hin. exact (never_refused _ _ _ _ _ _ HN HO HX _ _ _ Hin). }
  { right. exists k. destruct (held_choked k c HX HK Hk HH) as (m & cp & H). eauto. }
  left. destruct (delays net cs w0 l w ocs HN HO HR HX) as (w' & ocs' & HX' & Hs & Hw').
  assert (HX2 : net_run (map plain_comp net) w0 (data_part net l) w' ocs).
  { destruct HX' as [K1 K2 K3 K4 K5 K6]. constructor; auto. intros k c Hk. rewrite nth_error_map in Hk. destruct (nth_error net k) as [c0|] eqn:E; [|discriminate Hk]. injection Hk as <-.
    destruct (HQ k c0 E) as [(n & En)|(Hg & Hm & _)]; [|rewrite Hg; exact Hm]. rewrite <- (Hs k); [|apply nth_error_Some; congruence|rewrite En; discriminate]. apply K1. rewrite nth_error_map, E. reflexivity. }
  assert (HSo : sound_so_far (map plain_comp net) ocs).
  { intros k c Hk HF. assert (Hlt : k < length net) by (rewrite <- (map_length plain_comp); apply nth_error_Some; congruence). destruct (HFine k ltac:(lia)) as [Hg|(n & Hn)]; destruct c; cbn in HF; try contradiction HF; try (destruct HF as (e & HF)); congruence. }
  destruct (some_going (length net) ocs) as [(k0 & Hk0 & Hg0)|Hno].
  2:{ intros k Hk. destruct (HFine k ltac:(lia)) as [Hg|H]; [destruct (Hno k Hk Hg)|exact H]. }
  exfalso. assert (HAc : acyclic (map plain_comp net)).
  { destruct HA as (rank & Hrk). exists rank. intros k c k' c' n Hk Hk' Hn Hn'. rewrite nth_error_map in Hk, Hk'. destruct (nth_error net k) as [c0|] eqn:E0; [|discriminate Hk]. destruct (nth_error net k') as [c1|] eqn:E1; [|discriminate Hk'].
    injection Hk as <-. injection Hk' as <-. rewrite outs_plain in Hn. assert (Hi : comp_ins (plain_comp c1) = comp_ins c1) by now destruct c1. rewrite Hi in Hn'. exact (Hrk _ _ _ _ _ E0 E1 Hn Hn'). }
  destruct (somebody_moves _ w0 HN (data_part net l) w' ocs HAc HX2 (willing_granted _ (willing_data _ _ HWl)) HSo k0 ltac:(rewrite map_length; exact Hk0) Hg0) as (k & c & Hk & t & s & w2 & oc & Ht & HC & HWs & (s0 & ev & -> & _ & _) & _).
  rewrite nth_error_map in Hk. destruct (nth_error net k) as [c0|] eqn:E; [|discriminate Hk]. injection Hk as <-. pose proof (ready_of _ HN _ (nth_error_In _ _ E)) as HRd.
  destruct (s0 ++ [ev]) as [|[e a] s] eqn:Es; [destruct s0; discriminate Es|]. cbn [by_task map] in HC, HWs. change ((t, (e, a)) :: map (pair t) s) with ([(t, (e, a))] ++ by_task t s) in HC. rewrite app_assoc in HC. destruct (comp_before _ _ _ _ HC) as (oc1 & HC1).
  inversion HWs as [|? ? w3 ? ? HS1 _]; subst.
  destruct (HQ k c0 E) as [(n & En)|(Hg & _ & Hm)].
  - assert (K : comp_runs (plain_comp c0) (seen_by k (data_part net l)) (Ended (Ok n))) by (rewrite <- En; apply (nr_comps _ _ _ _ _ HX2); rewrite nth_error_map, E; reflexivity). exact (comp_over _ _ _ t (e, a) [] _ HRd K Ht HC1).
  - destruct (Hm t e a _ Ht HC1) as (oc2 & HC2).
    assert (He : control_eff e = false) by (apply (may_loud (plain_comp c0) t); eapply comp_within; [exact HRd|exact HC1|exact Ht|apply in_or_app; right; now left]).
    destruct (step_agree _ w _ _ HS1 He Hw') as (w4 & HS4 & _). exact (still_comp _ _ _ _ _ _ HX HK _ _ _ _ _ _ _ E Ht HC2 HS4).
Qed.
Theorem standstill : whole_run net cs w0 l w ocs -> willing l -> whole_locked net cs w0 l -> everybody_succeeded net cs ocs \/ exists k m cp, ocs k = Going /\ choked net cs l w k m cp.
Proof.
  intros HWh HWl HK. destruct (standstill_net HWh HWl HK) as [HS|HC]; [left|now right]. pose proof HWh as [HX _]. intros k Hk.
  destruct (Nat.lt_ge_cases k (length net)) as [Hlt|Hge]; [exact (HS k Hlt)|]. set (m := k - length net). replace k with (length net + m) in * by lia.
  destruct (nth_error cs m) as [cp|] eqn:Hm; [|apply nth_error_None in Hm; lia]. pose proof (fr_controllers _ _ _ _ _ _ HX _ _ Hm) as (st & HE & Ho). rewrite Ho.
  destruct (controller_still _ _ _ _ _ _ HN HO HX HK m cp Hm) as [(n & HD)|[_ [Hc _]]].
  - assert (HD' : exec (controller cp) (controller_of net m l) (Done (Ok n))) by (unfold controller; rewrite <- (app_nil_r (controller_of net m l)); eapply exec_bind_intro; [exact HD|constructor]).
    fold (controller_of net m l) in HE. pose proof (exec_det _ _ _ HE _ HD') as ->. exists n. reflexivity.
  - exfalso. destruct (told_of m cp Hm) as (k' & c' & Hk' & Hx). destruct (HS k') as (n & Hn); [apply nth_error_Some; congruence|]. rewrite (told_shut k' c' _ n HX Hk' Hx Hn) in Hc. discriminate Hc.
Qed.
End Stand.

(** ** Not before the mark *)
Section Mark.
Variables (net : list comp) (cs : list capture) (w0 : world) (l : list nevent) (w : world) (ocs : nat -> S_Net.outcome).
Hypothesis HN : net_wired (map plain_comp net).
Hypothesis HO : overseen net cs.
Hypothesis HX : free_run net cs w0 l w ocs.

Lemma given_marks m cp i : nth_error cs m = Some cp -> i < given (rc_control (cp_control cp)) l -> exists l0 l1, l = l0 ++ l1 /\ given (rc_control (cp_control cp)) l0 = i /\
  if Nat.odd i then level (cp_monitors cp) (controller_of net m l0) <= cp_low cp else cp_high cp <= level (cp_monitors cp) (controller_of net m l0).
Proof.
  intros Hm Hi. set (x := rc_control (cp_control cp)) in *.
  assert (HS : sent (CCtl x) (all_of l) = sent (CCtl x) (own (4 * (length net + m)) l)) by (apply sent_all; intros j e a Hin (v & ->); eapply ctl_sender; eauto).
  assert (Hi' : i < length (sent (CCtl x) (own (4 * (length net + m)) l))) by (rewrite <- HS; exact Hi).
  destruct (sent_nth _ _ _ Hi') as (t1 & v & t2 & Et & Ei). destruct (own_cut _ _ _ _ _ Et) as (l0 & l1 & El & E0). exists l0, ((4 * (length net + m), (ESend (CCtl x) v, AOk)) :: l1). split; [exact El|].
  assert (HG0 : given x l0 = i).
  { unfold given. rewrite <- Ei, <- E0. f_equal. apply sent_all. intros j e a Hin (v' & ->). eapply ctl_sender; eauto. rewrite El. apply in_or_app. left. exact Hin. }
  split; [exact HG0|]. unfold controller_of. destruct (fr_controllers _ _ _ _ _ _ HX _ _ Hm) as (st & X & _). rewrite Et, <- E0 in X. pose proof (controller_manages _ _ _ (exec_prefix _ _ _ X _ _ _ _ eq_refl)) as Y.
  pose proof (nth_error_In _ _ Hm) as Hi0. rewrite (unpaused cp (ov_running _ _ HO _ Hi0)) in Y. destruct (manager_signal _ _ _ _ (monitors_once _ _ HO _ Hi0) _ _ _ Y) as (_ & _ & Z). fold x in Z. unfold told_to_pause, signals in Z.
  pose proof (all_accepted _ _ _ _ _ _ HN HO HX m cp l0 v l1 Hm El) as HAc. fold x in HAc. rewrite HAc, HG0 in Z. exact Z.
Qed.
Lemma given_late m cp ks : nth_error cs m = Some cp -> tellers net (cp_monitors cp) ks -> 0 < given (rc_control (cp_control cp)) l -> cp_high cp <= list_sum (map (fun k => S (received net k l)) ks).
Proof.
  intros Hm HT Hg. destruct (given_marks m cp 0 Hm Hg) as (l0 & l1 & E & _ & H). cbn in H. pose proof HX as HX0. rewrite E in HX0. destruct (free_before _ _ _ _ _ _ _ HX0) as (w1 & o1 & HX1 & _).
  etransitivity; [exact H|]. etransitivity; [exact (level_bound _ _ _ _ _ _ HN HO HX1 m cp ks Hm HT)|]. rewrite E. clear. induction ks as [|k ks IH]; [cbn; lia|]. cbn [map]. rewrite !list_sum_cons. pose proof (received_grows net k l0 l1). lia.
Qed.
Lemma choked_given k m cp : choked net cs l w k m cp -> 0 < given (rc_control (cp_control cp)) l.
Proof.
  intros (b & u & mi & mo & s & _ & _ & Hm & _ & _ & _ & _ & _ & HQ). destruct (told_of net cs HO m cp Hm) as (k' & c' & Hk' & Hx).
  pose proof (fifo (CCtl (rc_control (cp_control cp))) _ _ _ (fr_world _ _ _ _ _ _ HX)) as HF. rewrite (mw_controls _ _ (fr_made _ _ _ _ _ _ HX) c' _ (nth_error_In _ _ Hk') Hx) in HF. cbn [cs_queue fresh_chan app] in HF.
  unfold given. rewrite <- HF, app_length. lia.
Qed.
Lemma tellers_of m cp : nth_error cs m = Some cp -> exists ks, tellers net (cp_monitors cp) ks.
Proof.
  intro Hm. assert (HI : forall s, In s (cp_monitors cp) -> exists k c, nth_error net k = Some c /\ In s (comp_monitor c)).
  { intros s Hs. assert (H : In s (flat_map comp_monitor net)) by (eapply Permutation_in; [apply Permutation_sym, (ov_monitors _ _ HO)|]; apply in_flat_map; exists cp; split; [exact (nth_error_In _ _ Hm)|exact Hs]).
    apply in_flat_map in H. destruct H as (c & Hc & H). destruct (In_nth_error _ _ Hc) as (k & Hk). eauto. }
  unfold tellers. induction (cp_monitors cp) as [|s ss IH]; [exists []; constructor|]. destruct (HI s (or_introl eq_refl)) as (k & c & Hk & Hs). destruct IH as (ks & HT); [intros; apply HI; now right|]. exists (k :: ks). constructor; eauto.
Qed.
End Mark.
Theorem small_runs net cs w0 l w ocs : net_wired (map plain_comp net) -> overseen net cs -> roomy net -> polite net -> acyclic net -> whole_run net cs w0 l w ocs -> willing l -> whole_locked net cs w0 l ->
  (forall m cp ks, nth_error cs m = Some cp -> tellers net (cp_monitors cp) ks -> list_sum (map (fun k => S (received net k l)) ks) < cp_high cp) -> everybody_succeeded net cs ocs.
Proof.
  intros HN HO HR HP HA HX HW HK HS. destruct (standstill net cs w0 l w ocs HN HO HR HP HA HX HW HK) as [H|(k & m & cp & _ & HC)]; [exact H|exfalso].
  assert (Hm : nth_error cs m = Some cp) by (destruct HC as (b & u & mi & mo & s & _ & _ & Hm & _); exact Hm). destruct (tellers_of net cs HO m cp Hm) as (ks & HT).
  pose proof (given_late _ _ _ _ _ _ HN HO (proj1 HX) m cp ks Hm HT (choked_given _ _ _ _ _ _ HO (proj1 HX) _ _ _ HC)). specialize (HS m cp ks Hm HT). lia.
Qed.

Section Prepared.
Variables (sh : shuffles) (cwd : option string) (vars : list (string * string)) (c : config) (w : waiter) (cs : list capture).
Hypothesis Hf : S_Manip.fair sh.
Hypothesis Hgc : good_connections (cf_connection c).
Hypothesis Hpr : prepares sh c w cs.
Hypothesis Hpa : passing (cf_connection c).
Hypothesis Hno : no_loop (cf_connection c).
Theorem prepared_standstill w0 l wl ocs : whole_run (net_of cwd vars w) cs w0 l wl ocs -> willing l -> whole_locked (net_of cwd vars w) cs w0 l ->
  everybody_succeeded (net_of cwd vars w) cs ocs \/ exists k m cp, ocs k = Going /\ choked (net_of cwd vars w) cs l wl k m cp.
Proof.
  destruct (prepared_shape _ cwd vars _ _ _ Hf Hgc Hpr Hpa (loops_apart _ (no_loop_buffered _ Hno))) as (H1 & H2 & H3 & H4 & _). apply standstill; auto. exact (prepared_overseen _ cwd vars _ _ _ Hf Hgc Hpr).
Qed.
Theorem prepared_small w0 l wl ocs : whole_run (net_of cwd vars w) cs w0 l wl ocs -> willing l -> whole_locked (net_of cwd vars w) cs w0 l ->
  (forall m cp ks, nth_error cs m = Some cp -> tellers (net_of cwd vars w) (cp_monitors cp) ks -> list_sum (map (fun k => S (received (net_of cwd vars w) k l)) ks) < cp_high cp) -> everybody_succeeded (net_of cwd vars w) cs ocs.
Proof.
  destruct (prepared_shape _ cwd vars _ _ _ Hf Hgc Hpr Hpa (loops_apart _ (no_loop_buffered _ Hno))) as (H1 & H2 & H3 & H4 & _). apply small_runs; auto. exact (prepared_overseen _ cwd vars _ _ _ Hf Hgc Hpr).
Qed.
End Prepared.
