(** * P_Lead: on the ways that lead to a target that is not hurt, nobody is refused *)
From Coq Require Import Ascii String List Bool Arith Lia ZArith.
From Verif Require Import M_Prog P_Prog P_Exec M_Motion M_Regulator M_Faucet M_Drain M_Buffer M_Launch M_Junction M_Join S_Trace S_Lines S_Motion S_World S_Launch S_Regulator S_Drain S_Buffer S_Junction S_Network S_Net S_Flow S_Soft
  P_Read P_Motion P_World P_Ask P_Pass P_Copy P_Launch P_Regulator P_Control P_Drain P_Buffer P_BufferJoint P_BufferRun P_Link P_Phase P_Junction P_JStart P_JPass P_Conduit P_NetComp P_Patient P_NetCost P_NetDone P_NetEnd P_Net P_Calm P_Turn P_Stream P_Spring P_Soft P_SoftRun P_Worker P_Flow P_Fan.
From Verif Require P_Network.
Import ListNotations.

(** [h] contains a refused send on [ch]. *)
Definition refused (ch : chan) (h : trace) : Prop := exists v, In (ESend ch v, AClosed) h.
Lemma refused_in ch h h' : (forall x, In x h -> In x h') -> refused ch h -> refused ch h'.
Proof. intros H (v & K). exists v. auto. Qed.

(** ** What makes a motion leave its input *)
Lemma amiss_is pl mon ps e a h : motion_eff pl mon None ps e -> wt e a = true -> amiss (e, a) = true -> In (e, a) h ->
  (exists ch, In ch (map CData (push_chans ps) ++ mons mon) /\ refused ch h) \/ (hurt h /\ ((exists k j f sc, pl = PlBytes k j f sc) \/ exists k j f, ps = PsBytes k j f)).
Proof.
  intros HE Hw Ha Hin.
  assert (Hm : forall m, mon_read mon = Some m \/ mon_written mon = Some m -> In (CMon m) (map CData (push_chans ps) ++ mons mon)).
  { intros m Hm. unfold mons. rewrite !in_app_iff. destruct Hm as [->| ->]; cbn; auto. }
  destruct HE as [[H|[(q & d & [<-|[]] & H)|[(m & H & K)|[(m & H & K)|(s & v' & H & _)]]]]|[H|[(q & [<-|[]] & H)|(m & H & K)]]]; try discriminate H.
  - destruct pl as [k j f sc|j n|j q|]; cbn in H; try discriminate H; injection H as <-; destruct a; try discriminate Hw; try discriminate Ha. right. split; [|left; eauto 6]. exists (ERead f), AErr. auto.
  - destruct ps as [j q|k j f|j n|j n|]; cbn in H; try discriminate H; injection H as <-; destruct a; try discriminate Hw; try discriminate Ha.
    1,2: right; split; [|right; eauto]; eexists; eexists; (split; [exact Hin|]); auto.
    1,2: left; exists (CData n); (split; [apply in_or_app; left; now left|]); eexists; exact Hin.
  - subst e. destruct a; try discriminate Hw; try discriminate Ha. left. exists (CMon m). split; [apply Hm; auto|]. eexists. exact Hin.
  - subst e. destruct a; try discriminate Hw; try discriminate Ha. left. exists (CMon m). split; [apply Hm; auto|]. eexists. exact Hin.
  - destruct pl; try contradiction H; subst e; destruct a; try discriminate Hw; discriminate Ha.
  - destruct ps as [j q|k j f|j n|j n|]; try contradiction H; [destruct H as [->| ->]|subst e..]; destruct a; try discriminate Hw; try discriminate Ha.
    right. split; [|right; eauto]. exists (EFlush f), AErr. auto.
  - subst e. destruct a; try discriminate Hw; discriminate Ha.
Qed.
(** The closing of a channel that is not an output. *)
Definition let_off (pl : pull) (W : list chan) (ps : push) (ch : chan) (A : trace) : Prop :=
  In ch W \/ exists j i, pl = PlReceiver j i /\ ch = CData i /\ (seen_shut ch A \/ (exists c, In c W /\ refused c A) \/ (hurt A /\ exists k j f, ps = PsBytes k j f)).
Lemma motion_off pl mon ps tr st A ch a B : exec (motion pl mon None ps) tr st -> tr = A ++ (EClose ch, a) :: B -> let_off pl (map CData (push_chans ps) ++ mons mon) ps ch A.
Proof.
  intros HX E. pose proof (motion_proper _ _ _ _ _ HX _ _ _ _ E) as HP. cbn beta iota in HP. destruct HP as [HP|HP]; [now left|].
  assert (Hin : In (EClose ch, a) tr) by (rewrite E; apply in_or_app; right; now left). pose proof (all_motion _ _ _ _ _ _ _ HX Hin) as HE.
  destruct HE as [HE|[HE|[(q & [<-|[]] & HE)|(m & HE & K)]]].
  - destruct (work_not_closing _ _ _ _ _ _ HE I).
  - destruct pl as [k j f sc|j n|j q|]; try contradiction HE; [discriminate HE|]. injection HE as ->. right. exists j, n. split; [reflexivity|]. split; [reflexivity|].
    destruct HP as [HP|([e0 a0] & H1 & H2)]; [now left|right]. assert (H3 : In (e0, a0) tr) by (rewrite E; apply in_or_app; now left).
    destruct (amiss_is (PlReceiver j n) mon ps e0 a0 A (all_motion _ _ _ _ _ _ _ HX H3)) as [K|[K1 [(k & j' & f & sc & K2)|K2]]]; [|exact H2|exact H1|now left|discriminate K2|now right].
    pose proof (exec_wt _ _ _ HX) as HW. rewrite Forall_forall in HW. exact (HW _ H3).
  - left. destruct ps as [j q|k j f|j n|j n|]; try contradiction HE; [destruct HE as [HE|HE]; discriminate HE|..]; injection HE as ->; now left.
  - injection K as ->. left. apply in_or_app. right. unfold mons. destruct HE as [->| ->]; rewrite in_app_iff; cbn; auto.
Qed.
Lemma gate_off pl ps tr st A ch a B : exec (start_secret false (Some pl) (Some ps) None None) tr st -> tr = A ++ (EClose ch, a) :: B -> let_off pl (map CData (push_chans ps)) ps ch A.
Proof.
  intros HX E. pose proof (gate_proper _ _ _ _ HX _ _ _ _ E) as HP. cbn beta iota in HP. destruct HP as [HP|HP]; [now left|].
  assert (HM : forall e a, In (e, a) tr -> motion_eff pl mn_empty None ps e).
  { intros e x Hin. destruct (all_gate _ _ _ _ _ _ HX Hin) as [H|[H|[(y & H & _)|(y & H & _)]]]; try discriminate H; [now left|now right]. }
  assert (Hin : In (EClose ch, a) tr) by (rewrite E; apply in_or_app; right; now left).
  destruct (HM _ _ Hin) as [HE|[HE|[(q & [<-|[]] & HE)|(m & [HE|HE] & K)]]]; try discriminate HE.
  - destruct (work_not_closing _ _ _ _ _ _ HE I).
  - destruct pl as [k j f sc|j n|j q|]; try contradiction HE; [discriminate HE|]. injection HE as ->. right. exists j, n. split; [reflexivity|]. split; [reflexivity|].
    destruct HP as [HP|([e0 a0] & H1 & H2)]; [now left|right]. assert (H3 : In (e0, a0) tr) by (rewrite E; apply in_or_app; now left).
    destruct (amiss_is (PlReceiver j n) mn_empty ps e0 a0 A (HM _ _ H3)) as [K|[K1 [(k & j' & f & sc & K2)|K2]]]; [|exact H2|exact H1| |discriminate K2|now right].
    + pose proof (exec_wt _ _ _ HX) as HW. rewrite Forall_forall in HW. exact (HW _ H3).
    + left. destruct K as (c & K1 & K2). exists c. split; [|exact K2]. unfold mons in K1. cbn in K1. now rewrite app_nil_r in K1.
  - left. destruct ps as [j q|k j f|j n|j n|]; try contradiction HE; [destruct HE as [HE|HE]; discriminate HE|..]; injection HE as ->; now left.
Qed.
Lemma done_calm j tr n : junction_ready j -> exec (junction_start j None) tr (Done (Ok n)) -> forall p d e, In p (jn_stdout j) -> push_brk p = Terminate -> write_eff p d = Some e -> ~ In (e, d, closed_ans p) (attempts tr).
Proof.
  intros HR HX p d e Hp Hb He HIn. pose proof (start_done j None HR _ _ HX) as (pre & l & -> & (HA & _ & HC) & _). rewrite attempts_app in HIn. apply in_app_or in HIn. destruct HIn as [HIn|HIn].
  - rewrite HA in HIn. unfold rounds in HIn. apply in_flat_map in HIn. destruct HIn as ([d' os] & H1 & H2). rewrite Forall_forall in HC. specialize (HC _ H1). unfold calm in HC. cbn [fst snd] in *.
    destruct (round_in _ _ _ _ _ _ H2) as (q & o & _ & _ & -> & _). refine (no_fail_closed (jn_stdout j) p d' e (jn_stdout j) os Hp (fun x H => H) Hb _ He HC H2). unfold distinct_outputs. destruct HR as (_ & _ & HI & _ & HD). apply P_JStart.nodup_app_r in HD. unfold out_chans in HD. revert HI HD. clear. induction (jn_stdout j) as [|q qs IH]; intros HI HD; [constructor|].
    inversion HI as [|? ? Hq HQ]; subst. cbn [map] in HD. inversion HD as [|? ? H1 H2]; subst. destruct q as [ | | |jq nq| ]; try contradiction. cbn [flat_map dest app]. constructor; [|exact (IH HQ H2)].
    intro K. apply H1. apply in_flat_map in K. destruct K as (q & K1 & K2). apply in_map_iff. exists q. split; [|exact K1]. rewrite Forall_forall in HQ. specialize (HQ _ K1). destruct q as [ | | |jq' nq'| ]; try contradiction. destruct K2 as [K2|[]]. injection K2 as ->. reflexivity.
  - exfalso. clear -HIn. induction (map ps_chan (jn_stdout j)) as [|x l IH]; [exact HIn|exact (IH HIn)].
Qed.
Lemma junction_off j tr st A ch a B : junction_ready j -> jn_stdout j <> [] -> exec (junction_start j None) tr st -> tr = A ++ (EClose ch, a) :: B ->
  In ch (map CData (out_chans j)) \/ seen_shut ch A \/ (((forall o, In o (out_chans j) -> refused (CData o) A) \/ forall n, st <> Done (Ok n)) /\ In ch (map CData (in_chans j))).
Proof.
  intros HR Hout HX E. pose proof (exec_prefix _ _ _ HX _ _ _ _ E) as HA. pose proof (start_at j None HR _ _ HA) as HN.
  destruct HN as (n & -> & HN). destruct HN as [(HIn & _ & _ & [[[K|K] _]|(err & [K|[[K _] _]])])|(done & p & rest & pre & H1 & -> & _)].
  - right; left. left. right. now apply ends_saw.
  - right; right. split; [left|apply in_map; exact HIn]. destruct K as [K|K]; [contradiction|]. intros o Ho. unfold out_chans in Ho. apply in_map_iff in Ho. destruct Ho as (p & <- & Hp). destruct (K p Hp) as (_ & d & ev & K1 & K2).
    pose proof (io_in j HR p Hp) as Hio. destruct p; try contradiction. cbn in K1. injection K1 as <-. eexists. exact K2.
  - right; right. split; [right|apply in_map; exact HIn]. intros m ->. destruct K as (l & d & done & p & rest & os & jn & _ & H2 & _ & H4 & _ & H6 & H7 & _).
    assert (Hp : In p (jn_stdout j)) by (rewrite H2; apply in_or_app; right; now left). pose proof (io_in j HR p Hp) as Hio. destruct p as [ | | |jq nq| ]; try contradiction.
    apply (done_calm j tr m HR HX (PsIoSender jq nq) d (ESend (CData nq) (VData d)) Hp); [cbn in H6 |- *; injection H6 as <-; exact H7|reflexivity|].
    rewrite E, attempts_app, H4. apply in_or_app. left. apply in_or_app. right. apply in_or_app. right. now left.
  - now destruct K.
  - left. apply in_map. unfold out_chans. apply in_map. rewrite H1. apply in_or_app. right. now left.
Qed.

Lemma finish_off la a1 b1 c1 tr st A ch a B : exec (launch_finish la None a1 b1 c1) tr st -> tr = A ++ (EClose ch, a) :: B -> In ch (map CData (S_Net.exit_of (la_exit_status la))).
Proof.
  intros HX E. pose proof (exec_prefix _ _ _ HX _ _ _ _ E) as HP. destruct (la_exit_status la) as [[j m]|] eqn:EE.
  - destruct (finish_inv la None j m EE a1 b1 c1 _ _ HP) as (k & HF). destruct HF as [(_ & K)|[(_ & K)|(code & m' & rest & _ & _ & HF)]]; try discriminate K.
    destruct HF as [(_ & K)|[(_ & s' & port & K & _)|(t & _ & _ & _ & _ & K)]]; try discriminate K. injection K as ->. now left.
  - unfold launch_finish in HP. rewrite EE in HP. apply exec_ret_inv in HP. destruct HP as [_ HP]. discriminate HP.
Qed.
(** ** Components *)
Definition reason (c : comp) (oc : outcome) (A : trace) : Prop :=
  match c with
  | NFaucet _ _ => False
  | NRegulator _ => exists o, In o (comp_outs c) /\ refused (CData o) A
  | NBuffer _ u mi mo => exists ch, (ch = CData u \/ ch = CMon mi \/ ch = CMon mo \/ exists o, In o (comp_outs c) /\ ch = CData o) /\ refused ch A
  | NJunction _ => (forall o, In o (comp_outs c) -> refused (CData o) A) \/ forall m, oc <> Ended (Ok m)
  | NLaunch _ _ _ | NDrain _ _ => hurt A
  end.
Definition goes_off (c : comp) (oc : outcome) (t : nat) (tr : trace) : Prop := forall A ch a B, tr = A ++ (EClose ch, a) :: B -> In ch (pens c t) \/ seen_shut ch A \/ (reason c oc A /\ In ch (map CData (comp_ins c) ++ map CData (comp_stores c))).
Lemma off_nil c oc t : goes_off c oc t [].
Proof. intros [|] ch a B E; discriminate E. Qed.
Lemma reason_cons c oc x A : reason c oc A -> reason c oc (x :: A).
Proof.
  assert (K : forall ch, refused ch A -> refused ch (x :: A)) by (intros ch; apply refused_in; intros y Hy; now right).
  destruct c; cbn [reason]; [auto|..].
  - intros (o & H1 & H2). eauto.
  - intros (ch & H1 & H2). eauto.
  - intros [H|H]; [left; intros o Ho; auto|now right].
  - apply hurt_in. intros y Hy. now right.
  - apply hurt_in. intros y Hy. now right.
Qed.
Lemma off_cons c oc t e0 a0 tr : on_chan e0 = None -> goes_off c oc t tr -> goes_off c oc t ((e0, a0) :: tr).
Proof.
  intros H0 H A ch a B E. destruct A as [|x A]; cbn in E; [injection E as -> -> ->; discriminate H0|]. injection E as <- E.
  destruct (H _ _ _ _ E) as [K|[K|K]]; [now left|right; left; now apply shut_cons|right; right; split; [apply reason_cons|]; apply K].
Qed.
Lemma alone_off c oc p L st : alone p L st -> (forall tr s, st = Before s -> exec p tr s -> goes_off c oc 0 tr) -> forall t, t < 4 -> goes_off c oc t (own t L).
Proof.
  intros (HI & s & -> & HX) H t Ht. destruct t as [|t]; [eapply H; [reflexivity|exact HX]|]. rewrite (HI (S t)) by (cbn; lia). apply off_nil.
Qed.
Lemma comp_off c L oc : comp_ready c -> match c with NJunction j => jn_stdout j <> [] | _ => True end -> comp_runs c L oc -> forall t, t < 4 -> goes_off c oc t (own t L).
Proof.
  destruct c as [f name|r|b u mi mo|j|cwd vars la|d name]; intros HR HP HX.
  - destruct HR as (HC & j & o & HR). destruct HX as (st & HX & _). apply (alone_off (NFaucet f name) oc _ _ _ HX). intros tr s _ HY.
    assert (EO : comp_outs (NFaucet f name) = [o]) by (destruct HR as (_ & _ & E & _); cbn; now rewrite E).
    assert (Hs : on_chan (source_eff name) = None) by (unfold source_eff; destruct (string_dec _ _); reflexivity).
    destruct (faucet_run _ _ _ _ _ _ HR HY) as [[-> _]|[(j' & _ & -> & _)|(d & rest & k & j' & -> & HZ)]]; [apply off_nil|apply off_cons; [exact Hs|apply off_nil]|apply off_cons; [exact Hs|]].
    rewrite HC in HZ. intros A ch a B E. destruct (gate_off _ _ _ _ _ _ _ _ HZ E) as [K|(j1 & i & K & _)]; [|discriminate K]. left. cbn [pens]. rewrite EO. exact K.
  - destruct HR as (HC & pj & i & j & o & HR). destruct HX as (st & HX & _). apply (alone_off (NRegulator r) oc _ _ _ HX). intros tr s _ HY.
    rewrite (regulator_gate _ _ _ _ HR), HC in HY. destruct HR as (_ & E1 & E2 & _). intros A ch a B E. destruct (gate_off _ _ _ _ _ _ _ _ HY E) as [K|(j1 & i1 & E0 & -> & [K|[(c & K1 & K2)|(_ & k & j2 & f & K)]])]; [| | |discriminate K].
    + left. cbn [pens comp_outs]. rewrite E2. exact K.
    + right. now left.
    + right; right. injection E0 as <- <-. split; [|cbn; rewrite E1; now left]. cbn. rewrite E2. destruct K1 as [<-|[]]. exists o. split; [now left|exact K2].
  - destruct HR as (HC & pj & i & j & o & HR). destruct HX as (st & HX & _ & _). pose proof (buffer_parts _ _ _ _ _ _ _ _ _ HR HX) as (sa & sb & sc & Ha & Hb & Hc & _).
    pose proof (buffer_zero _ _ _ _ _ _ _ _ HR ltac:(discriminate) HX) as H0. destruct HR as (E1 & E2 & _). rewrite HC in Hc. intros t Ht.
    destruct t as [|[|[|[|t]]]]; [rewrite H0; apply off_nil| | | |lia]; intros A ch a B E.
    + unfold half_a in Ha. destruct (motion_off _ _ _ _ _ _ _ _ _ Ha E) as [K|(j1 & i1 & E0 & -> & [K|[(c & K1 & K2)|(_ & k & j2 & f & K)]])]; [left; exact K|right; now left| |discriminate K].
      right; right. injection E0 as <- <-. split; [|cbn; rewrite E1; now left]. cbn in K1. exists c. split; [|exact K2]. destruct K1 as [<-|[<-|[]]]; auto.
    + unfold half_b in Hb. destruct (motion_off _ _ _ _ _ _ _ _ _ Hb E) as [K|(j1 & i1 & E0 & -> & [K|[(c & K1 & K2)|(_ & k & j2 & f & K)]])]; [left; cbn [pens]; rewrite E2; exact K|right; now left| |discriminate K].
      right; right. injection E0 as <- <-. split; [|apply in_or_app; right; now left]. cbn in K1. exists c. split; [|exact K2]. destruct K1 as [<-|[<-|[]]]; auto. do 3 right. exists o. split; [|reflexivity]. cbn. rewrite E2. now left.
    + pose proof (counter_proper _ _ _ _ Hc _ _ _ _ E) as K. cbn beta iota in K. destruct K as [[]|[K|K]]; [right; now left|]. exfalso.
      destruct K as ([e0 a0] & K1 & K2). assert (H3 : In (e0, a0) (own 3 L)) by (rewrite E; apply in_or_app; now left).
      destruct (total_reach _ _ _ _ _ Hc) as (t & HT & _). apply t_traces in HT. rewrite Forall_forall in HT. specialize (HT _ H3). cbn [fst] in HT.
      pose proof (exec_wt _ _ _ Hc) as HW. rewrite Forall_forall in HW. specialize (HW _ H3). cbn [fst snd] in HW.
      destruct e0 as [x|x|x v|x|x|x| | | | | | | | | | | |]; cbn in HT; try contradiction HT; try (destruct x; try contradiction HT; try discriminate HT); destruct a0; try discriminate HW; discriminate K2.
  - destruct HX as (st & HX & ->). apply (alone_off (NJunction j) _ _ _ _ HX). intros tr s Es HY A ch a B E. destruct (junction_off _ _ _ _ _ _ _ HR HP HY E) as [K|[K|[K1 K2]]]; [now left|right; now left|right; right]. split; [|apply in_or_app; now left].
    destruct K1 as [K1|K1]; [now left|right]. intros m Em. subst st. destruct s as [e'|r'|x]; try discriminate Em. injection Em as ->. exact (K1 m eq_refl).
  - destruct HR as (HR & Hin1 & Hout1). destruct HX as (st & HX & _ & _). pose proof (launch_parts _ _ _ _ _ _ (proj1 HR) HX) as HQ.
    assert (HI : forall fin fout ferr, let x := launch_relays la fin fout ferr in
      (forall tr s, exec (relay (rl_in x) None) tr s -> goes_off (NLaunch cwd vars la) oc 1 tr) /\
      (forall tr s, exec (relay (rl_out x) None) tr s -> goes_off (NLaunch cwd vars la) oc 2 tr) /\
      (forall tr s, exec (relay (rl_err x) None) tr s -> goes_off (NLaunch cwd vars la) oc 3 tr)).
    { intros fin fout ferr x. subst x. repeat split; intros tr s HY A ch a B E; unfold relay in HY; destruct (motion_off _ _ _ _ _ _ _ _ _ HY E) as [K|(j1 & i1 & K0 & -> & K)]; unfold mons in K; cbn [mn_empty mon_read mon_written app] in K; rewrite ?app_nil_r in K; cbn [launch_relays rl_in rl_out rl_err fst snd pens] in K |- *.
      - destruct (la_stdin la); destruct K.
      - destruct K as [K|[(c & K1 & _)|(K & _)]]; [right; now left|destruct (la_stdin la); destruct K1|]. right; right. split; [exact K|]. apply in_or_app. left. cbn [launch_relays rl_in fst] in K0. cbn. destruct (la_stdin la) as [pl|] eqn:EI; [|discriminate K0]. destruct (Hin1 pl eq_refl) as (pj & i & ->). cbn in K0. injection K0 as <- <-. now left.
      - left. destruct (la_stdout la) as [ps|] eqn:ES; [|destruct K]. destruct (Hout1 ps (or_introl eq_refl)) as (j & o & ->). exact K.
      - exfalso. cbn [launch_relays rl_out fst] in K0. destruct (la_stdout la); discriminate K0.
      - left. destruct (la_stderr la) as [ps|] eqn:ES; [|destruct K]. destruct (Hout1 ps (or_intror eq_refl)) as (j & o & ->). exact K.
      - exfalso. cbn [launch_relays rl_err fst] in K0. destruct (la_stderr la); discriminate K0. }
    intros t Ht. destruct st as [s|a1 b1 c1|s].
    + destruct HQ as (HID & HQ). destruct t as [|t]; [|rewrite (HID (S t)) by (cbn; lia); apply off_nil]. destruct HQ as [[E _]|[E _]]; rewrite E; [apply off_nil|apply off_cons; [reflexivity|apply off_nil]].
    + destruct HQ as (fin & fout & ferr & E & H1 & H2 & H3). destruct (HI fin fout ferr) as (I1 & I2 & I3). destruct t as [|[|[|[|t]]]]; [|eapply I1; exact H1|eapply I2; exact H2|eapply I3; exact H3|lia].
      rewrite E. apply off_cons; [reflexivity|apply off_nil].
    + destruct HQ as (fin & fout & ferr & a1 & b1 & c1 & tr & E & H1 & H2 & H3 & H4). destruct (HI fin fout ferr) as (I1 & I2 & I3). destruct t as [|[|[|[|t]]]]; [|eapply I1; exact H1|eapply I2; exact H2|eapply I3; exact H3|lia].
      rewrite E. apply off_cons; [reflexivity|]. intros A ch a B E'. left. exact (finish_off _ _ _ _ _ _ _ _ _ _ H4 E').
  - destruct HR as (pj & i & HR). destruct HX as (st & HX & _). apply (alone_off (NDrain d name) oc _ _ _ HX). intros tr s _ HY.
    assert (EI : dr_stdin d = Some (PlReceiver pj i)) by apply HR.
    assert (Ho : forall e', opened_for (actual_destination name) = Some e' -> on_chan e' = None) by (intros e' E; destruct (actual_destination name); cbn in E; try discriminate E; injection E as <-; reflexivity).
    destruct (drain_run _ _ _ _ _ HR HY) as [(_ & H)|(e' & E & H)].
    { intros A ch a B E. destruct (motion_off _ _ _ _ _ _ _ _ _ H E) as [[]|(j1 & i1 & E0 & -> & [K|[(c & [] & K2)|(K & _)]])]; right; [now left|right]. split; [exact K|]. apply in_or_app. left. injection E0 as <- <-. cbn. rewrite EI. now left. }
    destruct H as [(-> & _)|[(f & rest & k & pj' & -> & Ej & H)|(rest & pj' & -> & Ej & H)]]; [apply off_nil|apply off_cons; [now apply Ho|]|].
    { intros A ch a B E'. destruct (motion_off _ _ _ _ _ _ _ _ _ H E') as [[]|(j1 & i1 & E0 & -> & [K|[(c & [] & K2)|(K & _)]])]; right; [now left|right]. split; [exact K|]. apply in_or_app. left. injection E0 as <- <-. cbn. rewrite EI. now left. }
    intros A ch a B E'. right; right. destruct A as [|x A]; cbn in E'; [injection E' as K1 K2 K3; pose proof (Ho _ E) as K; rewrite K1 in K; discriminate K|]. injection E' as <- E'.
    split.
    2:{ pose proof (exec_prefix _ _ _ H _ _ _ _ E') as HA. destruct (exec_bind_inv _ _ _ _ HA) as [(t1 & t2 & y & _ & _ & H2)|[(e1 & H1 & H2)|(z & H1 & _)]]; [apply exec_ret_inv in H2; destruct H2 as [_ H2]; discriminate H2| |discriminate H1]. injection H1 as <-. cbn in H2. unfold close in H2. apply exec_vis_inv in H2. destruct H2 as [[_ K]|(y & tr' & _ & Hw & K)]; [|destruct y; try discriminate Hw; inversion K]. injection K as ->. apply in_or_app. left. cbn. rewrite EI. now left. }
    exists e', AErr. split; [now left|]. split; [|now left].
    assert (HWt : wt e' AErr = true) by (pose proof (exec_wt _ _ _ HY) as HW; rewrite Forall_forall in HW; apply (HW (e', AErr)); now left).
    destruct (actual_destination name); cbn in E; try discriminate E; injection E as <-; try reflexivity; discriminate HWt.
Qed.

(** ** The network *)
Section Net.
Variables (net : list comp) (w0 : world).
Hypothesis HN : net_wired net.
Hypothesis HP : polite net.
Variables (l : list nevent) (w : world) (ocs : nat -> outcome).
Hypothesis HX : net_run net w0 l w ocs.

Lemma task_off i : i / 4 < length net -> exists c, nth_error net (i / 4) = Some c /\ goes_off c (ocs (i / 4)) (i mod 4) (own i l).
Proof.
  intro Hi. destruct (nth_error net (i / 4)) as [c|] eqn:E; [|apply nth_error_None in E; lia]. exists c. split; [reflexivity|].
  assert (Hm : i mod 4 < 4) by (apply Nat.mod_upper_bound; lia).
  pose proof (comp_off c (seen_by (i / 4) l) (ocs (i / 4)) (nw_ready _ HN _ (nth_error_In _ _ E))) as H.
  rewrite (task_of i) at 3. rewrite <- P_Network.own_seen by exact Hm. apply H; [|apply (nr_comps _ _ _ _ _ HX _ _ E)|exact Hm]. destruct c; try exact I. apply HP. exact (nth_error_In _ _ E).
Qed.
Lemma not_store n : In n (flat_map comp_outs net) -> ~ In n (flat_map comp_stores net).
Proof. intros H1 H2. exact (P_JStart.nodup_app_disj _ _ n (nw_outs _ HN) H1 H2). Qed.
Definition held (c : comp) : list chan := map CData (comp_ins c) ++ map CData (comp_stores c) ++ map CMon (comp_counts c).
Lemma one_holder k c k' c' ch : nth_error net k = Some c -> nth_error net k' = Some c' -> In ch (held c) -> In ch (map CData (comp_ins c') ++ map CData (comp_stores c')) -> k = k' /\ c = c'.
Proof.
  intros Hk Hk' H1 H2.
  assert (HE : forall n, In n (comp_ins c) -> In n (comp_stores c') -> False) by (intros n K1 K2; apply (not_store n); [apply (nw_ends _ HN)|]; apply in_flat_map; [exists c|exists c']; split; try assumption; eapply nth_error_In; eassumption).
  assert (HE' : forall n, In n (comp_ins c') -> In n (comp_stores c) -> False) by (intros n K1 K2; apply (not_store n); [apply (nw_ends _ HN)|]; apply in_flat_map; [exists c'|exists c]; split; try assumption; eapply nth_error_In; eassumption).
  assert (Ek : k = k').
  { unfold held in H1. rewrite !in_app_iff, !in_map_iff in *. destruct H1 as [(n & <- & H1)|[(n & <- & H1)|(m & <- & H1)]], H2 as [(n' & E & H2)|(n' & E & H2)]; try discriminate E; injection E as ->.
    - exact (P_NetCost.nth_unique comp_ins _ _ _ _ _ n (nw_ins _ HN) Hk Hk' H1 H2).
    - now destruct (HE n H1 H2).
    - now destruct (HE' n H2 H1).
    - exact (P_NetCost.nth_unique comp_stores _ _ _ _ _ n (P_JStart.nodup_app_r _ _ (nw_outs _ HN)) Hk Hk' H1 H2). }
  subst k'. rewrite Hk in Hk'. injection Hk' as <-. auto.
Qed.

(** A component that has no reason to leave the channels it holds: on these nobody is refused, and they are closed by their writers. *)
Lemma held_prefix k c : nth_error net k = Some c -> (forall i A B e a, i / 4 = k -> own i l = A ++ (e, a) :: B -> reason c (ocs k) A -> exists ch, In ch (held c) /\ refused ch A) ->
  forall l1 l2 w1, l = l1 ++ l2 -> wrun w0 l1 w1 ->
  (forall ch v, In ch (held c) -> ~ In (ESend ch v, AClosed) (all_of l1)) /\ forall ch, In ch (held c) -> cs_closed (w1 ch) = true -> exists i y, writes net i ch /\ In (i, (EClose ch, y)) l1.
Proof.
  intros Hk HC. induction l1 as [|[i ev] l1 IH] using rev_ind; intros l2 w1 E HR.
  - assert (E1 : w0 = w1) by (clear -HR; now inversion HR). subst w1. split; [intros ch v _ []|]. intros ch _ Hc. destruct (nr_new _ _ _ _ _ HX ch) as (cap & K). rewrite K in Hc. discriminate Hc.
  - rewrite <- app_assoc in E. apply wrun_app in HR. destruct HR as (wa & HRa & HRb). assert (HS : wstep wa ev w1) by (clear -HRb; inversion HRb as [|? ? w2 ? ? HS HR2]; subst; inversion HR2; subst; exact HS). clear HRb.
    destruct (IH _ _ E HRa) as [IH1 IH2]. cbn [app] in E. destruct ev as [e a].
    assert (Hin : In (i, (e, a)) l) by (rewrite E; apply in_or_app; right; now left).
    assert (Eo : own i l = own i l1 ++ (e, a) :: own i l2) by (rewrite E, own_app, own_one, Nat.eqb_refl; reflexivity).
    split.
    + intros ch v HL Hev. rewrite all_of_app in Hev. apply in_app_or in Hev. destruct Hev as [Hev|[Hev|[]]]; [exact (IH1 _ _ HL Hev)|]. cbn in Hev. injection Hev as -> ->.
      destruct (task_proper net w0 HN HP l w ocs HX i (nr_only _ _ _ _ _ HX _ _ Hin)) as (c1 & Hc & HPr). specialize (HPr _ _ _ _ Eo). cbn beta iota in HPr. destruct HPr as [K1 K2].
      assert (Hcl : cs_closed (wa ch) = true) by (clear -HS; inversion HS; subst; auto; discriminate).
      destruct (IH2 _ HL Hcl) as (i' & y & K3 & K4). assert (K5 : i' = i) by (apply (writes_once net HN i' i ch K3); now exists c1). subst i'. apply (K2 y). now apply in_own.
    + intros ch HL Hch. destruct (closed_step _ _ _ _ HS Hch) as [K|K].
      * destruct (IH2 _ HL K) as (i' & y & K1 & K2). exists i', y. split; [exact K1|apply in_or_app; now left].
      * cbn [fst] in K. subst e. destruct (task_off i (nr_only _ _ _ _ _ HX _ _ Hin)) as (c1 & Hc & HO). destruct (HO _ _ _ _ Eo) as [K|[K|[K1 K2]]].
        -- exists i, a. split; [now exists c1|]. apply in_or_app. right. now left.
        -- pose proof (shut_closed _ _ _ _ _ HRa K) as Hcl. destruct (IH2 _ HL Hcl) as (i' & y & K1 & K2). exists i', y. split; [exact K1|apply in_or_app; now left].
        -- exfalso. destruct (one_holder k c (i / 4) c1 ch Hk Hc HL K2) as [Ek <-]. rewrite <- Ek in K1. destruct (HC i _ _ _ _ (eq_sym Ek) Eo K1) as (ch' & H1 & v & H2). apply own_all in H2. exact (IH1 _ _ H1 H2).
Qed.
(** A channel that was let go by its writer, who was not refused. *)
Definition good (n : nat) : Prop := (forall v, ~ In (ESend (CData n) v, AClosed) (all_of l)) /\ exists i y, writes net i (CData n) /\ In (i, (EClose (CData n), y)) l.
Lemma held_good k c : nth_error net k = Some c -> (forall i A B e a, i / 4 = k -> own i l = A ++ (e, a) :: B -> reason c (ocs k) A -> exists ch, In ch (held c) /\ refused ch A) ->
  (forall ch v, In ch (held c) -> ~ In (ESend ch v, AClosed) (all_of l)) /\ ((exists m, ocs k = Ended (Ok m)) -> forall n, In n (comp_ins c) -> good n).
Proof.
  intros Hk HC. destruct (held_prefix k c Hk HC l [] w) as [H1 H2]; [now rewrite app_nil_r|exact (nr_world _ _ _ _ _ HX)|]. split; [exact H1|]. intros (m & Hm) n Hn.
  assert (Hh : In (CData n) (held c)) by (apply in_or_app; left; now apply in_map). split; [intro v; now apply H1|]. apply H2; [exact Hh|].
  pose proof (nr_world _ _ _ _ _ HX) as HWr. pose proof (nr_comps _ _ _ _ _ HX _ _ Hk) as HCr. rewrite Hm in HCr.
  assert (K : let_go n (seen_by k l)).
  { apply (comp_ended c _ (Ok m)); [apply (nw_ready _ HN), (nth_error_In _ _ Hk)|exact HCr| |apply in_or_app; now left]. destruct c; try exact I; [destruct Hn|discriminate]. }
  destruct K as (t & Ht & [K|(v & K)]); rewrite P_Network.own_seen in K by exact Ht.
  - apply (closes_it _ _ _ _ HWr). unfold closed_by in *. eapply own_all. exact K.
  - apply in_own in K. eapply P_Net.found_closed; eassumption.
Qed.
Hypothesis HA : all_ended net ocs.
Lemma part_refused i A B e a ch : own i l = A ++ (e, a) :: B -> refused ch A -> exists v, In (ESend ch v, AClosed) (all_of l).
Proof. intros E (v & H). exists v. eapply own_all. rewrite E. apply in_or_app. left. exact H. Qed.
Lemma good_on k c o : nth_error net k = Some c -> passes_on c -> In o (comp_outs c) -> good o -> (exists m, ocs k = Ended (Ok m)) /\ forall n, In n (comp_ins c) -> good n.
Proof.
  intros Hk Hp Ho [G1 (i & y & G2 & G3)].
  assert (Hlt : k < length net) by (apply nth_error_Some; congruence). destruct (HA k Hlt) as (r & Er).
  pose proof (nw_ready _ HN _ (nth_error_In _ _ Hk)) as HR. pose proof (nr_comps _ _ _ _ _ HX _ _ Hk) as HC. rewrite Er in HC.
  assert (Hw : i / 4 = k).
  { destruct G2 as (c' & Hc' & G2). refine (writer_unique net HN _ _ _ _ o Hc' Hk (pens_data _ _ _ G2) _). apply in_or_app. now left. }
  assert (HJ : match c with NJunction _ => exists m, r = Ok m | _ => True end).
  { destruct c as [f name|rg|b u mi mo|j|cwd vars la|d name]; try exact I. destruct r as [m|e]; [eauto|]. exfalso. destruct HC as (st & (HI & s & -> & HC) & HG). destruct s as [e'|r'|x]; try discriminate HG. injection HG as <-.
    destruct (fails_how j None HR _ _ HC) as (_ & _ & K). apply (K o Ho). unfold closed_by.
    destruct G2 as (c' & Hc' & G2). rewrite Hw, Hk in Hc'. injection Hc' as <-.
    assert (Hm : i mod 4 = 0) by (destruct (i mod 4) as [|t]; [reflexivity|destruct G2]). rewrite P_Network.own_seen by lia.
    assert (Ei : i = 4 * k + 0) by (rewrite (task_of i), Hw, Hm; reflexivity). rewrite <- Ei.
    apply in_own in G3. rewrite P_Network.own_seen in HC by lia. rewrite <- Ei in HC. pose proof (exec_wt _ _ _ HC) as HWt. rewrite Forall_forall in HWt. specialize (HWt _ G3). cbn in HWt. destruct y; try discriminate HWt. exact G3. }
  assert (HU : forall o', In o' (comp_outs c) -> match c with NJunction _ => True | _ => o' = o end).
  { intros o' Ho'. destruct c as [f name|rg|b u mi mo|j|cwd vars la|d name]; try contradiction Hp; try exact I; cbn in Ho, Ho'; [destruct (rg_stdout rg) as [[]|]|destruct (bf_stdout b) as [[]|]]; cbn in Ho, Ho'; try contradiction; destruct Ho as [<-|[]], Ho' as [<-|[]]; reflexivity. }
  destruct (held_good k c Hk) as [H1 H2].
  { intros i' A B e a Ei E K. destruct c as [f name|rg|b u mi mo|j|cwd vars la|d name]; try contradiction Hp.
    - exfalso. destruct K as (o' & Ho' & K). pose proof (HU _ Ho') as ->. destruct (part_refused _ _ _ _ _ _ E K) as (v & K'). exact (G1 _ K').
    - destruct K as (ch & [->|[->|[->|(o' & Ho' & ->)]]] & K); [eexists; (split; [|exact K]); unfold held; rewrite !in_app_iff; cbn; auto..|]. exfalso. pose proof (HU _ Ho') as ->. destruct (part_refused _ _ _ _ _ _ E K) as (v & K'). exact (G1 _ K').
    - exfalso. destruct HJ as (m & ->). rewrite Er in K. destruct K as [K|K]; [|now destruct (K m)]. destruct (part_refused _ _ _ _ _ _ E (K o Ho)) as (v & K'). exact (G1 _ K'). }
  assert (HOK : exists m, ocs k = Ended (Ok m)); [|split; [exact HOK|exact (H2 HOK)]].
  destruct r as [m|e]; [eauto|]. exfalso.
  assert (HN' : forall t ch v, t < 4 -> In (ESend ch v, AClosed) (own t (seen_by k l)) -> In ch (held c) \/ ch = CData o -> False).
  { intros t ch v Ht K [K'| ->]; rewrite P_Network.own_seen in K by exact Ht; apply own_all in K; [exact (H1 _ _ K' K)|exact (G1 _ K)]. }
  destruct c as [f name|rg|b u mi mo|j|cwd vars la|d name]; try contradiction Hp.
  - destruct HR as (Hc & pj & i1 & j & o1 & HR). destruct HC as (st & (_ & s & -> & HC) & HG). destruct s as [e'|r'|m]; try discriminate HG. injection HG as <-.
    rewrite (regulator_gate _ _ _ _ HR), Hc in HC. destruct HR as (_ & E1 & E2 & _). assert (Eo : o1 = o) by (cbn in Ho; rewrite E2 in Ho; destruct Ho as [<-|[]]; reflexivity). subst o1.
    destruct (gate_fault _ _ _ _ HC) as ([e0 a0] & K1 & K2). assert (HM : motion_eff (PlReceiver pj i1) mn_empty None (PsIoSender j o) e0).
    { destruct (all_gate _ _ _ _ _ _ HC K1) as [H|[H|[(x & H & _)|(x & H & _)]]]; try discriminate H; [now left|now right]. }
    pose proof (exec_wt _ _ _ HC) as HWt. rewrite Forall_forall in HWt.
    destruct (amiss_is _ _ _ _ _ _ HM (HWt _ K1) K2 K1) as [(ch & [<-|[]] & v & K)|[_ [(k' & j' & f & sc & K)|(k' & j' & f & K)]]]; try discriminate K. exact (HN' 0 _ v ltac:(lia) K (or_intror eq_refl)).
  - destruct HR as (Hc & pj & i1 & j & o1 & HR). destruct HC as (st & HC & HM & HG). pose proof (buffer_parts _ _ _ _ _ _ _ _ _ HR HC) as (sa & sb & sc & Ha & Hb & _ & HQ). destruct HR as (E1 & E2 & _).
    assert (Eo : o1 = o) by (cbn in Ho; rewrite E2 in Ho; destruct Ho as [<-|[]]; reflexivity). subst o1.
    destruct st as [s|x1 y1 z1|s]; [contradiction|cbn in HG; destruct (_ || _); discriminate HG|]. destruct HQ as (ra & rb & rc & -> & -> & -> & ->). injection HG as HG.
    destruct ra as [n|e1]; [destruct rb as [n'|e1]; [discriminate HG|]|].
    + destruct (motion_fault _ _ _ _ _ Hb) as ([e0 a0] & K1 & K2). pose proof (exec_wt _ _ _ Hb) as HWt. rewrite Forall_forall in HWt. unfold half_b in Hb.
      destruct (amiss_is _ _ _ _ _ _ (all_motion _ _ _ _ _ _ _ Hb K1) (HWt _ K1) K2 K1) as [(ch & Hch & v & K)|[_ [(k' & j' & f & sc & K)|(k' & j' & f & K)]]]; try discriminate K. apply (HN' 2 _ v ltac:(lia) K). cbn in Hch. destruct Hch as [<-|[<-|[]]]; [now right|left]. unfold held. rewrite !in_app_iff. cbn. auto.
    + destruct (motion_fault _ _ _ _ _ Ha) as ([e0 a0] & K1 & K2). pose proof (exec_wt _ _ _ Ha) as HWt. rewrite Forall_forall in HWt. unfold half_a in Ha.
      destruct (amiss_is _ _ _ _ _ _ (all_motion _ _ _ _ _ _ _ Ha K1) (HWt _ K1) K2 K1) as [(ch & Hch & v & K)|[_ [(k' & j' & f & sc & K)|(k' & j' & f & K)]]]; try discriminate K. apply (HN' 1 _ v ltac:(lia) K). left. cbn in Hch. unfold held. rewrite !in_app_iff. destruct Hch as [<-|[<-|[]]]; cbn; auto.
  - destruct HJ as (m & E). discriminate E.
Qed.

(** The target that is not hurt. *)
Variable x : nat.
Hypothesis HH : ~ hurt (did x l).
Hypothesis HT : forall c, nth_error net x = Some c -> match c with NLaunch _ _ _ | NDrain _ _ => True | _ => False end.
Lemma good_there c : nth_error net x = Some c -> (exists m, ocs x = Ended (Ok m)) -> forall n, In n (comp_ins c) -> good n.
Proof.
  intros Hx HO. apply (held_good x c Hx); [|exact HO]. intros i A B e a Ei E K. exfalso. apply HH.
  assert (HI : forall y, In y A -> In y (did x l)).
  { intros y Hy. rewrite <- Ei. apply (own_did l (i / 4) (i mod 4)); [apply Nat.mod_upper_bound; lia|]. rewrite P_Network.own_seen by (apply Nat.mod_upper_bound; lia). rewrite <- (task_of i), E. apply in_or_app. now left. }
  specialize (HT _ Hx). destruct c; try contradiction HT; exact (hurt_in _ _ HI K).
Qed.
(** In the end everything has come through. *)
Theorem flow_led c n os : nth_error net x = Some c -> In n (comp_ins c) -> fed_by net n os -> (exists m, ocs x = Ended (Ok m)) ->
  (forall k c n, nth_error net k = Some c -> In n (comp_outs c) -> In n os -> exists m, ocs k = Ended (Ok m)) ->
  Forall (source_spent net l) os /\ target_served net l n /\
  exists mss ms, Forall2 (source_gave net l) os mss /\ interleave mss ms /\ forall ms', target_got net l n ms' -> ms' = ms.
Proof.
  intros Hx Hn HF HO HS. destruct (fed_led net w0 HN l w ocs HX good n os HF (good_there c Hx HO n Hn)) as (mss & H1 & H2 & H3); [intros n' HL v; exact (proj1 HL v)| |exact HS|].
  - intros k c' o Hk Hp Ho HL. exact (good_on k c' o Hk Hp Ho HL).
  - split; [exact H3|]. destruct (target_all net w0 HN l w ocs HX x c n Hx Hn) as [H4 H5]; [|exact HO|split; [exact H5|]; exists mss, (gone_in n l); auto].
    intros f d K. apply HH. exists (EWrite f d), ABroken. split; [|auto]. apply (own_did l x 1); [lia|]. rewrite P_Network.own_seen by lia. exact K.
Qed.
End Net.
