(** * P_Calm: in a willing world nobody in a network is refused *)
From Coq Require Import Ascii String List Bool Arith Lia ZArith.
From Verif Require Import M_Prog P_Prog P_Exec M_Motion M_BackOff M_Regulator M_Faucet M_Drain M_Buffer M_Launch M_Junction M_Join S_Trace S_Lines S_Motion S_World S_Launch S_Regulator S_Drain S_Buffer S_Junction S_Network S_Net
  P_Reach P_Split P_Read P_Motion P_Worker P_Flow P_Utils P_Ask P_Pass P_Copy P_World P_Launch P_Regulator P_Control P_Drain P_Buffer P_BufferJoint P_BufferRun P_Link P_Phase P_Junction P_JStart P_JPass P_Conduit P_NetComp P_NetEnd P_Cost P_Patient P_Net P_NetCost P_NetDone.
From Verif Require P_Network.
Import ListNotations.

(** The traces of a task that writes the channels [W]: it sends only there, and not after closing; it closes nothing else
    unless it has seen it closed, or something has gone wrong. *)
Definition seen_shut (ch : chan) (A : trace) : Prop := saw_end ch A \/ In (EIsClosed ch, ABool true) A.
Definition proper (W : list chan) (tr : trace) : Prop := forall A e a B, tr = A ++ (e, a) :: B ->
  match e with
  | ESend ch _ => In ch W /\ (forall x, ~ In (EClose ch, x) A)
  | EClose ch => In ch W \/ seen_shut ch A \/ fault A
  | _ => True
  end.
Lemma proper_nil W : proper W [].
Proof. intros [|] e a B E; discriminate E. Qed.
Lemma shut_cons ch x A : seen_shut ch A -> seen_shut ch (x :: A).
Proof. intros [[H|H]|H]; [left; left|left; right|right]; now right. Qed.
Lemma fault_cons x A : fault A -> fault (x :: A).
Proof. intros (ev & H1 & H2). exists ev. split; [now right|exact H2]. Qed.
Lemma proper_cons W e0 a0 tr : on_chan e0 = None -> proper W tr -> proper W ((e0, a0) :: tr).
Proof.
  intros H0 H A e a B E. destruct A as [|x A]; cbn in E; [injection E as -> -> ->; destruct e; try exact I; discriminate H0|]. injection E as <- E. specialize (H _ _ _ _ E).
  destruct e as [c|c|c v|c|c|c| | | | | | | | | | | |]; try exact I.
  - destruct H as [H1 H2]. split; [exact H1|]. intros x [K|K]; [injection K as -> _; discriminate H0|exact (H2 _ K)].
  - destruct H as [H|[H|H]]; [now left|right; left; now apply shut_cons|right; right; now apply fault_cons].
Qed.
Definition mons (mon : notifications) : list chan := match mon_read mon with Some m => [CMon m] | None => [] end ++ match mon_written mon with Some m => [CMon m] | None => [] end.
Lemma no_close_before tr A e a B ch x : orderly tr -> tr = A ++ (e, a) :: B -> ~ closing_eff e -> ~ In (EClose ch, x) A.
Proof.
  intros HO -> He Hin. apply in_split in Hin. destruct Hin as (A1 & A2 & ->). rewrite <- app_assoc in HO. cbn in HO. pose proof (HO _ _ _ _ eq_refl I) as H.
  unfold only_closing in H. rewrite Forall_forall in H. apply He. apply (H (e, a)). apply in_or_app. right. now left.
Qed.
Lemma motion_proper pl mon ps tr st : exec (motion pl mon None ps) tr st -> proper (map CData (push_chans ps) ++ mons mon) tr.
Proof.
  intros HX A e a B E. destruct (orderly_all _ _ _ (motion_orderly _ _ _ _) _ _ HX) as [_ HO].
  assert (Hin : In (e, a) tr) by (rewrite E; apply in_or_app; right; now left). pose proof (all_motion _ _ _ _ _ _ _ HX Hin) as HE.
  pose proof (motion_leave pl mon ps _ _ (exec_prefix _ _ _ HX _ _ _ _ E)) as HL. cbn [app] in HL.
  assert (Hm : forall m, mon_read mon = Some m \/ mon_written mon = Some m -> In (CMon m) (map CData (push_chans ps) ++ mons mon)).
  { intros m Hm. unfold mons. rewrite !in_app_iff. destruct Hm as [->| ->]; cbn; auto. }
  destruct e as [c|c|c v|c|c|c| | | | | | | | | | | |]; try exact I.
  - split; [|intro x; eapply no_close_before; [exact HO|exact E|intros []]].
    destruct HE as [[H|[(q & d & [<-|[]] & H)|[(m & H & K)|[(m & H & K)|(s & v' & H & _)]]]]|[H|[(q & [<-|[]] & H)|(m & H & K)]]]; try discriminate H; try discriminate K.
    + destruct pl; discriminate H.
    + destruct ps; try discriminate H; injection H as <- <-; cbn; auto.
    + injection K as -> ->. auto.
    + injection K as -> ->. auto.
    + destruct pl; try contradiction H; discriminate H.
    + destruct ps; try contradiction H; try (destruct H as [H|H]); discriminate H.
  - destruct HE as [[H|[(q & d & [<-|[]] & H)|[(m & H & K)|[(m & H & K)|(s & v' & H & _)]]]]|[H|[(q & [<-|[]] & H)|(m & H & K)]]]; try discriminate H; try discriminate K.
    + destruct pl; discriminate H.
    + destruct ps; discriminate H.
    + destruct pl; try contradiction H; try discriminate H; injection H as ->. cbn in HL. destruct HL as [[HL|[HL|HL]] _]; [left|right; left; now left|right; now right]. apply in_or_app. left. now apply in_map.
    + destruct ps; try contradiction H; try (destruct H as [H|H]; discriminate H); injection H as ->; left; now left.
    + injection K as ->. left. auto.
Qed.
Lemma gate_proper pl ps tr st : exec (start_secret false (Some pl) (Some ps) None None) tr st -> proper (map CData (push_chans ps)) tr.
Proof.
  intros HX A e a B E. destruct (orderly_all _ _ _ (gate_orderly _ _ _ _) _ _ HX) as [_ HO].
  assert (Hin : In (e, a) tr) by (rewrite E; apply in_or_app; right; now left). pose proof (all_gate _ _ _ _ _ _ HX Hin) as HE.
  pose proof (gate_leave pl ps _ _ (exec_prefix _ _ _ HX _ _ _ _ E)) as HL. cbn [app] in HL.
  destruct HE as [HE|[HE|[(x & H & _)|(x & H & _)]]]; try discriminate H;
  destruct e as [c|c|c v|c|c|c| | | | | | | | | | | |]; try exact I.
  - split; [|intro x; eapply no_close_before; [exact HO|exact E|intros []]].
    destruct HE as [H|[(q & d & [<-|[]] & H)|[(m & H & K)|[(m & H & K)|(s & v' & H & _)]]]]; try discriminate H.
    + destruct pl; discriminate H.
    + destruct ps; try discriminate H; injection H as <- <-; cbn; auto.
  - destruct (work_not_closing _ _ _ _ _ _ HE I).
  - destruct HE as [H|[(q & [<-|[]] & H)|(m & _ & K)]]; [| |discriminate K].
    + destruct pl; try contradiction H; discriminate H.
    + destruct ps; try contradiction H; try (destruct H as [H|H]); discriminate H.
  - destruct HE as [H|[(q & [<-|[]] & H)|(m & [K|K] & _)]]; try discriminate K.
    + destruct pl; try contradiction H; try discriminate H; injection H as ->. cbn in HL. destruct HL as [[HL|[HL|HL]] _]; [left|right; left; now left|right; now right]. now apply in_map.
    + destruct ps; try contradiction H; try (destruct H as [H|H]; discriminate H); injection H as ->; left; now left.
Qed.
Lemma junction_proper j tr st : junction_ready j -> jn_stdout j <> [] -> exec (junction_start j None) tr st -> proper (map CData (out_chans j)) tr.
Proof.
  intros HR Hout HX A e a B E. pose proof (exec_prefix _ _ _ HX _ _ _ _ E) as HA. pose proof (start_at j None HR _ _ HA) as HN.
  assert (Hin : In (e, a) tr) by (rewrite E; apply in_or_app; right; now left). destruct (junction_tame _ HR _ _ HX) as [HT _]. unfold within_eff in HT. rewrite Forall_forall in HT. specialize (HT _ Hin). cbn [fst] in HT.
  pose proof (junction_effects _ _ _ _ _ _ HR HX Hin) as HD. unfold does in HD.
  destruct e as [c|c|c v|c|c|c| | | | | | | | | | | |]; try exact I.
  - destruct HT as (n & d & -> & ->). destruct (HD n eq_refl) as [[]|[(_ & _ & [[K|K]|K])|(_ & K0 & _)]]; try discriminate K.
    destruct HN as [_ HN]. split; [now apply in_map|]. intros x KK. apply (out_not_in j HR n K0). apply HN. unfold closes. apply in_flat_map. exists (EClose (CData n), x). split; [exact KK|now left].
  - destruct HN as (n & -> & HN). destruct HN as [(_ & _ & _ & [[[K|K] _]|(err & [K|[[K _] _]])])|(done & p & rest & pre & H1 & -> & _)].
    + right; left. left. right. unfold ends in K. apply in_flat_map in K. destruct K as ([e1 a1] & K1 & K2). destruct e1 as [|[]| | | | | | | | | | | | | | | |]; try destruct K2. destruct a1; try destruct K2; subst; [exact K1|contradiction].
    + right; right. destruct K as [K|K]; [contradiction|]. destruct (jn_stdout j) as [|p ps] eqn:EO; [now destruct Hout|]. destruct (K p (or_introl eq_refl)) as (_ & d & ev & K1 & K2).
      exists (ev, closed_ans p). split; [exact K2|]. pose proof (io_in j HR p) as Hio. rewrite EO in Hio. specialize (Hio (or_introl eq_refl)). destruct p; try contradiction. cbn in K1. injection K1 as <-. reflexivity.
    + right; right. destruct K as (l & d & done & p & rest & os & jn & _ & H2 & _ & H4 & _). pose proof (io_in j HR p) as Hio. destruct p as [ | | |jq nq| ]; try (exfalso; apply Hio; rewrite H2; apply in_or_app; right; now left).
      exists (ESend (CData nq) (VData d), AClosed). split; [|reflexivity]. apply P_Ask.in_attempts with (d := d). rewrite H4. apply in_or_app. right. apply in_or_app. right. now left.
    + now destruct K.
    + left. apply in_map. unfold out_chans. apply in_map. rewrite H1. apply in_or_app. right. now left.
Qed.

(** ** The counter of a buffer *)
Definition counter_seen (mi mo : nat) (tr : trace) (t : tplace) : Prop :=
  match t with
  | TE2 _ _ _ _ | TC2 _ _ _ _ => In (EIsClosed (CMon mi), ABool true) tr
  | TDropO _ | TDropI _ | TDropS _ | TDone _ => In (EIsClosed (CMon mi), ABool true) tr /\ In (EIsClosed (CMon mo), ABool true) tr
  | _ => True
  end.
Lemma counter_looks mi mo tr t : treach None mi mo tr t -> counter_seen mi mo tr t.
Proof.
  induction 1 as [|tr t e a H IH He Hw]; [exact I|].
  assert (K : forall ev, In ev tr -> In ev (tr ++ [(e, a)])) by (intros; apply in_or_app; now left).
  assert (K' : In (e, a) (tr ++ [(e, a)])) by (apply in_or_app; right; now left).
  destruct t; cbn in He; try discriminate He; injection He as <-; cbn in IH; destruct a as [v| | | | | | |b| | |]; try discriminate Hw; try destruct v; try destruct b; cbn in *; unfold go_turn, go_rep, go_dropS; repeat match goal with |- context [match ?x with _ => _ end] => destruct x end; cbn; intuition.
Qed.
Lemma counter_proper mi mo tr st : exec (total_in_buffer None mi mo) tr st -> proper [] tr.
Proof.
  intros HX A e a B E. destruct (total_reach _ _ _ _ _ HX) as (t & HT & _). apply t_traces in HT. rewrite Forall_forall in HT.
  assert (Hin : In (e, a) tr) by (rewrite E; apply in_or_app; right; now left). specialize (HT _ Hin). cbn [fst] in HT.
  pose proof (exec_prefix _ _ _ HX _ _ _ _ E) as HA. destruct (total_reach _ _ _ _ _ HA) as (t' & HT' & HS & _). pose proof (counter_looks _ _ _ _ HT') as HC.
  destruct e as [c|c|c v|c|c|c| | | | | | | | | | | |]; try exact I.
  - exfalso. destruct t'; cbn in HS; discriminate HS.
  - right; left. right. destruct t'; cbn in HS; try discriminate HS; injection HS as <-; apply HC.
Qed.

(** ** The end of a launch *)
Lemma finish_proper la a b c tr st : exec (launch_finish la None a b c) tr st -> proper (map CData (exit_of (la_exit_status la))) tr.
Proof.
  intros HX A e x B E. unfold launch_finish in HX. destruct (la_exit_status la) as [[j n]|] eqn:HE.
  2:{ apply exec_ret_inv in HX. destruct HX as [-> _]. destruct A; discriminate E. }
  assert (HS : tsat [] (r <- iter (exit_body None j n) tt ;; match r with Err e => Ret (Err e) | Ok _ => Ret (launch_result a b c) end)
    (fun h e => match e with ESend ch _ => ch = CData n /\ (forall x, ~ In (EClose ch, x) h) | EClose ch => ch = CData n | _ => True end) (fun _ _ => True)).
  { apply tsat_bind. eapply tsat_conseq with (Q := fun _ _ => True); [|intros h [u|e'] _; now apply tsat_ret].
    apply (tsat_iter _ (fun h _ => forall ch x, ~ In (EClose ch, x) h)); [|intros ch x0 []].
    intros h [] Hh tr0 st0 HY. unfold exit_body in HY. apply exec_vis_inv in HY. destruct HY as [[-> ->]|(a0 & tr' & -> & Hw & HY)]; [exact I|].
    destruct (exit_message a0) as [m|] eqn:Em.
    - cbn [send bind] in HY. destruct (exec_bind_inv _ _ _ _ HY) as [(t1 & t2 & y & -> & H1 & H2)|[(e1 & -> & H1)|(s & -> & H1)]]; unfold send in H1; apply exec_vis_inv in H1; destruct H1 as [[-> K]|(a1 & tr1 & -> & Hw1 & H1)]; try discriminate K; try exact I.
      + assert (HN : forall z ch, ~ In (EClose ch, z) (h ++ (EStatus, a0) :: (ESend (CData n) (VData m), a1) :: tr1)).
        { intros z ch K. apply in_app_or in K. destruct K as [K|[K|[K|K]]]; try discriminate K; [exact (Hh _ _ K)|]. destruct a1; try discriminate Hw1; apply exec_ret_inv in H1; destruct H1 as [-> _]; destruct K. }
        destruct y; cbn in H2.
        * destruct (exec_bind_inv _ _ _ _ H2) as [(t3 & t4 & y & -> & H3 & H4)|[(e1 & -> & H3)|(s & -> & H3)]]; [apply exec_ret_inv in H4; destruct H4 as [-> ->]; exact I| |exact I].
          unfold close in H3. apply exec_vis_inv in H3. destruct H3 as [[-> K]|(a2 & tr2 & -> & Hw2 & H3)]; [injection K as ->; reflexivity|]. destruct a2; try discriminate Hw2. inversion H3.
        * apply exec_ret_inv in H2. destruct H2 as [-> ->]. exact I.
      + injection K as ->. split; [reflexivity|]. intros z K. apply in_app_or in K. destruct K as [K|[K|[]]]; [exact (Hh _ _ K)|discriminate K].
      + destruct a1; try discriminate Hw1; inversion H1.
    - destruct (exec_bind_inv _ _ _ _ HY) as [(t1 & t2 & y & -> & H1 & H2)|[(e1 & -> & H1)|(s & -> & H1)]]; unfold sleep in H1; apply exec_vis_inv in H1; destruct H1 as [[-> K]|(a1 & tr1 & -> & Hw1 & H1)]; try discriminate K; try exact I.
      + apply exec_ret_inv in H2. destruct H2 as [-> ->]. destruct a1; try discriminate Hw1. apply exec_ret_inv in H1. destruct H1 as [-> _]. intros ch z K. apply in_app_or in K. destruct K as [K|[K|[K|[]]]]; try discriminate K. exact (Hh _ _ K).
      + injection K as ->. exact I.
      + destruct a1; try discriminate Hw1. inversion H1. }
  pose proof (HS _ _ (exec_prefix _ _ _ HX _ _ _ _ E)) as H. cbn [app] in H. destruct e as [ch|ch|ch v|ch|ch|ch| | | | | | | | | | | |]; try exact I.
  - destruct H as [-> H]. split; [now left|exact H].
  - subst ch. left. now left.
Qed.

(** ** Every component *)
Definition pens (c : comp) (t : nat) : list chan :=
  match c, t with
  | NBuffer _ u mi _, 1 => [CData u; CMon mi]
  | NBuffer b _ _ mo, 2 => map CData (out_of (bf_stdout b)) ++ [CMon mo]
  | NBuffer _ _ _ _, _ => []
  | NLaunch _ _ la, 0 => map CData (exit_of (la_exit_status la))
  | NLaunch _ _ la, 2 => map CData (out_of (la_stdout la))
  | NLaunch _ _ la, 3 => map CData (out_of (la_stderr la))
  | NLaunch _ _ _, _ => []
  | _, 0 => map CData (comp_outs c)
  | _, _ => []
  end.
Lemma alone_proper p L st W : alone p L st -> (forall tr s, exec p tr s -> proper (W 0) tr) -> forall t, t < 4 -> proper (W t) (own t L).
Proof.
  intros (HI & s & _ & HX) H t Ht. destruct t as [|t]; [eapply H; exact HX|]. rewrite (HI (S t)) by (cbn; lia). apply proper_nil.
Qed.
Lemma drop_proper pl e a tr st (r : mres nat) W : amiss (e, a) = true -> on_chan e = None -> exec (drop_pull pl ;;; Ret r) tr st -> proper W ((e, a) :: tr).
Proof.
  intros Ha He HX A e1 a1 B E. destruct A as [|x A]; cbn in E; [injection E as <- <- <-; destruct e; try exact I; discriminate He|]. injection E as <- E.
  destruct e1 as [ch|ch|ch v|ch|ch|ch| | | | | | | | | | | |]; try exact I.
  - exfalso. pose proof (exec_prefix _ _ _ HX _ _ _ _ E) as HA. destruct (exec_bind_inv _ _ _ _ HA) as [(t1 & t2 & x & _ & _ & H2)|[(e' & H1 & H2)|(s & H1 & _)]]; [apply exec_ret_inv in H2; destruct H2 as [_ H2]; discriminate H2| |discriminate H1].
    injection H1 as <-. destruct pl; cbn in H2; unfold drop_fd, close in H2; try (apply exec_ret_inv in H2; destruct H2 as [_ H2]; discriminate H2);
      apply exec_vis_inv in H2; destruct H2 as [[_ K]|(y & tr' & _ & Hw & K)]; try discriminate K; destruct y; try discriminate Hw; inversion K.
  - right; right. exists (e, a). split; [now left|exact Ha].
Qed.
Lemma comp_proper c L oc : comp_ready c -> match c with NJunction j => jn_stdout j <> [] | _ => True end -> comp_runs c L oc -> forall t, t < 4 -> proper (pens c t) (own t L).
Proof.
  destruct c as [f name|r|b u mi mo|j|cwd vars la|d name]; intros HR HP HX.
  - destruct HR as (HC & j & o & HR). destruct HX as (st & HX & _). apply (alone_proper _ _ _ (pens (NFaucet f name)) HX). intros tr s HY.
    assert (EO : comp_outs (NFaucet f name) = [o]) by (destruct HR as (_ & _ & E & _); cbn; now rewrite E). cbn [pens]. rewrite EO.
    assert (Hs : on_chan (source_eff name) = None) by (unfold source_eff; destruct (string_dec _ _); reflexivity).
    destruct (faucet_run _ _ _ _ _ _ HR HY) as [[-> _]|[(j' & _ & -> & _)|(d & rest & k & j' & -> & HZ)]]; [apply proper_nil|apply proper_cons; [exact Hs|apply proper_nil]|apply proper_cons; [exact Hs|]].
    rewrite HC in HZ. exact (gate_proper _ _ _ _ HZ).
  - destruct HR as (HC & pj & i & j & o & HR). destruct HX as (st & HX & _). apply (alone_proper _ _ _ (pens (NRegulator r)) HX). intros tr s HY.
    rewrite (regulator_gate _ _ _ _ HR), HC in HY. destruct HR as (_ & E1 & E2 & _). cbn [pens comp_outs]. rewrite E2. exact (gate_proper _ _ _ _ HY).
  - destruct HR as (HC & pj & i & j & o & HR). destruct HX as (st & HX & _ & _). pose proof (buffer_parts _ _ _ _ _ _ _ _ _ HR HX) as (sa & sb & sc & Ha & Hb & Hc & _).
    pose proof (buffer_zero _ _ _ _ _ _ _ _ HR ltac:(discriminate) HX) as H0. destruct HR as (E1 & E2 & _). rewrite HC in Hc. intros t Ht.
    destruct t as [|[|[|[|t]]]]; [rewrite H0; apply proper_nil|exact (motion_proper _ _ _ _ _ Ha)|cbn [pens]; rewrite E2; exact (motion_proper _ _ _ _ _ Hb)|exact (counter_proper _ _ _ _ Hc)|lia].
  - destruct HX as (st & HX & _). apply (alone_proper _ _ _ (pens (NJunction j)) HX). intros tr s HY. exact (junction_proper _ _ _ HR HP HY).
  - destruct HR as (HR & Hin1 & Hout1). destruct HX as (st & HX & _ & _). pose proof (launch_parts _ _ _ _ _ _ (proj1 HR) HX) as HQ.
    assert (HI : forall fin fout ferr, let x := launch_relays la fin fout ferr in
      (forall tr s, exec (relay (rl_in x) None) tr s -> proper [] tr) /\
      (forall tr s, exec (relay (rl_out x) None) tr s -> proper (pens (NLaunch cwd vars la) 2) tr) /\
      (forall tr s, exec (relay (rl_err x) None) tr s -> proper (pens (NLaunch cwd vars la) 3) tr)).
    { intros fin fout ferr x. subst x. repeat split; intros tr s HY; unfold relay in HY; apply motion_proper in HY; unfold mons in HY; cbn [mn_empty mon_read mon_written app] in HY; rewrite app_nil_r in HY; cbn [launch_relays rl_in rl_out rl_err fst snd pens] in HY |- *.
      - destruct (la_stdin la); exact HY.
      - destruct (la_stdout la) as [ps|] eqn:E; [|exact HY]. destruct (Hout1 ps (or_introl eq_refl)) as (j & o & ->). exact HY.
      - destruct (la_stderr la) as [ps|] eqn:E; [|exact HY]. destruct (Hout1 ps (or_intror eq_refl)) as (j & o & ->). exact HY. }
    intros t Ht. destruct st as [s|a1 b1 c1|s].
    + destruct HQ as (HID & HQ). destruct t as [|t]; [|rewrite (HID (S t)) by (cbn; lia); apply proper_nil]. destruct HQ as [[E _]|[E _]]; rewrite E; [apply proper_nil|apply proper_cons; [reflexivity|apply proper_nil]].
    + destruct HQ as (fin & fout & ferr & E & H1 & H2 & H3). destruct (HI fin fout ferr) as (I1 & I2 & I3). destruct t as [|[|[|[|t]]]]; [|eapply I1; exact H1|eapply I2; exact H2|eapply I3; exact H3|lia].
      rewrite E. apply proper_cons; [reflexivity|apply proper_nil].
    + destruct HQ as (fin & fout & ferr & a1 & b1 & c1 & tr & E & H1 & H2 & H3 & H4). destruct (HI fin fout ferr) as (I1 & I2 & I3). destruct t as [|[|[|[|t]]]]; [|eapply I1; exact H1|eapply I2; exact H2|eapply I3; exact H3|lia].
      rewrite E. apply proper_cons; [reflexivity|]. exact (finish_proper _ _ _ _ _ _ H4).
  - destruct HR as (pj & i & HR). destruct HX as (st & HX & _). apply (alone_proper _ _ _ (pens (NDrain d name)) HX). intros tr s HY. cbn [pens comp_outs map].
    assert (Ho : forall e', opened_for (actual_destination name) = Some e' -> on_chan e' = None) by (intros e' E; destruct (actual_destination name); cbn in E; try discriminate E; injection E as <-; reflexivity).
    destruct (drain_run _ _ _ _ _ HR HY) as [(_ & H)|(e' & E & H)]; [exact (motion_proper _ _ _ _ _ H)|].
    destruct H as [(-> & _)|[(f & rest & k & pj' & -> & Ej & H)|(rest & pj' & -> & Ej & H)]]; [apply proper_nil|apply proper_cons; [now apply Ho|exact (motion_proper _ _ _ _ _ H)]|].
    eapply drop_proper; [|now apply Ho|exact H]. destruct (actual_destination name); cbn in E; try discriminate E; injection E as <-; reflexivity.
Qed.

(** A component ends with an error only when something has gone wrong. *)
Lemma motion_fault pl mon ps tr e : exec (motion pl mon None ps) tr (Done (Err e)) -> fault tr.
Proof. intro HX. pose proof (motion_leave _ _ _ _ _ HX) as H. apply H. now exists e. Qed.
Lemma gate_fault pl ps tr e : exec (start_secret false (Some pl) (Some ps) None None) tr (Done (Err e)) -> fault tr.
Proof. intro HX. pose proof (gate_leave _ _ _ _ HX) as H. apply H. now exists e. Qed.
Lemma comp_wrong c L e : comp_ready c -> comp_runs c L (Ended (Err e)) -> exists t, t < 4 /\ fault (own t L).
Proof.
  destruct c as [f name|r|b u mi mo|j|cwd vars la|d name]; intros HR HX.
  - destruct HR as (HC & j & o & HR). destruct HX as (st & (_ & s & -> & HX) & HG). destruct s as [e'|r'|m]; try discriminate HG. injection HG as <-. exists 0. split; [lia|].
    destruct (faucet_run _ _ _ _ _ _ HR HX) as [[_ E]|[(j' & _ & E & _ & Hna)|(d & rest & k & j' & E & HZ)]]; [discriminate E| |].
    + rewrite E. exists (source_eff name, AErr). split; [now left|]. unfold source_eff. destruct (string_dec _ _); reflexivity.
    + rewrite E. apply fault_cons. rewrite HC in HZ. exact (gate_fault _ _ _ _ HZ).
  - destruct HR as (HC & pj & i & j & o & HR). destruct HX as (st & (_ & s & -> & HX) & HG). destruct s as [e'|r'|m]; try discriminate HG. injection HG as <-. exists 0. split; [lia|].
    rewrite (regulator_gate _ _ _ _ HR), HC in HX. exact (gate_fault _ _ _ _ HX).
  - destruct HR as (HC & pj & i & j & o & HR). destruct HX as (st & HX & HM & HG). pose proof (buffer_parts _ _ _ _ _ _ _ _ _ HR HX) as (sa & sb & sc & Ha & Hb & Hc & HP).
    destruct st as [s|x y z|s]; [contradiction|cbn in HG; destruct (_ || _); discriminate HG|]. destruct HP as (ra & rb & rc & -> & -> & -> & ->). injection HG as HG.
    destruct ra as [n|e1]; [|exists 1; split; [lia|]; exact (motion_fault _ _ _ _ _ Ha)]. destruct rb as [n'|e1]; [discriminate HG|exists 2; split; [lia|]; exact (motion_fault _ _ _ _ _ Hb)].
  - destruct HX as (st & (_ & s & -> & HX) & HG). destruct s as [e'|r'|m]; try discriminate HG. injection HG as <-. exists 0. split; [lia|].
    destruct (fails_how j None HR _ _ HX) as ([(p & jp & d & H1 & _ & _ & (ev & H2 & H3) & _)|[K _]] & _); [|now destruct K].
    exists (ev, closed_ans p). split; [exact H3|]. pose proof (io_in j HR p H1) as Hio. destruct p; try contradiction. injection H2 as <-. reflexivity.
  - destruct HR as (HR & Hin & Hout). destruct HX as (st & HX & HM & HG). pose proof (launch_parts _ _ _ _ _ _ (proj1 HR) HX) as HP. destruct st as [[e'|r'|m]|x y z|[e'|r'|m]]; try discriminate HG.
    + cbn beta iota in HP. destruct HP as (_ & [(_ & E)|(_ & m & E)]); discriminate E.
    + cbn in HG. destruct (_ || _); discriminate HG.
    + injection HG as <-. cbn beta iota in HP. destruct HP as (fin & fout & ferr & a & b & c & tr & E & H1 & H2 & H3 & HF).
      assert (HL : launch_result a b c = Err e -> exists t, t < 4 /\ fault (own t L)).
      { intro K. destruct a as [n|e1]; [|exists 1; split; [lia|exact (motion_fault _ _ _ _ _ H1)]]. destruct b as [n2|e1]; [|exists 2; split; [lia|exact (motion_fault _ _ _ _ _ H2)]]. destruct c as [n3|e1]; [discriminate K|exists 3; split; [lia|exact (motion_fault _ _ _ _ _ H3)]]. }
      destruct (la_exit_status la) as [[j m]|] eqn:HE.
      2:{ unfold launch_finish in HF. rewrite HE in HF. apply exec_ret_inv in HF. destruct HF as [_ HF]. injection HF as HF. now apply HL. }
      destruct (finish_inv la None j m HE _ _ _ _ _ HF) as (x & (k & code & msg & rest & _ & E' & [(-> & _)|[(s & port & _ & K & _)|(t & -> & Hx)]]) & HK).
      * exists 0. split; [lia|]. rewrite E, E'. exists (ESend (CData m) (VData msg), AClosed). split; [|reflexivity]. rewrite !in_app_iff. right. right. right. now left.
      * discriminate K.
      * apply HL. destruct Hx as (_ & _ & _ & ->). exact (eq_sym HK).
  - destruct HR as (pj & i & HR). destruct HX as (st & (_ & s & -> & HX) & HG). destruct s as [e'|r'|m]; try discriminate HG. injection HG as <-. exists 0. split; [lia|].
    destruct (drain_run _ _ _ _ _ HR HX) as [(_ & H)|(e' & E & H)]; [exact (motion_fault _ _ _ _ _ H)|].
    destruct H as [(_ & K)|[(f & rest & k & pj' & -> & Ej & H)|(rest & pj' & -> & Ej & H)]]; [discriminate K|apply fault_cons; exact (motion_fault _ _ _ _ _ H)|].
    exists (e', AErr). split; [now left|]. destruct (actual_destination name); cbn in E; try discriminate E; injection E as <-; reflexivity.
Qed.

(** ** The network *)
Lemma nodup_part {A} (f : A -> list nat) net c : NoDup (flat_map f net) -> In c net -> NoDup (f c).
Proof.
  intros H Hin. apply in_split in Hin. destruct Hin as (a & b & ->). rewrite flat_map_app in H. cbn in H. apply nodup_app_r in H. now apply nodup_app_l in H.
Qed.
Lemma closed_step w ev w' ch : wstep w ev w' -> cs_closed (w' ch) = true -> cs_closed (w ch) = true \/ fst ev = EClose ch.
Proof.
  intros HS HC. inversion HS; subst; auto; unfold upd in HC; destruct (chan_eqb c ch) eqn:E; auto; apply chan_eqb_eq in E; subst; auto. discriminate HC.
Qed.
Lemma shut_closed w l w' i ch : wrun w l w' -> seen_shut ch (own i l) -> cs_closed (w' ch) = true.
Proof.
  intros HW HS. assert (K : exists e a, (e = ERecv ch \/ e = ETryRecv ch) /\ a = AClosed /\ In (e, a) (own i l) \/ (e = EIsClosed ch /\ a = ABool true /\ In (e, a) (own i l))) by (destruct HS as [[HS|HS]|HS]; do 2 eexists; [left|left|right]; eauto).
  destruct K as (e & a & K). assert (Hin : In (e, a) (own i l)) by tauto. unfold own in Hin. apply in_map_iff in Hin. destruct Hin as ((i' & ev) & E & Hin). cbn in E. subst ev. apply filter_In in Hin. destruct Hin as [Hin _].
  apply in_split in Hin. destruct Hin as (x & y & ->). destruct (wrun_mid _ _ _ _ _ _ HW) as (w1 & w2 & _ & H1 & H2). apply (stays_closed ch _ _ _ H2).
  destruct K as [([->| ->] & -> & _)|(-> & -> & _)]; inversion H1; subst; auto; discriminate.
Qed.

Section Net.
Variables (net : list comp) (w0 : world).
Hypothesis HN : net_wired net.
Hypothesis HP : polite net.
Variables (l : list nevent) (w : world) (ocs : nat -> outcome).
Hypothesis HX : net_run net w0 l w ocs.
Hypothesis HW : willing l.

Definition writes (i : nat) (ch : chan) : Prop := exists c, nth_error net (i / 4) = Some c /\ In ch (pens c (i mod 4)).
Lemma task_proper i : i / 4 < length net -> exists c, nth_error net (i / 4) = Some c /\ proper (pens c (i mod 4)) (own i l).
Proof.
  intro Hi. destruct (nth_error net (i / 4)) as [c|] eqn:E; [|apply nth_error_None in E; lia]. exists c. split; [reflexivity|].
  assert (Hm : i mod 4 < 4) by (apply Nat.mod_upper_bound; lia).
  pose proof (comp_proper c (seen_by (i / 4) l) (ocs (i / 4)) (nw_ready _ HN _ (nth_error_In _ _ E))) as H.
  rewrite (task_of i) at 2. rewrite <- P_Network.own_seen by exact Hm. apply H; [|apply (nr_comps _ _ _ _ _ HX _ _ E)|exact Hm]. destruct c; try exact I. apply HP. exact (nth_error_In _ _ E).
Qed.
Lemma pens_data c t n : In (CData n) (pens c t) -> In n (comp_outs c ++ comp_stores c).
Proof.
  rewrite in_app_iff. destruct c as [f name|r|b u mi mo|j|cwd vars la|d name]; destruct t as [|[|[|[|t]]]]; cbn [pens]; intro H; try contradiction H; rewrite ?in_app_iff, ?in_map_iff in H; cbn.
  1,2,5: destruct H as (x & K & H); injection K as ->; now left.
  - destruct H as [H|[H|[]]]; [injection H as ->; right; now left|discriminate H].
  - destruct H as [(x & K & H)|[H|[]]]; [injection K as ->; now left|discriminate H].
  - destruct H as (x & K & H). injection K as ->. rewrite !in_app_iff. auto.
  - destruct H as (x & K & H). injection K as ->. rewrite !in_app_iff. auto.
  - destruct H as (x & K & H). injection K as ->. rewrite !in_app_iff. auto.
Qed.
Lemma pens_mon c t n : In (CMon n) (pens c t) -> In n (comp_counts c).
Proof.
  destruct c as [f name|r|b u mi mo|j|cwd vars la|d name]; destruct t as [|[|[|[|t]]]]; cbn [pens]; intro H; try contradiction H; rewrite ?in_app_iff, ?in_map_iff in H; try (destruct H as (x & K & _); discriminate K).
  - destruct H as [H|[H|[]]]; [discriminate H|injection H as ->; now left].
  - destruct H as [(x & K & _)|[H|[]]]; [discriminate K|injection H as ->; right; now left].
Qed.
Lemma pens_kind c t ch : In ch (pens c t) -> (exists n, ch = CData n) \/ exists m, ch = CMon m.
Proof.
  destruct c as [f name|r|b u mi mo|j|cwd vars la|d name]; destruct t as [|[|[|[|t]]]]; cbn [pens]; intro H; try contradiction H; rewrite ?in_app_iff, ?in_map_iff in H; try (destruct H as (x & <- & _); eauto).
  - destruct H as [<-|[<-|[]]]; eauto.
  - destruct H as [(x & <- & _)|[<-|[]]]; eauto.
Qed.
Lemma pens_once c t t' ch : NoDup (comp_outs c ++ comp_stores c) -> NoDup (comp_counts c) -> In ch (pens c t) -> In ch (pens c t') -> t = t'.
Proof.
  intros H1 H2. destruct c as [f name|r|b u mi mo|j|cwd vars la|d name]; destruct t as [|[|[|[|t]]]]; destruct t' as [|[|[|[|t']]]]; cbn [pens]; intros Ha Hb; try contradiction Ha; try contradiction Hb; try reflexivity; exfalso; cbn in H1, H2.
  1,2: rewrite in_app_iff, in_map_iff in *.
  - destruct Ha as [<-|[<-|[]]], Hb as [(x & K & H)|[K|[]]]; try discriminate K.
    + injection K as ->. apply (nodup_app_disj _ _ u H1 H). now left.
    + injection K as ->. inversion H2 as [|? ? K _]; subst. apply K. now left.
  - destruct Hb as [<-|[<-|[]]], Ha as [(x & K & H)|[K|[]]]; try discriminate K.
    + injection K as ->. apply (nodup_app_disj _ _ u H1 H). now left.
    + injection K as ->. inversion H2 as [|? ? K _]; subst. apply K. now left.
  - rewrite app_nil_r in H1. rewrite in_map_iff in *. destruct Ha as (x & <- & Ha), Hb as (y & K & Hb). injection K as ->. apply (nodup_app_disj _ _ x H1 Hb). apply in_or_app. now right.
  - rewrite app_nil_r in H1. rewrite in_map_iff in *. destruct Ha as (x & <- & Ha), Hb as (y & K & Hb). injection K as ->. apply nodup_app_r in H1. exact (nodup_app_disj _ _ x H1 Hb Ha).
  - rewrite app_nil_r in H1. rewrite in_map_iff in *. destruct Ha as (x & <- & Ha), Hb as (y & K & Hb). injection K as ->. apply (nodup_app_disj _ _ x H1 Ha). apply in_or_app. now right.
  - rewrite app_nil_r in H1. rewrite in_map_iff in *. destruct Ha as (x & <- & Ha), Hb as (y & K & Hb). injection K as ->. apply (nodup_app_disj _ _ x H1 Ha). apply in_or_app. now left.
  - rewrite app_nil_r in H1. rewrite in_map_iff in *. destruct Ha as (x & <- & Ha), Hb as (y & K & Hb). injection K as ->. apply nodup_app_r in H1. exact (nodup_app_disj _ _ x H1 Ha Hb).
  - rewrite app_nil_r in H1. rewrite in_map_iff in *. destruct Ha as (x & <- & Ha), Hb as (y & K & Hb). injection K as ->. apply (nodup_app_disj _ _ x H1 Hb). apply in_or_app. now left.
Qed.
Lemma nodup_both c : In c net -> NoDup (comp_outs c ++ comp_stores c).
Proof.
  intro Hin. pose proof (nw_outs _ HN) as H. apply in_split in Hin. destruct Hin as (a & b & E). rewrite E, !flat_map_app in H. cbn in H.
  assert (H1 : NoDup (comp_outs c)) by (apply (nodup_part comp_outs net); [exact (nodup_app_l _ _ (nw_outs _ HN))|rewrite E; apply in_or_app; right; now left]).
  assert (H2 : NoDup (comp_stores c)) by (apply (nodup_part comp_stores net); [exact (nodup_app_r _ _ (nw_outs _ HN))|rewrite E; apply in_or_app; right; now left]).
  assert (H3 : forall n, In n (comp_outs c) -> ~ In n (comp_stores c)).
  { intros n K1 K2. eapply (nodup_app_disj _ _ n H); rewrite !in_app_iff; auto. }
  clear -H1 H2 H3. induction (comp_outs c) as [|x xs IH]; [exact H2|]. inversion H1; subst. constructor; [|apply IH; [assumption|intros n K; apply H3; now right]].
  rewrite in_app_iff. intros [K|K]; [auto|]. exact (H3 x (or_introl eq_refl) K).
Qed.
Lemma writes_once i i' ch : writes i ch -> writes i' ch -> i = i'.
Proof.
  intros (c & Hc & H) (c' & Hc' & H').
  assert (Ek : i / 4 = i' / 4).
  { destruct (pens_kind _ _ _ H) as [(n & ->)|(m & ->)].
    - exact (writer_unique net HN _ _ _ _ n Hc Hc' (pens_data _ _ _ H) (pens_data _ _ _ H')).
    - exact (nth_unique comp_counts _ _ _ _ _ m (nw_counts _ HN) Hc Hc' (pens_mon _ _ _ H) (pens_mon _ _ _ H')). }
  rewrite Ek, Hc' in Hc. injection Hc as <-. pose proof (nth_error_In _ _ Hc') as Hin.
  pose proof (pens_once c' (i mod 4) (i' mod 4) ch (nodup_both _ Hin) (nodup_part comp_counts net _ (nw_counts _ HN) Hin) H H') as Em.
  rewrite (task_of i), (task_of i'), Ek, Em. reflexivity.
Qed.
Lemma fault_of ev : In ev (all_of l) -> amiss ev = true -> exists ch v, ev = (ESend ch v, AClosed).
Proof.
  intros Hin Hb. destruct ev as [e a]. destruct (HW _ _ Hin) as [H1 H2]. destruct a; try (destruct e; discriminate Hb); try (now destruct H1).
  - destruct e; try discriminate Hb. eauto.
  - specialize (H2 eq_refl). subst e. discriminate Hb.
Qed.
Lemma calm_prefix : forall l1 l2 w1, l = l1 ++ l2 -> wrun w0 l1 w1 ->
  (forall ev, In ev (all_of l1) -> amiss ev = false) /\ forall ch, cs_closed (w1 ch) = true -> exists i x, writes i ch /\ In (i, (EClose ch, x)) l1.
Proof.
  induction l1 as [|[i ev] l1 IH] using rev_ind; intros l2 w1 E HR.
  - assert (E1 : w0 = w1) by (clear -HR; now inversion HR). subst w1. split; [intros ev []|]. intros ch Hc. destruct (nr_new _ _ _ _ _ HX ch) as (cap & K). rewrite K in Hc. discriminate Hc.
  - rewrite <- app_assoc in E. apply wrun_app in HR. destruct HR as (wa & HRa & HRb). assert (HS : wstep wa ev w1) by (clear -HRb; inversion HRb as [|? ? w2 ? ? HS HR2]; subst; inversion HR2; subst; exact HS). clear HRb.
    destruct (IH _ _ E HRa) as [IH1 IH2]. cbn [app] in E. destruct ev as [e a].
    assert (Hin : In (i, (e, a)) l) by (rewrite E; apply in_or_app; right; now left).
    destruct (task_proper i (nr_only _ _ _ _ _ HX _ _ Hin)) as (c & Hc & HPr).
    assert (Eo : own i l = own i l1 ++ (e, a) :: own i l2) by (rewrite E, own_app, own_one, Nat.eqb_refl; reflexivity).
    specialize (HPr _ _ _ _ Eo).
    assert (Hno : ~ fault (own i l1)).
    { intros (ev & K1 & K2). assert (K : In ev (all_of l1)) by (eapply own_all; exact K1). rewrite (IH1 _ K) in K2. discriminate K2. }
    split.
    + intros ev Hev. rewrite all_of_app in Hev. apply in_app_or in Hev. destruct Hev as [Hev|[<-|[]]]; [now apply IH1|].
      destruct (amiss (e, a)) eqn:Eb; [|exact Eb]. exfalso. assert (Hal : In (e, a) (all_of l)) by (apply in_map_iff; exists (i, (e, a)); auto).
      destruct (fault_of _ Hal Eb) as (ch & v & K). injection K as -> ->. cbn beta iota in HPr. destruct HPr as [K1 K2].
      assert (Hcl : cs_closed (wa ch) = true) by (clear -HS; inversion HS; subst; auto; discriminate).
      destruct (IH2 _ Hcl) as (i' & x & K3 & K4). assert (K5 : i' = i) by (apply (writes_once i' i ch K3); now exists c). subst i'. apply (K2 x). now apply in_own.
    + intros ch Hch. destruct (closed_step _ _ _ _ HS Hch) as [K|K].
      * destruct (IH2 _ K) as (i' & x & K1 & K2). exists i', x. split; [exact K1|apply in_or_app; now left].
      * cbn [fst] in K. subst e. cbn beta iota in HPr. destruct HPr as [K|[K|K]]; [| |now destruct Hno].
        -- exists i, a. split; [now exists c|]. apply in_or_app. right. now left.
        -- pose proof (shut_closed _ _ _ _ _ HRa K) as Hcl. destruct (IH2 _ Hcl) as (i' & x & K1 & K2). exists i', x. split; [exact K1|apply in_or_app; now left].
Qed.
Lemma all_calm ev : In ev (all_of l) -> amiss ev = false.
Proof. destruct (calm_prefix l [] w) as [H _]; [now rewrite app_nil_r|exact (nr_world _ _ _ _ _ HX)|]. apply H. Qed.

(** Nobody is refused. *)
Theorem nobody_refused ch v : ~ In (ESend ch v, AClosed) (all_of l).
Proof. intro H. discriminate (all_calm _ H). Qed.
Theorem nobody_fails k c : nth_error net k = Some c -> match ocs k with Ended (Err _) => False | Broken => exists b u mi mo, c = NBuffer b u mi mo | _ => True end.
Proof.
  intro Hk. pose proof (nr_comps _ _ _ _ _ HX _ _ Hk) as HC. pose proof (nw_ready _ HN _ (nth_error_In _ _ Hk)) as HR. destruct (ocs k) as [|[n|e]|] eqn:E; auto.
  - destruct (comp_wrong _ _ _ HR HC) as (t & Ht & ev & K1 & K2). rewrite P_Network.own_seen in K1 by exact Ht. apply own_all in K1. rewrite (all_calm _ K1) in K2. discriminate K2.
  - pose proof (comp_breaks _ _ HR HC) as HB. destruct c; try contradiction HB; eauto. destruct HB as (sp & HB). rewrite P_Network.own_seen in HB by lia. apply own_all in HB. discriminate (all_calm _ HB).
Qed.
End Net.

Lemma willing_friendly a b : willing a -> forallb friendly (all_of b) = true -> willing (a ++ b).
Proof.
  intros H HF e x Hin. rewrite all_of_app in Hin. apply in_app_or in Hin. destruct Hin as [Hin|Hin]; [now apply H|]. rewrite forallb_forall in HF. specialize (HF _ Hin).
  destruct x; try (split; discriminate); exfalso; destruct e; discriminate HF.
Qed.
Lemma willing_granted l : willing l -> granted l.
Proof. intro H. split; intros x Hin; destruct (H _ _ Hin) as [_ K]; discriminate (K eq_refl). Qed.
Lemma broken_or_not net ocs : some_broken net ocs \/ forall k b u mi mo, nth_error net k = Some (NBuffer b u mi mo) -> ocs k <> Broken.
Proof.
  assert (K : forall n, (exists k b u mi mo, k < n /\ nth_error net k = Some (NBuffer b u mi mo) /\ ocs k = Broken) \/ forall k b u mi mo, k < n -> nth_error net k = Some (NBuffer b u mi mo) -> ocs k <> Broken).
  { induction n as [|n [(k & b & u & mi & mo & H1 & H2)|IH]]; [right; intros; lia|left; exists k, b, u, mi, mo; auto|].
    destruct (nth_error net n) as [c|] eqn:E.
    - assert (D : (exists b u mi mo, c = NBuffer b u mi mo) \/ forall b u mi mo, c <> NBuffer b u mi mo) by (destruct c; try (right; intros ? ? ? ?; discriminate); left; eauto 6).
      destruct D as [(b & u & mi & mo & ->)|D].
      + destruct (ocs n) eqn:Eo; [right..|left; exists n, b, u, mi, mo; auto]; intros k b' u' mi' mo' Hk Hc; (destruct (Nat.eq_dec k n) as [->|Hne]; [congruence|]; eapply IH; [lia|exact Hc]).
      + right. intros k b u mi mo Hk Hc. destruct (Nat.eq_dec k n) as [->|Hne]; [rewrite E in Hc; injection Hc as Hc; now destruct (D _ _ _ _ Hc)|]. eapply IH; [lia|exact Hc].
    - right. intros k b u mi mo Hk Hc. destruct (Nat.eq_dec k n) as [->|Hne]; [congruence|]. eapply IH; [lia|exact Hc]. }
  destruct (K (length net)) as [(k & b & u & mi & mo & _ & H)|H]; [left; exists k, b, u, mi, mo; exact H|]. right. intros k b u mi mo Hk. eapply H; [apply nth_error_Some; congruence|exact Hk].
Qed.
Lemma willing_sound net w0 l w ocs : net_wired net -> polite net -> net_run net w0 l w ocs -> willing l -> ~ some_broken net ocs -> sound_so_far net ocs.
Proof.
  intros HN HP HX HW HB k c Hk HF. pose proof (nobody_fails net w0 HN HP _ _ _ HX HW _ _ Hk) as H. destruct c as [f name|r|b u mi mo|j|cwd vars la|d name]; try contradiction HF.
  - apply HB. exists k, b, u, mi, mo. auto.
  - destruct HF as [e E]. now rewrite E in H.
Qed.

(** While the world is willing: somebody can move unless all have ended, ... *)
Theorem willing_moves net w0 l w ocs : net_wired net -> acyclic net -> polite net -> net_run net w0 l w ocs -> willing l ->
  all_succeeded net ocs \/ some_broken net ocs \/
  exists l' w' ocs', net_run net w0 (l ++ l') w' ocs' /\ existsb useful (all_of l') = true /\ forallb friendly (all_of l') = true.
Proof.
  intros HN HA HP HX HW. destruct (broken_or_not net ocs) as [HB|HB]; [auto|].
  assert (HB' : ~ some_broken net ocs) by (intros (k & b & u & mi & mo & H1 & H2); exact (HB _ _ _ _ _ H1 H2)).
  pose proof (willing_sound _ _ _ _ _ HN HP HX HW HB') as HS.
  destruct (some_going (length net) ocs) as [(k & Hk & Ho)|Hno]; [right; right; exact (net_moves net w0 HN _ _ _ HA HX (willing_granted _ HW) HS k Hk Ho)|].
  left. intros k Hk. destruct (nth_error net k) as [c|] eqn:E; [|apply nth_error_None in E; lia]. pose proof (nobody_fails net w0 HN HP _ _ _ HX HW _ _ E) as H.
  destruct (ocs k) as [|[n|e]|] eqn:Eo; [now destruct (Hno k Hk)|eauto|contradiction|]. destruct H as (b & u & mi & mo & ->). now destruct (HB _ _ _ _ _ E).
Qed.
(** ... and it can be brought to its end. *)
Theorem willing_finishes net w0 l w ocs : net_wired net -> acyclic net -> polite net -> net_run net w0 l w ocs -> willing l ->
  exists l' w' ocs', net_run net w0 (l ++ l') w' ocs' /\ forallb friendly (all_of l') = true /\ (all_succeeded net ocs' \/ some_broken net ocs').
Proof.
  intros HN HA HP HX HW. destruct (net_finishes _ _ _ _ _ HN HA HX (willing_granted _ HW)) as (l' & w' & ocs' & HX' & HF & H). exists l', w', ocs'. split; [exact HX'|]. split; [exact HF|].
  pose proof (willing_friendly _ _ HW HF) as HW'. pose proof (nobody_fails net w0 HN HP _ _ _ HX' HW') as HNF.
  destruct H as [H|(k & c & Hk & HFl)].
  - left. intros k Hk. destruct (nth_error net k) as [c|] eqn:E; [|apply nth_error_None in E; lia]. destruct (H k Hk) as ([n|e] & Ho); [eauto|]. specialize (HNF _ _ E). rewrite Ho in HNF. contradiction.
  - right. specialize (HNF _ _ Hk). destruct c as [f name|r|b u mi mo|j|cwd vars la|d name]; try contradiction HFl; [exists k, b, u, mi, mo; auto|]. destruct HFl as [e E]. now rewrite E in HNF.
Qed.
