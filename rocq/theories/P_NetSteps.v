(** * P_NetSteps: networks in which nobody looks and waits *)
From Coq Require Import Ascii String List Bool Arith Lia.
From Verif Require Import M_Prog P_Prog P_Exec M_Motion M_Regulator M_Faucet M_Drain M_Buffer M_Junction M_Launch M_Join S_Trace S_Lines S_Motion S_World S_Launch S_Regulator S_Drain S_Buffer S_Junction S_Network S_Net
  P_Reach P_World P_Control P_Drain P_Launch P_Link P_JStart P_Phase P_NetComp P_Net P_NetCost.
From Verif Require P_Network.
Import ListNotations.

Definition active (e : eff) : Prop := forall a, useful (e, a) = true.
Lemma motion_active pl mon ps e : motion_eff pl mon None ps e -> active e.
Proof.
  intros [[H|[(q & d & [<-|[]] & H)|[(m & H & ->)|[(m & H & ->)|(s & v & H & _)]]]]|[H|[(q & [<-|[]] & H)|(m & H & ->)]]] a; try discriminate H; try reflexivity.
  - destruct pl; try discriminate H; injection H as <-; reflexivity.
  - destruct ps; try discriminate H; injection H as <-; reflexivity.
  - destruct pl; try contradiction H; subst e; reflexivity.
  - destruct ps; try contradiction H; [destruct H as [->| ->]; reflexivity|subst e; reflexivity..].
Qed.
Lemma gate_active pl ps e : gate_eff pl None None ps e -> active e.
Proof. intro H. apply (motion_active pl mn_empty ps). destruct H as [H|[H|[(x & H & _)|(x & H & _)]]]; try discriminate H; [now left|now right]. Qed.
Lemma source_active name : active (source_eff name).
Proof. intro a. unfold source_eff. destruct (string_dec _ _); reflexivity. Qed.
Lemma alone_active p L st : alone p L st -> (forall tr s e a, exec p tr s -> In (e, a) tr -> active e) -> forall t e a, t < 4 -> In (t, (e, a)) L -> active e.
Proof.
  intros (HI & s & _ & HX) H t e a Ht Hin. apply in_own in Hin. destruct t as [|t]; [eapply H; eassumption|].
  rewrite (HI (S t)) in Hin by (cbn; lia). destruct Hin.
Qed.
Lemma restless_active c L oc : comp_ready c -> restless c -> comp_runs c L oc -> forall t e a, t < 4 -> In (t, (e, a)) L -> active e.
Proof.
  destruct c as [f name|r|b u mi mo|j|cwd vars la|d name]; intros HR HC HX; try contradiction HC.
  - destruct HR as (HC' & j & o & HR). destruct HX as (st & HX & _). eapply alone_active; [exact HX|]. intros tr s e a HY Hin.
    destruct (faucet_run _ _ _ _ _ _ HR HY) as [[-> _]|[(j' & _ & -> & _)|(d & rest & k & j' & -> & HZ)]].
    + destruct Hin.
    + destruct Hin as [E|[]]. injection E as <- <-. apply source_active.
    + destruct Hin as [E|Hin]; [injection E as <- <-; apply source_active|]. rewrite HC' in HZ. eapply gate_active, all_gate; eassumption.
  - destruct HR as (HC' & pj & i & j & o & HR). destruct HX as (st & HX & _). eapply alone_active; [exact HX|]. intros tr s e a HY Hin.
    rewrite (regulator_gate _ _ _ _ HR), HC' in HY. eapply gate_active, all_gate; eassumption.
  - destruct HR as ((HL & _) & _). destruct HX as (st & HX & _ & _). pose proof (launch_parts _ _ _ _ _ _ HL HX) as HP. cbn in HC.
    intros t e a Ht Hin. apply in_own in Hin. destruct st as [s|a1 b1 c1|s].
    + destruct HP as (HID & HP). destruct t as [|t]; [|rewrite (HID (S t)) in Hin by (cbn; lia); destruct Hin]. destruct HP as [[E _]|[E _]]; rewrite E in Hin; [destruct Hin|]. destruct Hin as [K|[]]. injection K as <- <-. intro; reflexivity.
    + destruct HP as (fin & fout & ferr & E & H1 & H2 & H3). destruct t as [|[|[|[|t]]]]; [|exact (motion_active _ _ _ _ (all_motion _ _ _ _ _ _ _ H1 Hin))|exact (motion_active _ _ _ _ (all_motion _ _ _ _ _ _ _ H2 Hin))|exact (motion_active _ _ _ _ (all_motion _ _ _ _ _ _ _ H3 Hin))|lia].
      rewrite E in Hin. destruct Hin as [K|[]]. injection K as <- <-. intro; reflexivity.
    + destruct HP as (fin & fout & ferr & a1 & b1 & c1 & tr & E & H1 & H2 & H3 & H4). destruct t as [|[|[|[|t]]]]; [|exact (motion_active _ _ _ _ (all_motion _ _ _ _ _ _ _ H1 Hin))|exact (motion_active _ _ _ _ (all_motion _ _ _ _ _ _ _ H2 Hin))|exact (motion_active _ _ _ _ (all_motion _ _ _ _ _ _ _ H3 Hin))|lia].
      unfold launch_finish in H4. rewrite HC in H4. apply exec_ret_inv in H4. destruct H4 as [-> _].
      rewrite E in Hin. destruct Hin as [K|[]]. injection K as <- <-. intro; reflexivity.
  - destruct HR as (pj & i & HR). destruct HX as (st & HX & _). eapply alone_active; [exact HX|]. intros tr s e a HY Hin.
    assert (Ho : forall e', opened_for (actual_destination name) = Some e' -> active e') by (intros e' E x; destruct (actual_destination name); cbn in E; try discriminate E; injection E as <-; reflexivity).
    destruct (drain_run _ _ _ _ _ HR HY) as [(_ & H)|(e' & E & H)]; [eapply motion_active, all_motion; eassumption|].
    destruct H as [(-> & _)|[(f & rest & k & pj' & -> & Ej & H)|(rest & pj' & -> & Ej & H)]]; [destruct Hin| |].
    + destruct Hin as [K|Hin]; [injection K as <- <-; now apply Ho|]. eapply motion_active, all_motion; eassumption.
    + destruct Hin as [K|Hin]; [injection K as <- <-; now apply Ho|].
      assert (W : works active (fun _ : mres nat => True) (drop_pull (PlReceiver pj i) ;;; Ret (Err (OpenIOError pj')))).
      { eapply works_bind; [apply works_close|intros; now apply works_ret]. intro; reflexivity. }
      destruct (W _ _ H) as [H1 _]. unfold within_eff in H1. rewrite Forall_forall in H1. exact (H1 _ Hin).
Qed.

Section Net.
Variable net : list comp.
Hypothesis HN : net_wired net.
Hypothesis HA : acyclic net.
Hypothesis HR : forall c, In c net -> restless c.
Lemma restless_event w0 l w ocs : net_run net w0 l w ocs -> forall i ev, In (i, ev) l -> useful ev = true.
Proof.
  intros HX i [e a] Hin. pose proof (nr_only _ _ _ _ _ HX _ _ Hin) as Hl. destruct (nth_error net (i / 4)) as [c|] eqn:E; [|apply nth_error_None in E; lia].
  pose proof (nth_error_In _ _ E) as Hc. apply (restless_active c (seen_by (i / 4) l) (ocs (i / 4)) (nw_ready _ HN _ Hc) (HR _ Hc) (nr_comps _ _ _ _ _ HX _ _ E) (i mod 4) e a).
  - apply Nat.mod_upper_bound. discriminate.
  - apply in_own. rewrite P_Network.own_seen by (apply Nat.mod_upper_bound; discriminate). rewrite <- task_of. now apply in_own.
Qed.
Theorem restless_bound N : exists B, forall w0 l w ocs, net_run net w0 l w ocs -> bytes_read l <= N -> length l <= B.
Proof.
  destruct (net_bound net HN HA N) as (B & HB). exists B. intros w0 l w ocs HX Hl. specialize (HB w0 l w ocs HX Hl).
  pose proof (restless_event _ _ _ _ HX) as HU. unfold useful_count in HB.
  assert (E : filter useful (all_of l) = all_of l).
  { clear -HU. induction l as [|[i ev] l IH]; [reflexivity|]. change (all_of ((i, ev) :: l)) with (ev :: all_of l). cbn [filter]. rewrite (HU i ev (or_introl eq_refl)), IH; [reflexivity|]. intros j e H. apply (HU j e). now right. }
  rewrite E in HB. unfold all_of in HB. now rewrite map_length in HB.
Qed.
Theorem restless_ends w0 f : endless net w0 f -> ~ limited f.
Proof.
  intros HE (N & HLim). destruct (restless_bound N) as (B & HB). destruct (HE (S B)) as (w & ocs & HX). specialize (HB _ _ _ _ HX (HLim _)).
  unfold so_far in HB. rewrite map_length, seq_length in HB. lia.
Qed.
End Net.
