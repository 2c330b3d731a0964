(** * P_Backlog: what is on the way is in the pipes and in the stores *)
From Coq Require Import Ascii String List Bool Arith Lia ZArith.
From Verif Require Import M_Prog P_Prog P_Exec M_Motion M_Regulator M_Faucet M_Drain M_Buffer M_Launch M_Junction M_Join S_Trace S_Lines S_Motion S_World S_Launch S_Regulator S_Drain S_Buffer S_Junction S_Network S_Net S_Flow S_Lag
  P_Read P_Motion P_World P_Ask P_Pass P_Copy P_Launch P_Regulator P_Control P_Drain P_Buffer P_BufferJoint P_BufferRun P_BufferPoll P_Link P_Phase P_Junction P_JStart P_JPass P_Conduit P_NetComp P_NetCost P_NetDone P_Net P_Calm P_Turn P_Stream P_Spring P_Lag.
From Verif Require P_Network.
Import ListNotations.

Inductive flows (net : list comp) (n : nat) : nat -> nat -> list nat -> Prop :=
| F_here : flows net n n 0 []
| F_on : forall m d us c o, flows net n m d us -> In c net -> direct c -> In m (comp_ins c) -> In o (comp_outs c) -> flows net n o (S d) us
| F_store : forall m d us b u mi mo o, flows net n m d us -> In (NBuffer b u mi mo) net -> In m (comp_ins (NBuffer b u mi mo)) -> In o (comp_outs (NBuffer b u mi mo)) -> flows net n o (S d) (u :: us).
Lemma reaches_flows net a b d us : flows net a b d us -> forall c e, reaches net b c e -> flows net a c (d + e) us.
Proof.
  intros H c e H'. induction H' as [|m e x o H' IH H1 H2 H3 H4]; [now rewrite Nat.add_0_r|]. rewrite Nat.add_succ_r. eapply F_on; eassumption.
Qed.

Section Net.
Variables (net : list comp) (w0 : world).
Hypothesis HN : net_wired net.
Hypothesis HP : polite net.
Variables (l : list nevent) (w : world) (ocs : nat -> outcome).
Hypothesis HX : net_run net w0 l w ocs.
Hypothesis HW : willing l.
Hypothesis H8 : forall n, In n (flat_map comp_outs net) -> exists q, w0 (CData n) = fresh_chan (Some q) /\ q <= 8.

Lemma store_near k b u mi mo i o : nth_error net k = Some (NBuffer b u mi mo) -> In i (comp_ins (NBuffer b u mi mo)) -> In o (comp_outs (NBuffer b u mi mo)) ->
  length (come_out i l) <= 2 + length (cs_queue (w (CData u))) + length (gone_in o l).
Proof.
  intros Hk Hi Ho. pose proof (nw_ready _ HN _ (nth_error_In _ _ Hk)) as HR. pose proof (nr_comps _ _ _ _ _ HX _ _ Hk) as HC.
  assert (HQ : forall n v, ~ In (ESend (CData n) v, AClosed) (all_of l)) by (intros n v; exact (nobody_refused net w0 HN HP l w ocs HX HW (CData n) v)).
  rewrite (come_own net w0 HN l w ocs HX k _ i Hk Hi). cbn [taker]. destruct HR as (Hc & pj & i' & j & o' & HR). pose proof HR as (E1 & E2 & _). cbn [comp_ins comp_outs] in *. rewrite E1 in Hi. rewrite E2 in Ho. destruct Hi as [<-|[]]. destruct Ho as [<-|[]].
  destruct HC as (st & HC & _). destruct (buffer_parts _ _ _ _ _ _ _ _ _ HR HC) as (sa & sb & sc & Ha & Hb & Hcc & _).
  destruct (parts_together _ _ _ _ _ _ _ HR _ _ _ _ _ _ (nr_inside _ _ _ _ _ HX _ _ _ _ (nth_error_In _ _ Hk)) (P_Network.wrun_seen k _ _ _ (nr_world _ _ _ _ _ HX)) (net_sealed net w0 HN _ _ _ HX _ _ _ _ _ Hk) Ha Hb Hcc) as (pa & pb & t & HT & _).
  pose proof (led_u _ _ _ _ _ _ _ HR _ _ _ _ _ _ HT) as HU.
  destruct (copy_prefix (PlReceiver pj i') (MN None (Some mi)) None (PsSender (J 0 None 0 (push_brk (PsIoSender j o'))) u) Logic.I ltac:(left; discriminate) Logic.I _ _ Ha) as [_ Ka]. specialize (Ka Logic.I).
  destruct (copy_prefix (PlReceiver (PJ 0 0) u) (MN (Some mo) None) None _ Logic.I ltac:(left; discriminate) (wired_real _ _ _ _ _ _ HR) _ _ Hb) as [_ Kb]. specialize (Kb Logic.I).
  cbn [got offered_to fst snd] in Ka, Kb. rewrite !seen in * by lia.
  rewrite (gone_all net w0 HN l w ocs HX k _ 2 o' Hk ltac:(lia) ltac:(cbn; rewrite E2; now left) (HQ o')).
  pose proof (gone_all net w0 HN l w ocs HX k _ 1 u Hk ltac:(lia) ltac:(cbn; now left) (HQ u)) as G. unfold gone_in in G.
  rewrite (sent_all (CData u) (4 * k + 1) l) in G by (apply (sender_is net w0 HN l w ocs HX k _ 1 u Hk ltac:(lia)); cbn; now left).
  rewrite <- HU, datas_app in G. rewrite <- G, app_length in Ka. pose proof (datas_short (cs_queue (w (CData u)))). lia.
Qed.
Theorem behind n m d us : flows net n m d us -> In n (flat_map comp_outs net) -> length (gone_in n l) <= length (come_out m l) + 9 * d + 8 + list_sum (map (fun u => S (length (cs_queue (w (CData u))))) us).
Proof.
  intros H Hn. induction H as [|m d us c o H IH Hc Hd Hm Ho|m d us b u mi mo o H IH Hc Hm Ho]; cbn [map list_sum fold_right] in *.
  - pose proof (chan_near net w0 l w ocs HX H8 n Hn). lia.
  - apply In_nth_error in Hc. destruct Hc as (k & Hk). pose proof (pass_near net w0 HN HP l w ocs HX HW k c m o Hk Hd Hm Ho). pose proof (chan_near net w0 l w ocs HX H8 o ltac:(apply in_flat_map; exists c; split; [exact (nth_error_In _ _ Hk)|exact Ho])). lia.
  - apply In_nth_error in Hc. destruct Hc as (k & Hk). pose proof (store_near k b u mi mo m o Hk Hm Ho). pose proof (chan_near net w0 l w ocs HX H8 o ltac:(apply in_flat_map; exists (NBuffer b u mi mo); split; [exact (nth_error_In _ _ Hk)|exact Ho])).
    unfold list_sum in *. cbn [fold_right map]. lia.
Qed.
End Net.
