(** * P_Lag: without a buffer nobody is far ahead *)
From Coq Require Import Ascii String List Bool Arith Lia ZArith.
From Verif Require Import M_Prog P_Prog P_Exec M_Motion M_Regulator M_Faucet M_Drain M_Buffer M_Launch M_Junction M_Join S_Trace S_Lines S_Motion S_World S_Launch S_Regulator S_Drain S_Buffer S_Junction S_Network S_Net S_Flow S_Lag
  P_Read P_Motion P_World P_Ask P_Pass P_Copy P_Launch P_Regulator P_Control P_Drain P_Buffer P_BufferJoint P_BufferRun P_Link P_Phase P_Junction P_JStart P_JPass P_Conduit P_NetComp P_NetCost P_NetDone P_Net P_Calm P_Turn P_Stream P_Spring.
From Verif Require P_Network.
Import ListNotations.

(** Who gives on at once *)
Definition direct (c : comp) : Prop := match c with NRegulator _ | NJunction _ => True | _ => False end.
Inductive reaches (net : list comp) (n : nat) : nat -> nat -> Prop :=
| R_here : reaches net n n 0
| R_on : forall m d c o, reaches net n m d -> In c net -> direct c -> In m (comp_ins c) -> In o (comp_outs c) -> reaches net n o (S d).
Lemma reaches_trans net a b d : reaches net a b d -> forall c e, reaches net b c e -> reaches net a c (d + e).
Proof.
  intros H c e H'. induction H' as [|m e x o H' IH H1 H2 H3 H4]; [now rewrite Nat.add_0_r|]. rewrite Nat.add_succ_r. eapply R_on; eassumption.
Qed.

Lemma datas_short vs : length (datas vs) <= length vs.
Proof. induction vs as [|v vs IH]; [auto|]. unfold datas in *. cbn [flat_map]. rewrite app_length. destruct v; cbn; lia. Qed.
Lemma datas_app a b : datas (a ++ b) = datas a ++ datas b.
Proof. apply flat_map_app. Qed.
Lemma interleave_length {A} (ls : list (list A)) s : interleave ls s -> forall a, In a ls -> length a <= length s.
Proof.
  induction 1 as [ls HF|pre x m post s HI IH]; intros a Ha.
  - rewrite Forall_forall in HF. rewrite (HF _ Ha). cbn. lia.
  - cbn. apply in_app_or in Ha. destruct Ha as [Ha|[<-|Ha]].
    + pose proof (IH a ltac:(apply in_or_app; now left)). lia.
    + pose proof (IH m ltac:(apply in_or_app; right; now left)). cbn. lia.
    + pose proof (IH a ltac:(apply in_or_app; right; now right)). lia.
Qed.
(** What has been offered has been written, when nothing goes wrong. *)
Lemma offered_written k j f tr : (forall d a, In (EWrite f d, a) tr -> a = AOk) -> offered_to (PsBytes k j f) tr = written f tr.
Proof.
  intros H. induction tr as [|[e a] tr IH]; [reflexivity|]. assert (IH' := IH ltac:(intros; eapply H; right; eassumption)). cbn [offered_to] in *. unfold written in *. cbn [flat_map]. rewrite IH'.
  destruct e; try reflexivity. destruct (Nat.eqb_spec f f0) as [<-|N].
  - rewrite (H d a) by now left. now rewrite ?Nat.eqb_refl.
  - destruct a; reflexivity.
Qed.

Section Net.
Variables (net : list comp) (w0 : world).
Hypothesis HN : net_wired net.
Hypothesis HP : polite net.
Variables (l : list nevent) (w : world) (ocs : nat -> outcome).
Hypothesis HX : net_run net w0 l w ocs.
Hypothesis HW : willing l.
Hypothesis H8 : forall n, In n (flat_map comp_outs net) -> exists q, w0 (CData n) = fresh_chan (Some q) /\ q <= 8.

Lemma chan_near n : In n (flat_map comp_outs net) -> length (gone_in n l) <= length (come_out n l) + 8.
Proof.
  intros Hn. destruct (H8 n Hn) as (q & E & Hq). pose proof (fifo (CData n) _ _ _ (nr_world _ _ _ _ _ HX)) as HF. rewrite E in HF. cbn [fresh_chan cs_queue app] in HF.
  unfold gone_in, come_out. rewrite <- HF, datas_app, app_length. pose proof (datas_short (cs_queue (w (CData n)))).
  pose proof (within (CData n) _ _ _ q (nr_world _ _ _ _ _ HX)) as HQ. rewrite E in HQ. specialize (HQ eq_refl ltac:(cbn; lia)). lia.
Qed.
Lemma pass_near k c i n : nth_error net k = Some c -> direct c -> In i (comp_ins c) -> In n (comp_outs c) -> length (come_out i l) <= S (length (gone_in n l)).
Proof.
  intros Hk HD Hi Hn. pose proof (nw_ready _ HN _ (nth_error_In _ _ Hk)) as HR. pose proof (nr_comps _ _ _ _ _ HX _ _ Hk) as HC.
  assert (HQ : forall v, ~ In (ESend (CData n) v, AClosed) (all_of l)) by (intro v; exact (nobody_refused net w0 HN HP l w ocs HX HW (CData n) v)).
  rewrite (come_own net w0 HN l w ocs HX k c i Hk Hi). destruct c as [f name|r|b u mi mo|j|cwd vars la|d name]; try contradiction HD; cbn [taker].
  - destruct HR as (Hc & pj & i' & j & o & HR). pose proof HR as (_ & E1 & E2 & _). cbn [comp_ins comp_outs] in *. rewrite E1 in Hi. rewrite E2 in Hn. destruct Hn as [<-|[]]. destruct Hi as [<-|[]].
    rewrite (gone_all net w0 HN l w ocs HX k _ 0 o Hk ltac:(lia) ltac:(cbn; rewrite E2; now left) HQ).
    destruct HC as (st & (_ & s & _ & HC) & _). rewrite <- !seen by lia. destruct (regulator_forwards _ _ _ _ _ _ HR HC) as (_ & K & _). exact (K Logic.I).
  - destruct HC as (st & (_ & s & _ & HC) & _). destruct (outputs_same _ _ HR _ _ HC) as (x & H1 & H2 & _).
    rewrite (gone_all net w0 HN l w ocs HX k _ 0 n Hk ltac:(lia) ltac:(cbn; now apply in_map) HQ). rewrite <- !seen by lia.
    cbn [comp_outs] in Hn. unfold out_chans in Hn. apply in_map_iff in Hn. destruct Hn as (p & <- & Hp). destruct (H2 p Hp) as [_ H3]. pose proof (io_in j HR p Hp) as Hio. destruct p; try contradiction Hio. cbn [offered_to ps_chan] in *.
    pose proof (interleave_length _ _ H1 (datas (taken (CData i) (own 0 (seen_by k l))))) as H4. specialize (H4 ltac:(apply in_map_iff; exists i; auto)). lia.
Qed.
Lemma target_near n ms : target_got net l n ms -> length (come_out n l) <= S (length ms).
Proof.
  assert (HA : forall i f d a, In (EWrite f d, a) (own i l) -> a = AOk).
  { intros i f d a H. destruct (HW _ _ (own_all _ _ _ H)) as [H1 H2]. apply in_own in H. apply in_split in H. destruct H as (a1 & a2 & El). pose proof (nr_world _ _ _ _ _ HX) as HR. rewrite El in HR.
    destruct (wrun_mid _ _ _ _ _ _ HR) as (x1 & x2 & _ & HS & _). inversion HS as [| | | | | | | | | |e' a' Ho Hw]; subst. destruct a; try discriminate Hw; [reflexivity|congruence|]. discriminate (H2 eq_refl). }
  intros [k d name n' e f rest Hk Hn He E|k cwd vars la n' fin fout ferr Hk Hn Hc].
  - rewrite (come_own net w0 HN l w ocs HX k _ n' Hk Hn). cbn [taker]. rewrite Nat.add_0_r. pose proof (nw_ready _ HN _ (nth_error_In _ _ Hk)) as (pj & i & HR). pose proof (nr_comps _ _ _ _ _ HX _ _ Hk) as (st & (_ & s & _ & HC) & _).
    assert (E0 : own 0 (seen_by k l) = own (4 * k) l) by (rewrite seen by lia; now rewrite Nat.add_0_r). rewrite E0 in HC.
    pose proof HR as (E1 & _). cbn [comp_ins] in Hn. rewrite E1 in Hn. destruct Hn as [<-|[]].
    destruct (drain_run _ _ _ _ _ HR HC) as [(K & _)|(e' & K & H)]; [congruence|]. rewrite He in K. injection K as <-.
    destruct H as [(E2 & _)|[(f' & rest' & kk & pj' & E2 & Ej & H)|(rest' & pj' & E2 & _)]]; rewrite E in E2; try discriminate E2. injection E2 as <- <-.
    destruct (copy_prefix (PlReceiver pj i) mn_empty None (PsBytes kk (drain_journey pj') f) Logic.I (or_intror eq_refl) Logic.I _ _ H) as [_ H1]. specialize (H1 Logic.I).
    rewrite offered_written in H1 by (intros d0 a0 Hi; apply (HA (4 * k) f d0 a0); rewrite E; now right). cbn [got] in H1. rewrite E.
    assert (Ht : datas (taken (CData i) ((e, AFd f) :: rest)) = datas (taken (CData i) rest)) by (destruct e; reflexivity).
    assert (Hw : written f ((e, AFd f) :: rest) = written f rest) by (destruct e; reflexivity). rewrite Ht, Hw. exact H1.
  - rewrite (come_own net w0 HN l w ocs HX k _ n' Hk Hn). cbn [taker]. pose proof (nw_ready _ HN _ (nth_error_In _ _ Hk)) as (HR & Hin & _). pose proof (nr_comps _ _ _ _ _ HX _ _ Hk) as (st & HC & _).
    cbn [comp_ins] in Hn. destruct (la_stdin la) as [pl|] eqn:Es; [|destruct Hn]. destruct (Hin pl eq_refl) as (pj & i & ->). destruct Hn as [<-|[]].
    assert (E0 : own 0 (seen_by k l) = own (4 * k) l) by (rewrite seen by lia; now rewrite Nat.add_0_r).
    destruct (stdin_relay la _ fin fout ferr Es) as (j & Hb & _ & Ex).
    destruct (launch_relay_run cwd vars la None HR _ _ HC fin fout ferr ltac:(rewrite E0; exact Hc)) as (a & b & c & H1 & _). rewrite Ex in H1. unfold relay in H1. cbn [fst snd] in H1.
    destruct (copy_prefix (PlReceiver pj i) mn_empty None (PsBytes DstCmdStdin j fin) Logic.I (or_intror eq_refl) Logic.I _ _ H1) as [_ H2]. specialize (H2 Logic.I). rewrite seen in H2 by lia.
    rewrite offered_written in H2 by (intros; eapply HA; eassumption). exact H2.
Qed.
(** From one channel to another *)
Theorem ahead n m d : reaches net n m d -> In n (flat_map comp_outs net) -> length (gone_in n l) <= length (come_out m l) + 9 * d + 8.
Proof.
  intros H Hn. induction H as [|m d c o H IH Hc Hd Hm Ho]; [pose proof (chan_near n Hn); lia|]. specialize (IH). apply In_nth_error in Hc. destruct Hc as (k & Hk).
  pose proof (pass_near k c m o Hk Hd Hm Ho). pose proof (chan_near o ltac:(apply in_flat_map; exists c; split; [exact (nth_error_In _ _ Hk)|exact Ho])). lia.
Qed.
(** What a task puts into its one channel is what has gone in. *)
Lemma put_gone k c t n : nth_error net k = Some c -> t < 4 -> pens c t = [CData n] -> put (own (4 * k + t) l) = gone_in n l.
Proof.
  intros Hk Ht Hp. unfold gone_in. rewrite (sent_all (CData n) (4 * k + t) l); [|apply (sender_is net w0 HN l w ocs HX k c t n Hk Ht); rewrite Hp; now left].
  assert (HS : forall m v a, In (ESend (CData m) v, a) (own (4 * k + t) l) -> m = n).
  { intros m v a H. rewrite <- seen in H by exact Ht. apply in_own in H. pose proof (comp_sends c _ _ (nw_ready _ HN _ (nth_error_In _ _ Hk)) (nr_comps _ _ _ _ _ HX _ _ Hk) _ _ _ _ Ht H) as K. rewrite Hp in K. destruct K as [K|[]]. congruence. }
  revert HS. generalize (own (4 * k + t) l). intros tr HS. induction tr as [|[e a] tr IH]; [reflexivity|]. cbn [put sent flat_map] in *. rewrite datas_app. unfold put in *. cbn [flat_map]. unfold sent in IH. rewrite IH by (intros; eapply HS; right; eassumption). f_equal.
  destruct e as [| |ch v| | | | | | | | | | | | | | |]; try reflexivity. destruct a; destruct ch; try reflexivity; try (destruct v; reflexivity).
  rewrite (HS _ _ _ (or_introl eq_refl)). cbn [chan_eqb]. rewrite Nat.eqb_refl. destruct v; reflexivity.
Qed.
End Net.
