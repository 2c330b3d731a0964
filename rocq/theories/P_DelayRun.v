(** * P_DelayRun: nobody fails in a regulated pipeline either *)
From Coq Require Import Ascii String List Bool Arith Lia Permutation.
From Verif Require Import M_Prog P_Prog P_Exec M_Motion M_Config M_Regulator M_Faucet M_Drain M_Buffer M_Junction M_Launch M_Manager M_Manip M_Waiter M_Join S_Trace S_Lines S_Motion S_World S_Launch S_Regulator S_Drain S_Buffer S_Junction S_Network S_Net M_Start S_Start S_Manip S_Waiter S_Shape S_Watch S_Delay
  P_World P_Ask P_Control P_Manager P_BufferJoint P_Buffer P_BufferRun P_BufferEnd P_Link P_Phase P_Conduit P_Motion P_Network P_NetComp P_Calm P_Turn P_Rounds P_Whole P_Watch P_WatchRun P_WatchMarks P_Delay.
Import ListNotations.

Lemma willing_data net l : willing l -> willing (data_part net l).
Proof.
  intros H e a Hin. apply H. unfold data_part, all_of in *. apply in_map_iff in Hin. destruct Hin as (x & E & Hin). apply filter_In in Hin. destruct Hin as [Hin _]. apply in_map_iff. exists x. auto.
Qed.
Lemma polite_plain net : polite net -> polite (map plain_comp net).
Proof.
  intros H j Hin. apply in_map_iff in Hin. destruct Hin as (c & E & Hin). destruct c; try discriminate E. cbn in E. injection E as ->. now apply H.
Qed.

Section Run.
Variables (net : list comp) (cs : list capture) (w0 : world) (l : list nevent) (w : world) (ocs : nat -> S_Net.outcome).
Hypothesis HN : net_wired (map plain_comp net).
Hypothesis HO : overseen net cs.

Lemma free_unbroken : free_run net cs w0 l w ocs -> in_turn net w0 l -> ~ some_broken net ocs.
Proof.
  intros HX HT (k & b & u & mi & mo & Hk & Hb). pose proof (fr_comps _ _ _ _ _ _ HX _ _ Hk) as HC. rewrite Hb in HC. destruct HC as (st & HC & _ & Ho).
  destruct (ready_of _ HN _ (nth_error_In _ _ Hk)) as (_ & pj & x & j & o & HR). assert (HR' : buffer_wired b (PlReceiver pj x) (PsIoSender j o) u mi mo) by exact HR. clear HR. rename HR' into HR. pose proof HR as (E1 & E2 & _).
  destruct (HT _ _ _ _ _ _ _ Hk E1 E2) as (i & w' & HP).
  assert (HNP : ~ in_panic st).
  { refine (buffer_counts _ _ _ None _ _ _ HR _ _ _ _ _ HC (mw_inside _ _ (fr_made _ _ _ _ _ _ HX) _ _ _ _ (nth_error_In _ _ Hk)) (free_sealed _ _ _ _ _ _ HN HO HX _ _ _ _ _ Hk) HP _).
    intros f Hin. destruct (buffer_parts _ _ _ _ _ _ _ _ _ HR HC) as (sa & sb & sc & Ha & _). pose proof (all_motion _ _ _ _ _ _ _ Ha Hin) as H.
    destruct H as [[H|[(q & d & [<-|[]] & H)|[(m & H & E)|[(m & H & E)|(s & v & H & _)]]]]|[H|[(q & [<-|[]] & H)|(m & H & E)]]]; discriminate H || discriminate E || idtac. }
  destruct st as [s|sa sb sc|s]; cbn in Ho, HNP.
  - destruct s; try discriminate Ho. now apply HNP.
  - destruct sa; cbn in Ho; [|..]; try (now (apply HNP; left)); destruct sb; cbn in Ho; try (now (apply HNP; right; left)); destruct sc; cbn in Ho; try (now (apply HNP; right; right)); discriminate Ho.
  - destruct s; try discriminate Ho. now apply HNP.
Qed.
Lemma buffers_joined : forall b u mi mo, In (NBuffer b u mi mo) net -> exists pj i j o, bf_stdin b = Some (PlReceiver pj i) /\ bf_stdout b = Some (PsIoSender j o).
Proof.
  intros b u mi mo Hin. destruct (ready_of _ HN _ Hin) as (_ & pj & x & j & o & HR). assert (HR' : buffer_wired b (PlReceiver pj x) (PsIoSender j o) u mi mo) by exact HR. destruct HR' as (E1 & E2 & _). eauto 6.
Qed.

Hypothesis HR : roomy net.
Hypothesis HP : polite net.
Lemma free_fails : free_run net cs w0 l w ocs -> willing l -> forall k c, nth_error net k = Some c -> match ocs k with Ended (Err _) => False | Broken => exists b u mi mo, c = NBuffer b u mi mo | _ => True end.
Proof.
  intros HX HW k c Hk. destruct (delays net cs w0 l w ocs HN HO HR HX) as (w' & ocs' & HX' & Hs & _).
  assert (Hlt : k < length net) by (apply nth_error_Some; congruence). specialize (Hs k Hlt).
  pose proof (nobody_fails _ w0 HN (polite_plain _ HP) _ _ _ HX' (willing_data _ _ HW) k (plain_comp c) ltac:(now rewrite nth_error_map, Hk)) as H.
  destruct (ocs k) as [|r|] eqn:E; [exact Logic.I|..]; rewrite Hs in H by discriminate; [exact H|].
  destruct H as (b & u & mi & mo & H). destruct c as [f name|r|b' u' mi' mo'|j|cwd vars la|d name]; try discriminate H. eauto 6.
Qed.
Theorem whole_fails : whole_run net cs w0 l w ocs -> willing l -> forall k, k < length net + length cs -> ocs k = Going \/ exists n, ocs k = Ended (Ok n).
Proof.
  intros HWh HW k Hk. pose proof HWh as [HX _]. destruct (Nat.lt_ge_cases k (length net)) as [Hlt|Hge].
  - destruct (nth_error net k) as [c|] eqn:E; [|apply nth_error_None in E; lia]. pose proof (free_fails HX HW _ _ E) as H.
    destruct (ocs k) as [|[n|e]|] eqn:Eo; eauto; [contradiction H|]. exfalso. destruct H as (b & u & mi & mo & ->).
    apply (free_unbroken HX); [exact (turn_whole _ _ _ _ _ _ buffers_joined HWh)|]. exists k, b, u, mi, mo. auto.
  - destruct (nth_error cs (k - length net)) as [cp|] eqn:E; [|apply nth_error_None in E; lia]. destruct (fr_controllers _ _ _ _ _ _ HX _ _ E) as (st & HC & Ho).
    replace (length net + (k - length net)) with k in Ho by lia. rewrite Ho. pose proof (nth_error_In _ _ E) as Hin. unfold controller in HC. apply exec_bind_inv in HC.
    destruct HC as [(t1 & t2 & n & _ & _ & H2)|[(e' & -> & _)|(s & -> & HC)]]; [|now left|].
    + apply exec_ret_inv in H2. destruct H2 as [_ ->]. right. now exists n.
    + exfalso. rewrite (unpaused cp (ov_running _ _ HO _ Hin)) in HC. exact (manager_no_panic _ _ _ _ (monitors_once _ _ HO _ Hin) _ _ HC).
Qed.
End Run.

(** ** Of every configuration *)
Section Prepared.
Variables (sh : shuffles) (cwd : option string) (vars : list (string * string)) (c : config) (w : waiter) (cs : list capture).
Hypothesis Hf : S_Manip.fair sh.
Hypothesis Hgc : good_connections (cf_connection c).
Hypothesis Hpr : prepares sh c w cs.
Hypothesis Hpa : passing (cf_connection c).
Hypothesis Hap : apart (cf_connection c).
Theorem prepared_delays w0 l wl ocs : free_run (net_of cwd vars w) cs w0 l wl ocs ->
  exists w' ocs', net_run (map plain_comp (net_of cwd vars w)) w0 (data_part (net_of cwd vars w) l) w' ocs' /\
    (forall k, k < length (net_of cwd vars w) -> ocs k <> Going -> ocs' k = ocs k) /\ forall ch, control_chan ch = false -> w' ch = wl ch.
Proof.
  destruct (prepared_shape _ cwd vars _ _ _ Hf Hgc Hpr Hpa Hap) as (H1 & H2 & _). apply delays; [exact H1|exact (prepared_overseen _ cwd vars _ _ _ Hf Hgc Hpr)|exact H2].
Qed.
Theorem prepared_fails w0 l wl ocs : whole_run (net_of cwd vars w) cs w0 l wl ocs -> willing l ->
  forall k, k < length (net_of cwd vars w) + length cs -> ocs k = Going \/ exists n, ocs k = Ended (Ok n).
Proof.
  destruct (prepared_shape _ cwd vars _ _ _ Hf Hgc Hpr Hpa Hap) as (H1 & H2 & H3 & _). apply whole_fails; [exact H1|exact (prepared_overseen _ cwd vars _ _ _ Hf Hgc Hpr)|exact H2|exact H3].
Qed.
End Prepared.
