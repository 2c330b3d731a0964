(** * P_Round: what is fed by a loop never ends *)
From Coq Require Import Ascii String List Bool Arith Lia.
From Verif Require Import M_Prog P_Prog P_Exec M_Motion M_Regulator M_Faucet M_Drain M_Buffer M_Junction M_Launch M_Join S_Trace S_Lines S_Motion S_World S_Launch S_Regulator S_Drain S_Buffer S_Junction S_Network S_Net
  P_Reach P_World P_Ask P_Copy P_Buffer P_BufferRun P_Link P_Phase P_JStart P_NetComp P_NetMoves P_NetEnd P_Patient P_Net P_NetCost P_Calm P_Turn.
From Verif Require P_Network.
Import ListNotations.

(** ** A component lets go of an output only after it has let go of its inputs *)
Definition sources (c : comp) (t : nat) : list nat := match c, t with NBuffer _ u _ _, 2 => [u] | _, _ => comp_ins c end.
Lemma motion_heir pj m mon ps tr st A n a B : exec (motion (PlReceiver pj m) mon None ps) tr st -> tr = A ++ (EClose (CData n), a) :: B -> saw_end (CData m) A \/ fault A.
Proof.
  intros HX E. pose proof (motion_leave (PlReceiver pj m) mon ps _ _ (exec_prefix _ _ _ HX _ _ _ _ E)) as HL. cbn in HL. tauto.
Qed.
Lemma gate_heir pj m ps tr st A n a B : exec (start_secret false (Some (PlReceiver pj m)) (Some ps) None None) tr st -> tr = A ++ (EClose (CData n), a) :: B -> saw_end (CData m) A \/ fault A.
Proof.
  intros HX E. pose proof (gate_leave (PlReceiver pj m) ps _ _ (exec_prefix _ _ _ HX _ _ _ _ E)) as HL. cbn in HL. tauto.
Qed.
Lemma comp_heir c L oc t A n a B : comp_ready c -> passes_on c -> comp_runs c L oc -> t < 4 -> own t L = A ++ (EClose (CData n), a) :: B -> In (CData n) (pens c t) ->
  forall m, In m (sources c t) -> saw_end (CData m) A \/ closed_by (CData m) A \/ fault A.
Proof.
  intros HR HP HX Ht E Hn m Hm. destruct c as [f name|r|b u mi mo|j|cwd vars la|d name]; try contradiction HP.
  - destruct HR as (HC & pj & i & j & o & HR). destruct HX as (st & (HI & s & -> & HX) & _).
    destruct t as [|t]; [|destruct t as [|[|[|t]]]; try lia; contradiction Hn].
    assert (Ei : comp_ins (NRegulator r) = [i]) by (destruct HR as (_ & K & _); cbn; now rewrite K). unfold sources in Hm. rewrite Ei in Hm. destruct Hm as [<-|[]].
    destruct HR as (H1 & H2 & H3 & H4 & _). unfold regulator_start in HX. rewrite H1, H2, H3, HC in HX.
    destruct (gate_heir _ _ _ _ _ _ _ _ _ HX E) as [K|K]; auto.
  - destruct HR as (HC & pj & i & j & o & HR). destruct HX as (st & HX & _ & _). destruct (buffer_parts _ _ _ _ _ _ _ _ _ HR HX) as (sa & sb & sc & Ha & Hb & Hc & _).
    destruct t as [|[|[|[|t]]]]; try lia; try contradiction Hn; cbn [sources comp_ins] in Hm.
    + rewrite (proj1 HR) in Hm. destruct Hm as [<-|[]]. destruct (motion_heir _ _ _ _ _ _ _ _ _ _ Ha E) as [K|K]; auto.
    + destruct Hm as [<-|[]]. destruct (motion_heir _ _ _ _ _ _ _ _ _ _ Hb E) as [K|K]; auto.
  - destruct HX as (st & (HI & s & -> & HX) & _). destruct t as [|t]; [|destruct t as [|[|[|t]]]; try lia; contradiction Hn].
    cbn in Hn. apply in_map_iff in Hn. destruct Hn as (x & K & Hn). injection K as ->.
    destruct (closes_outputs_last j None HR _ _ (exec_prefix _ _ _ HX _ _ _ _ E) Hn) as [_ K]. right; left. now apply K.
Qed.

(** ** The round *)
Section Net.
Variables (net : list comp) (w0 : world).
Hypothesis HN : net_wired net.
Hypothesis HP : polite net.
Variables (l : list nevent) (w : world) (ocs : nat -> outcome).
Hypothesis HX : net_run net w0 l w ocs.
Hypothesis HW : willing l.
Variable K : nat -> Prop.
Hypothesis HK : round net K.

Definition in_round (n : nat) : Prop := exists k c, K k /\ nth_error net k = Some c /\ In n (comp_outs c ++ comp_stores c).
Lemma round_sources k c t n : K k -> nth_error net k = Some c -> In (CData n) (pens c t) -> exists m, In m (sources c t) /\ in_round m.
Proof.
  intros Hk Hc Hn. destruct (HK k Hk) as (c' & k' & E & HPc & Hk' & (d & d' & m & E1 & E2 & Ho & Hi)). rewrite Hc in E. injection E as <-. rewrite Hc in E2. injection E2 as <-.
  assert (Hm : in_round m) by (exists k', d; split; [exact Hk'|]; split; [exact E1|]; apply in_or_app; now left).
  destruct c as [f name|r|b u mi mo|j|cwd vars la|dr name]; try contradiction HPc; try (exists m; split; [exact Hi|exact Hm]).
  destruct t as [|[|[|t]]]; try (exists m; split; [exact Hi|exact Hm]). exists u. split; [now left|]. exists k, (NBuffer b u mi mo). split; [exact Hk|]. split; [exact Hc|]. apply in_or_app. right. now left.
Qed.
Lemma round_open : forall l1 l2 w1, l = l1 ++ l2 -> wrun w0 l1 w1 -> forall n, in_round n -> cs_closed (w1 (CData n)) = false.
Proof.
  induction l1 as [|[i ev] l1 IH] using rev_ind; intros l2 w1 E HR n Hn.
  - assert (E1 : w0 = w1) by (clear -HR; now inversion HR). subst w1. destruct (nr_new _ _ _ _ _ HX (CData n)) as (cap & ->). reflexivity.
  - destruct (cs_closed (w1 (CData n))) eqn:Ec; [exfalso|reflexivity].
    destruct (calm_prefix net w0 HN HP l w ocs HX HW (l1 ++ [(i, ev)]) l2 w1 E HR) as [_ Hwr]. destruct (Hwr _ Ec) as (i' & x & Hw' & Hin').
    rewrite <- app_assoc in E. apply wrun_app in HR. destruct HR as (wa & HRa & HRb). cbn [app] in E.
    destruct (calm_prefix net w0 HN HP l w ocs HX HW l1 _ wa E HRa) as [Hcalm _]. specialize (IH _ _ E HRa).
    assert (Hopen : forall m, in_round m -> ~ In (EClose (CData m), AOk) (all_of l1)).
    { intros m Hm Hin. pose proof (closes_it (CData m) _ _ _ HRa Hin) as Hc. rewrite (IH m Hm) in Hc. discriminate Hc. }
    assert (Hx : x = AOk).
    { assert (Hin : In (EClose (CData n), x) (own i' l)) by (apply in_own; rewrite E; apply in_app_or in Hin'; apply in_or_app; destruct Hin' as [Hin'|[Hin'|[]]]; [now left|right; left; exact Hin']).
      assert (Hi' : In (i', (EClose (CData n), x)) l) by (now apply in_own). apply in_split in Hi'. destruct Hi' as (p & q & Hpq). pose proof (nr_world _ _ _ _ _ HX) as HWr. rewrite Hpq in HWr. apply wrun_app in HWr. destruct HWr as (wp & _ & HWr).
      clear -HWr. inversion HWr as [|? ? w2 ? ? HS ?]; subst. inversion HS; subst; auto. discriminate. }
    subst x. apply in_app_or in Hin'. destruct Hin' as [Hin'|[Hin'|[]]].
    { apply (Hopen n Hn). apply in_map_iff. exists (i', (EClose (CData n), AOk)). auto. }
    injection Hin' as <- ->. destruct Hw' as (c & Hc & Hpen).
    assert (HKi : K (i / 4)).
    { destruct Hn as (k & c' & Hk & Hc' & Ho). rewrite (writer_unique net HN _ _ _ _ n Hc Hc' (pens_data _ _ _ Hpen) Ho). exact Hk. }
    destruct (round_sources _ _ _ _ HKi Hc Hpen) as (m & Hm1 & Hm2). destruct (HK _ HKi) as (c' & k' & Hc' & HPc & _). rewrite Hc in Hc'. injection Hc' as <-.
    assert (Hmod : i mod 4 < 4) by (apply Nat.mod_upper_bound; lia).
    assert (Eo : own (i mod 4) (seen_by (i / 4) l) = own i l1 ++ (EClose (CData n), AOk) :: own i l2).
    { rewrite P_Network.own_seen by exact Hmod. rewrite <- (task_of i). rewrite E, own_app, own_one, Nat.eqb_refl. reflexivity. }
    destruct (comp_heir _ _ _ _ _ _ _ _ (nw_ready _ HN _ (nth_error_In _ _ Hc)) HPc (nr_comps _ _ _ _ _ HX _ _ Hc) Hmod Eo Hpen m Hm1) as [H|[H|H]].
    + pose proof (shut_closed _ _ _ _ _ HRa (or_introl H)) as Hcl. rewrite (IH m Hm2) in Hcl. discriminate Hcl.
    + apply (Hopen m Hm2). unfold closed_by in H. eapply own_all. exact H.
    + destruct H as (ev & H1 & H2). apply own_all in H1. rewrite (Hcalm _ H1) in H2. discriminate H2.
Qed.
Lemma still_open n : in_round n -> cs_closed (w (CData n)) = false.
Proof. apply (round_open l []); [now rewrite app_nil_r|apply (nr_world _ _ _ _ _ HX)]. Qed.
End Net.

(** Whoever is fed by the round never ends. *)
Theorem round_lasts net w0 l w ocs K : net_wired net -> polite net -> net_run net w0 l w ocs -> willing l -> in_turn net w0 l -> round net K ->
  forall k k', K k -> feeds net k k' -> ocs k' = Going.
Proof.
  intros HN HP HX HW HT HK k k' Hk (c & c' & n & Hc & Hc' & Ho & Hi).
  pose proof (in_turn_sound _ _ HN _ _ _ HX HT) as HB. pose proof (willing_sound _ _ _ _ _ HN HP HX HW HB) as HS.
  destruct (not_broken net w0 HN l w ocs HX (willing_granted _ HW) HS _ _ Hc') as [H|(r & H)]; [exact H|exfalso].
  assert (E : cs_closed (w (CData n)) = true) by (eapply (ended_closed net w0 HN); eauto using willing_granted; apply in_or_app; now left).
  rewrite (still_open net w0 HN HP l w ocs HX HW K HK n) in E; [discriminate E|]. exists k, c. split; [exact Hk|]. split; [exact Hc|]. apply in_or_app. now left.
Qed.
(** In particular the round itself. *)
Corollary round_stays net w0 l w ocs K : net_wired net -> polite net -> net_run net w0 l w ocs -> willing l -> in_turn net w0 l -> round net K -> forall k, K k -> ocs k = Going.
Proof. intros HN HP HX HW HT HK k Hk. destruct (HK k Hk) as (c & k' & _ & _ & Hk' & HF). exact (round_lasts _ _ _ _ _ _ HN HP HX HW HT HK _ _ Hk' HF). Qed.
Corollary round_endless net w0 l w ocs K k : net_wired net -> polite net -> net_run net w0 l w ocs -> willing l -> in_turn net w0 l -> round net K -> K k -> ocs k = Going /\ ~ all_ended net ocs.
Proof.
  intros HN HP HX HW HT HK Hk. pose proof (round_stays _ _ _ _ _ _ HN HP HX HW HT HK k Hk) as E. split; [exact E|]. intro HA.
  destruct (HK k Hk) as (c & _ & Hc & _). destruct (HA k) as (r & Hr); [apply nth_error_Some; congruence|]. congruence.
Qed.
