(** * P_Conduit: components with one input and one output, seen from outside *)
From Coq Require Import Ascii String List Bool Arith Lia ZArith.
From Verif Require Import M_Prog P_Prog P_Exec M_Motion M_Regulator M_Faucet M_Drain M_Buffer M_Junction M_Join S_Trace S_Lines S_Motion S_World S_Launch S_Regulator S_Drain S_Buffer S_Junction S_Network.
From Verif Require Import P_Buffer P_Counter P_BufferJoint P_Read P_World P_Ask P_Pass P_Junction P_JStart P_Copy P_Control P_Drain P_BufferRun P_BufferEnd P_Phase P_Link.
Import ListNotations.

(** ** Runs, whatever became of them *)
Lemma orderly_snoc tr e a : orderly tr -> closing_eff e \/ quiet tr -> orderly (tr ++ [(e, a)]).
Proof.
  intros HO [H|H].
  - apply orderly_app; [exact HO|]. constructor; [exact H|constructor].
  - intros t1 e' a' t2 E Hc. destruct (exists_last (l := (e', a') :: t2)) as (m & x & Em); [discriminate|]. rewrite Em, app_assoc in E. apply app_inj_tail in E. destruct E as [E Ex].
    destruct m as [|y m]; cbn in Em; injection Em as E1 E2; subst.
    + constructor.
    + exfalso. apply Forall_app in H. destruct H as [_ H]. inversion H; subst. auto.
Qed.
Lemma snoc_cases {X} (l : list X) : l = [] \/ exists m x, l = m ++ [x].
Proof. destruct l as [|y l]; [now left|right]. destruct (exists_last (l := y :: l)) as (m & x & E); [discriminate|]. eauto. Qed.
Lemma orderly_all {A} P (p : prog A) Q : tsat [] p (ON P) Q -> forall tr st, exec p tr st -> within_eff P tr /\ orderly tr.
Proof.
  intros H tr st HX. destruct (snoc_cases tr) as [->|(m & [e a] & ->)]; [split; [constructor|]; intros t1 e a t2 E; destruct t1; discriminate E|].
  pose proof (exec_prefix _ _ _ HX m e a [] eq_refl) as HP. specialize (H _ _ HP). cbn in H. destruct H as (H1 & H2 & H3 & H4). split.
  - apply Forall_app. split; [exact H2|]. constructor; [exact H1|constructor].
  - now apply orderly_snoc.
Qed.

(** ** What an orderly component does with a channel it has closed *)
Lemma closing_offers c t : only_closing t -> offered c t = [].
Proof.
  induction 1 as [|[e a] t H _ IH]; [reflexivity|]. change ((e, a) :: t) with ([(e, a)] ++ t). unfold offered. rewrite flat_map_app. fold (offered c t). rewrite IH, app_nil_r.
  destruct e; try contradiction; reflexivity.
Qed.
Lemma closing_end c t : only_closing t -> ~ saw_end c t.
Proof. intros H [K|K]; unfold only_closing in H; rewrite Forall_forall in H; exact (H _ K). Qed.
Lemma orderly_sends tr c : orderly tr -> forall t1 a t2, tr = t1 ++ (EClose c, a) :: t2 -> offered c t2 = [].
Proof. intros H t1 a t2 E. apply closing_offers. exact (H _ _ _ _ E I). Qed.
Lemma orderly_reads tr c : orderly tr -> forall t1 a t2, tr = t1 ++ (EClose c, a) :: t2 -> ~ saw_end c t2.
Proof. intros H t1 a t2 E. apply closing_end. exact (H _ _ _ _ E I). Qed.

(** ** What is done with data channels *)
Definition does (ins outs inner : list nat) (r w : bool) (e : eff) : Prop :=
  forall n, on_chan e = Some (CData n) -> In n inner \/ (r = true /\ In n ins /\ (is_take (CData n) e \/ e = EClose (CData n))) \/
    (w = true /\ In n outs /\ (is_send (CData n) e \/ e = EClose (CData n))).
Definition touches (L : list nevent) (ins outs inner : list nat) (ri wi : nat) : Prop :=
  forall t e a, t < 4 -> In (t, (e, a)) L -> does ins outs inner (t =? ri) (t =? wi) e.

Definition pull_chans (pl : pull) : list nat := match pl with PlReceiver _ n => [n] | _ => [] end.
Definition push_chans (ps : push) : list nat := match ps with PsSender _ n | PsIoSender _ n => [n] | _ => [] end.

Lemma work_does pl mon spy ps t e : work_eff pl mon spy [ps] t e -> does (pull_chans pl) (push_chans ps) [] true true e.
Proof.
  intros [H|[(p & d & [<-|[]] & H)|[(c & _ & ->)|[(c & _ & ->)|(s & v & _ & ->)]]]] n Hn; try discriminate Hn.
  - right; left. split; [reflexivity|]. destruct pl; try discriminate H; cbn in H; injection H as <-; destruct t; cbn in Hn; try discriminate Hn; injection Hn as ->; cbn; unfold is_take; auto.
  - right; right. split; [reflexivity|]. destruct ps; try discriminate H; injection H as <-; cbn in Hn; try discriminate Hn; injection Hn as ->; cbn; unfold is_send; eauto.
Qed.
Lemma end_does pl mon ps e : end_eff pl mon [ps] e -> does (pull_chans pl) (push_chans ps) [] true true e.
Proof.
  intros [H|[(p & [<-|[]] & H)|(c & _ & ->)]] n Hn; try discriminate Hn.
  - right; left. split; [reflexivity|]. destruct pl; try contradiction; subst e; cbn in Hn; try discriminate Hn. injection Hn as ->. cbn; auto.
  - right; right. split; [reflexivity|]. destruct ps; try contradiction; [destruct H as [->| ->]; discriminate Hn| |]; subst e; cbn in Hn; injection Hn as ->; cbn; auto.
Qed.
Lemma motion_does pl mon spy ps e : motion_eff pl mon spy ps e -> does (pull_chans pl) (push_chans ps) [] true true e.
Proof. intros [H|H]; [eapply work_does; exact H|eapply end_does; exact H]. Qed.
Lemma gate_does pl ctl spy ps e : gate_eff pl ctl spy ps e -> does (pull_chans pl) (push_chans ps) [] true true e.
Proof.
  intros [H|[H|[(c & _ & H)|(c & _ & ->)]]]; [eapply work_does; exact H|eapply end_does; exact H| |]; intros n Hn; [destruct H as [->| ->]|]; discriminate Hn.
Qed.

Lemma does_mono ins outs inner ins' outs' inner' r w r' w' e : does ins outs inner r w e ->
  (forall n, In n inner -> In n inner') -> (r = true -> forall n, In n ins -> In n inner' \/ (r' = true /\ In n ins')) -> (w = true -> forall n, In n outs -> In n inner' \/ (w' = true /\ In n outs')) ->
  does ins' outs' inner' r' w' e.
Proof.
  intros H H1 H2 H3 n Hn. destruct (H n Hn) as [K|[(K1 & K2 & K3)|(K1 & K2 & K3)]]; [left; auto| |].
  - destruct (H2 K1 n K2) as [G|[G G']]; auto 6.
  - destruct (H3 K1 n K2) as [G|[G G']]; auto 6.
Qed.
Lemma does_none ins outs inner r w e : on_chan e = None -> does ins outs inner r w e.
Proof. intros H n Hn. congruence. Qed.

(** One task, number 0. *)
Lemma touch_alone L ins outs inner tr : own 0 L = tr -> idle [1; 2; 3] L -> (forall e a, In (e, a) tr -> does ins outs inner true true e) -> touches L ins outs inner 0 0.
Proof.
  intros <- HI H t e a Ht Hin. apply in_own in Hin. destruct t as [|t]; [now apply (H e a)|].
  rewrite (HI (S t)) in Hin by (cbn; lia). destruct Hin.
Qed.

(** ** Conduits *)
Record conduit (i o ri wi : nat) (L : list nevent) (st : standing) : Prop := {
  cd_prefix : prefix (datas (offered (CData o) (own wi L))) (datas (taken (CData i) (own ri L)));
  cd_ends : succeeded st -> (datas (offered (CData o) (own wi L)) = datas (taken (CData i) (own ri L)) /\ saw_end (CData i) (own ri L)) \/
                            exists v, In (ESend (CData o) v, AClosed) (own wi L);
  cd_sends : forall t1 a t2, own wi L = t1 ++ (EClose (CData o), a) :: t2 -> offered (CData o) t2 = [];
  cd_reads : forall t1 a t2, own ri L = t1 ++ (EClose (CData i), a) :: t2 -> ~ saw_end (CData i) t2
}.
Definition rd (p : part) : nat := match p with PBuffer _ _ _ _ => 1 | _ => 0 end.
Definition wr (p : part) : nat := match p with PBuffer _ _ _ _ => 2 | _ => 0 end.
Definition inn (p : part) : list nat := match p with PBuffer _ u _ _ => [u] | _ => [] end.

Lemma found_refused j o d tr : found_closed (PsIoSender j o) d tr -> exists v, In (ESend (CData o) v, AClosed) tr.
Proof. intros (e & E & H). injection E as <-. eauto. Qed.

Lemma regulator_conduit i o r spy L st : part_wired i o (PRegulator r) -> part_runs (PRegulator r) spy L st ->
  touches L [i] [o] [] 0 0 /\ conduit i o 0 0 L st.
Proof.
  intros (pj & j & HR) (HI & s & -> & HX). assert (HY := HX). rewrite (regulator_gate _ _ _ _ HR) in HY.
  destruct (orderly_all _ _ _ (gate_orderly _ _ _ _) _ _ HY) as [HW HO]. split.
  - eapply touch_alone; [reflexivity|exact HI|]. intros e a K. unfold within_eff in HW. rewrite Forall_forall in HW. specialize (HW _ K). exact (gate_does _ _ _ _ _ HW).
  - constructor.
    + exact (proj1 (regulator_forwards _ _ _ _ _ _ HR HX)).
    + intros (n & [E|E]); [|discriminate E]. injection E as ->. destruct (regulator_ends _ _ _ _ _ _ HR HX) as [H|(_ & d & H)]; [now left|right]. eapply found_refused; exact H.
    + now apply orderly_sends.
    + now apply orderly_reads.
Qed.

Lemma buffer_conduit i o b u mi mo spy w0 L w st : part_wired i o (PBuffer b u mi mo) -> part_runs (PBuffer b u mi mo) spy L st ->
  new_inside u mi mo w0 -> wrun w0 L w -> sealed u mi mo L ->
  touches L [i] [o] [u] 1 2 /\ conduit i o 1 2 L st /\ i <> u /\ o <> u.
Proof.
  intros (pj & j & HB) HS Hn HR Hs. destruct (buffer_parts _ _ _ _ _ _ _ _ _ HB HS) as (xa & xb & xc & HA & HB' & HC & _).
  destruct (orderly_all _ _ _ (motion_orderly _ _ _ _) _ _ HA) as [HWa HOa].
  destruct (orderly_all _ _ _ (motion_orderly _ _ _ _) _ _ HB') as [HWb HOb].
  unfold within_eff in *. rewrite Forall_forall in HWa, HWb.
  pose proof (wired_pl _ _ _ _ _ _ HB) as Hiu. cbn in Hiu. pose proof (wired_ps _ _ _ _ _ _ HB) as Hou. cbn in Hou.
  split; [|split; [|auto]].
  - intros t e a Ht Hin. apply in_own in Hin. destruct t as [|[|[|[|t]]]]; [| | | |lia].
    + exfalso. assert (E0 : own 0 L = []); [|rewrite E0 in Hin; destruct Hin].
      destruct HB as (E1 & E2 & _ & _ & Hreal & _). assert (EE : buffer_ends b = Ret (inr (PlReceiver pj i, PsIoSender j o))) by (unfold buffer_ends; rewrite E1, E2; reflexivity).
      cbn in HS. unfold buffer_start in HS. rewrite EE in HS. inversion HS; subst; repeat match goal with K : exec (Ret _) _ _ |- _ => apply exec_ret_inv in K; destruct K as [? K]; try discriminate K end; rewrite ?own_app;
        repeat match goal with K : idle [0] _ |- _ => rewrite (K 0) by (now left); clear K | K : own 0 _ = [] |- _ => rewrite K; clear K end; reflexivity.
    + eapply does_mono; [exact (motion_does _ _ _ _ _ (HWa _ Hin))|intros n []| |]; intros _ n K; cbn in K; destruct K as [<-|[]]; [right; split; [reflexivity|now left]|left; now left].
    + eapply does_mono; [exact (motion_does _ _ _ _ _ (HWb _ Hin))|intros n []| |]; intros _ n K; cbn in K; destruct K as [<-|[]]; [left; now left|right; split; [reflexivity|now left]].
    + apply total_reach in HC. destruct HC as (t & HC & _). apply t_traces in HC. rewrite Forall_forall in HC. specialize (HC _ Hin). cbn in HC.
      intros n K. destruct e; cbn in HC, K; try discriminate K; injection K as ->; try contradiction; intuition discriminate.
  - destruct (buffer_fifo _ _ _ _ _ _ _ HB _ _ _ _ HS Hn HR Hs) as [H1 H2]. constructor.
    + exact H1.
    + intros (n & [E|E]).
      * subst st. destruct HB as (E1 & E2 & _ & _ & Hreal & _). assert (EE : buffer_ends b = Ret (inr (PlReceiver pj i, PsIoSender j o))) by (unfold buffer_ends; rewrite E1, E2; reflexivity).
        exfalso. cbn in HS. unfold buffer_start in HS. rewrite EE in HS. inversion HS; subst. match goal with K : exec (Ret _) _ _ |- _ => apply exec_ret_inv in K; destruct K as [_ K]; discriminate K end.
      * destruct (H2 n E) as [(G1 & G2 & _)|(_ & d & G)]; [left; split; assumption|right]. eapply found_refused; exact G.
    + now apply orderly_sends.
    + now apply orderly_reads.
Qed.

Lemma junction_effects j spy tr st e a : junction_ready j -> exec (junction_start j spy) tr st -> In (e, a) tr -> does (in_chans j) (out_chans j) [] true true e.
Proof.
  intros HR HX Hin n Hn. apply in_split in Hin. destruct Hin as (t1 & t2 & ->). pose proof (start_at _ _ HR _ _ (exec_prefix _ _ _ HX _ _ _ _ eq_refl)) as H.
  assert (Hp : forall p, In p (jn_stdout j) -> In (ps_chan p) (out_chans j)) by (intros p Hp; unfold out_chans; now apply in_map).
  assert (Hb : busy (jn_stdout j) t1 e -> In n (out_chans j) /\ is_send (CData n) e).
  { intros [(l & _ & K)|(l & d & done & rest & os & HA & [K|(p & rest' & -> & K)])]; [destruct e as [| |[]| | | | | | | | | | | | | | |]; try contradiction; discriminate Hn..|].
    destruct HA as (_ & _ & _ & HO & _).
    assert (Hi : In p (jn_stdout j)) by (rewrite HO; apply in_or_app; right; now left).
    pose proof (Hp p Hi) as Hc. destruct HR as (_ & _ & Hio & _). rewrite Forall_forall in Hio. specialize (Hio _ Hi). destruct p; try contradiction.
    cbn in K. injection K as <-. cbn in Hn. injection Hn as ->. split; [exact Hc|]. unfold is_send. eauto. }
  destruct e as [c|c|c v|c|c|c| | | | | | | | | | | |]; try discriminate Hn; cbn in Hn; injection Hn as ->; cbn in H.
  - destruct H as [H _]. destruct (Hb H) as [_ (v & K)]. discriminate K.
  - destruct H as (m & E & _ & Hm & _). injection E as <-. right; left. repeat split; [exact Hm|]. left. now right.
  - destruct H as [H _]. destruct (Hb H) as [K1 K2]. right; right. repeat split; auto.
  - destruct H as (m & E & [(Hm & _)|(done & p & rest & pre & HE & En & _)]); injection E as <-.
    + right; left. auto.
    + right; right. repeat split; auto. rewrite En. apply Hp. rewrite HE. apply in_or_app. right. now left.
  - destruct H as [H _]. destruct (Hb H) as [_ (v & K)]. discriminate K.
  - destruct H as [H _]. destruct (Hb H) as [_ (v & K)]. discriminate K.
Qed.

Lemma junction_conduit i o j spy L st : part_wired i o (PJunction j) -> part_runs (PJunction j) spy L st ->
  touches L [i] [o] [] 0 0 /\ conduit i o 0 0 L st.
Proof.
  intros (HR & Ei & Eo) (HI & s & -> & HX). split.
  - eapply touch_alone; [reflexivity|exact HI|]. intros e a K. rewrite <- Ei, <- Eo. eapply junction_effects; eassumption.
  - assert (Hp : exists p, In p (jn_stdout j) /\ exists jj, p = PsIoSender jj o).
    { unfold out_chans in Eo. destruct (jn_stdout j) as [|p [|]] eqn:Ep; try discriminate Eo. exists p. split; [now left|].
      destruct HR as (_ & _ & Hio & _). rewrite Ep in Hio. inversion Hio; subst. destruct p; try contradiction. cbn in Eo. injection Eo as ->. eauto. }
    destruct Hp as (p & Hp & jj & ->).
    assert (Hone : forall s', interleave (map (fun n => datas (taken (CData n) (own 0 L))) (in_chans j)) s' -> s' = datas (taken (CData i) (own 0 L))).
    { rewrite Ei. cbn [map]. generalize (datas (taken (CData i) (own 0 L))). intros l s' H. remember [l] as ls eqn:E. revert l E. induction H as [ls H|pre x l0 post s0 H IH]; intros l E; subst.
      - inversion H; subst. reflexivity.
      - destruct pre as [|y [|]]; cbn in E; try discriminate E. injection E as <- ->. f_equal. apply IH. reflexivity. }
    destruct (outputs_same _ _ HR _ _ HX) as (s' & H1 & H2 & H3 & _). apply Hone in H1. subst s'. constructor.
    + exact (proj1 (H2 _ Hp)).
    + intros (n & [E|E]); [|discriminate E]. injection E as ->. specialize (H3 _ Hp ltac:(eauto)).
      destruct (ends_properly _ _ HR _ _ HX) as [[K|K] _].
      * left. split; [exact H3|]. apply K. rewrite Ei. now left.
      * right. destruct (K _ Hp) as (_ & d & K'). eapply found_refused; exact K'.
    + intros t1 a t2 E. destruct (offered (CData o) t2) as [|v vs] eqn:Eo2; [reflexivity|exfalso].
      assert (Hs : exists v' a', In (ESend (CData o) v', a') t2).
      { clear - Eo2. induction t2 as [|[e b] t2 IH]; [discriminate Eo2|]. change ((e, b) :: t2) with ([(e, b)] ++ t2) in Eo2. unfold offered in Eo2. rewrite flat_map_app in Eo2. fold (offered (CData o) t2) in Eo2.
        destruct e as [| |c v'| | | | | | | | | | | | | | |]; try (destruct (IH Eo2) as (x & y & K); exists x, y; now right).
        cbn in Eo2. destruct c as [n'| | | | ]; try (destruct (IH Eo2) as (x & y & K); exists x, y; now right).
        destruct (Nat.eqb_spec o n') as [<-|N]; [exists v', b; now left|]. destruct (IH Eo2) as (x & y & K); exists x, y; now right. }
      destruct Hs as (v' & a' & Hs). apply in_split in Hs. destruct Hs as (u1 & u2 & ->).
      pose proof (start_at _ _ HR _ _ (exec_prefix _ _ _ HX (t1 ++ (EClose (CData o), a) :: u1) _ _ u2 ltac:(rewrite E, <- app_assoc; reflexivity))) as H. cbn in H. destruct H as [_ H].
      assert (K : In o (in_chans j)). { apply H. unfold closes. rewrite flat_map_app. apply in_or_app. right. now left. }
      eapply (out_not_in _ HR); [rewrite Eo; now left|exact K].
    + intros t1 a t2 E Hse.
      assert (Hs : exists e, is_take (CData i) e /\ In (e, AClosed) t2) by (destruct Hse as [K|K]; eexists; (split; [|exact K]); unfold is_take; auto).
      destruct Hs as (e & He & Hs). apply in_split in Hs. destruct Hs as (u1 & u2 & ->).
      assert (HP : exec (junction_start j spy) (t1 ++ (EClose (CData i), a) :: u1) (At e)) by (eapply exec_prefix with (b := u2); [exact HX|rewrite E, <- app_assoc; reflexivity]).
      destruct He as [->| ->].
      * eapply (never_recv _ _ HR _ _ (CData i) AClosed HX). rewrite E. apply in_or_app. right. right. apply in_or_app. right. now left.
      * destruct (asks_live _ _ HR _ _ HP) as (_ & K & _). apply K. unfold closed_by. apply in_or_app. right. left. f_equal.
        pose proof (exec_wt _ _ _ HX) as HW. rewrite Forall_forall in HW. assert (Hi : In (EClose (CData i), a) (own 0 L)) by (rewrite E; apply in_or_app; right; now left). specialize (HW _ Hi). cbn in HW. destruct a; try discriminate HW. reflexivity.
Qed.

Lemma part_conduit i o p spy w0 L w st : part_wired i o p -> part_runs p spy L st ->
  (forall b u mi mo, p = PBuffer b u mi mo -> new_inside u mi mo w0 /\ sealed u mi mo L) -> wrun w0 L w ->
  touches L [i] [o] (inn p) (rd p) (wr p) /\ conduit i o (rd p) (wr p) L st /\ ~ In i (inn p) /\ ~ In o (inn p).
Proof.
  intros HW HR HB HL. destruct p as [r|b u mi mo|j].
  - destruct (regulator_conduit _ _ _ _ _ _ HW HR). cbn. auto.
  - destruct (HB b u mi mo eq_refl) as [H1 H2]. destruct (buffer_conduit _ _ _ _ _ _ _ _ _ _ _ HW HR H1 HL H2) as (K1 & K2 & K3 & K4). cbn. intuition.
  - destruct (junction_conduit _ _ _ _ _ _ HW HR). cbn. auto.
Qed.
