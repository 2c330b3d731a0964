(** * P_Ask: a junction asks one of its inputs *)
From Coq Require Import Ascii String List Bool Arith Lia ZArith.
From Verif Require Import M_Prog P_Prog P_Exec M_Motion S_Trace S_Lines S_Motion S_Junction P_Split P_Read P_Motion P_Worker P_Flow.
Import ListNotations.

Lemma exec_prefix {A} (p : prog A) tr st : exec p tr st ->
  forall a e x b, tr = a ++ (e, x) :: b -> exec p a (At e).
Proof.
  intro HX0. induction HX0 as [x0|x0|x0|p tr st HX IH|e k x tr st Hwt HX IH]; intros a e' x' b E;
    try (destruct a; discriminate E).
  - constructor. eapply IH; eassumption.
  - destruct a as [|ev a]; cbn in E; inversion E; subst; [constructor|]. constructor; [assumption|]. eapply IH. reflexivity.
Qed.


Lemma erase_senders outs : Forall io_sender outs -> forall pushs', map erase pushs' = map erase outs -> pushs' = outs.
Proof.
  induction 1 as [|p l Hp _ IH]; intros [|q ps] E; try discriminate E; [reflexivity|].
  cbn in E. inversion E as [[E1 E2]]. f_equal; [|auto].
  destruct p; try contradiction. destruct q; cbn in E1; inversion E1; reflexivity.
Qed.

Lemma arrivals_app a b : arrivals (a ++ b) = arrivals a ++ arrivals b.
Proof. apply flat_map_app. Qed.
Lemma ends_app a b : ends (a ++ b) = ends a ++ ends b.
Proof. apply flat_map_app. Qed.
Lemma asked_app a b : asked (a ++ b) = asked a ++ asked b.
Proof. apply flat_map_app. Qed.
Lemma closes_app a b : closes (a ++ b) = closes a ++ closes b.
Proof. apply flat_map_app. Qed.

Lemma output_quiet w : Forall is_output w -> arrivals w = [] /\ ends w = [] /\ asked w = [] /\ closes w = [].
Proof.
  induction 1 as [|[e a] w He _ (I1 & I2 & I3 & I4)]; [repeat split|].
  destruct e; cbn in He; try contradiction; cbn; auto.
Qed.

Lemma closed_by_closes n tr : closed_by (CData n) tr -> In n (closes tr).
Proof.
  unfold closed_by, closes. intro H. apply in_flat_map. exists (EClose (CData n), AOk). split; [exact H|]. now left.
Qed.

Lemma pushes_spied spy data pushs tr s dd p m : pushes_run spy data pushs tr (Done (Err (SpyWriteError s dd p m))) -> spy <> None.
Proof.
  remember (Done _) as st eqn:E. intro H. revert E. induction H as [|p0 rest d' e Hd He|p0 rest o err Hc Hf|p0 rest o e Hc Hf Hs|p0 rest o e Hc Hf Hs|p0 rest o tr st Hc Hf HR IH]; intro E; try discriminate E.
  - exfalso. injection E as ->. destruct data; try discriminate Hf. cbn in Hf. unfold push_fail in Hf. destruct p0, o; cbn in Hf; try discriminate Hf; repeat match type of Hf with context [match ?x with _ => _ end] => destruct x; try discriminate Hf end.
  - unfold spy_eff in Hs. destruct spy; discriminate.
  - destruct st as [|[|]|]; try discriminate E. apply IH. exact E.
Qed.

Section Ask.
Variables (outs : list push) (spy : option nat).
Hypothesis Houts : Forall io_sender outs.

(** What one ask does. *)
Inductive ask (p : pull) : trace -> status (mres worker_result * pull * list push) -> Prop :=
| A_at : ask p [] (At (ETryRecv (CData (pl_chan p))))
| A_vain : ask p [vain (pl_chan p)] (Done (Ok (WR false false), p, outs))
| A_msg : forall d w st, after mn_empty spy outs (IOData d) p w st ->
    ask p ((ETryRecv (CData (pl_chan p)), AMsg (VData d)) :: w) st
| A_end : forall w st, after mn_empty spy outs Finished p w st ->
    ask p ((ETryRecv (CData (pl_chan p)), AClosed) :: w) st.

Lemma ask_inv p tr st : receiver p -> exec (motion_worker p mn_empty outs spy true) tr st -> ask p tr st.
Proof.
  destruct p as [ |j n| | ]; try contradiction. intros _ HX. unfold motion_worker in HX. cbn [motion_read] in HX.
  assert (R : forall t x, exec (r <- try_recv (CData n) ;; match r with
      | TOk (VData d) => Ret (Ok (IOData d), PlReceiver j n) | TOk _ => ill
      | TEmpty => Ret (Ok Skipped, PlReceiver j n) | TClosed => Ret (Ok Finished, PlReceiver j n) end) t x ->
      (t = [] /\ x = At (ETryRecv (CData n))) \/
      (t = [vain n] /\ x = Done (@Ok _ merror Skipped, PlReceiver j n)) \/
      (exists d, t = [(ETryRecv (CData n), AMsg (VData d))] /\ x = Done (Ok (IOData d), PlReceiver j n)) \/
      (t = [(ETryRecv (CData n), AClosed)] /\ x = Done (Ok Finished, PlReceiver j n))).
  { intros t x HY. destruct (exec_bind_inv _ _ _ _ HY) as [(t1 & t2 & y & -> & H1 & H2)|[(e & -> & H1)|(s' & -> & H1)]];
    destruct (try_recv_inv _ _ _ H1) as [(-> & E)|[(v & -> & E & Hf)|[(-> & E)|(-> & E)]]]; inversion E; subst.
    - destruct v; try discriminate Hf. apply exec_ret_inv in H2; destruct H2 as [-> ->]. right; right; left. exists d. auto.
    - apply exec_ret_inv in H2; destruct H2 as [-> ->]. auto.
    - apply exec_ret_inv in H2; destruct H2 as [-> ->]. auto.
    - auto. }
  destruct (exec_bind_inv _ _ _ _ HX) as [(t1 & t2 & y & -> & H1 & H2)|[(e & -> & H1)|(s' & -> & H1)]];
    destruct (R _ _ H1) as [(-> & E)|[(-> & E)|[(d & -> & E)|(-> & E)]]]; inversion E; subst.
  - apply exec_ret_inv in H2; destruct H2 as [-> ->]. exact (A_vain (PlReceiver j n)).
  - apply (A_msg (PlReceiver j n)). apply after_inv; [discriminate|exact H2].
  - apply (A_end (PlReceiver j n)). apply after_inv; [discriminate|exact H2].
  - exact (A_at (PlReceiver j n)).
Qed.

(** A round in which no output stopped the component. *)
Definition calm (x : bytes * list wout) : Prop := Forall2 (no_fail (fst x)) outs (snd x).

(** Between two messages. *)
Definition base (h : trace) (l : list (bytes * list wout)) : Prop :=
  attempts h = rounds outs l /\ map snd (arrivals h) = map fst l /\ Forall calm l.
(** While message [d] is being offered: [done] have been offered it. *)
Definition amid (h : trace) (l : list (bytes * list wout)) (d : bytes) (done rest : list push) (os : list wout) : Prop :=
  attempts h = rounds outs l ++ round done d os /\ map snd (arrivals h) = map fst l ++ [d] /\ Forall calm l /\
  outs = done ++ rest /\ Forall2 (no_fail d) done os.
(** A Terminate output was found closed. *)
Definition broken (h : trace) (e : merror) : Prop :=
  exists l d done p rest os j, Forall calm l /\ outs = done ++ p :: rest /\ Forall2 (no_fail d) done os /\
    attempts h = rounds outs l ++ round done d os ++ attempt p d OClosed /\
    map snd (arrivals h) = map fst l ++ [d] /\
    push_journey p = Some j /\ j_brk j = Terminate /\ e = OutputClosed j ChannelClosed d.
Definition spied (e : merror) : Prop := spy <> None /\ exists s dd p m, e = SpyWriteError s dd p m.

Definition copying (h : trace) : Prop := (exists l, base h l) \/ (exists l d done rest os, amid h l d done rest os).
Definition stopped (h : trace) (e : merror) : Prop := broken h e \/ (spied e /\ copying h).

Definition is_spy (e : eff) : Prop := match e with ESend (CSpy _) _ => True | _ => False end.

(** About to write or report. *)
Definition busy (h : trace) (e : eff) : Prop :=
  (exists l, base h l /\ is_spy e) \/
  (exists l d done rest os, amid h l d done rest os /\ (is_spy e \/ exists p rest', rest = p :: rest' /\ write_eff p d = Some e)).

Lemma amid_base h l d os : amid h l d outs [] os -> base h (l ++ [(d, os)]).
Proof.
  intros (H1 & H2 & H3 & H4 & H5). unfold base. rewrite rounds_app, map_app. cbn. rewrite app_nil_r.
  split; [exact H1|]. split; [exact H2|]. apply Forall_app. split; [exact H3|]. constructor; [exact H5|constructor].
Qed.

(** Every output is a Finish pipe found closed. *)
Definition all_gone (h : trace) : Prop :=
  outs = [] \/ forall p, In p outs -> push_brk p = Finish /\ exists d, found_closed p d h.

(** The outcome of asking input [n] after history [h]. *)
Definition asked_post (n : nat) (h h' : trace) (l : list (bytes * list wout)) (r : mres worker_result) : Prop :=
  match r with
  | Ok (WR false false) => h' = h ++ [vain n]
  | Ok (WR false true) => exists d os w, h' = h ++ (ETryRecv (CData n), AMsg (VData d)) :: w /\ Forall is_output w /\ base h' (l ++ [(d, os)])
  | Ok (WR true true) =>
      (exists w, h' = h ++ (ETryRecv (CData n), AClosed) :: w /\ Forall is_output w /\ base h' l) \/
      (exists d os w, h' = h ++ (ETryRecv (CData n), AMsg (VData d)) :: w /\ Forall is_output w /\ base h' (l ++ [(d, os)]) /\ all_gone h')
  | Ok (WR true false) => False
  | Err e => (exists x w, h' = h ++ (ETryRecv (CData n), x) :: w /\ Forall is_output w) /\ stopped h' e
  end.

Lemma no_fail_len d : forall ps os, Forall2 (no_fail d) ps os -> length os = length ps.
Proof. induction 1; cbn; congruence. Qed.

Lemma count_finish_all' : forall ps os d, Forall io_sender ps -> Forall2 (no_fail d) ps os ->
  length ps - count_finish ps os = 0 -> forall p, In p ps ->
  push_brk p = Finish /\ exists e, write_eff p d = Some e /\ In (e, d, closed_ans p) (round ps d os).
Proof.
  intros ps os d HS H. induction H as [|p o ps os Hp H IH]; intros HC q HIn; [contradiction|].
  inversion HS as [|? ? Hsp HSs]; subst. cbn [count_finish length] in HC.
  pose proof (count_finish_le ps os) as Hle.
  destruct (closed_finish p o) eqn:EC; [|lia].
  destruct HIn as [->|HIn].
  - destruct q; try contradiction. unfold closed_finish in EC. destruct o; try discriminate. split.
    + destruct (push_brk (PsIoSender j n)); try discriminate; reflexivity.
    + eexists. split; [reflexivity|]. cbn. now left.
  - destruct (IH HSs ltac:(lia) q HIn) as (I1 & e & I2 & I3). split; [exact I1|]. exists e. split; [exact I2|].
    cbn. apply in_or_app. now right.
Qed.

Lemma in_attempts e d a tr : In (e, d, a) (attempts tr) -> In (e, a) tr.
Proof.
  unfold attempts. rewrite in_flat_map. intros ([e' a'] & HIn & H).
  destruct e' as [ | |[] []| | | | | | | | | | | | | | | ]; cbn in H; try contradiction; destruct H as [H|[]]; inversion H; subst; exact HIn.
Qed.

Lemma ask_sat p h l (N : trace -> eff -> Prop) :
  receiver p -> base h l -> N h (ETryRecv (CData (pl_chan p))) ->
  (forall h' e, busy h' e -> (exists w, h' = h ++ w /\ asked w = [pl_chan p] /\ closes w = []) -> N h' e) ->
  sat h (motion_worker p mn_empty outs spy true) N
    (fun h' r => exists r0, r = (r0, p, outs) /\ asked_post (pl_chan p) h h' l r0).
Proof.
  intros Hp HB HN HW tr st HX. pose proof (ask_inv _ _ _ Hp HX) as HA. clear HX.
  destruct HB as (B1 & B2 & B3).
  inversion HA as [E1 E2|E1 E2|d w st' HF E1 E2|w st' HF E1 E2]; subst; clear HA.
  - rewrite app_nil_r. exact HN.
  - exists (Ok (WR false false)). split; [reflexivity|]. reflexivity.
  - pose proof (after_output _ _ _ _ _ _ _ HF) as HO. destruct (output_quiet _ HO) as (Q1 & Q2 & Q3 & Q4).
    assert (ARR : forall w', Forall is_output w' -> map snd (arrivals (h ++ (ETryRecv (CData (pl_chan p)), AMsg (VData d)) :: w')) = map fst l ++ [d]).
    { intros w' HO'. destruct (output_quiet _ HO') as (Q1' & _). change (?x :: w') with ([x] ++ w').
      rewrite !arrivals_app, Q1', !map_app, B2. reflexivity. }
    assert (ATT : forall w', attempts (h ++ (ETryRecv (CData (pl_chan p)), AMsg (VData d)) :: w') = rounds outs l ++ attempts w').
    { intros w'. rewrite attempts_app, B1. reflexivity. }
    assert (AM : forall w' done rest os, Forall is_output w' -> outs = done ++ rest -> attempts w' = round done d os -> Forall2 (no_fail d) done os ->
        amid (h ++ (ETryRecv (CData (pl_chan p)), AMsg (VData d)) :: w') l d done rest os).
    { intros. repeat split; auto. rewrite ATT. congruence. }
    inversion HF as [c Hc|c j pushs' Hc|c s Hc|tr e HR|tr e pushs' HR HE|tr outs0 c HR HL Hc|tr outs0 c j pushs' HR HL Hc|tr outs0 c s HR HL Hc|tr outs0 pushs' HR HL HE];
      subst; try discriminate Hc.
    + cbn [mon_ev mn_empty mon_read app] in *. destruct (pushes_attempts _ _ _ _ _ HR) as (done & rest & os & E & HL & Ha & HF2 & HE).
      apply HW.
      * right. exists l, d, done, rest, os. split; [apply AM; auto|]. destruct HE as [HE|(s & v & ->)]; [right; exact HE|left; exact I].
      * exists ((ETryRecv (CData (pl_chan p)), AMsg (VData d)) :: tr). split; [reflexivity|]. split; [change (pl_chan p :: asked tr = [pl_chan p]); now rewrite Q3|exact Q4].
    + cbn [mon_ev mn_empty mon_read app] in *. apply (erase_senders _ Houts) in HE. subst pushs'.
      destruct (pushes_attempts _ _ _ _ _ HR) as (done & rest & os & E & HL & Ha & HC).
      exists (Err e). split; [reflexivity|]. cbn. split; [eauto|].
      destruct HC as [(done0 & q & os0 & o & E1 & E2 & HF2 & HL2 & HO1 & HO2 & t0 & Ht0)|(HF2 & HS)].
      * left. subst done os.
        assert (Hq : io_sender q). { rewrite Forall_forall in Houts. apply Houts. rewrite E, <- app_assoc. apply in_or_app. right. now left. }
        destruct q as [ | | |qj qn| ]; try contradiction. destruct o; cbn in HO1, HO2; try congruence.
        destruct (j_brk qj) eqn:Hb; try discriminate HO2. inversion HO2; subst e.
        exists l, d, done0, (PsIoSender qj qn), rest, os0, qj. split; [exact B3|]. split; [rewrite E, <- app_assoc; reflexivity|].
        split; [exact HF2|]. split; [|split; [apply ARR; exact HO|repeat split; exact Hb]].
        rewrite ATT, Ha. clear -HL2. f_equal. revert os0 HL2. induction done0 as [|a done0 IH]; intros [|o os0] HL; try discriminate; cbn; [reflexivity|].
        rewrite <- app_assoc. f_equal. apply IH. cbn in HL. lia.
      * right. split; [split; [destruct HS as (s & dd & q & m & ->); eapply pushes_spied; exact HR|exact HS]|]. right. exists l, d, done, rest, os. apply AM; auto.
    + cbn [mon_ev mn_empty mon_read mon_written app] in *. rewrite app_nil_r in *. apply (erase_senders _ Houts) in HE. subst pushs'.
      destruct (pushes_attempts _ _ _ _ _ HR) as (done & rest & os & E & HL' & Ha & HC). destruct HC as (-> & -> & HF2).
      rewrite app_nil_r in E. subst done.
      assert (AMB : base (h ++ (ETryRecv (CData (pl_chan p)), AMsg (VData d)) :: tr) (l ++ [(d, outs0)])).
      { apply amid_base. apply AM; auto. now rewrite app_nil_r. }
      eexists. split; [reflexivity|]. cbn.
      destruct (length outs - count_finish outs outs0 =? 0) eqn:EZ; cbn.
      * right. exists d, outs0, tr. split; [reflexivity|]. split; [exact HO|]. split; [exact AMB|].
        right. intros q HIn. apply Nat.eqb_eq in EZ.
        destruct (count_finish_all' _ _ _ Houts HF2 EZ q HIn) as (K1 & e & K2 & K3). split; [exact K1|].
        exists d, e. split; [exact K2|]. apply in_or_app. right. right. rewrite <- Ha in K3. eapply in_attempts; exact K3.
      * exists d, outs0, tr. auto.
  - pose proof (after_output _ _ _ _ _ _ _ HF) as HO. destruct (output_quiet _ HO) as (Q1 & Q2 & Q3 & Q4).
    assert (BB : forall w', Forall is_output w' -> attempts w' = [] -> base (h ++ (ETryRecv (CData (pl_chan p)), AClosed) :: w') l).
    { intros w' HO' HA'. destruct (output_quiet _ HO') as (Q1' & _). change (?x :: w') with ([x] ++ w').
      split; [|split; [|exact B3]].
      - rewrite !attempts_app, B1, HA'. cbn. now rewrite app_nil_r.
      - rewrite !arrivals_app, Q1', map_app, B2. cbn. now rewrite app_nil_r. }
    inversion HF as [c Hc|c j pushs' Hc|c s Hc|tr e HR|tr e pushs' HR HE|tr outs0 c HR HL Hc|tr outs0 c j pushs' HR HL Hc|tr outs0 c s HR HL Hc|tr outs0 pushs' HR HL HE];
      subst; try discriminate Hc.
    + cbn [mon_ev mn_empty mon_read app] in *. destruct (pushes_finished _ _ _ _ HR) as (Ha & s & v & ->).
      apply HW.
      * left. exists l. split; [apply BB; auto|exact I].
      * exists ((ETryRecv (CData (pl_chan p)), AClosed) :: tr). split; [reflexivity|]. split; [change (pl_chan p :: asked tr = [pl_chan p]); now rewrite Q3|exact Q4].
    + cbn [mon_ev mn_empty mon_read app] in *. apply (erase_senders _ Houts) in HE. subst pushs'.
      destruct (pushes_finished _ _ _ _ HR) as (Ha & HS).
      exists (Err e). split; [reflexivity|]. cbn. split; [eauto|]. right. split; [(split; [destruct HS as (s & dd & q & m & ->); eapply pushes_spied; exact HR|exact HS])|]. left. exists l. apply BB; auto.
    + cbn [mon_ev mn_empty mon_read mon_written app] in *. rewrite app_nil_r in *. apply (erase_senders _ Houts) in HE. subst pushs'.
      destruct (pushes_finished _ _ _ _ HR) as (Ha & HS).
      eexists. split; [reflexivity|].
      assert (EF : (if length outs - count_finish outs outs0 =? 0 then true else is_finished Finished) = true) by (now destruct (_ =? 0)).
      rewrite EF. cbn. left. exists tr. split; [reflexivity|]. split; [exact HO|]. apply BB; auto.
Qed.
End Ask.
