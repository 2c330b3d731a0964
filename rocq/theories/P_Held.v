(** * P_Held: how much a buffer holds compared with what it last reported *)
From Coq Require Import Ascii String List Bool Arith Lia.
From Verif Require Import M_Prog P_Prog P_Exec M_Motion M_BackOff M_Connectable S_Trace S_Lines S_Motion S_World P_Fan P_Read P_World P_Copy P_Machine P_Reach M_Join M_Buffer M_Poll S_Launch S_Buffer P_Buffer P_Counter P_BufferJoint P_BufferRun P_BufferPoll P_BufferEnd.
Import ListNotations.

(** No report is more than one above the one before. *)
Fixpoint climbing (prev : nat) (l : list nat) : Prop :=
  match l with [] => True | x :: r => x <= S prev /\ climbing x r end.
Lemma last_cons {A} (l : list A) : forall x p, last (x :: l) p = last l x.
Proof. induction l as [|z l IH]; intros x p; [reflexivity|]. change (last (x :: z :: l) p) with (last (z :: l) p). now rewrite !IH. Qed.
Lemma climbing_app a : forall p b, climbing p (a ++ b) <-> climbing p a /\ climbing (last a p) b.
Proof.
  induction a as [|x a IH]; intros p b; cbn [app climbing]; [cbn; tauto|]. rewrite IH, last_cons. tauto.
Qed.
Lemma climbing_last l : forall p, climbing p l -> last l p <= p + length l.
Proof. induction l as [|x l IH]; intros p H; [cbn; lia|]. destruct H as [H1 H2]. rewrite last_cons. specialize (IH _ H2). cbn [length]. lia. Qed.

(** ** The counter *)
Section Counter.
Variables (sender : option nat) (mi mo : nat).
Hypothesis Hm : mi <> mo.

Definition inv_h (tr : trace) (t : tplace) : Prop :=
  climbing 0 (reports_of sender tr) /\
  match t with
  | TOut size _ _ l => sender <> None -> size <= S l
  | TRep size _ _ l => size <= S l
  | TBad _ => sender <> None -> Forall (eq VWrote) (taken (CMon mi) tr) -> Forall (eq VRead) (taken (CMon mo) tr) -> ntak (CMon mi) tr <= ntak (CMon mo) tr
  | _ => True
  end.
Lemma counter_held tr t : treach sender mi mo tr t -> inv_h tr t.
Proof.
  induction 1 as [|tr t e a HR [HC HI] He Hw]; [split; [destruct sender; exact I|exact I]|].
  pose proof (counter_inv sender mi mo Hm _ _ HR) as [HC0 HI0].
  destruct t as [size back last|size moved back last|size moved back last|size moved back last|size moved back last|size moved back last|size moved back last|size back last|r|r|r|r|m]; cbn in He; try discriminate He.
  - injection He as <-. split; [rewrite (quiet sender) by discriminate; exact HC|]. destruct HI0 as (_ & _ & _ & _ & Hl).
    destruct a as [v| | | | | | |b| | | ]; try discriminate Hw; cbn [tnext]; try (intro Hs; rewrite (Hl Hs); lia).
    destruct v; try discriminate Hw; [|intro Hs; rewrite (Hl Hs); lia]. intros _ HF _. exfalso. rewrite taken_app in HF. apply Forall_app in HF. destruct HF as [_ HF]. cbn in HF. rewrite Nat.eqb_refl in HF. inversion HF; discriminate.
  - injection He as <-. split; [rewrite (quiet sender) by discriminate; exact HC|]. destruct HI0 as (Hn & _).
    assert (HG : forall n moved', (sender <> None -> n <= S last) -> match go_rep sender n moved' back last with TOut size _ _ l => sender <> None -> size <= S l | TRep size _ _ l => size <= S l | TBad _ => False | _ => True end).
    { intros n moved' Hl. unfold go_rep. destruct sender; [|exact I]. destruct (last =? n); [exact I|]. apply Hl. discriminate. }
    assert (HG' : forall n moved' P, (sender <> None -> n <= S last) -> match go_rep sender n moved' back last with TOut size _ _ l => sender <> None -> size <= S l | TRep size _ _ l => size <= S l | TBad _ => P | _ => True end).
    { intros n moved' P Hl. specialize (HG n moved' Hl). destruct (go_rep sender n moved' back last); auto. contradiction HG. }
    destruct a as [v| | | | | | |b| | | ]; try discriminate Hw; cbn [tnext]; try (apply HG'; exact HI).
    destruct v; try discriminate Hw; [destruct size as [|m]|].
    + intros Hs _ _. unfold ntak in *. rewrite !taken_app, !app_length. cbn. rewrite Nat.eqb_refl. destruct (mi =? mo); cbn; lia.
    + apply HG'. intro Hs. specialize (HI Hs). lia.
    + intros _ _ HF. exfalso. rewrite taken_app in HF. apply Forall_app in HF. destruct HF as [_ HF]. cbn in HF. rewrite Nat.eqb_refl in HF. inversion HF; discriminate.
  - destruct sender as [s|] eqn:Es; [|discriminate He]. injection He as <-. destruct HI0 as (_ & _ & _ & Hl & _). rewrite <- Es in *.
    destruct a as [v| | | | | | |b| | | ]; try discriminate Hw; cbn [tnext]; (split; [|exact I]).
    + rewrite reports_of_snoc, Es. cbn [reports_of reports sent flat_map]. rewrite app_nil_r. rewrite Es in HC. exact HC.
    + rewrite reports_of_snoc, Es. replace (reports_of (Some s) [(ESend (CSize s) (VSize size), AOk)]) with [size] by (cbn; now rewrite Nat.eqb_refl).
      apply climbing_app. rewrite <- Es. split; [exact HC|]. unfold told in Hl. rewrite <- Hl. cbn. auto.
  - injection He as <-. split; [rewrite (quiet sender) by discriminate; exact HC|]. destruct a as [v| | | | | | |[]| | | ]; cbn [tnext]; unfold go_turn; destruct moved; exact I.
  - injection He as <-. split; [rewrite (quiet sender) by discriminate; exact HC|]. destruct a as [v| | | | | | |[]| | | ]; cbn [tnext]; unfold go_turn; destruct moved; exact I.
  - injection He as <-. split; [rewrite (quiet sender) by discriminate; exact HC|]. destruct a as [v| | | | | | |[]| | | ]; cbn [tnext]; unfold go_turn; destruct moved; exact I.
  - injection He as <-. split; [rewrite (quiet sender) by discriminate; exact HC|]. destruct a as [v| | | | | | |[]| | | ]; cbn [tnext]; unfold go_turn; destruct moved; exact I.
  - injection He as <-. split; [rewrite (quiet sender) by discriminate; exact HC|]. exact I.
  - injection He as <-. split; [rewrite (quiet sender) by discriminate; exact HC|]. exact I.
  - injection He as <-. split; [rewrite (quiet sender) by discriminate; exact HC|]. cbn [tnext]. unfold go_dropS. destruct sender; exact I.
  - destruct sender as [s|] eqn:Es; [|discriminate He]. injection He as <-. rewrite <- Es in *. split; [rewrite (quiet sender) by discriminate; exact HC|]. exact I.
Qed.
(** What has been counted is at most one more than the last report. *)
Lemma counter_near tr t s : treach sender mi mo tr t -> sender = Some s -> refusedb (CSize s) tr = false -> Forall (eq VWrote) (taken (CMon mi) tr) -> Forall (eq VRead) (taken (CMon mo) tr) ->
  ntak (CMon mi) tr <= ntak (CMon mo) tr + S (last (reports s tr) 0).
Proof.
  intros HR Es Hu F1 F2. pose proof (counter_inv sender mi mo Hm _ _ HR) as [_ HI]. destruct (counter_held _ _ HR) as [_ HH].
  assert (Hs : sender <> None) by congruence.
  assert (Et : told sender tr = last (reports s tr) 0) by (unfold told; now rewrite Es). assert (Eu : unheard sender tr = false) by (unfold unheard; now rewrite Es). rewrite <- Et.
  destruct t as [size back l|size moved back l|size moved back l|size moved back l|size moved back l|size moved back l|size moved back l|size back l|[r|]|[r|]|[r|]|[r|]|m];
    try (destruct HI as (HI & _); congruence).
  all: try (destruct HI as (HI & _ & _ & HI1 & HI2); specialize (HI2 Hs); lia).
  all: try (destruct HI as (HI & _ & _ & HI1); specialize (HI1 Hs); lia).
  - destruct HI as (HI & _ & _ & HI1). specialize (HH Hs). lia.
  - destruct HI as (HI & _ & _ & HI1 & _). lia.
  - specialize (HH Hs F1 F2). lia.
Qed.

(** A counter that has let go of its reports has seen the channel of the half that takes in closed. *)
Definition inv_e (s : nat) (tr : trace) (t : tplace) : Prop :=
  (closedb (CSize s) tr = true -> match t with TDone _ => True | _ => False end) /\
  match t with
  | TE2 _ _ _ _ | TC2 _ _ _ _ | TDropO (Some _) | TDropI (Some _) | TDropS (Some _) | TDone (Some _) => In (EIsClosed (CMon mi), ABool true) tr
  | TDropO None | TDropI None | TDropS None | TDone None => refusedb (CSize s) tr = true
  | _ => True
  end.
Lemma counter_ended tr t s : treach sender mi mo tr t -> sender = Some s -> inv_e s tr t.
Proof.
  intros HR Es. revert HR. induction 1 as [|tr t e a HR [HC HI] He Hw]; [split; [discriminate|exact I]|].
  assert (HK : forall e', e = e' -> (forall c, e' <> EClose (CSize c)) -> closedb (CSize s) (tr ++ [(e, a)]) = true -> closedb (CSize s) tr = true).
  { intros e' <- D H. rewrite closedb_snoc in H. apply orb_true_iff in H. destruct H as [H|H]; [exact H|]. exfalso. destruct e; try discriminate H. cbn in H. destruct c; cbn in H; try (destruct a; discriminate H). now apply (D n). }
  destruct t as [size back last|size moved back last|size moved back last|size moved back last|size moved back last|size moved back last|size moved back last|size back last|r|r|r|r|m]; cbn in He; try discriminate He.
  1-2,4-10: injection He as <-; (split; [intro H; apply (HK _ eq_refl) in H; [|discriminate]; contradiction (HC H)|]).
  - destruct a as [v| | | | | | |b| | | ]; try exact I. destruct v; exact I.
  - cbn [tnext]. assert (HG : forall n m' P, match go_rep sender n m' back last with TE2 _ _ _ _ | TC2 _ _ _ _ | TDropO (Some _) | TDropI (Some _) | TDropS (Some _) | TDone (Some _) => P | TDropO None | TDropI None | TDropS None | TDone None => refusedb (CSize s) (tr ++ [(ETryRecv (CMon mo), a)]) = true | _ => True end).
    { intros. unfold go_rep. destruct sender; [|exact I]. destruct (last =? n); exact I. }
    destruct a as [v| | | | | | |b| | | ]; try apply HG. destruct v; try exact I. destruct size; [exact I|apply HG].
  - cbn [tnext]. destruct a as [v| | | | | | |[]| | | ]; unfold go_turn; destruct moved; exact I.
  - cbn [tnext]. destruct a as [v| | | | | | |[]| | | ]; try (unfold go_turn; destruct moved; exact I). apply in_or_app. right. now left.
  - cbn [tnext]. destruct a as [v| | | | | | |[]| | | ]; try (unfold go_turn; destruct moved; exact I). apply in_or_app. now left.
  - cbn [tnext]. destruct a as [v| | | | | | |[]| | | ]; try (unfold go_turn; destruct moved; exact I). apply in_or_app. now left.
  - exact I.
  - cbn [tnext]. destruct r; [apply in_or_app; now left|rewrite refusedb_snoc, HI; reflexivity].
  - cbn [tnext]. unfold go_dropS. destruct sender; destruct r; try (apply in_or_app; now left); rewrite refusedb_snoc, HI; reflexivity.
  - rewrite Es in He. injection He as <-. split.
    + intro H. apply (HK _ eq_refl) in H; [|discriminate]. contradiction (HC H).
    + destruct a as [v| | | | | | |b| | | ]; try discriminate Hw; cbn [tnext]; [|exact I]. rewrite refusedb_snoc. cbn. rewrite Nat.eqb_refl. apply orb_true_r.
  - rewrite Es in He. injection He as <-. cbn [tnext]. split; [auto|]. destruct r; [apply in_or_app; now left|rewrite refusedb_snoc, HI; reflexivity].
Qed.
End Counter.

(** ** The half that takes in *)
Section TakesIn.
Variables (brk : breakable) (u mi : nat) (pj : pjourney) (i : nat).
Hypothesis Hiu : i <> u.
Let pl := PlReceiver pj i.
Let ps := PsSender (J 0 None 0 brk) u.
Let mon := MN None (Some mi).
Definition in_hand (s : place) : nat := match s with LWrite _ _ _ => 1 | _ => 0 end.
Lemma a_in tr s : mreach pl mon None ps tr s -> ntak (CData i) tr <= noff (CData u) tr + in_hand s.
Proof.
  induction 1 as [|tr s e a HR IH He Hw]; [cbn; lia|]. pose proof (half_a_inv brk u mi pl tr s I Hiu HR) as HI.
  assert (EU : (i =? u) = false) by now apply Nat.eqb_neq.
  rewrite ntak_snoc, noff_snoc. unfold mstat in He. destruct (view pl mon None ps s) as [e0|] eqn:EV; [|discriminate He]. injection He as <-.
  destruct s as [ov st cnt|x ov cnt|d ov cnt|x dec ov cnt|x dec ov cnt|ov cnt|ov cnt|ov cnt|r|r|r|r|r]; try (exfalso; unfold inv_a in HI; tauto); cbn in EV; try discriminate EV; injection EV as <-; cbn [in_hand] in IH.
  - destruct a as [v| | | | | | | | | | ]; try discriminate Hw; [destruct v; try discriminate Hw|]; cbn; rewrite ?Nat.eqb_refl; cbn; lia.
  - destruct a as [v| | | | | | | | | | ]; try discriminate Hw; cbn; rewrite Nat.eqb_refl; cbn; lia.
  - destruct a as [v| | | | | | | | | | ]; try discriminate Hw; cbn; lia.
  - destruct a as [v| | | | | | | | | | ]; try discriminate Hw; cbn; lia.
  - destruct a as [v| | | | | | | | | | ]; try discriminate Hw; cbn; lia.
  - destruct a as [v| | | | | | | | | | ]; try discriminate Hw; cbn; lia.
  - destruct a as [v| | | | | | | | | | ]; try discriminate Hw; cbn; lia.
  - destruct a as [v| | | | | | | | | | ]; try discriminate Hw; cbn; lia.
Qed.
Lemma a_out tr s : mreach pl mon None ps tr s -> noff (CData u) tr + in_hand s <= ntak (CData i) tr.
Proof.
  induction 1 as [|tr s e a HR IH He Hw]; [cbn; lia|]. pose proof (half_a_inv brk u mi pl tr s I Hiu HR) as HI.
  assert (EU : (u =? i) = false) by (apply Nat.eqb_neq; congruence).
  rewrite ntak_snoc, noff_snoc. unfold mstat in He. destruct (view pl mon None ps s) as [e0|] eqn:EV; [|discriminate He]. injection He as <-.
  destruct s as [ov st cnt|x ov cnt|d ov cnt|x dec ov cnt|x dec ov cnt|ov cnt|ov cnt|ov cnt|r|r|r|r|r]; try (exfalso; unfold inv_a in HI; tauto); cbn in EV; try discriminate EV; injection EV as <-; cbn [in_hand] in IH.
  - destruct a as [v| | | | | | | | | | ]; try discriminate Hw; [destruct v; try discriminate Hw|]; cbn; rewrite ?Nat.eqb_refl; cbn; lia.
  - destruct a as [v| | | | | | | | | | ]; try discriminate Hw; cbn; rewrite Nat.eqb_refl; cbn; [destruct brk; cbn; lia|lia].
  - destruct a as [v| | | | | | | | | | ]; try discriminate Hw; cbn; unfold go_after; try (destruct (dec || is_finished x)); cbn; lia.
  - destruct a as [v| | | | | | | | | | ]; try discriminate Hw; cbn; lia.
  - destruct a as [v| | | | | | | | | | ]; try discriminate Hw; cbn; lia.
  - destruct a as [v| | | | | | | | | | ]; try discriminate Hw; cbn; lia.
  - destruct a as [v| | | | | | | | | | ]; try discriminate Hw; cbn; lia.
  - destruct a as [v| | | | | | | | | | ]; try discriminate Hw; cbn; lia.
Qed.
Lemma a_held tr s : mreach pl mon None ps tr s -> ntak (CData i) tr <= S (nsent (CMon mi) tr).
Proof.
  intro HR. pose proof (a_in _ _ HR) as H. pose proof (half_a_inv brk u mi pl tr s I Hiu HR) as (_ & _ & _ & HI).
  destruct s as [ov st cnt|x ov cnt|d ov cnt|x dec ov cnt|x dec ov cnt|ov cnt|ov cnt|ov cnt|[r|r]|[r|r]|[r|r]|[r|r]|r]; try contradiction HI; cbn [in_hand] in H; try (destruct HI as (HI & _); try (destruct (is_finished x)); lia); try (destruct HI as (_ & HI); lia).
  destruct r; [destruct HI as (HI & _)|destruct HI as (_ & HI)]; lia.
Qed.
Lemma a_shut tr s : mreach pl mon None ps tr s -> closedb (CMon mi) tr = true -> match s with LDropIn _ | LDropOut _ | LDropW _ | LDone _ => True | _ => False end.
Proof.
  intros HR HC. pose proof (half_a_inv brk u mi pl tr s I Hiu HR) as (_ & _ & _ & HI).
  destruct s as [ov st cnt|x ov cnt|d ov cnt|x dec ov cnt|x dec ov cnt|ov cnt|ov cnt|ov cnt|r|r|r|r|r]; try exact I; try (destruct HI as (_ & _ & HI & _); congruence); contradiction HI.
Qed.
Lemma a_after tr t : forall s, mreach pl mon None ps (tr ++ t) s -> closedb (CMon mi) tr = true -> ntak (CData i) t = 0.
Proof.
  induction t as [|[e a] t IH] using rev_ind; intros s HR HC; [reflexivity|]. rewrite app_assoc in HR. apply reach_snoc_inv in HR. destruct HR as (s1 & HR & He & Hw & _). cbn [fst snd] in He.
  pose proof (IH _ HR HC) as H0. assert (HC' : closedb (CMon mi) (tr ++ t) = true) by (rewrite closedb_app, HC; reflexivity).
  pose proof (a_shut _ _ HR HC') as HS. rewrite ntak_snoc, H0. unfold mstat in He. destruct (view pl mon None ps s1) as [e0|] eqn:EV; [|discriminate He]. injection He as <-.
  destruct s1; try contradiction HS; cbn in EV; try discriminate EV; injection EV as <-; reflexivity.
Qed.
End TakesIn.

(** ** Together *)
Section Together.
Variables (b : buffer) (pj : pjourney) (i : nat) (ps : push) (spy : option nat) (u mi mo s : nat).
Hypothesis HB : buffer_wired b (PlReceiver pj i) ps u mi mo.
Hypothesis Hs : bf_monitor b = Some s.
Notation tog := (together (PlReceiver pj i) ps spy (bf_monitor b) u mi mo).

Lemma only_sent w0 L w sa sb t : tog w0 L w sa sb t -> Forall (eq VWrote) (taken (CMon mi) (own 3 L)) /\ Forall (eq VRead) (taken (CMon mo) (own 3 L)).
Proof.
  intro HT. split; apply Forall_forall; intros v Hv.
  - assert (HI : In v (sent (CMon mi) (own 1 L))) by (rewrite <- (led_mi _ _ _ _ _ _ _ HB _ _ _ _ _ _ HT); apply in_or_app; now left).
    pose proof (a_traces (PlReceiver pj i) _ _ _ (wired_pl _ _ _ _ _ _ HB) _ _ (tg_a _ _ _ _ _ _ _ _ _ _ _ _ _ HT)) as HF. rewrite Forall_forall in HF.
    unfold sent in HI. apply in_flat_map in HI. destruct HI as ([e a] & H1 & H2). specialize (HF _ H1). cbn in HF.
    destruct e; try contradiction; destruct a; try contradiction. cbn in H2. destruct c; cbn in H2; try contradiction. destruct (mi =? n); [|contradiction]. destruct H2 as [<-|[]]. now destruct HF.
  - assert (HI : In v (sent (CMon mo) (own 2 L))) by (rewrite <- (led_mo _ _ _ _ _ _ _ HB _ _ _ _ _ _ HT); apply in_or_app; now left).
    pose proof (b_traces _ _ _ _ (wired_real _ _ _ _ _ _ HB) (wired_ps _ _ _ _ _ _ HB) _ _ (tg_b _ _ _ _ _ _ _ _ _ _ _ _ _ HT)) as HF. rewrite Forall_forall in HF.
    unfold sent in HI. apply in_flat_map in HI. destruct HI as ([e a] & H1 & H2). specialize (HF _ H1). cbn in HF.
    destruct e; try contradiction; destruct a; try contradiction. cbn in H2. destruct c; cbn in H2; try contradiction. destruct (mo =? n); [|contradiction]. destruct H2 as [<-|[]]. now destruct HF.
Qed.
Lemma b_notes tr s' : inv_b u mo tr s' -> nsent (CMon mo) tr <= S (ntak (CData u) tr).
Proof.
  unfold inv_b. cbv zeta. destruct s' as [ov st cnt|x ov cnt|d ov cnt|x dec ov cnt|x dec ov cnt|ov cnt|ov cnt|ov cnt|[r|r]|[r|r]|[r|r]|[r|r]|[r|r]]; try contradiction; try (destruct (is_finished x)); try (destruct (sawb (CData u) tr)); lia.
Qed.
(** What has been taken in and not yet taken out again is little more than the last report. *)
Theorem holds_near w0 L w sa sb t : tog w0 L w sa sb t -> refusedb (CSize s) (own 3 L) = false ->
  ntak (CData i) (own 1 L) <= ntak (CData u) (own 2 L) + last (reports s (own 3 L)) 0 + 11.
Proof.
  intros HT Hu. destruct (only_sent _ _ _ _ _ _ HT) as [F1 F2].
  pose proof (counter_near (bf_monitor b) mi mo (wired_mm _ _ _ _ _ _ HB) _ _ s (tg_t _ _ _ _ _ _ _ _ _ _ _ _ _ HT) Hs Hu F1 F2) as H1.
  pose proof (a_held _ u mi pj i (wired_pl _ _ _ _ _ _ HB) _ _ (tg_a _ _ _ _ _ _ _ _ _ _ _ _ _ HT)) as H2.
  pose proof (b_notes _ _ (is_b _ _ _ _ _ _ _ HB _ _ _ _ _ _ HT)) as H3.
  pose proof (num_mi _ _ _ _ _ _ _ HB _ _ _ _ _ _ HT) as H4. pose proof (num_mo _ _ _ _ _ _ _ HB _ _ _ _ _ _ HT) as H5.
  assert (H6 : length (cs_queue (w (CMon mi))) <= 8) by (eapply within_mi; [exact (wired_mm _ _ _ _ _ _ HB)|exact HT]). lia.
Qed.
Theorem reports_climb w0 L w sa sb t : tog w0 L w sa sb t -> climbing 0 (reports s (own 3 L)).
Proof. intro HT. destruct (counter_held _ _ _ (wired_mm _ _ _ _ _ _ HB) _ _ (tg_t _ _ _ _ _ _ _ _ _ _ _ _ _ HT)) as [H _]. rewrite Hs in H. exact H. Qed.
Theorem store_taken w0 L w sa sb t : tog w0 L w sa sb t -> length (cs_queue (w (CData u))) + ntak (CData u) (own 2 L) <= ntak (CData i) (own 1 L).
Proof.
  intro HT. pose proof (num_u _ _ _ _ _ _ _ HB _ _ _ _ _ _ HT) as H1. destruct (is_a _ _ _ _ _ _ _ HB _ _ _ _ _ _ HT) as (H2 & _).
  pose proof (a_out _ u mi pj i (wired_pl _ _ _ _ _ _ HB) _ _ (tg_a _ _ _ _ _ _ _ _ _ _ _ _ _ HT)). lia.
Qed.
(** A buffer that has stopped reporting takes in nothing more. *)
Theorem shut_in w0 L w sa sb t : tog w0 L w sa sb t -> closedb (CSize s) (own 3 L) = true -> refusedb (CSize s) (own 3 L) = false -> closedb (CMon mi) (own 1 L) = true.
Proof.
  intros HT Hc Hr. destruct (counter_ended _ _ _ _ _ s (tg_t _ _ _ _ _ _ _ _ _ _ _ _ _ HT) Hs) as [HE HI]. specialize (HE Hc).
  destruct t as [| | | | | | | | | | |[r|]|]; try contradiction HE; [|congruence]. clear HE.
  apply own_in in HI. apply in_split in HI. destruct HI as (A & B & EL). destruct HT as [Hn HR HS Ta Tb Tt]. rewrite EL in *. clear EL.
  apply wrun_app in HR. destruct HR as (wA & RA & RB). rewrite !own_app in *. unfold areach, breach, mreach, treach in *.
  apply reach_app in Ta. apply reach_app in Tb. apply reach_app in Tt. destruct Ta as (sa' & Ta & _), Tb as (sb' & Tb & _), Tt as (t' & Tt & T2).
  assert (HTA : tog w0 A wA sa' sb' t').
  { constructor; auto. intros k e a c Hin. exact (HS k e a c (in_or_app _ _ _ (or_introl Hin))). }
  assert (HCw : cs_closed (wA (CMon mi)) = true) by (inversion RB as [|k ev w1 l w2 S1 S2]; subst; inversion S1; subst; try discriminate; congruence).
  match type of T2 with reach ?P ?A ?s ?n ?x _ ?z => assert (T2' : reach P A s n x ([(EIsClosed (CMon mi), ABool true)] ++ own 3 B) z) by exact T2 end. clear T2. rename T2' into T2.
  apply reach_app in T2. destruct T2 as (t2 & T2 & _).
  change [(EIsClosed (CMon mi), ABool true)] with ([] ++ [(EIsClosed (CMon mi), ABool true)]) in T2. apply reach_snoc_inv in T2. destruct T2 as (t3 & T3 & HE & _ & _). apply reach_nil_inv in T3. subst t3. cbn [fst] in HE.
  rewrite (closed_run (CMon mi) _ _ _ RA) in HCw. destruct Hn as (_ & Hn & _). rewrite Hn in HCw. cbn [fresh_chan cs_closed orb] in HCw.
  apply closedb_spec in HCw. apply all_in in HCw. destruct HCw as (k & Hk).
  assert (HW : (k = 1 /\ does_a u mi (EClose (CMon mi))) \/ (k = 2 /\ does_b u mo (EClose (CMon mi))) \/ (k = 3 /\ does_t (bf_monitor b) mi mo (EClose (CMon mi)))).
  { eapply (who (PlReceiver pj i) ps spy (bf_monitor b) u mi mo (wired_pl _ _ _ _ _ _ HB) (wired_real _ _ _ _ _ _ HB) (wired_ps _ _ _ _ _ _ HB) _ _ _ _ _ _ HTA); [exact Hk|reflexivity|right; now left]. }
  destruct HW as [[-> _]|[[-> HW]|[-> _]]].
  - rewrite closedb_app. replace (closedb (CMon mi) (own 1 A)) with true; [reflexivity|]. symmetry. apply closedb_spec. now apply own_in.
  - cbn in HW. pose proof (wired_mm _ _ _ _ _ _ HB). congruence.
  - exfalso. apply own_in in Hk. assert (HC3 : closedb (CMon mi) (own 3 A) = true) by now apply closedb_spec.
    pose proof (is_t _ _ _ _ _ _ _ HB _ _ _ _ _ _ HTA) as [_ HI]. destruct t' as [| | | | | | | |[]|[]|[]|[]|]; cbn in HE; try discriminate HE; try (rewrite Hs in HE; discriminate HE). 
    + destruct HI as (_ & HI & _). congruence.
    + pose proof (wired_mm _ _ _ _ _ _ HB). congruence.
Qed.
End Together.
