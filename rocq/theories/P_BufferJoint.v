(** * P_BufferJoint: the three parts of a buffer together *)
From Coq Require Import Ascii String List Bool Arith Lia.
From Verif Require Import M_Prog P_Prog P_Exec M_Motion M_BackOff M_Connectable S_Trace S_Lines S_Motion S_World P_Fan P_Read P_World P_Machine P_Reach M_Join M_Buffer P_Buffer.
Import ListNotations.

(** ** Closing and refusing in the world *)
Lemma closedb_app c a b : closedb c (a ++ b) = closedb c a || closedb c b.
Proof. apply existsb_app. Qed.
Lemma closed_step c w ev w' : wstep w ev w' -> cs_closed (w' c) = cs_closed (w c) || closedb c [ev].
Proof.
  intro H. destruct H as [c' v q Hq|c' Hq Hc|c' v q Hq|c' Hq Hc|c' Hq Hc|c' v Hc Hr|c' v Hc|c'|c'|c'|e a Ho Hw]; cbn; rewrite ?orb_false_r; try reflexivity;
    try (unfold upd; destruct (chan_eqb c' c) eqn:E; cbn; try reflexivity; apply chan_eqb_eq in E; subst c'; cbn; congruence).
  - unfold upd. destruct (chan_eqb c' c) eqn:E.
    + apply chan_eqb_eq in E. subst c'. rewrite chan_eqb_refl. cbn. now rewrite orb_true_r.
    + destruct (chan_eqb c c') eqn:E'; [|now rewrite orb_false_r]. apply chan_eqb_eq in E'. subst c'. rewrite chan_eqb_refl in E. discriminate E.
  - destruct e; try discriminate Ho; cbn; now rewrite orb_false_r.
Qed.
Lemma closed_run c w l w' : wrun w l w' -> cs_closed (w' c) = cs_closed (w c) || closedb c (all_of l).
Proof.
  induction 1 as [|w i ev w1 l w2 H1 H2 IH]; [cbn; now rewrite orb_false_r|].
  rewrite IH, (closed_step c _ _ _ H1). change (all_of ((i, ev) :: l)) with ([ev] ++ all_of l). now rewrite closedb_app, orb_assoc.
Qed.

(** Untouched channels. *)
Lemma wstep_frame w e a w' c : wstep w (e, a) w' -> on_chan e <> Some c -> w' c = w c.
Proof.
  intros H Hc. inversion H; subst; try reflexivity; apply upd_other; intros ->; apply Hc; reflexivity.
Qed.

Lemma own_in i l ev : In ev (own i l) <-> In (i, ev) l.
Proof.
  unfold own. rewrite in_map_iff. split.
  - intros ([k e] & E & HI). apply filter_In in HI. destruct HI as [HI Hk]. cbn in *. apply Nat.eqb_eq in Hk. now subst.
  - intro HI. exists (i, ev). split; [reflexivity|]. apply filter_In. split; [exact HI|]. cbn. apply Nat.eqb_refl.
Qed.
Lemma others_in i l ev : In ev (others i l) -> exists k, k <> i /\ In (k, ev) l.
Proof.
  unfold others. rewrite in_map_iff. intros ([k e] & E & HI). apply filter_In in HI. destruct HI as [HI Hk]. cbn in *. subst e.
  exists k. split; [|exact HI]. apply negb_true_iff, Nat.eqb_neq in Hk. exact Hk.
Qed.
Lemma all_in l ev : In ev (all_of l) <-> exists k, In (k, ev) l.
Proof.
  unfold all_of. rewrite in_map_iff. split; [intros ([k e] & E & HI); cbn in E; subst; eauto|intros (k & HI); exists (k, ev); auto].
Qed.

(** ** What each part does *)
Section Parts.
Variables (pl : pull) (ps : push) (spy sender : option nat) (u mi mo : nat).
Hypothesis Hpl : match pl with PlBytes _ _ _ _ => True | PlReceiver _ n => n <> u | _ => False end.
Hypothesis Hps : real_push ps.
Hypothesis Hpu : off_chan ps u.
Hypothesis Hm : mi <> mo.

Definition psa := PsSender (J 0 None 0 (push_brk ps)) u.
Definition mna := MN None (Some mi).
Definition plb := PlReceiver (PJ 0 0) u.
Definition mnb := MN (Some mo) None.
Definition areach := mreach pl mna None psa.
Definition breach := mreach plb mnb spy ps.

Lemma pl_in : match pl with PlBytes _ _ _ _ | PlReceiver _ _ => True | _ => False end.
Proof. destruct pl; auto. Qed.
Lemma pl_not : match pl with PlReceiver _ n => n <> u | _ => True end.
Proof. destruct pl; auto. Qed.

Definition does_a (e : eff) : Prop :=
  match e with
  | ERead _ | EDropFd _ => True
  | ERecv (CData n) => n <> u
  | ESend (CData n) _ => n = u
  | ESend (CMon m) v => m = mi /\ v = VWrote
  | EClose (CData _) => True
  | EClose (CMon m) => m = mi
  | _ => False
  end.
Lemma a_does tr s : areach tr s -> inv_a pl u mi tr s /\ forall e, mstat pl mna None psa s = At e -> does_a e.
Proof.
  intro H. pose proof (half_a_inv _ _ _ _ _ _ pl_in pl_not H) as HI. split; [exact HI|]. unfold mstat, does_a.
  intros e He. destruct s; cbn in He; try discriminate He; try (exfalso; unfold inv_a in HI; tauto);
    try (destruct pl; try contradiction); injection He as <-; auto.
Qed.
Lemma a_traces tr s : areach tr s -> Forall (fun ev => does_a (fst ev)) tr.
Proof.
  induction 1 as [|tr s e a H IH He Hw]; [constructor|]. apply Forall_app. split; [exact IH|]. constructor; [|constructor]. cbn. now apply (proj2 (a_does _ _ H)).
Qed.

Definition does_b (e : eff) : Prop :=
  match e with
  | EWrite _ _ | EDropFd _ | EFlush _ => True
  | ERecv (CData n) => n = u
  | ESend (CData n) _ => n <> u
  | ESend (CMon m) v => m = mo /\ v = VRead
  | ESend (CSpy _) _ => True
  | EClose (CData _) => True
  | EClose (CMon m) => m = mo
  | _ => False
  end.
Lemma b_does tr s : breach tr s -> inv_b u mo tr s /\ forall e, mstat plb mnb spy ps s = At e -> does_b e.
Proof.
  intro H. pose proof (half_b_inv u mo spy ps tr s Hps Hpu H) as HI. split; [exact HI|]. unfold mstat, does_b.
  intros e He. destruct s; cbn in He; try discriminate He; try (exfalso; unfold inv_b in HI; tauto).
  - injection He as <-. reflexivity.
  - injection He as <-. auto.
  - destruct ps; try contradiction; injection He as <-; auto.
  - destruct spy; [|discriminate He]. destruct (push_journey ps) as [[src [port|] dst b]|]; try discriminate He. now injection He as <-.
  - destruct ps; try contradiction; injection He as <-; auto.
  - injection He as <-. reflexivity.
  - injection He as <-. exact I.
  - destruct ps; try contradiction; injection He as <-; auto.
  - injection He as <-. reflexivity.
Qed.
Lemma b_traces tr s : breach tr s -> Forall (fun ev => does_b (fst ev)) tr.
Proof.
  induction 1 as [|tr s e a H IH He Hw]; [constructor|]. apply Forall_app. split; [exact IH|]. constructor; [|constructor]. cbn. now apply (proj2 (b_does _ _ H)).
Qed.

Definition does_t (e : eff) : Prop :=
  match e with
  | ESleep _ => True
  | ETryRecv (CMon m) | EIsEmpty (CMon m) | EIsClosed (CMon m) | EClose (CMon m) => m = mi \/ m = mo
  | ESend (CSize s) _ | EClose (CSize s) => sender = Some s
  | _ => False
  end.
Lemma t_does t e : tstat sender mi mo t = At e -> does_t e.
Proof. destruct t; cbn; intro He; try discriminate He; try (destruct sender eqn:Es; try discriminate He); injection He as <-; cbn; auto. Qed.
Lemma t_traces tr t : treach sender mi mo tr t -> Forall (fun ev => does_t (fst ev)) tr.
Proof.
  induction 1 as [|tr s e a H IH He Hw]; [constructor|]. apply Forall_app. split; [exact IH|]. constructor; [|constructor]. cbn. now apply (t_does s).
Qed.

(** ** The ledger *)
Record together (w0 : world) (L : list nevent) (w : world) (sa sb : place) (t : tplace) : Prop := Together {
  tg_new : new_inside u mi mo w0;
  tg_run : wrun w0 L w;
  tg_sealed : sealed u mi mo L;
  tg_a : areach (own 1 L) sa;
  tg_b : breach (own 2 L) sb;
  tg_t : treach sender mi mo (own 3 L) t
}.

Section Ledger.
Variables (w0 : world) (L : list nevent) (w : world) (sa sb : place) (t : tplace).
Hypothesis HT : together w0 L w sa sb t.

Lemma who (i : nat) e a c : In (i, (e, a)) L -> on_chan e = Some c -> inside u mi mo c -> (i = 1 /\ does_a e) \/ (i = 2 /\ does_b e) \/ (i = 3 /\ does_t e).
Proof.
  intros HI Hc Hin. destruct (tg_sealed _ _ _ _ _ _ HT _ _ _ _ HI Hc Hin) as [->|[->| ->]].
  - left. split; [reflexivity|]. pose proof (a_traces _ _ (tg_a _ _ _ _ _ _ HT)) as HF. rewrite Forall_forall in HF. exact (HF _ (proj2 (own_in _ _ _) HI)).
  - right. left. split; [reflexivity|]. pose proof (b_traces _ _ (tg_b _ _ _ _ _ _ HT)) as HF. rewrite Forall_forall in HF. exact (HF _ (proj2 (own_in _ _ _) HI)).
  - right. right. split; [reflexivity|]. pose proof (t_traces _ _ (tg_t _ _ _ _ _ _ HT)) as HF. rewrite Forall_forall in HF. exact (HF _ (proj2 (own_in _ _ _) HI)).
Qed.
Lemma nothing_taken c tr : (forall ev, In ev tr -> taken c [ev] = []) -> taken c tr = [].
Proof.
  induction tr as [|ev tr IH]; intro H; [reflexivity|]. change (ev :: tr) with ([ev] ++ tr). rewrite taken_app, (H ev (or_introl eq_refl)). apply IH. intros x Hx. apply H. now right.
Qed.
Lemma nothing_sent c tr : (forall ev, In ev tr -> sent c [ev] = []) -> sent c tr = [].
Proof.
  induction tr as [|ev tr IH]; intro H; [reflexivity|]. change (ev :: tr) with ([ev] ++ tr). rewrite sent_app', (H ev (or_introl eq_refl)). apply IH. intros x Hx. apply H. now right.
Qed.
Lemma taken_only c i : inside u mi mo c -> (forall e, (e = ERecv c \/ e = ETryRecv c) -> (does_a e -> 1 = i) /\ (does_b e -> 2 = i) /\ (does_t e -> 3 = i)) ->
  taken c (all_of L) = taken c (own i L).
Proof.
  intros Hin HD. apply taken_own. apply nothing_taken. intros [e a] HI. apply others_in in HI. destruct HI as (k & Hk & HI).
  destruct e; try reflexivity; destruct a; try reflexivity; cbn; destruct (chan_eqb c c0) eqn:E; try reflexivity; apply chan_eqb_eq in E; subst c0; exfalso; apply Hk.
  - destruct (HD (ERecv c) (or_introl eq_refl)) as (D1 & D2 & D3). destruct (who _ _ _ c HI eq_refl Hin) as [[-> H]|[[-> H]|[-> H]]]; auto.
  - destruct (HD (ETryRecv c) (or_intror eq_refl)) as (D1 & D2 & D3). destruct (who _ _ _ c HI eq_refl Hin) as [[-> H]|[[-> H]|[-> H]]]; auto.
Qed.
Lemma sent_only c i : inside u mi mo c -> (forall v, (does_a (ESend c v) -> 1 = i) /\ (does_b (ESend c v) -> 2 = i) /\ (does_t (ESend c v) -> 3 = i)) ->
  sent c (all_of L) = sent c (own i L).
Proof.
  intros Hin HD. apply sent_own. apply nothing_sent. intros [e a] HI. apply others_in in HI. destruct HI as (k & Hk & HI).
  destruct e; try reflexivity; destruct a; try reflexivity; cbn; destruct (chan_eqb c c0) eqn:E; try reflexivity; apply chan_eqb_eq in E; subst c0; exfalso; apply Hk.
  destruct (HD v) as (D1 & D2 & D3). destruct (who _ _ _ c HI eq_refl Hin) as [[-> H]|[[-> H]|[-> H]]]; auto.
Qed.
Lemma in_u : inside u mi mo (CData u).
Proof. now left. Qed.
Lemma in_mi : inside u mi mo (CMon mi).
Proof. right. now left. Qed.
Lemma in_mo : inside u mi mo (CMon mo).
Proof. right. now right. Qed.

Lemma ledger_u : taken (CData u) (own 2 L) ++ cs_queue (w (CData u)) = sent (CData u) (own 1 L).
Proof.
  pose proof (fifo (CData u) _ _ _ (tg_run _ _ _ _ _ _ HT)) as HF. destruct (tg_new _ _ _ _ _ _ HT) as (E & _). rewrite E in HF. cbn [fresh_chan cs_queue app] in HF.
  rewrite (taken_only (CData u) 2 in_u) in HF by (intros e [->| ->]; cbn; intuition congruence).
  rewrite (sent_only (CData u) 1 in_u) in HF by (intros v; cbn; intuition congruence). exact HF.
Qed.
Lemma ledger_mi : taken (CMon mi) (own 3 L) ++ cs_queue (w (CMon mi)) = sent (CMon mi) (own 1 L).
Proof.
  pose proof (fifo (CMon mi) _ _ _ (tg_run _ _ _ _ _ _ HT)) as HF. destruct (tg_new _ _ _ _ _ _ HT) as (_ & E & _). rewrite E in HF. cbn [fresh_chan cs_queue app] in HF.
  rewrite (taken_only (CMon mi) 3 in_mi) in HF by (intros e [->| ->]; cbn; intuition congruence).
  rewrite (sent_only (CMon mi) 1 in_mi) in HF by (intros v; cbn; intuition congruence). exact HF.
Qed.
Lemma ledger_mo : taken (CMon mo) (own 3 L) ++ cs_queue (w (CMon mo)) = sent (CMon mo) (own 2 L).
Proof.
  pose proof (fifo (CMon mo) _ _ _ (tg_run _ _ _ _ _ _ HT)) as HF. destruct (tg_new _ _ _ _ _ _ HT) as (_ & _ & E). rewrite E in HF. cbn [fresh_chan cs_queue app] in HF.
  rewrite (taken_only (CMon mo) 3 in_mo) in HF by (intros e [->| ->]; cbn; intuition congruence).
  rewrite (sent_only (CMon mo) 2 in_mo) in HF by (intros v; cbn; intuition congruence). exact HF.
Qed.

Lemma closedb_in c tr : closedb c tr = true <-> In (EClose c, AOk) tr.
Proof. apply closedb_spec. Qed.
Lemma closed_who c : inside u mi mo c -> cs_closed (w0 c) = false -> cs_closed (w c) = true ->
  (closedb c (own 1 L) = true /\ does_a (EClose c)) \/ (closedb c (own 2 L) = true /\ does_b (EClose c)) \/ (closedb c (own 3 L) = true /\ does_t (EClose c)).
Proof.
  intros Hin H0 HC. rewrite (closed_run c _ _ _ (tg_run _ _ _ _ _ _ HT)), H0 in HC. cbn in HC. apply closedb_in, all_in in HC. destruct HC as (k & HI).
  pose proof (proj2 (own_in _ _ _) HI) as HO. apply closedb_in in HO.
  destruct (who _ _ _ c HI eq_refl Hin) as [[-> H]|[[-> H]|[-> H]]]; auto.
Qed.
Lemma is_closed_by c i : closedb c (own i L) = true -> cs_closed (w c) = true.
Proof.
  intro H. rewrite (closed_run c _ _ _ (tg_run _ _ _ _ _ _ HT)). apply orb_true_iff. right. apply closedb_in in H. apply closedb_in. apply own_in in H. apply all_in. eauto.
Qed.
Lemma closed_u : cs_closed (w (CData u)) = true -> closedb (CData u) (own 1 L) = true \/ closedb (CData u) (own 2 L) = true.
Proof.
  intro H. destruct (tg_new _ _ _ _ _ _ HT) as (E & _). assert (H0 : cs_closed (w0 (CData u)) = false) by now rewrite E. destruct (closed_who _ in_u H0 H) as [[HC _]|[[HC _]|[_ []]]]; auto.
Qed.
Lemma closed_mi : cs_closed (w (CMon mi)) = true -> closedb (CMon mi) (own 1 L) = true \/ closedb (CMon mi) (own 3 L) = true.
Proof.
  intro H. destruct (tg_new _ _ _ _ _ _ HT) as (_ & E & _). assert (H0 : cs_closed (w0 (CMon mi)) = false) by now rewrite E. destruct (closed_who _ in_mi H0 H) as [[HC _]|[[HC HD]|[HC _]]]; auto; cbn in HD; congruence.
Qed.
Lemma closed_mo : cs_closed (w (CMon mo)) = true -> closedb (CMon mo) (own 2 L) = true \/ closedb (CMon mo) (own 3 L) = true.
Proof.
  intro H. destruct (tg_new _ _ _ _ _ _ HT) as (_ & _ & E). assert (H0 : cs_closed (w0 (CMon mo)) = false) by now rewrite E. destruct (closed_who _ in_mo H0 H) as [[HC HD]|[[HC HD]|[HC _]]]; auto; cbn in HD; congruence.
Qed.
Lemma caps : cs_cap (w (CData u)) = None /\ cs_cap (w (CMon mi)) = Some 8 /\ cs_cap (w (CMon mo)) = Some 8.
Proof.
  destruct (tg_new _ _ _ _ _ _ HT) as (E1 & E2 & E3). pose proof (tg_run _ _ _ _ _ _ HT) as HR.
  rewrite (cap_same (CData u) _ _ _ HR), (cap_same (CMon mi) _ _ _ HR), (cap_same (CMon mo) _ _ _ HR), E1, E2, E3. auto.
Qed.
Lemma within_mi : length (cs_queue (w (CMon mi))) <= 8.
Proof. destruct (tg_new _ _ _ _ _ _ HT) as (E1 & E2 & E3). eapply within; [exact (tg_run _ _ _ _ _ _ HT)|now rewrite E2|rewrite E2; cbn; lia]. Qed.
Lemma within_mo : length (cs_queue (w (CMon mo))) <= 8.
Proof. destruct (tg_new _ _ _ _ _ _ HT) as (E1 & E2 & E3). eapply within; [exact (tg_run _ _ _ _ _ _ HT)|now rewrite E3|rewrite E3; cbn; lia]. Qed.
End Ledger.

(** ** One step at a time *)
Lemma together_snoc w0 L k e a w' sa sb t : together w0 (L ++ [(k, (e, a))]) w' sa sb t ->
  exists w sa' sb' t', together w0 L w sa' sb' t' /\ wstep w (e, a) w' /\
    ((k = 1 /\ mstat pl mna None psa sa' = At e /\ wt e a = true /\ sa = next pl mna None psa sa' a /\ sb = sb' /\ t = t') \/
     (k = 2 /\ mstat plb mnb spy ps sb' = At e /\ wt e a = true /\ sb = next plb mnb spy ps sb' a /\ sa = sa' /\ t = t') \/
     (k = 3 /\ tstat sender mi mo t' = At e /\ wt e a = true /\ t = tnext sender t' a /\ sa = sa' /\ sb = sb') \/
     (k <> 1 /\ k <> 2 /\ k <> 3 /\ (forall c, inside u mi mo c -> on_chan e <> Some c) /\ sa = sa' /\ sb = sb' /\ t = t')).
Proof.
  intros [Hn Hr Hs Ha Hb Ht]. apply wrun_app in Hr. destruct Hr as (w & Hr & Hr'). inversion Hr'; subst. match goal with H : wrun _ [] _ |- _ => inversion H; subst end.
  exists w. rewrite own_app in Ha, Hb, Ht. rewrite own_one in Ha, Hb, Ht. change (own 1 []) with (@nil event) in Ha. change (own 2 []) with (@nil event) in Hb. change (own 3 []) with (@nil event) in Ht. rewrite !app_nil_r in Ha, Hb, Ht.
  assert (Hs' : sealed u mi mo L) by (intros i x y c HI; apply (Hs i x y c); apply in_or_app; now left).
  destruct (k =? 1) eqn:E1; [apply Nat.eqb_eq in E1; subst k|apply Nat.eqb_neq in E1].
  { cbn in Hb, Ht. rewrite app_nil_r in Hb, Ht. apply reach_snoc_inv in Ha. destruct Ha as (s1 & Ha & He & Hw & ->). exists s1, sb, t. split; [constructor; assumption|]. split; [assumption|]. left. cbn in *; auto 10. }
  cbn in Ha. rewrite app_nil_r in Ha.
  destruct (k =? 2) eqn:E2; [apply Nat.eqb_eq in E2; subst k|apply Nat.eqb_neq in E2].
  { cbn in Ht. rewrite app_nil_r in Ht. apply reach_snoc_inv in Hb. destruct Hb as (s1 & Hb & He & Hw & ->). exists sa, s1, t. split; [constructor; assumption|]. split; [assumption|]. right. left. cbn in *; auto 10. }
  cbn in Hb. rewrite app_nil_r in Hb.
  destruct (k =? 3) eqn:E3; [apply Nat.eqb_eq in E3; subst k|apply Nat.eqb_neq in E3].
  { apply reach_snoc_inv in Ht. destruct Ht as (s1 & Ht & He & Hw & ->). exists sa, sb, s1. split; [constructor; assumption|]. split; [assumption|]. right. right. left. cbn in *; auto 10. }
  cbn in Ht. rewrite app_nil_r in Ht. exists sa, sb, t. split; [constructor; assumption|]. split; [assumption|]. right. right. right. repeat split; auto.
  intros c Hin Hc. assert (HI : In (k, (e, a)) (L ++ [(k, (e, a))])) by (apply in_or_app; right; now left). destruct (Hs k e a c HI Hc Hin) as [->|[->| ->]]; congruence.
Qed.

Lemma own_snoc i L k ev : own i (L ++ [(k, ev)]) = own i L ++ (if k =? i then [ev] else []).
Proof. rewrite own_app, own_one. change (own i []) with (@nil event). now rewrite app_nil_r. Qed.

(** ** What the three know of each other *)
Record agreed (L : list nevent) : Prop := Agreed {
  ag_end : sawb (CData u) (own 2 L) = true -> closedb (CData u) (own 1 L) = true /\ ntak (CData u) (own 2 L) = nsent (CData u) (own 1 L);
  ag_refused : refusedb (CData u) (own 1 L) = true -> closedb (CData u) (own 2 L) = true /\ sawb (CData u) (own 2 L) = false;
  ag_mi : refusedb (CMon mi) (own 1 L) = true -> closedb (CMon mi) (own 3 L) = true;
  ag_mo : refusedb (CMon mo) (own 2 L) = true -> closedb (CMon mo) (own 3 L) = true
}.

Lemma a_at_send_u tr s v : areach tr s -> mstat pl mna None psa s = At (ESend (CData u) v) -> closedb (CData u) tr = false.
Proof.
  intros H He. destruct (a_does _ _ H) as [HI _]. unfold mstat in He. destruct s; cbn in He; try discriminate He; try (destruct pl; discriminate He). unfold inv_a in HI. tauto.
Qed.
Lemma a_at_send_mi tr s v : areach tr s -> mstat pl mna None psa s = At (ESend (CMon mi) v) -> closedb (CMon mi) tr = false.
Proof.
  intros H He. destruct (a_does _ _ H) as [HI _]. unfold mstat in He. destruct s; cbn in He; try discriminate He; try (destruct pl; discriminate He). unfold inv_a in HI. tauto.
Qed.
Lemma b_at_recv tr s : breach tr s -> mstat plb mnb spy ps s = At (ERecv (CData u)) -> closedb (CData u) tr = false /\ sawb (CData u) tr = false.
Proof.
  intros H He. destruct (b_does _ _ H) as [HI _]. unfold mstat in He. destruct s; cbn in He; try discriminate He; try (destruct ps; try contradiction; discriminate He).
  all: try (unfold inv_b in HI; tauto).
  all: destruct spy; [|discriminate He]; destruct (push_journey ps) as [[src [port|] dst b]|]; discriminate He.
Qed.
Lemma b_at_send_mo tr s v : breach tr s -> mstat plb mnb spy ps s = At (ESend (CMon mo) v) -> closedb (CMon mo) tr = false.
Proof.
  intros H He. destruct (b_does _ _ H) as [HI _]. unfold mstat in He. destruct s; cbn in He; try discriminate He; try (destruct ps; try contradiction; discriminate He).
  all: try (unfold inv_b in HI; tauto).
  all: destruct spy; [|discriminate He]; destruct (push_journey ps) as [[src [port|] dst b]|]; discriminate He.
Qed.

Lemma b2_refused c e a : refusedb c [(e, a)] = true -> a = AClosed /\ exists v, e = ESend c v.
Proof.
  cbn. destruct e; try discriminate; destruct a; try discriminate. rewrite orb_false_r. intro H. apply chan_eqb_eq in H. subst. eauto.
Qed.
Lemma b2_saw c e a : sawb c [(e, a)] = true -> a = AClosed /\ (e = ERecv c \/ e = ETryRecv c).
Proof.
  cbn. destruct e; try discriminate; destruct a; try discriminate; rewrite orb_false_r; intro H; apply chan_eqb_eq in H; subst; eauto.
Qed.
Lemma n1_sent c e a : nsent c [(e, a)] <> 0 -> a = AOk /\ exists v, e = ESend c v.
Proof.
  unfold nsent. cbn. destruct e; try (intro H; now contradiction H); destruct a; try (intro H; now contradiction H). destruct (chan_eqb c c0) eqn:E; [|intro H; now contradiction H]. apply chan_eqb_eq in E. subst. eauto.
Qed.
Lemma n1_tak c e a : ntak c [(e, a)] <> 0 -> (exists v, a = AMsg v) /\ (e = ERecv c \/ e = ETryRecv c).
Proof.
  unfold ntak. cbn. destruct e; try (intro H; now contradiction H); destruct a; try (intro H; now contradiction H); (destruct (chan_eqb c c0) eqn:E; [|intro H; now contradiction H]); apply chan_eqb_eq in E; subst; eauto.
Qed.

Theorem agree w0 L w sa sb t : together w0 L w sa sb t -> agreed L.
Proof.
  revert w sa sb t. induction L as [|[k [e a]] L IH] using rev_ind; intros w sa sb t HT.
  { constructor; cbn; discriminate. }
  destruct (together_snoc _ _ _ _ _ _ _ _ _ HT) as (w1 & sa1 & sb1 & t1 & HT1 & HW & HC). destruct (IH _ _ _ _ HT1) as [G1 G2 G3 G4]. clear IH.
  destruct HC as [(-> & He & Hw & -> & -> & ->)|[(-> & He & Hw & -> & -> & ->)|[(-> & He & Hw & -> & -> & ->)|(N1 & N2 & N3 & Hin & -> & -> & ->)]]].
  - constructor; rewrite !own_snoc; cbn [Nat.eqb]; rewrite ?app_nil_r; counts.
    + intro H. destruct (G1 H) as [H1 H2]. split; [now rewrite H1|]. rewrite H2. destruct (Nat.eq_dec (nsent (CData u) [(e, a)]) 0) as [E|E]; [exact (eq_sym (eq_trans (f_equal (Nat.add _) E) (Nat.add_0_r _)))|].
      apply n1_sent in E. destruct E as [-> (v & ->)]. exfalso. inversion HW; subst; [|discriminate]. rewrite (is_closed_by _ _ _ _ _ _ HT1 _ _ H1) in *. discriminate.
    + intro H. apply orb_true_iff in H. destruct H as [H|H]; [auto|]. apply b2_refused in H. destruct H as [-> (v & ->)].
      pose proof (a_at_send_u _ _ _ (tg_a _ _ _ _ _ _ HT1) He) as HC. inversion HW; subst; [|discriminate].
      destruct (closed_u _ _ _ _ _ _ HT1) as [H1|H1]; [assumption|congruence|]. split; [exact H1|].
      destruct (sawb (CData u) (own 2 L)) eqn:E; [|reflexivity]. destruct (G1 eq_refl) as [H4 _]. congruence.
    + intro H. apply orb_true_iff in H. destruct H as [H|H]; [auto|]. apply b2_refused in H. destruct H as [-> (v & ->)].
      pose proof (a_at_send_mi _ _ _ (tg_a _ _ _ _ _ _ HT1) He) as HC. inversion HW; subst; [|discriminate].
      destruct (closed_mi _ _ _ _ _ _ HT1) as [H1|H1]; [assumption|congruence|exact H1].
    + exact G4.
  - constructor; rewrite !own_snoc; cbn [Nat.eqb]; rewrite ?app_nil_r; counts.
    + intro H. apply orb_true_iff in H. destruct H as [H|H].
      * destruct (G1 H) as [H1 H2]. split; [exact H1|]. destruct (Nat.eq_dec (ntak (CData u) [(e, a)]) 0) as [E|E]; [rewrite <- H2; exact (eq_trans (f_equal (Nat.add _) E) (Nat.add_0_r _))|].
        apply n1_tak in E. destruct E as [_ [->| ->]]; [|now apply (proj2 (b_does _ _ (tg_b _ _ _ _ _ _ HT1))) in He].
        destruct (b_at_recv _ _ (tg_b _ _ _ _ _ _ HT1) He) as [_ HS]. congruence.
      * apply b2_saw in H. destruct H as [-> [->| ->]]; [|now apply (proj2 (b_does _ _ (tg_b _ _ _ _ _ _ HT1))) in He].
        destruct (b_at_recv _ _ (tg_b _ _ _ _ _ _ HT1) He) as [HC _]. inversion HW as [| ? Hq Hc| | | | | | | | |]; subst; [|discriminate].
        destruct (closed_u _ _ _ _ _ _ HT1 Hc) as [H1|H1]; [|congruence]. split; [exact H1|].
        pose proof (ledger_u _ _ _ _ _ _ HT1) as HL. rewrite Hq, app_nil_r in HL. unfold ntak, nsent. rewrite HL. cbn. lia.
    + intro H. destruct (G2 H) as [H1 H2]. rewrite H1, H2. split; [reflexivity|]. cbn [orb]. destruct (sawb (CData u) [(e, a)]) eqn:E; [exfalso|exact E].
      apply b2_saw in E. destruct E as [-> [->| ->]]; [|now apply (proj2 (b_does _ _ (tg_b _ _ _ _ _ _ HT1))) in He].
      destruct (b_at_recv _ _ (tg_b _ _ _ _ _ _ HT1) He) as [HC _]. congruence.
    + exact G3.
    + intro H. apply orb_true_iff in H. destruct H as [H|H]; [auto|]. apply b2_refused in H. destruct H as [-> (v & ->)].
      pose proof (b_at_send_mo _ _ _ (tg_b _ _ _ _ _ _ HT1) He) as HC. inversion HW; subst; [|discriminate].
      destruct (closed_mo _ _ _ _ _ _ HT1) as [H1|H1]; [assumption|congruence|exact H1].
  - constructor; rewrite !own_snoc; cbn [Nat.eqb]; rewrite ?app_nil_r; counts; auto; intro H; [rewrite (G3 H)|rewrite (G4 H)]; reflexivity.
  - apply Nat.eqb_neq in N1, N2, N3. constructor; rewrite !own_snoc, ?N1, ?N2, ?N3, !app_nil_r; assumption.
Qed.
End Parts.
