(** * P_World: what holds of every channel in every run *)
From Coq Require Import Ascii String List Bool Arith Lia.
From Verif Require Import M_Prog S_Trace S_World P_Read.
Import ListNotations.

Lemma chan_eqb_eq a b : chan_eqb a b = true -> a = b.
Proof. destruct a, b; cbn; try discriminate; intro H; apply Nat.eqb_eq in H; congruence. Qed.
Lemma chan_eqb_neq a b : chan_eqb a b = false -> a <> b.
Proof. intros H ->. now rewrite chan_eqb_refl in H. Qed.

Lemma upd_same w c s : upd w c s c = s.
Proof. unfold upd. now rewrite chan_eqb_refl. Qed.
Lemma upd_other w c s c' : c <> c' -> upd w c s c' = w c'.
Proof. unfold upd. destruct (chan_eqb c c') eqn:E; [|auto]. apply chan_eqb_eq in E. contradiction. Qed.

Lemma wrun_app w a : forall w' b, wrun w (a ++ b) w' <-> exists w1, wrun w a w1 /\ wrun w1 b w'.
Proof.
  revert w. induction a as [|[i ev] a IH]; intros w w' b; cbn.
  - split; [intro H; exists w; split; [constructor|exact H]|intros (w1 & H1 & H2)]. inversion H1; subst. exact H2.
  - split.
    + intro H. inversion H as [|? ? w1 ? ? H1 H2]; subst. apply IH in H2. destruct H2 as (w2 & H2 & H3).
      exists w2. split; [econstructor; eassumption|exact H3].
    + intros (w2 & H1 & H3). inversion H1 as [|? ? w1 ? ? H1' H2]; subst. econstructor; [eassumption|]. apply IH. eauto.
Qed.

Lemma own_app i a b : own i (a ++ b) = own i a ++ own i b.
Proof. unfold own. now rewrite filter_app, map_app. Qed.
Lemma others_app i a b : others i (a ++ b) = others i a ++ others i b.
Proof. unfold others. now rewrite filter_app, map_app. Qed.
Lemma all_of_app a b : all_of (a ++ b) = all_of a ++ all_of b.
Proof. apply map_app. Qed.

Lemma own_split i l : forall x y, own i l = x ++ y -> exists l1 l2, l = l1 ++ l2 /\ own i l1 = x /\ own i l2 = y.
Proof.
  induction l as [|[k ev] l IH]; intros x y E; cbn in E.
  - destruct x; [|discriminate]. cbn in E. subst y. exists [], []. auto.
  - unfold own in E. cbn in E. destruct (k =? i) eqn:Ek; cbn in E.
    + destruct x as [|e x].
      * exists [], ((k, ev) :: l). repeat split. unfold own. cbn. now rewrite Ek.
      * cbn in E. inversion E as [[E1 E2]]; subst. destruct (IH x y E2) as (l1 & l2 & -> & H1 & H2).
        exists ((k, e) :: l1), l2. repeat split; [|exact H2]. unfold own. cbn. rewrite Ek. cbn. now f_equal.
    + destruct (IH x y E) as (l1 & l2 & -> & H1 & H2). exists ((k, ev) :: l1), l2. repeat split; [|exact H2].
      unfold own. cbn. now rewrite Ek.
Qed.

Lemma own_cons i l : forall ev y, own i l = ev :: y ->
  exists l1 l2, l = l1 ++ (i, ev) :: l2 /\ own i l1 = [] /\ own i l2 = y.
Proof.
  induction l as [|[k e] l IH]; intros ev y E; unfold own in E; cbn in E; [discriminate|].
  destruct (k =? i) eqn:Ek; cbn in E.
  - inversion E; subst. apply Nat.eqb_eq in Ek. subst k. exists [], l. auto.
  - destruct (IH ev y E) as (l1 & l2 & -> & H1 & H2). exists ((k, e) :: l1), l2. repeat split; [|exact H2].
    unfold own. cbn. now rewrite Ek.
Qed.

Lemma own_one i k ev l : own i ((k, ev) :: l) = (if k =? i then [ev] else []) ++ own i l.
Proof. unfold own. cbn. destruct (k =? i); reflexivity. Qed.
Lemma others_one i k ev l : others i ((k, ev) :: l) = (if k =? i then [] else [ev]) ++ others i l.
Proof. unfold others. cbn. destruct (k =? i); reflexivity. Qed.

(** ** One channel *)
Section Chan.
Variable c : chan.

Lemma taken_one ev w w' : wstep w ev w' ->
  taken c [ev] ++ cs_queue (w' c) = cs_queue (w c) ++ sent c [ev].
Proof.
  intro H. destruct H as [c' v q Hq|c' Hq Hc|c' v q Hq|c' Hq Hc|c' Hq Hc|c' v Hc Hr|c' v Hc|c'|c'|c'|e a Ho Hw]; cbn [taken sent flat_map];
    rewrite ?app_nil_r; try reflexivity.
  - destruct (chan_eqb c c') eqn:E.
    + apply chan_eqb_eq in E. subst c'. rewrite upd_same. cbn. now rewrite Hq.
    + rewrite upd_other; [reflexivity|]. apply not_eq_sym. now apply chan_eqb_neq.
  - destruct (chan_eqb c c') eqn:E.
    + apply chan_eqb_eq in E. subst c'. rewrite upd_same. cbn. now rewrite Hq.
    + rewrite upd_other; [reflexivity|]. apply not_eq_sym. now apply chan_eqb_neq.
  - destruct (chan_eqb c c') eqn:E.
    + apply chan_eqb_eq in E. subst c'. rewrite upd_same. reflexivity.
    + rewrite upd_other; [now rewrite app_nil_r|]. apply not_eq_sym. now apply chan_eqb_neq.
  - destruct (chan_eqb c c') eqn:E.
    + apply chan_eqb_eq in E. subst c'. rewrite upd_same. reflexivity.
    + rewrite upd_other; [reflexivity|]. apply not_eq_sym. now apply chan_eqb_neq.
  - destruct e; try discriminate Ho; cbn; now rewrite app_nil_r.
Qed.

Lemma sent_app' a b : sent c (a ++ b) = sent c a ++ sent c b.
Proof. apply flat_map_app. Qed.

(** First in, first out, nothing lost or made up. *)
Lemma fifo w l w' : wrun w l w' -> taken c (all_of l) ++ cs_queue (w' c) = cs_queue (w c) ++ sent c (all_of l).
Proof.
  induction 1 as [|w i ev w1 l w2 H1 H2 IH]; [cbn; now rewrite app_nil_r|].
  change (all_of ((i, ev) :: l)) with ([ev] ++ all_of l). rewrite taken_app, sent_app', <- app_assoc, IH, !app_assoc.
  now rewrite (taken_one _ _ _ H1).
Qed.

Lemma cap_same w l w' : wrun w l w' -> cs_cap (w' c) = cs_cap (w c).
Proof.
  induction 1 as [|w i ev w1 l w2 H1 H2 IH]; [reflexivity|]. rewrite IH. clear -H1.
  destruct H1 as [c' v q Hq|c' Hq Hc|c' v q Hq|c' Hq Hc|c' Hq Hc|c' v Hc Hr|c' v Hc|c'|c'|c'|e a Ho Hw]; try reflexivity;
    unfold upd; destruct (chan_eqb c' c) eqn:E; try reflexivity; apply chan_eqb_eq in E; subst c'; reflexivity.
Qed.

Lemma within w l w' n : wrun w l w' -> cs_cap (w c) = Some n -> length (cs_queue (w c)) <= n -> length (cs_queue (w' c)) <= n.
Proof.
  induction 1 as [|w i ev w1 l w2 H1 H2 IH]; intros Hcap Hl; [exact Hl|].
  apply IH.
  - rewrite <- Hcap. apply (cap_same w [(i, ev)]). econstructor; [exact H1|constructor].
  - destruct H1 as [c' v q Hq|c' Hq Hc|c' v q Hq|c' Hq Hc|c' Hq Hc|c' v Hc Hr|c' v Hc|c'|c'|c'|e a Ho Hw]; try exact Hl;
      unfold upd; destruct (chan_eqb c' c) eqn:E; try exact Hl; apply chan_eqb_eq in E; subst c'; cbn.
    + rewrite Hq in Hl. cbn in Hl. lia.
    + rewrite Hq in Hl. cbn in Hl. lia.
    + unfold room in Hr. rewrite Hcap in Hr. rewrite app_length. cbn. lia.
    + exact Hl.
Qed.

Lemma stays_open w l w' : wrun w l w' -> cs_closed (w c) = false -> ~ closed_by c (all_of l) -> cs_closed (w' c) = false.
Proof.
  induction 1 as [|w i ev w1 l w2 H1 H2 IH]; intros Hc Hn; [exact Hc|].
  apply IH.
  - assert (Hne : ev <> (EClose c, AOk)) by (intros ->; apply Hn; now left).
    destruct H1 as [c' v q Hq|c' Hq Hc'|c' v q Hq|c' Hq Hc'|c' Hq Hc'|c' v Hc' Hr|c' v Hc'|c'|c'|c'|e a Ho Hw]; try exact Hc;
      unfold upd; destruct (chan_eqb c' c) eqn:E; try exact Hc; apply chan_eqb_eq in E; subst c'; cbn; auto. congruence.
  - intro H. apply Hn. now right.
Qed.

Lemma stays_closed w l w' : wrun w l w' -> cs_closed (w c) = true -> cs_closed (w' c) = true.
Proof.
  induction 1 as [|w i ev w1 l w2 H1 H2 IH]; intros Hc; [exact Hc|].
  apply IH.
  destruct H1 as [c' v q Hq|c' Hq Hc'|c' v q Hq|c' Hq Hc'|c' Hq Hc'|c' v Hc' Hr|c' v Hc'|c'|c'|c'|e a Ho Hw]; try exact Hc;
      unfold upd; destruct (chan_eqb c' c) eqn:E; try exact Hc; apply chan_eqb_eq in E; subst c'; cbn; auto. congruence.
Qed.

Lemma closes_it w l w' : wrun w l w' -> closed_by c (all_of l) -> cs_closed (w' c) = true.
Proof.
  induction 1 as [|w i ev w1 l w2 H1 H2 IH]; [intros []|]. intros [H|H]; [|auto].
  cbn in H. subst ev. eapply stays_closed; [exact H2|]. inversion H1; subst; [now rewrite upd_same|discriminate].
Qed.

(** What others do not take, the owner takes. *)
Lemma taken_own i l : taken c (others i l) = [] -> taken c (all_of l) = taken c (own i l).
Proof.
  induction l as [|[k ev] l IH]; [reflexivity|].
  change (all_of ((k, ev) :: l)) with ([ev] ++ all_of l). rewrite own_one, others_one, !taken_app.
  intro H. apply app_eq_nil in H. destruct H as [H1 H2]. rewrite (IH H2). f_equal.
  destruct (k =? i); [reflexivity|exact H1].
Qed.
Lemma sent_own i l : sent c (others i l) = [] -> sent c (all_of l) = sent c (own i l).
Proof.
  induction l as [|[k ev] l IH]; [reflexivity|].
  change (all_of ((k, ev) :: l)) with ([ev] ++ all_of l). rewrite own_one, others_one, !sent_app'.
  intro H. apply app_eq_nil in H. destruct H as [H1 H2]. rewrite (IH H2). f_equal.
  destruct (k =? i); [reflexivity|exact H1].
Qed.
Lemma closed_own i l : closed_by c (all_of l) -> closed_by c (own i l) \/ closed_by c (others i l).
Proof.
  unfold closed_by, all_of, own, others. intro H. apply in_map_iff in H. destruct H as ([k ev] & E & H). cbn in E. subst ev.
  destruct (k =? i) eqn:Ek; [left|right]; apply in_map_iff; exists (k, (EClose c, AOk)); (split; [reflexivity|]);
    apply filter_In; split; auto; cbn; now rewrite Ek.
Qed.
End Chan.

(** In the middle of a run. *)
Lemma wrun_mid w a i ev b w' : wrun w (a ++ (i, ev) :: b) w' -> exists w1 w2, wrun w a w1 /\ wstep w1 ev w2 /\ wrun w2 b w'.
Proof. intro H. apply wrun_app in H. destruct H as (w1 & H1 & H2). inversion H2; subst. eauto. Qed.

(** Checks a concrete run. *)
Ltac run_world :=
  repeat first
    [ apply WR_nil
    | eapply WR_cons;
      [first [ eapply W_recv; reflexivity | eapply W_recv_end; reflexivity | eapply W_try; reflexivity | eapply W_try_end; reflexivity
             | eapply W_try_empty; reflexivity | eapply W_send; [reflexivity|cbn; repeat constructor] | eapply W_send_closed; reflexivity
             | eapply W_close | eapply W_is_empty | eapply W_is_closed | eapply W_other; reflexivity ]|] ].

