(** * P_Link: a channel between two tasks *)
From Coq Require Import Ascii String List Bool Arith Lia.
From Verif Require Import M_Prog P_Prog P_Exec M_Motion S_Trace S_Lines S_Motion S_World P_Read P_World.
Import ListNotations.

Definition is_send (c : chan) (e : eff) : Prop := exists v, e = ESend c v.
Definition is_take (c : chan) (e : eff) : Prop := e = ERecv c \/ e = ETryRecv c.

Section Link.
Variables (c : chan) (wi ri : nat) (l : list nevent) (w0 w : world) (cap : option nat).
Hypothesis HR : wrun w0 l w.
Hypothesis Hnew : w0 c = fresh_chan cap.
Hypothesis Hsend : forall i e a, In (i, (e, a)) l -> is_send c e -> i = wi.
Hypothesis Htake : forall i e a, In (i, (e, a)) l -> is_take c e -> i = ri.

Lemma in_own i e a (m : list nevent) : In (i, (e, a)) m <-> In (e, a) (own i m).
Proof.
  unfold own. split.
  - intro H. apply in_map_iff. exists (i, (e, a)). split; [reflexivity|]. apply filter_In. split; [exact H|]. cbn. apply Nat.eqb_refl.
  - intro H. apply in_map_iff in H. destruct H as ([k x] & E & H). apply filter_In in H. destruct H as [H Hk]. cbn in *. apply Nat.eqb_eq in Hk. now subst.
Qed.
Lemma taken_all m : (forall i e a, In (i, (e, a)) m -> is_take c e -> i = ri) -> taken c (all_of m) = taken c (own ri m).
Proof.
  induction m as [|[k [e a]] m IH]; intro H; [reflexivity|].
  change (all_of ((k, (e, a)) :: m)) with ([(e, a)] ++ all_of m). rewrite own_one. unfold taken. rewrite !flat_map_app. fold (taken c (all_of m)) (taken c (own ri m)).
  rewrite IH by (intros i e' a' Hi; apply (H i e' a'); now right). f_equal.
  destruct (k =? ri) eqn:Ek; [reflexivity|]. cbn. rewrite app_nil_r. destruct e as [c'|c'| | | | | | | | | | | | | | | |]; try reflexivity; destruct a; try reflexivity;
    (destruct (chan_eqb c c') eqn:Ec; [|reflexivity]); apply chan_eqb_eq in Ec; subst c'; exfalso; apply Nat.eqb_neq in Ek; apply Ek; apply (H k _ _ (or_introl eq_refl)); unfold is_take; auto.
Qed.
Lemma sent_all m : (forall i e a, In (i, (e, a)) m -> is_send c e -> i = wi) -> sent c (all_of m) = sent c (own wi m).
Proof.
  induction m as [|[k [e a]] m IH]; intro H; [reflexivity|].
  change (all_of ((k, (e, a)) :: m)) with ([(e, a)] ++ all_of m). rewrite own_one. unfold sent. rewrite !flat_map_app. fold (sent c (all_of m)) (sent c (own wi m)).
  rewrite IH by (intros i e' a' Hi; apply (H i e' a'); now right). f_equal.
  destruct (k =? wi) eqn:Ek; [reflexivity|]. cbn. rewrite app_nil_r. destruct e as [| |c' v| | | | | | | | | | | | | | |]; try reflexivity; destruct a; try reflexivity;
    (destruct (chan_eqb c c') eqn:Ec; [|reflexivity]); apply chan_eqb_eq in Ec; subst c'; exfalso; apply Nat.eqb_neq in Ek; apply Ek; apply (H k _ _ (or_introl eq_refl)); unfold is_send; eauto.
Qed.

(** Once refused, always refused: what was accepted is the beginning of what was offered. *)
Lemma step_closed v x y : wstep x (ESend c v, AClosed) y -> cs_closed (x c) = true.
Proof. intro H. inversion H; subst; auto. discriminate. Qed.
Lemma step_open v x y : wstep x (ESend c v, AOk) y -> cs_closed (x c) = false.
Proof. intro H. inversion H; subst; auto. discriminate. Qed.
Lemma no_sent_closed m : forall x y, wrun x m y -> cs_closed (x c) = true -> sent c (all_of m) = [].
Proof.
  induction m as [|[k [e a]] m IH]; intros x y H Hc; [reflexivity|]. inversion H as [|? ? x1 ? ? H1 H2]; subst.
  assert (Hc1 : cs_closed (x1 c) = true) by (eapply (stays_closed c x [(k, (e, a))]); [econstructor; [exact H1|constructor]|exact Hc]).
  change (all_of ((k, (e, a)) :: m)) with ([(e, a)] ++ all_of m). unfold sent. rewrite flat_map_app. fold (sent c (all_of m)). rewrite (IH _ _ H2 Hc1), app_nil_r.
  cbn. destruct e as [| |c' v| | | | | | | | | | | | | | |]; try reflexivity. destruct a; try reflexivity. destruct (chan_eqb c c') eqn:Ec; [|reflexivity]. apply chan_eqb_eq in Ec. subst c'.
  apply step_open in H1. congruence.
Qed.
Lemma accepted_first m : forall x y, wrun x m y -> prefix (sent c (all_of m)) (offered c (all_of m)).
Proof.
  induction m as [|[k [e a]] m IH]; intros x y H; [exists []; reflexivity|]. inversion H as [|? ? x1 ? ? H1 H2]; subst.
  change (all_of ((k, (e, a)) :: m)) with ([(e, a)] ++ all_of m). unfold sent, offered. rewrite !flat_map_app. fold (sent c (all_of m)) (offered c (all_of m)).
  destruct (IH _ _ H2) as [rest E]. destruct e as [| |c' v| | | | | | | | | | | | | | |]; try (cbn; now exists rest). cbn.
  destruct (chan_eqb c c') eqn:Ec.
  2:{ destruct a; cbn; now exists rest. }
  apply chan_eqb_eq in Ec. subst c'. destruct a; cbn; try (exists rest; now rewrite E); inversion H1; subst; try discriminate.
  - rewrite (no_sent_closed _ _ _ H2 ltac:(assumption)). now exists (v :: offered c (all_of m)).
Qed.
Lemma offered_all m : (forall i e a, In (i, (e, a)) m -> is_send c e -> i = wi) -> offered c (all_of m) = offered c (own wi m).
Proof.
  induction m as [|[k [e a]] m IH]; intro H; [reflexivity|].
  change (all_of ((k, (e, a)) :: m)) with ([(e, a)] ++ all_of m). rewrite own_one. unfold offered. rewrite !flat_map_app. fold (offered c (all_of m)) (offered c (own wi m)).
  rewrite IH by (intros i e' a' Hi; apply (H i e' a'); now right). f_equal.
  destruct (k =? wi) eqn:Ek; [reflexivity|]. cbn. rewrite app_nil_r. destruct e as [| |c' v| | | | | | | | | | | | | | |]; try reflexivity;
    (destruct (chan_eqb c c') eqn:Ec; [|reflexivity]); apply chan_eqb_eq in Ec; subst c'; exfalso; apply Nat.eqb_neq in Ek; apply Ek; apply (H k _ _ (or_introl eq_refl)); unfold is_send; eauto.
Qed.

Lemma prefix_trans {X} (a b d : list X) : prefix a b -> prefix b d -> prefix a d.
Proof. intros [x ->] [y ->]. exists (x ++ y). now rewrite app_assoc. Qed.

(** What has been taken is the beginning of what has been offered. *)
Lemma link_prefix : prefix (taken c (own ri l)) (offered c (own wi l)).
Proof.
  rewrite <- (taken_all _ Htake), <- (offered_all _ Hsend). eapply prefix_trans; [|eapply accepted_first; exact HR].
  pose proof (fifo c _ _ _ HR) as H. rewrite Hnew in H. cbn in H. exists (cs_queue (w c)). symmetry. exact H.
Qed.

(** The reader has seen the end, and each closes its end only when it has done with it. *)
Hypothesis Hclose : forall i a, In (i, (EClose c, a)) l -> i = wi \/ i = ri.
Hypothesis HA : forall t1 a t2, own wi l = t1 ++ (EClose c, a) :: t2 -> offered c t2 = [].
Hypothesis HB : forall t1 a t2, own ri l = t1 ++ (EClose c, a) :: t2 -> ~ saw_end c t2.
Hypothesis Hend : saw_end c (own ri l).

Lemma first_close (m : list nevent) : (exists i a, In (i, (EClose c, a)) m) ->
  exists m1 i a m2, m = m1 ++ (i, (EClose c, a)) :: m2 /\ forall j b, ~ In (j, (EClose c, b)) m1.
Proof.
  induction m as [|[k [e b]] m IH]; intros (i & a & H); [destruct H|].
  assert (D : e = EClose c \/ e <> EClose c) by (destruct e as [| | |c'| | | | | | | | | | | | | |]; try (right; discriminate); destruct (chan_eqb c c') eqn:E; [apply chan_eqb_eq in E; subst; now left|right; intro K; injection K as ->; now rewrite chan_eqb_refl in E]).
  destruct D as [->|D]; [exists [], k, b, m; split; [reflexivity|auto]|].
  destruct H as [H|H]; [congruence|]. destruct IH as (m1 & i' & a' & m2 & -> & Hm); [eauto|].
  exists ((k, (e, b)) :: m1), i', a', m2. split; [reflexivity|]. intros j d [K|K]; [congruence|eapply Hm; exact K].
Qed.
Lemma open_until m : (forall j b, ~ In (j, (EClose c, b)) m) -> forall x y, wrun x m y -> cs_closed (x c) = false -> cs_closed (y c) = false.
Proof.
  intros Hm x y H Hx. eapply stays_open; [exact H|exact Hx|]. intro K. unfold closed_by, all_of in K. apply in_map_iff in K. destruct K as ([j ev] & E & K). cbn in E. subst ev. eapply Hm; exact K.
Qed.
Lemma saw_end_app a b : saw_end c (a ++ b) <-> saw_end c a \/ saw_end c b.
Proof. unfold saw_end. rewrite !in_app_iff. tauto. Qed.
Lemma open_no_end m : forall x y, wrun x m y -> (forall j b, ~ In (j, (EClose c, b)) m) -> cs_closed (x c) = false -> forall i, ~ saw_end c (own i m) /\ forall v, ~ In (ESend c v, AClosed) (own i m).
Proof.
  induction m as [|[k [e a]] m IH]; intros x y H Hm Hx i.
  - split; [intros [[]|[]]|intros v []].
  - inversion H as [|? ? x1 ? ? H1 H2]; subst.
    assert (Hx1 : cs_closed (x1 c) = false) by (eapply (open_until [(k, (e, a))]); [|econstructor; [exact H1|constructor]|exact Hx]; intros j b [K|[]]; eapply Hm; left; exact K).
    destruct (IH _ _ H2 ltac:(intros j b K; eapply Hm; right; exact K) Hx1 i) as [I1 I2].
    rewrite own_one. split.
    + rewrite saw_end_app. intros [K|K]; [|auto]. destruct (k =? i); [|destruct K as [[]|[]]]. destruct K as [[K|[]]|[K|[]]]; injection K as -> ->; inversion H1; subst; try discriminate; congruence.
    + intros v K. apply in_app_iff in K. destruct K as [K|K]; [|eapply I2; exact K]. destruct (k =? i); [|destruct K]. destruct K as [K|[]]. injection K as -> ->. inversion H1; subst; try discriminate; congruence.
Qed.

Lemma wstep_send_wt v a x y : wstep x (ESend c v, a) y -> a = AOk \/ a = AClosed.
Proof. intro H. inversion H; subst; auto. discriminate. Qed.
Lemma sent_offered_run m : forall x y, wrun x m y -> (forall i v, ~ In (i, (ESend c v, AClosed)) m) -> sent c (all_of m) = offered c (all_of m).
Proof.
  induction m as [|[k [e a]] m IH]; intros x y H Hn; [reflexivity|]. inversion H as [|? ? x1 ? ? H1 H2]; subst.
  change (all_of ((k, (e, a)) :: m)) with ([(e, a)] ++ all_of m). unfold sent, offered. rewrite !flat_map_app. fold (sent c (all_of m)) (offered c (all_of m)).
  rewrite (IH _ _ H2) by (intros i v K; eapply Hn; right; exact K). f_equal. cbn. destruct e as [| |c' v| | | | | | | | | | | | | | |]; try reflexivity. destruct a; try reflexivity;
  (destruct (chan_eqb c c') eqn:Ec; [|reflexivity]); apply chan_eqb_eq in Ec; subst c'; destruct (wstep_send_wt _ _ _ _ H1) as [E|E]; try discriminate E. exfalso. eapply Hn. now left.
Qed.
Lemma offered_nil_in t v a : offered c t = [] -> ~ In (ESend c v, a) t.
Proof.
  intros H K. apply in_split in K. destruct K as (t1 & t2 & ->). unfold offered in H. rewrite flat_map_app in H. apply app_eq_nil in H. destruct H as [_ H]. cbn in H. rewrite chan_eqb_refl in H. discriminate H.
Qed.

Lemma link_complete : wi <> ri -> taken c (own ri l) = offered c (own wi l) /\ forall v, ~ In (ESend c v, AClosed) (own wi l).
Proof.
  intro Hne.
  assert (Hopen : cs_closed (w0 c) = false) by now rewrite Hnew.
  assert (Hex : exists i a, In (i, (EClose c, a)) l).
  { assert (D : forall x : nevent, {match snd x with (EClose c', _) => chan_eqb c c' = true | _ => False end} + {~ match snd x with (EClose c', _) => chan_eqb c c' = true | _ => False end}).
    { intros [i [e a]]. cbn. destruct e; try (right; intros []; fail). destruct (chan_eqb c c0); [now left|right; discriminate]. }
    destruct (Exists_dec _ l D) as [H|H].
    - apply Exists_exists in H. destruct H as ([i [e a]] & H1 & H2). cbn in H2. destruct e; try contradiction. apply chan_eqb_eq in H2. subst. eauto.
    - exfalso. destruct (open_no_end _ _ _ HR) with (i := ri) as [K _]; [|exact Hopen|exact (K Hend)].
      intros j b K. apply H. apply Exists_exists. exists (j, (EClose c, b)). split; [exact K|]. cbn. apply chan_eqb_refl. }
  destruct (first_close _ Hex) as (l1 & i & a & l2 & El & Hl1).
  assert (HR' := HR). rewrite El in HR'. destruct (wrun_mid _ _ _ _ _ _ HR') as (x1 & x2 & R1 & S1 & R2).
  destruct (open_no_end _ _ _ R1 Hl1 Hopen ri) as [N1 _]. destruct (open_no_end _ _ _ R1 Hl1 Hopen wi) as [_ N2].
  assert (Hi : i = wi).
  { destruct (Hclose i a) as [E|E]; [rewrite El; apply in_app_iff; right; now left|exact E|]. subst i. exfalso.
    assert (Eo : own ri l = own ri l1 ++ (EClose c, a) :: own ri l2) by (rewrite El, own_app, own_one, Nat.eqb_refl; reflexivity).
    apply (HB _ _ _ Eo). rewrite Eo in Hend. apply saw_end_app in Hend. destruct Hend as [K|K]; [contradiction|].
    change ((EClose c, a) :: own ri l2) with ([(EClose c, a)] ++ own ri l2) in K. apply saw_end_app in K. destruct K as [K|K]; [|exact K]. destruct K as [[K|[]]|[K|[]]]; discriminate K. }
  subst i.
  assert (Ew : own wi l = own wi l1 ++ (EClose c, a) :: own wi l2) by (rewrite El, own_app, own_one, Nat.eqb_refl; reflexivity).
  assert (Hoff := HA _ _ _ Ew).
  assert (Hnone : forall v, ~ In (ESend c v, AClosed) (own wi l)).
  { intros v K. rewrite Ew in K. apply in_app_iff in K. destruct K as [K|[K|K]]; [eapply N2; exact K|discriminate K|eapply offered_nil_in; [exact Hoff|exact K]]. }
  split; [|exact Hnone].
  assert (Hall : forall j v, ~ In (j, (ESend c v, AClosed)) l).
  { intros j v K. assert (j = wi) by (eapply Hsend; [exact K|unfold is_send; eauto]). subst j. apply in_own in K. eapply Hnone; exact K. }
  rewrite <- (taken_all _ Htake), <- (offered_all _ Hsend), <- (sent_offered_run _ _ _ HR Hall).
  (* the reader found the channel closed and empty *)
  assert (Hq : cs_queue (w c) = []).
  { assert (Hx : exists m1 e m2, l = m1 ++ (ri, (e, AClosed)) :: m2 /\ is_take c e).
    { destruct Hend as [K|K]; apply in_own in K; apply in_split in K; destruct K as (m1 & m2 & E); exists m1; eexists; exists m2; (split; [exact E|]); unfold is_take; auto. }
    destruct Hx as (m1 & e & m2 & Em & Ht). assert (HR2 := HR). rewrite Em in HR2. destruct (wrun_mid _ _ _ _ _ _ HR2) as (y1 & y2 & Q1 & Q2 & Q3).
    assert (Hy : cs_queue (y2 c) = [] /\ cs_closed (y2 c) = true).
    { destruct Ht as [->| ->]; inversion Q2; subst; try discriminate; auto. }
    pose proof (fifo c _ _ _ Q3) as F. rewrite (proj1 Hy), (no_sent_closed _ _ _ Q3 (proj2 Hy)) in F. cbn in F. apply app_eq_nil in F. apply F. }
  pose proof (fifo c _ _ _ HR) as H. rewrite Hnew, Hq, app_nil_r in H. exact H.
Qed.
End Link.
