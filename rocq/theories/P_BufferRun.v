(** * P_BufferRun: running buffers *)
From Coq Require Import Ascii String List Bool Arith Lia.
From Verif Require Import M_Prog P_Prog P_Exec M_Motion M_BackOff M_Connectable S_Trace S_Lines S_Motion S_World P_Fan P_Read P_World P_Copy P_Machine P_Reach M_Join M_Buffer M_Poll S_Launch S_Buffer P_Buffer P_Counter P_BufferJoint.
Import ListNotations.

(** ** Once refused, always refused *)
Lemma offered_app c a b : offered c (a ++ b) = offered c a ++ offered c b.
Proof. apply flat_map_app. Qed.
Lemma sent_offered w l w' c i : wrun w l w' -> prefix (sent c (own i l)) (offered c (own i l)) /\ (cs_closed (w' c) = false -> sent c (own i l) = offered c (own i l)).
Proof.
  revert w'. induction l as [|[k ev] l IH] using rev_ind; intros w' HR.
  { split; [now exists []|reflexivity]. }
  apply wrun_app in HR. destruct HR as (w1 & HR & HS). inversion HS as [|? ? w2 ? ? HW HN]; subst. inversion HN; subst. destruct (IH _ HR) as [H1 H2]. clear IH.
  rewrite own_snoc. destruct (k =? i) eqn:Ek.
  - rewrite sent_app', offered_app. pose proof (closed_step c _ _ _ HW) as HC.
    assert (HX : (sent c [ev] = offered c [ev] /\ (sent c [ev] = [] \/ cs_closed (w1 c) = false)) \/ (sent c [ev] = [] /\ cs_closed (w1 c) = true)).
    { destruct ev as [e a]. destruct e; try (left; split; [reflexivity|left; reflexivity]). cbn. destruct (chan_eqb c c0) eqn:E; [|left; destruct a; split; auto].
      apply chan_eqb_eq in E. subst c0. inversion HW; subst; [left|right|discriminate]; auto. }
    destruct HX as [[E [E0|E0]]|[E E0]].
    + rewrite <- E, E0, !app_nil_r. split; [exact H1|]. intro HO. apply H2. rewrite HC in HO. now apply orb_false_elim in HO.
    + rewrite (H2 E0), E. split; [now exists []; rewrite app_nil_r|reflexivity].
    + rewrite E, app_nil_r. split.
      * destruct H1 as (x & ->). exists (x ++ offered c [ev]). now rewrite app_assoc.
      * intro HO. rewrite HC, E0 in HO. discriminate HO.
  - rewrite app_nil_r. split; [exact H1|]. intro HO. apply H2. rewrite (closed_step c _ _ _ HW) in HO. now apply orb_false_elim in HO.
Qed.

Lemma prefix_datas a b : prefix a b -> prefix (datas a) (datas b).
Proof. intros (x & ->). exists (datas x). apply flat_map_app. Qed.
Lemma prefix_trans {A} (a b c : list A) : prefix a b -> prefix b c -> prefix a c.
Proof. intros (x & ->) (y & ->). exists (x ++ y). now rewrite app_assoc. Qed.

(** ** From the buffer to its parts *)
Lemma wired_pl b pl ps u mi mo : buffer_wired b pl ps u mi mo -> match pl with PlBytes _ _ _ _ => True | PlReceiver _ n => n <> u | _ => False end.
Proof.
  intros (_ & _ & _ & Hr & _ & _ & HA). destruct pl; cbn in Hr; try contradiction; [exact I|]. intros ->. eapply (HA _ []); [left; reflexivity|reflexivity].
Qed.
Lemma wired_ps b pl ps u mi mo : buffer_wired b pl ps u mi mo -> off_chan ps u.
Proof.
  intros (_ & _ & _ & _ & _ & _ & HA). destruct ps; cbn; auto; intros ->; eapply (HA _ []); (right; reflexivity) || reflexivity.
Qed.

Lemma buffer_parts b pl ps spy u mi mo L st : buffer_wired b pl ps u mi mo -> buffer_start b spy u mi mo L st ->
  exists a b' c, exec (half_a u mi (pl, ps)) (own 1 L) a /\ exec (half_b u mo spy (pl, ps)) (own 2 L) b' /\ exec (total_in_buffer (bf_monitor b) mi mo) (own 3 L) c /\
  match st with
  | Before _ => False
  | During x y z => a = x /\ b' = y /\ c = z
  | After s => exists ra rb rc, a = Done ra /\ b' = Done rb /\ c = Done rc /\ s = Done (buffer_result ra rb rc)
  end.
Proof.
  intros (E1 & E2 & _ & _ & Hreal & _) HJ.
  assert (EE : buffer_ends b = Ret (inr (pl, ps))).
  { unfold buffer_ends. rewrite E1, E2. destruct ps; cbn in Hreal; try contradiction; reflexivity. }
  inversion HJ; subst.
  - exfalso. rewrite EE in *. apply exec_ret_inv in H0. destruct H0 as [_ H0]. discriminate H0.
  - exfalso. rewrite EE in *. apply exec_ret_inv in H0. destruct H0 as [_ H0]. discriminate H0.
  - exfalso. rewrite EE in *. apply exec_ret_inv in H0. destruct H0 as [_ H0]. discriminate H0.
  - rewrite EE in *. apply exec_ret_inv in H1. destruct H1 as [_ H1]. injection H1 as ->.
    rewrite !own_app, (H 1), (H 2), (H 3) by (cbn; tauto). cbn [app]. eauto 10.
  - rewrite EE in *. apply exec_ret_inv in H2. destruct H2 as [_ H2]. injection H2 as ->.
    rewrite !own_app, (H 1), (H 2), (H 3), (H1 1), (H1 2), (H1 3) by (cbn; tauto). cbn [app]. rewrite !app_nil_r. apply exec_ret_inv in H6. destruct H6 as [_ ->]. eauto 20.
Qed.

Section Wired.
Variables (b : buffer) (pl : pull) (ps : push) (spy : option nat) (u mi mo : nat).
Hypothesis HB : buffer_wired b pl ps u mi mo.
Notation p1 := (half_a u mi (pl, ps)).
Notation p2 := (half_b u mo spy (pl, ps)).
Notation p3 := (total_in_buffer (bf_monitor b) mi mo).
Notation tog := (together pl ps spy (bf_monitor b) u mi mo).

Lemma wired_mm : mi <> mo.
Proof. now destruct HB as (_ & _ & _ & _ & _ & H & _). Qed.
Lemma wired_real : real_push ps.
Proof. now destruct HB as (_ & _ & _ & _ & H & _). Qed.
Lemma wired_fresh : fresh_pull pl.
Proof. now destruct HB as (_ & _ & H & _). Qed.

Lemma wired_mon : pull_journey pl <> None \/ mna mi = mn_empty.
Proof. left. destruct HB as (_ & _ & _ & H & _). destruct pl; cbn in H; try contradiction; discriminate. Qed.

Lemma parts_together w0 L w a b' c : new_inside u mi mo w0 -> wrun w0 L w -> sealed u mi mo L ->
  exec p1 (own 1 L) a -> exec p2 (own 2 L) b' -> exec p3 (own 3 L) c ->
  exists sa sb t, tog w0 L w sa sb t /\ mstat pl (mna mi) None (psa ps u) sa = a /\ mstat (plb u) (mnb mo) spy ps sb = b' /\ tstat (bf_monitor b) mi mo t = c /\ t_valid (bf_monitor b) t.
Proof.
  intros Hn HR Hs H1 H2 H3.
  apply motion_reach in H1; [|pose proof (wired_pl _ _ _ _ _ _ HB) as HP; cbn [fst]; destruct pl; auto|exact I]. destruct H1 as (sa & H1 & Ea & _).
  apply motion_reach in H2; [|exact I|exact wired_real]. destruct H2 as (sb & H2 & Eb & _).
  apply total_reach in H3. destruct H3 as (t & H3 & Et & HV).
  exists sa, sb, t. split; [constructor; assumption|]. auto.
Qed.

(** ** C25 *)
Definition plain_ps := PsSender (J 0 None 0 (push_brk ps)) u.
Lemma offered_inside w0 L w : new_inside u mi mo w0 -> wrun w0 L w -> sealed u mi mo L ->
  forall a b' c, exec p1 (own 1 L) a -> exec p2 (own 2 L) b' -> exec p3 (own 3 L) c ->
  prefix (offered_to ps (own 2 L)) (got (plb u) (own 2 L)) /\ prefix (got (plb u) (own 2 L)) (datas (sent (CData u) (own 1 L))) /\
  prefix (datas (sent (CData u) (own 1 L))) (offered_to plain_ps (own 1 L)) /\ prefix (offered_to plain_ps (own 1 L)) (got pl (own 1 L)).
Proof.
  intros Hn HR Hs a b' c H1 H2 H3. destruct (parts_together _ _ _ _ _ _ Hn HR Hs H1 H2 H3) as (sa & sb & t & HT & _).
  repeat split.
  - exact (proj1 (copy_prefix (plb u) (mnb mo) spy ps I ltac:(left; discriminate) wired_real _ _ H2)).
  - apply prefix_datas. exists (cs_queue (w (CData u))). symmetry. eapply ledger_u; [exact (wired_pl _ _ _ _ _ _ HB)|exact wired_real|exact (wired_ps _ _ _ _ _ _ HB)|exact HT].
  - apply prefix_datas. exact (proj1 (sent_offered _ _ _ _ _ HR)).
  - exact (proj1 (copy_prefix pl (mna mi) None plain_ps wired_fresh wired_mon I _ _ H1)).
Qed.

Lemma agree' w0 L w sa sb t : tog w0 L w sa sb t -> agreed u mi mo L.
Proof. intro HT. eapply agree; [exact (wired_pl _ _ _ _ _ _ HB)|exact wired_real|exact (wired_ps _ _ _ _ _ _ HB)|exact wired_mm|exact HT]. Qed.

Lemma parts_end w0 L w : new_inside u mi mo w0 -> wrun w0 L w -> sealed u mi mo L ->
  forall n m c, exec p1 (own 1 L) (Done (Ok n)) -> exec p2 (own 2 L) (Done (Ok m)) -> exec p3 (own 3 L) c ->
  (offered_to ps (own 2 L) = got pl (own 1 L) /\ ended pl (own 1 L) /\ n = S (length (got pl (own 1 L))) /\ saw_end (CData u) (own 2 L)) \/ (push_brk ps = Finish /\ exists d, found_closed ps d (own 2 L)).
Proof.
  intros Hn HR Hs n m c H1 H2 H3. destruct (parts_together _ _ _ _ _ _ Hn HR Hs H1 H2 H3) as (sa & sb & t & HT & _).
  pose proof (agree' _ _ _ _ _ _ HT) as [G1 G2 _ _].
  destruct (copy_ends (plb u) (mnb mo) spy ps I ltac:(left; discriminate) wired_real _ _ H2) as [[E2 EN]|H]; [|right; exact H]. left. cbn in EN.
  apply sawb_spec in EN. destruct (G1 EN) as [HC HN].
  assert (HU : refusedb (CData u) (own 1 L) = false).
  { destruct (refusedb (CData u) (own 1 L)) eqn:E; [|reflexivity]. destruct (G2 eq_refl) as [_ E']. congruence. }
  destruct (offered_inside _ _ _ Hn HR Hs _ _ _ H1 H2 H3) as (P1 & P2 & P3 & P4).
  assert (ES : sent (CData u) (own 1 L) = offered (CData u) (own 1 L)).
  { pose proof (sent_offered _ _ _ (CData u) 1 HR) as [HP _]. destruct HP as (x & Ex). rewrite Ex.
    assert (Hx : x = []); [|now rewrite Hx, app_nil_r].
    assert (HI : inv_a pl u mi (own 1 L) sa).
    { eapply a_does; [exact (wired_pl _ _ _ _ _ _ HB)|exact (tg_a _ _ _ _ _ _ _ _ _ _ _ _ _ HT)]. }
    destruct HI as (_ & _ & HI & _). specialize (HI HU). unfold nsent, noff in HI. rewrite Ex, app_length in HI. destruct x; [reflexivity|cbn in HI; lia]. }
  assert (ET : taken (CData u) (own 2 L) = sent (CData u) (own 1 L)).
  { assert (HL : taken (CData u) (own 2 L) ++ cs_queue (w (CData u)) = sent (CData u) (own 1 L)).
    { eapply ledger_u; [exact (wired_pl _ _ _ _ _ _ HB)|exact wired_real|exact (wired_ps _ _ _ _ _ _ HB)|exact HT]. }
    unfold ntak, nsent in HN. rewrite <- HL, app_length in HN. destruct (cs_queue (w (CData u))); [now rewrite app_nil_r in HL|cbn in HN; lia]. }
  destruct (copy_end pl (mna mi) None plain_ps wired_fresh wired_mon I _ _ H1) as [(E1 & H4 & H5)|(_ & _ & d & e & pre & He & HA)].
  - split; [|split; [exact H4|split; [exact H5|now apply sawb_spec]]]. rewrite E2, <- E1. cbn. unfold got. cbn. now rewrite ET, ES.
  - exfalso. injection He as <-. cbn in HA.
    assert (HI : In (ESend (CData u) (VData d), d, AClosed) (attempts (own 1 L))) by (rewrite HA; apply in_or_app; right; now left).
    unfold attempts in HI. apply in_flat_map in HI. destruct HI as ([e' a'] & HI1 & HI2).
    assert (HI : In (ESend (CData u) (VData d), AClosed) (own 1 L)).
    { destruct e' as [ | |[] []| | | | | | | | | | | | | | | ]; cbn in HI2; try contradiction; destruct HI2 as [HI2|[]]; inversion HI2; subst; exact HI1. }
    assert (HX : refusedb (CData u) (own 1 L) = true) by (apply refusedb_spec; eauto). congruence.
Qed.

Theorem buffer_fifo L st w0 w : buffer_start b spy u mi mo L st -> new_inside u mi mo w0 -> wrun w0 L w -> sealed u mi mo L ->
  prefix (offered_to ps (own 2 L)) (got pl (own 1 L)) /\
  (forall n, st = After (Done (Ok n)) ->
     (offered_to ps (own 2 L) = got pl (own 1 L) /\ ended pl (own 1 L) /\ n = S (length (got pl (own 1 L)))) \/
     (push_brk ps = Finish /\ exists d, found_closed ps d (own 2 L))).
Proof.
  intros HX Hn HR Hs. destruct (buffer_parts _ _ _ _ _ _ _ _ _ HB HX) as (a & b' & c & H1 & H2 & H3 & HM). split.
  - destruct (offered_inside _ _ _ Hn HR Hs _ _ _ H1 H2 H3) as (P1 & P2 & P3 & P4). eapply prefix_trans; [exact P1|]. eapply prefix_trans; [exact P2|]. eapply prefix_trans; [exact P3|exact P4].
  - intros n ->. destruct HM as (ra & rb & rc & -> & -> & -> & E). unfold buffer_result in E. destruct ra as [na|]; [|discriminate E]. destruct rb as [nb|]; [|discriminate E]. injection E as <-.
    destruct (parts_end _ _ _ Hn HR Hs _ _ _ H1 H2 H3) as [(E1 & E2 & E3 & _)|H]; auto.
Qed.
End Wired.
