(** * P_Network: straight pipelines *)
From Coq Require Import Ascii String List Bool Arith Lia ZArith.
From Verif Require Import M_Prog P_Prog P_Exec M_Motion M_Regulator M_Faucet M_Drain M_Buffer M_Junction M_Join S_Trace S_Lines S_Motion S_World S_Launch S_Regulator S_Drain S_Buffer S_Junction S_Network.
From Verif Require Import P_Split P_Read P_World P_Ask P_Copy P_Control P_Drain P_BufferRun P_Phase P_Link P_Conduit.
Import ListNotations.

(** ** The run as one component sees it *)
Lemma own_seen k i l : i < 4 -> own i (seen_by k l) = own (4 * k + i) l.
Proof.
  intro Hi. induction l as [|[t ev] l IH]; [reflexivity|]. unfold seen_by. cbn [map fst snd]. fold (seen_by k l). rewrite !own_one, IH. f_equal.
  destruct (t / 4 =? k) eqn:E; cbv beta iota.
  - apply Nat.eqb_eq in E. pose proof (Nat.div_mod t 4 ltac:(lia)) as D. rewrite E in D.
    destruct (Nat.eqb_spec (t mod 4) i) as [G|G]; destruct (Nat.eqb_spec t (4 * k + i)) as [G'|G']; try reflexivity; exfalso; lia.
  - apply Nat.eqb_neq in E. destruct (Nat.eqb_spec (4 + t) i) as [G|G]; [lia|]. destruct (Nat.eqb_spec t (4 * k + i)) as [G'|G']; [|reflexivity].
    exfalso. apply E. subst t. rewrite Nat.mul_comm, Nat.div_add_l, Nat.div_small; lia.
Qed.
Lemma wrun_map (f : nevent -> nat) l : forall w w', wrun w l w' -> wrun w (map (fun x => (f x, snd x)) l) w'.
Proof. induction l as [|[k ev] l IH]; intros w w' H; inversion H; subst; cbn; econstructor; eauto. Qed.
Lemma wrun_seen k l w w' : wrun w l w' -> wrun w (seen_by k l) w'.
Proof. apply (wrun_map (fun x => if fst x / 4 =? k then fst x mod 4 else 4 + fst x)). Qed.

(** ** The two ends *)
Lemma source_orderly f name ps spy tr st : faucet_ready f name ps -> exec (faucet_start f spy) tr st ->
  (forall e a, In (e, a) tr -> does [] (push_chans ps) [] true true e) /\ (forall c t1 a t2, tr = t1 ++ (EClose c, a) :: t2 -> offered c t2 = []).
Proof.
  intros HR HX.
  assert (Hs : on_chan (source_eff name) = None) by (unfold source_eff; destruct (string_dec _ _); reflexivity).
  assert (Hc : forall c, source_eff name <> EClose c) by (intros c E; rewrite E in Hs; discriminate Hs).
  destruct (faucet_run _ _ _ _ _ _ HR HX) as [[-> _]|[(j & _ & -> & _)|(d & rest & k & j & -> & HY)]].
  - split; [intros e a []|]. intros c t1 a t2 E. destruct t1; discriminate E.
  - split.
    + intros e a [E|[]]. injection E as <- <-. now apply does_none.
    + intros c t1 a t2 E. destruct t1 as [|x t1]; cbn in E; [exfalso; apply (Hc c); congruence|]. destruct t1; discriminate E.
  - destruct (orderly_all _ _ _ (gate_orderly _ _ _ _) _ _ HY) as [HW HO]. unfold within_eff in HW. rewrite Forall_forall in HW. split.
    + intros e a [E|E]; [injection E as <- <-; now apply does_none|]. specialize (HW _ E). exact (gate_does _ _ _ _ _ HW).
    + intros c t1 a t2 E. destruct t1 as [|x t1]; cbn in E; [exfalso; apply (Hc c); congruence|]. injection E as _ E. eapply orderly_sends; [exact HO|exact E].
Qed.

Lemma works_orderly {A} (P : eff -> Prop) (Q : A -> Prop) p tr st : works (fun e => P e /\ closing_eff e) Q p -> exec p tr st -> within_eff P tr /\ orderly tr.
Proof.
  intros HW HX. destruct (HW _ _ HX) as [H _]. split; [eapply Forall_impl; [|exact H]; cbn; tauto|].
  apply (orderly_app []); [intros t1 e a t2 E; destruct t1; discriminate E|]. eapply Forall_impl; [|exact H]; cbn; tauto.
Qed.
Lemma drain_orderly d pl name tr st : drain_ready d pl name -> exec (drain_start d None) tr st ->
  (forall e a, In (e, a) tr -> does (pull_chans pl) [] [] true true e) /\ (forall c t1 a t2, tr = t1 ++ (EClose c, a) :: t2 -> ~ saw_end c t2).
Proof.
  intros HR HX.
  assert (Hop : forall e, opened_for (actual_destination name) = Some e -> on_chan e = None /\ forall c, e <> EClose c).
  { intros e E. destruct (actual_destination name); cbn in E; try discriminate E; injection E as <-; split; try reflexivity; discriminate. }
  assert (Hm : forall ps rest s, push_chans ps = [] -> exec (motion pl mn_empty None ps) rest s -> (forall e a, In (e, a) rest -> does (pull_chans pl) [] [] true true e) /\ orderly rest).
  { intros ps rest s Hps HY. destruct (orderly_all _ _ _ (motion_orderly _ _ _ _) _ _ HY) as [HW HO]. unfold within_eff in HW. rewrite Forall_forall in HW. split; [|exact HO].
    intros e a K. specialize (HW _ K). pose proof (motion_does _ _ _ _ _ HW) as D. now rewrite Hps in D. }
  destruct (drain_run _ _ _ _ _ HR HX) as [(_ & H)|(e' & E & H)].
  - destruct (Hm PsNone _ _ eq_refl H) as [H1 H2]. split; [exact H1|]. intro c. now apply orderly_reads.
  - destruct (Hop _ E) as [Ho Hc]. destruct H as [(-> & _)|[(f & rest & k & pj & -> & Ej & H)|(rest & pj & -> & Ej & H)]].
    + split; [intros e a []|]. intros c t1 a t2 E1. destruct t1; discriminate E1.
    + destruct (Hm (PsBytes k (drain_journey pj) f) _ _ eq_refl H) as [H1 H2]. split.
      * intros e a [K|K]; [injection K as <- <-; now apply does_none|eapply H1; exact K].
      * intros c t1 a t2 E1. destruct t1 as [|x t1]; cbn in E1; [exfalso; apply (Hc c); congruence|]. injection E1 as _ E1. eapply orderly_reads; [exact H2|exact E1].
    + assert (W : works (fun e => end_eff pl mn_empty [PsNone] e /\ closing_eff e) (fun _ : mres nat => True) (drop_pull pl ;;; Ret (Err (OpenIOError pj)))).
      { apply works_bind with (Q := fun _ => True); [|intros; now apply works_ret]. eapply works_drop_pull with (pl := pl) (mon := mn_empty) (ps := [PsNone]); [|destruct pl; cbn; auto].
        - intros e K. split; [exact K|eapply end_closing; exact K]. }
      destruct (works_orderly _ _ _ _ _ W H) as [HW HO]. unfold within_eff in HW. rewrite Forall_forall in HW. split.
      * intros e a [K|K]; [injection K as <- <-; now apply does_none|]. specialize (HW _ K). exact (end_does pl mn_empty PsNone _ HW).
      * intros c t1 a t2 E1. destruct t1 as [|x t1]; cbn in E1; [exfalso; apply (Hc c); congruence|]. injection E1 as _ E1. eapply orderly_reads; [exact HO|exact E1].
Qed.

Section Pipeline.
Variables (cs : nat -> nat) (p : pipeline) (spy : option nat) (w0 : world) (l : list nevent) (w : world) (sts : nat -> standing).
Hypothesis HW : pipeline_wired cs p.
Hypothesis HR : pipeline_run cs p spy w0 l w sts.
Notation n := (last_one p).

Lemma cs_inj a b : cs a = cs b -> a = b.
Proof. apply HW. Qed.

(** The tasks that write channel [cs k] and read channel [cs k]. *)
Definition writer (k : nat) : nat := match k with O => 0 | S k' => match nth_error (pp_parts p) k' with Some q => 4 * k + wr q | None => 4 * k end end.
Definition reader (k : nat) : nat := match nth_error (pp_parts p) k with Some q => 4 * S k + rd q | None => 4 * S k end.

Lemma the_part k : k < n -> exists q, nth_error (pp_parts p) k = Some q.
Proof. intro H. destruct (nth_error (pp_parts p) k) eqn:E; eauto. apply nth_error_None in E. unfold last_one in H. lia. Qed.
Lemma no_part : nth_error (pp_parts p) n = None.
Proof. apply nth_error_None. unfold last_one. lia. Qed.

Lemma part_facts k q : nth_error (pp_parts p) k = Some q ->
  touches (seen_by (S k) l) [cs k] [cs (S k)] (inn q) (rd q) (wr q) /\ conduit (cs k) (cs (S k)) (rd q) (wr q) (seen_by (S k) l) (sts (S k)) /\ ~ In (cs k) (inn q) /\ ~ In (cs (S k)) (inn q).
Proof.
  intro Hq. destruct HW as (_ & _ & HP & _). eapply part_conduit; [exact (HP _ _ Hq)|exact (pr_parts _ _ _ _ _ _ _ HR _ _ Hq)| |apply wrun_seen, (pr_world _ _ _ _ _ _ _ HR)].
  intros b u mi mo ->. exact (pr_inside _ _ _ _ _ _ _ HR _ _ _ _ _ Hq).
Qed.

Lemma div4 t : t = 4 * (t / 4) + t mod 4 /\ t mod 4 < 4.
Proof. split; [apply Nat.div_mod; lia|apply Nat.mod_upper_bound; lia]. Qed.
Lemma in_seen t ev : In (t, ev) l -> In (t mod 4, ev) (seen_by (t / 4) l).
Proof. intro H. unfold seen_by. apply in_map_iff. exists (t, ev). split; [|exact H]. cbn. now rewrite Nat.eqb_refl. Qed.

Lemma faucet_facts : touches (seen_by 0 l) [] [cs 0] [] 0 0 /\ (forall c t1 a t2, own 0 l = t1 ++ (EClose c, a) :: t2 -> offered c t2 = []).
Proof.
  destruct HW as (_ & (j & HF) & _). destruct (pr_faucet _ _ _ _ _ _ _ HR) as (HI & s & _ & HX). pose proof (own_seen 0 0 l ltac:(lia)) as E0. cbn in E0.
  destruct (source_orderly _ _ _ _ _ _ HF HX) as [H1 H2]. split; [|now rewrite <- E0].
  eapply touch_alone; [reflexivity|exact HI|exact H1].
Qed.
Lemma drain_facts : touches (seen_by (S n) l) [cs n] [] [] 0 0 /\ (forall c t1 a t2, own (4 * S n) l = t1 ++ (EClose c, a) :: t2 -> ~ saw_end c t2).
Proof.
  destruct HW as (_ & _ & _ & pj & HD). destruct (pr_drain _ _ _ _ _ _ _ HR) as (HI & s & _ & HX). pose proof (own_seen (S n) 0 l ltac:(lia)) as E0. rewrite Nat.add_0_r in E0.
  destruct (drain_orderly _ _ _ _ _ HD HX) as [H1 H2]. split; [|now rewrite <- E0].
  eapply touch_alone; [reflexivity|exact HI|exact H1].
Qed.

(** Component [k] and channel [cs k], component [k + 1] and channel [cs k]. *)
Lemma above k t e a : k <= n -> In (t, (e, a)) l -> t / 4 = k -> on_chan e = Some (CData (cs k)) -> t = writer k /\ (is_send (CData (cs k)) e \/ e = EClose (CData (cs k))).
Proof.
  intros Hk Hin Ht Hc. pose proof (in_seen _ _ Hin) as HI. rewrite Ht in HI. destruct (div4 t) as [D1 D2]. rewrite Ht in D1. destruct k as [|k].
  - destruct (proj1 faucet_facts _ _ _ D2 HI _ Hc) as [[]|[(_ & [] & _)|(E & _ & H)]]. apply Nat.eqb_eq in E. split; [cbn; lia|exact H].
  - destruct (the_part k ltac:(lia)) as (q & Hq). destruct (part_facts _ _ Hq) as (F1 & _ & F3 & F4).
    destruct (F1 _ _ _ D2 HI _ Hc) as [K|[(_ & [K|[]] & _)|(E & _ & H)]]; [contradiction|apply cs_inj in K; lia|]. apply Nat.eqb_eq in E. split; [|exact H]. cbn [writer]. rewrite Hq. lia.
Qed.
Lemma below k t e a : k <= n -> In (t, (e, a)) l -> t / 4 = S k -> on_chan e = Some (CData (cs k)) -> t = reader k /\ (is_take (CData (cs k)) e \/ e = EClose (CData (cs k))).
Proof.
  intros Hk Hin Ht Hc. pose proof (in_seen _ _ Hin) as HI. rewrite Ht in HI. destruct (div4 t) as [D1 D2]. rewrite Ht in D1.
  destruct (Nat.eq_dec k n) as [->|Hne].
  - destruct (proj1 drain_facts _ _ _ D2 HI _ Hc) as [[]|[(E & _ & H)|(_ & [] & _)]]. apply Nat.eqb_eq in E. split; [|exact H]. unfold reader. rewrite no_part. lia.
  - destruct (the_part k ltac:(lia)) as (q & Hq). destruct (part_facts _ _ Hq) as (F1 & _ & F3 & F4).
    destruct (F1 _ _ _ D2 HI _ Hc) as [K|[(E & _ & H)|(_ & [K|[]] & _)]]; [contradiction| |apply cs_inj in K; lia]. apply Nat.eqb_eq in E. split; [|exact H]. unfold reader. rewrite Hq. lia.
Qed.

Lemma link_send k : k <= n -> forall t e a, In (t, (e, a)) l -> is_send (CData (cs k)) e -> t = writer k.
Proof.
  intros Hk t e a Hin (v & ->). destruct (pr_private _ _ _ _ _ _ _ HR t _ _ k Hk Hin eq_refl) as [Ht|Ht].
  - eapply above; [exact Hk|exact Hin|exact Ht|reflexivity].
  - destruct (below _ _ _ _ Hk Hin Ht eq_refl) as [_ [[K|K]|K]]; discriminate K.
Qed.
Lemma link_take k : k <= n -> forall t e a, In (t, (e, a)) l -> is_take (CData (cs k)) e -> t = reader k.
Proof.
  intros Hk t e a Hin He. assert (Hc : on_chan e = Some (CData (cs k))) by (destruct He as [->| ->]; reflexivity).
  destruct (pr_private _ _ _ _ _ _ _ HR t _ _ k Hk Hin Hc) as [Ht|Ht].
  - destruct (above _ _ _ _ Hk Hin Ht Hc) as [_ [(v & K)|K]]; destruct He as [->| ->]; discriminate K.
  - eapply below; [exact Hk|exact Hin|exact Ht|exact Hc].
Qed.
Lemma link_close k : k <= n -> forall t a, In (t, (EClose (CData (cs k)), a)) l -> t = writer k \/ t = reader k.
Proof.
  intros Hk t a Hin. destruct (pr_private _ _ _ _ _ _ _ HR t _ _ k Hk Hin eq_refl) as [Ht|Ht]; [left; eapply above|right; eapply below]; try eassumption; reflexivity.
Qed.

(** What has been offered to channel [cs k] and what has been taken from it. *)
Definition into (k : nat) : list bytes := datas (offered (CData (cs k)) (own (writer k) l)).
Definition out_of (k : nat) : list bytes := datas (taken (CData (cs k)) (own (reader k) l)).

Lemma fresh_link k : k <= n -> exists cap, w0 (CData (cs k)) = fresh_chan cap.
Proof. intro Hk. destruct (pr_new _ _ _ _ _ _ _ HR k Hk) as (cap & E). eauto. Qed.
Lemma through k : k <= n -> prefix (out_of k) (into k).
Proof.
  intro Hk. destruct (fresh_link k Hk) as (cap & E). apply prefix_datas. eapply link_prefix; [exact (pr_world _ _ _ _ _ _ _ HR)|exact E|exact (link_send k Hk)|exact (link_take k Hk)].
Qed.
Lemma part_own k q : nth_error (pp_parts p) k = Some q -> own (rd q) (seen_by (S k) l) = own (reader k) l /\ own (wr q) (seen_by (S k) l) = own (writer (S k)) l.
Proof. intro Hq. unfold reader, writer. rewrite Hq. split; apply own_seen; destruct q; cbn; lia. Qed.
Lemma part_passes k : k < n -> prefix (into (S k)) (out_of k).
Proof.
  intro Hk. destruct (the_part k Hk) as (q & Hq). destruct (part_facts _ _ Hq) as (_ & F & _). destruct (part_own _ _ Hq) as [E1 E2].
  pose proof (cd_prefix _ _ _ _ _ _ F) as H. rewrite E1, E2 in H. exact H.
Qed.
Lemma all_prefix k : k <= n -> prefix (out_of k) (into 0).
Proof.
  induction k as [|k IH]; intro Hk; [now apply through|].
  eapply P_Link.prefix_trans; [now apply through|]. eapply P_Link.prefix_trans; [apply part_passes; lia|]. apply IH. lia.
Qed.

Lemma writer_reader k : k <= n -> writer k <> reader k.
Proof.
  intros Hk E. unfold writer, reader in E. destruct k as [|k]; [destruct (nth_error (pp_parts p) 0); lia|].
  destruct (nth_error (pp_parts p) k) as [q|] eqn:Eq; destruct (nth_error (pp_parts p) (S k)) as [q'|]; try lia; destruct q; cbn in E; lia.
Qed.
Lemma writer_after k : k <= n -> forall t1 a t2, own (writer k) l = t1 ++ (EClose (CData (cs k)), a) :: t2 -> offered (CData (cs k)) t2 = [].
Proof.
  intros Hk t1 a t2 E. destruct k as [|k]; [exact (proj2 faucet_facts _ _ _ _ E)|].
  destruct (the_part k ltac:(lia)) as (q & Hq). destruct (part_facts _ _ Hq) as (_ & F & _). destruct (part_own _ _ Hq) as [_ E2]. rewrite <- E2 in E. exact (cd_sends _ _ _ _ _ _ F _ _ _ E).
Qed.
Lemma reader_after k : k <= n -> forall t1 a t2, own (reader k) l = t1 ++ (EClose (CData (cs k)), a) :: t2 -> ~ saw_end (CData (cs k)) t2.
Proof.
  intros Hk t1 a t2 E. destruct (Nat.eq_dec k n) as [->|Hne].
  - unfold reader in E. rewrite no_part in E. exact (proj2 drain_facts _ _ _ _ E).
  - destruct (the_part k ltac:(lia)) as (q & Hq). destruct (part_facts _ _ Hq) as (_ & F & _). destruct (part_own _ _ Hq) as [E1 _]. rewrite <- E1 in E. exact (cd_reads _ _ _ _ _ _ F _ _ _ E).
Qed.

Lemma complete k : k <= n -> saw_end (CData (cs k)) (own (reader k) l) -> out_of k = into k /\ forall v, ~ In (ESend (CData (cs k)) v, AClosed) (own (writer k) l).
Proof.
  intros Hk He. destruct (fresh_link k Hk) as (cap & E).
  assert (H : taken (CData (cs k)) (own (reader k) l) = offered (CData (cs k)) (own (writer k) l) /\ forall v, ~ In (ESend (CData (cs k)) v, AClosed) (own (writer k) l)).
  { eapply link_complete with (cap := cap); [exact (pr_world _ _ _ _ _ _ _ HR)|exact E|exact (link_send k Hk)|exact (link_take k Hk)|exact (link_close k Hk)|exact (writer_after k Hk)|exact (reader_after k Hk)|exact He|now apply writer_reader]. }
  destruct H as [H1 H2]. split; [|exact H2]. unfold out_of, into. now rewrite H1.
Qed.

Hypothesis Hok : forall k, k <= S n -> succeeded (sts k).
(** When everything has ended well: from the drain upwards. *)
Lemma upwards m : m <= n -> saw_end (CData (cs n)) (own (reader n) l) ->
  saw_end (CData (cs (n - m))) (own (reader (n - m)) l) /\ out_of n = into (n - m) /\ forall v, ~ In (ESend (CData (cs (n - m))) v, AClosed) (own (writer (n - m)) l).
Proof.
  intros Hm He. induction m as [|m IH].
  - rewrite Nat.sub_0_r. split; [exact He|]. now apply complete.
  - destruct (IH ltac:(lia)) as (I1 & I2 & I3). remember (n - S m) as k eqn:Ek. assert (Ek' : n - m = S k) by lia. rewrite Ek' in *.
    destruct (the_part k ltac:(lia)) as (q & Hq). destruct (part_facts _ _ Hq) as (_ & F & _). destruct (part_own _ _ Hq) as [E1 E2].
    destruct (cd_ends _ _ _ _ _ _ F (Hok (S k) ltac:(lia))) as [[G1 G2]|(v & G)]; rewrite E2 in *.
    + rewrite E1 in *. split; [exact G2|]. destruct (complete k ltac:(lia) G2) as [G3 G4]. split; [|exact G4]. rewrite <- G3, I2. exact G1.
    + destruct (I3 _ G).
Qed.
End Pipeline.

Lemma datas_none c tr : (forall v a, ~ In (ESend c v, a) tr) -> offered c tr = [].
Proof.
  induction tr as [|[e a] tr IH]; intro H; [reflexivity|]. change ((e, a) :: tr) with ([(e, a)] ++ tr). unfold offered. rewrite flat_map_app. fold (offered c tr). rewrite IH by (intros v b K; apply (H v b); now right).
  rewrite app_nil_r. destruct e as [| |c' v| | | | | | | | | | | | | | |]; try reflexivity. cbn. destruct (chan_eqb c c') eqn:E; [|reflexivity]. apply chan_eqb_eq in E. subst c'. destruct (H v a). now left.
Qed.
Lemma prefix_nil {X} (a : list X) : prefix a [] -> a = [].
Proof. intros [x E]. symmetry in E. apply app_eq_nil in E. apply E. Qed.
Lemma prefix_concat {X} (a b : list (list X)) : prefix a b -> prefix (concat a) (concat b).
Proof. intros [x ->]. exists (concat x). apply concat_app. Qed.

Lemma pipeline_transparent cs p spy w0 l w sts : pipeline_wired cs p -> pipeline_run cs p spy w0 l w sts ->
  forall e f rest, opened_for (actual_destination (pp_target p)) = Some e -> drain_did p l = (e, AFd f) :: rest ->
  written f (drain_did p l) = [] \/
  exists d rest', faucet_did l = (source_eff (pp_source p), AFd d) :: rest' /\
    prefix (written f (drain_did p l)) (messages_of_reads (reads d (faucet_did l))) /\
    prefix (concat (written f (drain_did p l))) (concat (reads d (faucet_did l))).
Proof.
  intros HW HR e f rest He Hd. destruct (HW) as (_ & (j & HF) & _ & pj & HD).
  destruct (pr_faucet _ _ _ _ _ _ _ HR) as (_ & s & _ & HX). destruct (pr_drain _ _ _ _ _ _ _ HR) as (_ & s' & _ & HY).
  rewrite own_seen in HX by lia. cbn [Nat.mul Nat.add] in HX. rewrite own_seen, Nat.add_0_r in HY by lia. fold (faucet_did l) in HX. fold (drain_did p l) in HY.
  pose proof (drain_writes _ _ _ _ _ _ HD He HY) as H. rewrite Hd in H. destruct H as (_ & H & _). rewrite <- Hd in H.
  pose proof (all_prefix _ _ _ _ _ _ _ HW HR (last_one p) (le_n _)) as HP. unfold into, out_of, reader in HP. rewrite no_part in HP. cbn [writer] in HP. fold (drain_did p l) (faucet_did l) in HP.
  assert (HA : prefix (written f (drain_did p l)) (offered_to (PsIoSender j (cs 0)) (faucet_did l))) by (eapply P_Link.prefix_trans; [exact H|exact HP]).
  destruct (faucet_prefix _ _ _ _ _ _ HF HX) as [E|(d & r & E & HB)].
  - left. rewrite E in HA. now apply prefix_nil.
  - right. exists d, r. split; [exact E|].
    assert (HC : prefix (written f (drain_did p l)) (messages_of_reads (reads d (faucet_did l)))) by (eapply P_Link.prefix_trans; [exact HA|exact HB]).
    split; [exact HC|]. apply prefix_concat in HC. now rewrite messages_concat in HC.
Qed.

Lemma pipeline_complete cs p spy w0 l w sts : pipeline_wired cs p -> pipeline_run cs p spy w0 l w sts ->
  (forall k, k <= S (last_one p) -> succeeded (sts k)) ->
  exists d rest, faucet_did l = (source_eff (pp_source p), AFd d) :: rest /\ In (ERead d, AData []) (faucet_did l) /\
  forall e, opened_for (actual_destination (pp_target p)) = Some e -> exists f rest', drain_did p l = (e, AFd f) :: rest' /\
    written f (drain_did p l) = messages_of_reads (reads d (faucet_did l)) /\
    concat (written f (drain_did p l)) = concat (reads d (faucet_did l)) /\ In (EFlush f, AOk) (drain_did p l).
Proof.
  intros HW HR Hok. destruct (HW) as (_ & (j & HF) & _ & pj & HD).
  destruct (pr_faucet _ _ _ _ _ _ _ HR) as (_ & s & Es & HX). destruct (pr_drain _ _ _ _ _ _ _ HR) as (_ & s' & Es' & HY).
  rewrite own_seen in HX by lia. cbn [Nat.mul Nat.add] in HX. rewrite own_seen, Nat.add_0_r in HY by lia. fold (faucet_did l) in HX. fold (drain_did p l) in HY.
  destruct (Hok 0 ltac:(lia)) as (n0 & [E0|E0]); rewrite Es in E0; [|discriminate E0]. injection E0 as ->.
  destruct (Hok (S (last_one p)) (le_n _)) as (n1 & [E1|E1]); rewrite Es' in E1; [|discriminate E1]. injection E1 as ->.
  assert (Hend : saw_end (CData (cs (last_one p))) (drain_did p l)).
  { destruct (opened_for (actual_destination (pp_target p))) as [e|] eqn:Eo.
    - pose proof (drain_writes _ _ _ _ _ _ HD Eo HY) as H. destruct (drain_did p l) as [|[e' a] rest]; [destruct H as [_ []]|]. destruct a; try (destruct H as [_ []]; fail). apply H.
    - exact (proj1 (proj2 (drain_null _ _ _ _ _ HD Eo HY))). }
  pose proof (upwards _ _ _ _ _ _ _ HW HR Hok (last_one p) (le_n _)) as HU. unfold reader in HU at 1. rewrite no_part, Nat.sub_diag in HU. fold (drain_did p l) in HU.
  destruct (HU Hend) as (_ & H2 & H3). clear HU. cbn [writer] in H3. fold (faucet_did l) in H3.
  unfold into, out_of, reader in H2. rewrite no_part in H2. cbn [writer] in H2. fold (drain_did p l) (faucet_did l) in H2.
  destruct (faucet_ends _ _ _ _ _ _ HF HX) as (d & r & E & [(G1 & G2)|(_ & m & G)]).
  2:{ exfalso. destruct (found_refused _ _ _ _ G) as (v & K). exact (H3 _ K). }
  exists d, r. split; [exact E|]. split; [exact G2|]. intros e Eo.
  pose proof (drain_writes _ _ _ _ _ _ HD Eo HY) as H. destruct (drain_did p l) as [|[e' a] rest] eqn:Ed; [destruct H as [_ []]|]. destruct a; try (destruct H as [_ []]; fail).
  destruct H as (-> & _ & _ & K1 & _ & K3 & _). exists f, rest. split; [reflexivity|].
  assert (EQ : written f ((e, AFd f) :: rest) = messages_of_reads (reads d (faucet_did l))) by exact (eq_trans K1 (eq_trans H2 G1)).
  split; [exact EQ|]. split; [|exact K3]. exact (eq_trans (f_equal (@concat ascii) EQ) (messages_concat _)).
Qed.
