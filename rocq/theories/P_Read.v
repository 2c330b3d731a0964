(** * P_Read: one read from an input, in terms of what has been read before *)
From Coq Require Import Ascii String List Bool Arith Lia.
From Verif Require Import M_Prog P_Prog P_Exec M_Motion S_Trace S_Lines S_Motion P_Split.
Import ListNotations.

Notation dsplits := (split_at split_control_new).

(** After history [h] the messages [acc] have been taken from [pl0], which is now [pl]. *)
Definition rinv (pl0 : pull) (h : trace) (acc : list bytes) (pl : pull) : Prop :=
  match pl0 with
  | PlReceiver _ n => pl = pl0 /\ datas (taken (CData n) h) = acc
  | PlBytes k j f _ => exists ov, pl = PlBytes k j f (SC dsplits ov) /\
      forall more, gmsgs_of_reads dsplits [] (reads f h ++ more) = acc ++ gmsgs_of_reads dsplits ov more
  | PlMock j q0 => exists q, pl = PlMock j q /\ q0 = acc ++ q
  | PlNone => pl = PlNone /\ acc = []
  end.

Lemma rinv_start pl : fresh_pull pl -> rinv pl [] [] pl.
Proof.
  destruct pl as [k j f sc|j n|j q|]; cbn; intro Hf; subst; auto.
  - exists []. split; [reflexivity|]. intro more. reflexivity.
  - exists q. auto.
Qed.

Lemma rinv_journey pl0 h acc pl : rinv pl0 h acc pl -> pull_journey pl = pull_journey pl0.
Proof. destruct pl0; cbn; firstorder; subst; reflexivity. Qed.

Lemma rinv_prefix pl0 h acc pl : rinv pl0 h acc pl -> prefix acc (got pl0 h).
Proof.
  destruct pl0 as [k j f sc|j n|j q|]; cbn [rinv got].
  - intros (ov & _ & H). specialize (H []). rewrite app_nil_r in H. rewrite <- default_messages, H. now eexists.
  - intros [_ <-]. exists []. now rewrite app_nil_r.
  - intros (q' & _ & ->). now eexists.
  - intros [_ ->]. now exists [].
Qed.

Lemma taken_app c a b : taken c (a ++ b) = taken c a ++ taken c b.
Proof. apply flat_map_app. Qed.
Lemma sent_app c a b : sent c (a ++ b) = sent c a ++ sent c b.
Proof. apply flat_map_app. Qed.
Lemma offered_app c a b : offered c (a ++ b) = offered c a ++ offered c b.
Proof. apply flat_map_app. Qed.
Lemma datas_app a b : datas (a ++ b) = datas a ++ datas b.
Proof. apply flat_map_app. Qed.
Lemma written_app f a b : written f (a ++ b) = written f a ++ written f b.
Proof. apply flat_map_app. Qed.
Lemma attempts_app a b : attempts (a ++ b) = attempts a ++ attempts b.
Proof. apply flat_map_app. Qed.


Lemma no_reads_taken n tr : no_reads tr -> taken (CData n) tr = [].
Proof.
  induction 1 as [|[e a] tr H HF IH]; [reflexivity|].
  change ((e, a) :: tr) with ([(e, a)] ++ tr). rewrite taken_app, IH, app_nil_r.
  destruct e as [c|c|c v| | | | | | | | | | | | | | |]; try reflexivity; destruct c; cbn in H; try discriminate; destruct a; reflexivity.
Qed.
Lemma no_reads_reads f tr : no_reads tr -> reads f tr = [].
Proof.
  induction 1 as [|[e a] tr H HF IH]; [reflexivity|].
  change ((e, a) :: tr) with ([(e, a)] ++ tr). rewrite reads_app, IH, app_nil_r.
  destruct e; try reflexivity; discriminate.
Qed.

Lemma rinv_frame pl0 h acc pl tr : rinv pl0 h acc pl -> no_reads tr -> rinv pl0 (h ++ tr) acc pl.
Proof.
  destruct pl0 as [k j f sc|j n|j q|]; cbn; intros H Hn; auto.
  - destruct H as (ov & -> & H). exists ov. split; [reflexivity|].
    rewrite reads_app, (no_reads_reads _ _ Hn), app_nil_r. exact H.
  - rewrite taken_app, (no_reads_taken _ _ Hn), app_nil_r. exact H.
Qed.

(** The messages [acc] have been taken; of a channel nothing else has. *)
Definition seen (pl0 : pull) (h : trace) (acc : list bytes) : Prop :=
  prefix acc (got pl0 h) /\ (is_chan pl0 -> got pl0 h = acc).

Lemma rinv_seen pl0 h acc pl : rinv pl0 h acc pl -> seen pl0 h acc.
Proof.
  intro H. split; [eapply rinv_prefix; exact H|]. destruct pl0; cbn; try contradiction. intros _. apply H.
Qed.

Definition reads_of (pl0 : pull) (t : bool) (tr : trace) : Prop :=
  Forall (fun ev => read_eff pl0 t = Some (fst ev)) tr.


Lemma chan_eqb_refl c : chan_eqb c c = true.
Proof. destruct c; cbn; apply Nat.eqb_refl. Qed.

Lemma motion_read_step pl0 h acc pl t tr st :
  rinv pl0 h acc pl -> try_ok pl0 t -> exec (motion_read pl t) tr st ->
  reads_of pl0 t tr /\
  match st with
  | At e => read_eff pl0 t = Some e /\ length (got pl0 (h ++ tr)) <= S (length acc) /\ seen pl0 (h ++ tr) acc
  | Panicked _ => False
  | Done (Ok (IOData d), pl') => rinv pl0 (h ++ tr) (acc ++ [d]) pl'
  | Done (Ok Finished, pl') => rinv pl0 (h ++ tr) acc pl' /\ got pl0 (h ++ tr) = acc /\ ended pl0 tr
  | Done (Ok Skipped, pl') => t = true /\ rinv pl0 (h ++ tr) acc pl' /\ (exists e, read_eff pl0 true = Some e /\ tr = [(e, AEmpty)])
  | Done (Err e, pl') => exists j, pull_journey pl0 = Some j /\ e = ReadIOError j /\ seen pl0 (h ++ tr) acc /\ (exists e', read_eff pl0 t = Some e' /\ In (e', AErr) tr)
  end.
Proof.
  intros HI Ht HX. destruct pl0 as [k j f sc|j n|j q0|]; cbn [rinv] in HI.
  - (* bytes *)
    destruct HI as (ov & -> & HI). destruct t; [exfalso; exact (Ht eq_refl)|].
    cbn [motion_read] in HX.
    assert (HA : forall tr st, exec (motion_read_buffer f (SC dsplits ov)) tr st ->
       only_reads f tr /\
       match st with
       | At e => e = ERead f /\ Forall (fun d => d <> []) (reads f tr) /\ fc dsplits (ov ++ concat (reads f tr)) = None
       | Panicked _ => False
       | Done (Some m, sc') => exists ov', sc' = SC dsplits ov' /\
          ((Forall (fun d => d <> []) (reads f tr) /\
     exists e, fc dsplits (ov ++ concat (reads f tr)) = Some e /\
               m = firstn e (ov ++ concat (reads f tr)) /\ ov' = skipn e (ov ++ concat (reads f tr)))
    \/ (exists ds, reads f tr = ds ++ [[]] /\ Forall (fun d => d <> []) ds /\
        m = ov ++ concat ds /\ ov' = [] /\ fc dsplits m = None))
       | Done (None, sc') => Forall (fun d => d <> []) (reads f tr) /\ fc dsplits (ov ++ concat (reads f tr)) = None /\ In (ERead f, AErr) tr
       end).
    { clear HX tr st. intros tr st HX. unfold motion_read_buffer in HX.
      assert (HE : forall p tr st, exec p tr st -> forall ov s, p = read_loop f dsplits ov s ->
         forall ov', st = Done (None, ov') -> In (ERead f, AErr) tr).
      { clear. induction 1 as [a|s|e k|p tr st HX IH|e k a tr st Hwt HX IH]; intros ov s0 Hp ov' Hst;
          rewrite read_loop_eq in Hp; destruct (scan dsplits (skipn s0 ov) s0 s0) as [s' [c|]]; try discriminate.
        - inversion Hp; subst. discriminate.
        - injection Hp as He Hk; subst e k. destruct a; try (exfalso; unfold ill in HX; inversion HX; subst; discriminate).
          + now left.
          + destruct d as [|b d].
            * apply exec_ret_inv in HX. destruct HX as [-> ->]. discriminate.
            * right. eapply IH; eauto. }
      destruct (exec_bind_inv _ _ _ _ HX) as [(t1 & t2 & x & -> & H1 & H2)|[(e & -> & H1)|(s & -> & H1)]];
        pose proof (read_loop_spec dsplits f default_good _ _ _ H1 ov 0 eq_refl (start_ok_0 _ _)) as [Hor HS].
      - destruct x as [r ov']. apply exec_ret_inv in H2. destruct H2 as [-> ->]. rewrite app_nil_r. split; [exact Hor|].
        destruct r as [m|]; cbn in HS.
        + exists ov'. auto.
        + destruct HS as (HS1 & -> & HS2). repeat split; auto.
          eapply HE; [exact H1|reflexivity|reflexivity].
      - auto.
      - auto. }
    destruct (exec_bind_inv _ _ _ _ HX) as [(t1 & t2 & x & -> & H1 & H2)|[(e & -> & H1)|(s & -> & H1)]];
      destruct (HA _ _ H1) as [Hor HS]; clear HA.
    + destruct x as [r sc'].
      assert (Ht2 : t2 = []) by (destruct r; apply exec_ret_inv in H2; tauto). subst t2. rewrite app_nil_r.
      split. { eapply Forall_impl; [|exact Hor]. cbn. intros ev ->. reflexivity. }
      destruct r as [m|]; apply exec_ret_inv in H2; destruct H2 as [_ ->].
      * destruct HS as (ov' & -> & HS). destruct HS as [(Hne & e & Hfc & -> & ->)|(ds & Hrd & Hne & -> & -> & Hfc)].
        -- destruct (fc_pos _ _ _ default_good Hfc) as [He1 He2].
           set (s := ov ++ concat (reads f t1)) in *.
           destruct (do_match_stuff (firstn e s)) as [d| |] eqn:Ed.
           ++ assert (d = firstn e s) as -> by (destruct (firstn e s); cbn in Ed; congruence).
              exists (skipn e s). split; [reflexivity|]. intro more.
              rewrite reads_app, <- app_assoc, HI.
              unfold gmsgs_of_reads at 1. rewrite segments_nonempty by assumption. fold s.
              change (flat_map (gmsgs dsplits) (segments s more)) with (gmsgs_of_reads dsplits s more).
              rewrite (gmsgs_of_reads_cut _ e default_good more s Hfc), <- app_assoc. reflexivity.
           ++ exfalso. destruct (firstn e s) eqn:E; [|discriminate].
              assert (H0 : length (firstn e s) = 0) by now rewrite E. rewrite firstn_length in H0. lia.
           ++ exfalso. destruct (firstn e s); discriminate.
        -- set (s := ov ++ concat ds) in *.
           assert (Hmore : forall more, gmsgs_of_reads dsplits [] (reads f (h ++ t1) ++ more) =
                              acc ++ (match s with [] => [] | _ => [s] end) ++ gmsgs_of_reads dsplits [] more).
           { intro more. rewrite reads_app, Hrd, <- app_assoc, HI. f_equal. unfold gmsgs_of_reads.
             rewrite <- app_assoc, segments_nonempty by assumption. fold s. cbn [segments app flat_map].
             now rewrite gmsgs_nocut. }
           destruct s as [|b s']; cbn [do_match_stuff].
           ++ split; [|split].
              ** exists []. split; [reflexivity|]. intro more. rewrite Hmore. reflexivity.
              ** cbn [got]. rewrite <- default_messages. specialize (Hmore []). cbn in Hmore. rewrite !app_nil_r in Hmore. exact Hmore.
              ** cbn. assert (HIn : In (@nil ascii) (reads f t1)) by (rewrite Hrd; apply in_or_app; right; now left).
                 clear -HIn. unfold reads in HIn. apply in_flat_map in HIn. destruct HIn as ([e a] & HIn & H).
                 destruct e; try contradiction. destruct a; try contradiction.
                 destruct (f =? f0) eqn:E; [|contradiction]. apply Nat.eqb_eq in E; subst.
                 destruct H as [->|[]]. exact HIn.
           ++ exists []. split; [reflexivity|]. intro more. rewrite Hmore, <- app_assoc. reflexivity.
      * exists j. split; [reflexivity|]. split; [reflexivity|]. destruct HS as (Hne & Hfc & HIn). split; [|exists (ERead f); auto].
        split; [|intros []]. cbn [got]. rewrite <- default_messages. rewrite reads_app. specialize (HI (reads f t1)). rewrite HI. now eexists.
    + split. { eapply Forall_impl; [|exact Hor]. cbn. intros ev ->. reflexivity. }
      destruct HS as (-> & Hne & Hfc). split; [reflexivity|].
      cbn [got]. rewrite <- default_messages, reads_app, HI.
      split; [|split; [|intros []]; cbn [got]; rewrite <- default_messages, reads_app, HI; now eexists]. rewrite app_length. 
      replace (reads f tr) with (reads f tr ++ []) by apply app_nil_r.
      unfold gmsgs_of_reads. rewrite segments_nonempty by assumption. cbn [segments flat_map].
      rewrite gmsgs_nocut by assumption. rewrite app_nil_r. destruct (ov ++ concat (reads f tr)); cbn; lia.
    + destruct HS.
  - (* receiver *)
    destruct HI as [-> HI]. cbn [motion_read] in HX. destruct t.
    + destruct (exec_bind_inv _ _ _ _ HX) as [(t1 & t2 & x & -> & H1 & H2)|[(e & -> & H1)|(s & -> & H1)]];
        destruct (try_recv_inv _ _ _ H1) as [[-> E]|[(v & -> & E & Hv)|[[-> E]|[-> E]]]]; try discriminate E; inversion E; subst.
      * destruct v as [d| | | | |]; try discriminate Hv. apply exec_ret_inv in H2; destruct H2 as [-> ->]. cbn.
        split; [repeat constructor|]. split; [reflexivity|]. rewrite taken_app, datas_app. cbn. rewrite Nat.eqb_refl. reflexivity.
      * apply exec_ret_inv in H2; destruct H2 as [-> ->]. cbn.
        split; [repeat constructor|]. split; [reflexivity|]. split; [|eauto].
        split; [reflexivity|]. rewrite taken_app, datas_app. cbn. now rewrite app_nil_r.
      * apply exec_ret_inv in H2; destruct H2 as [-> ->]. cbn.
        split; [repeat constructor|]. rewrite !taken_app, !datas_app. cbn. rewrite app_nil_r.
        repeat split. right. now left.
      * split; [constructor|]. rewrite app_nil_r. split; [reflexivity|]. split; [cbn; lia|]. split; [|reflexivity]. exists []. now rewrite app_nil_r.
    + destruct (exec_bind_inv _ _ _ _ HX) as [(t1 & t2 & x & -> & H1 & H2)|[(e & -> & H1)|(s & -> & H1)]];
        destruct (recv_data_inv _ _ _ H1) as [[-> E]|[(d & -> & E)|[-> E]]]; try discriminate E; inversion E; subst.
      * apply exec_ret_inv in H2; destruct H2 as [-> ->]. cbn.
        split; [repeat constructor|]. split; [reflexivity|]. rewrite taken_app, datas_app. cbn. rewrite Nat.eqb_refl. reflexivity.
      * apply exec_ret_inv in H2; destruct H2 as [-> ->]. cbn.
        split; [repeat constructor|]. rewrite !taken_app, !datas_app. cbn. rewrite app_nil_r.
        repeat split. left. now left.
      * split; [constructor|]. rewrite app_nil_r. split; [reflexivity|]. split; [cbn; lia|]. split; [|reflexivity]. exists []. now rewrite app_nil_r.
  - (* mock *)
    destruct HI as (q & -> & ->). cbn [motion_read] in HX.
    destruct q as [|d q]; apply exec_ret_inv in HX; destruct HX as [-> ->]; cbn; split; try (constructor).
    + exists []. auto.
    + rewrite app_nil_r. auto.
    + exists q. rewrite <- app_assoc. auto.
  - destruct HI as [-> ->]. cbn [motion_read] in HX. destruct t; [exfalso; exact (Ht eq_refl)|].
    apply exec_ret_inv in HX; destruct HX as [-> ->]. cbn. split; [constructor|auto].
Qed.
