(** * P_Loop: the copy loop *)
From Coq Require Import Ascii String List Bool Arith Lia.
From Verif Require Import M_Prog P_Prog P_Exec M_Motion S_Trace S_Lines S_Motion P_Split P_Read P_Motion P_Worker P_Flow.
Import ListNotations.


Lemma only_closing_attempts tr : only_closing tr -> attempts tr = [].
Proof.
  induction 1 as [|[e a] tr H HF IH]; [reflexivity|].
  change ((e, a) :: tr) with ([(e, a)] ++ tr). rewrite attempts_app, IH, app_nil_r. cbn in H. destruct e; try contradiction; reflexivity.
Qed.
Lemma only_closing_no_reads tr : only_closing tr -> no_reads tr.
Proof. apply Forall_impl. intros [e a]. cbn. destruct e; try contradiction; reflexivity. Qed.
Lemma only_closing_app a b : only_closing a -> only_closing b -> only_closing (a ++ b).
Proof. intros H1 H2. apply Forall_app. auto. Qed.

Section Frames.
Variables (pl0 : pull) (pushs0 : list push).

Lemma fin_frame h l tr : fin pl0 pushs0 h l -> no_reads tr -> attempts tr = [] -> fin pl0 pushs0 (h ++ tr) l.
Proof.
  intros (H1 & H2 & H3) Hn Ha. split; [now rewrite attempts_output_other|]. split; [now rewrite got_frame|now apply ended_app].
Qed.
Lemma mid_frame h l d done rest os tr : mid pl0 pushs0 h l d done rest os -> no_reads tr -> attempts tr = [] -> mid pl0 pushs0 (h ++ tr) l d done rest os.
Proof.
  intros (H1 & H2 & H3 & H4 & H5) Hn Ha. split; [now rewrite attempts_output_other|]. repeat split; auto; apply (seen_frame _ _ _ _ H5 Hn).
Qed.
Lemma all_closed_frame h l d os tr : all_closed pl0 pushs0 h l d os -> no_reads tr -> attempts tr = [] -> all_closed pl0 pushs0 (h ++ tr) l d os.
Proof. intros [H1 H2] Hn Ha. split; [now apply mid_frame|exact H2]. Qed.
Lemma at_read_frame h l tr : at_read pl0 pushs0 h l -> no_reads tr -> attempts tr = [] -> at_read pl0 pushs0 (h ++ tr) l.
Proof. intros [H1 H2] Hn Ha. split; [now rewrite attempts_output_other|now apply seen_frame]. Qed.
Lemma failed_frame t h err tr : failed pl0 pushs0 t h err -> only_closing tr -> failed pl0 pushs0 t (h ++ tr) err.
Proof.
  intros (l & HO & H) Hc. pose proof (only_closing_no_reads _ Hc) as Hn. pose proof (only_closing_attempts _ Hc) as Ha.
  exists l. split; [exact HO|].
  destruct H as [(H & j & Hj & He & e' & He' & HIn)|[(d & done & p & rest & os & o & H1 & H2 & H3 & H4 & H5 & H6 & H7 & h0 & post & -> & Hpost)|([(d & done & rest & os & H)|H] & H')]].
  - left. split; [now apply at_read_frame|]. exists j. repeat split; auto. exists e'. split; [exact He'|]. apply in_or_app; auto.
  - right; left. exists d, done, p, rest, os, o. split; [now rewrite attempts_output_other|].
    split; [exact H2|]. split; [exact H3|]. split; [exact H4|]. split; [exact H5|]. split; [exact H6|]. split; [now apply seen_frame|].
    exists h0, (post ++ tr). rewrite <- !app_assoc. split; [reflexivity|now apply only_closing_app].
  - right; right. split; [|exact H']. left. exists d, done, rest, os. now apply mid_frame.
  - right; right. split; [|exact H']. right. now apply fin_frame.
Qed.
Lemma LI_frame h l pl pushs tr : LI pl0 pushs0 h l pl pushs -> no_reads tr -> attempts tr = [] -> LI pl0 pushs0 (h ++ tr) l pl pushs.
Proof.
  intros (H1 & H2 & H3 & H4) Hn Ha. split; [now apply rinv_frame|]. split; [exact H2|]. split; [now rewrite attempts_output_other|exact H4].
Qed.
End Frames.

(** The output has been closed or flushed. *)
Definition shut (p : push) (tr : trace) : Prop :=
  match p with
  | PsSender _ n | PsIoSender _ n => In (EClose (CData n), AOk) tr
  | PsBytes _ _ f => In (EFlush f, AOk) tr
  | _ => True
  end.
Lemma shut_app p a b : shut p a \/ shut p b -> shut p (a ++ b).
Proof. destruct p; cbn; auto; rewrite in_app_iff; tauto. Qed.

Lemma close_all_sat pushs : forall h,
  sat h (close_all pushs) (fun h' e => exists tr, h' = h ++ tr /\ only_closing tr /\ closing_eff e)
    (fun h' r => exists tr, h' = h ++ tr /\ only_closing tr /\
       match r with Ok _ => Forall (fun p => shut p tr) pushs | Err e => exists j p, e = CloseIOError j /\ In p pushs /\ push_journey p = Some j end).
Proof.
  induction pushs as [|p rest IH]; intro h; cbn [close_all].
  - apply sat_ret. exists []. rewrite app_nil_r. repeat split; constructor.
  - apply sat_bind.
    assert (HC : sat h (motion_close p) (fun h' e => exists tr, h' = h ++ tr /\ only_closing tr /\ closing_eff e)
      (fun h' r => exists tr, h' = h ++ tr /\ only_closing tr /\
        match r with Ok _ => shut p tr | Err e => exists j, e = CloseIOError j /\ push_journey p = Some j end)).
    { destruct p as [j q|k j f|j n|j n|]; cbn [motion_close].
      - apply sat_ret. exists []. rewrite app_nil_r. repeat split; constructor.
      - intros tr st HX. destruct (exec_bind_inv _ _ _ _ HX) as [(u1 & u2 & x & -> & H1 & H2)|[(e & -> & H1)|(s' & -> & H1)]];
          destruct (flush_inv _ _ _ H1) as [[-> E]|[[-> E]|[-> E]]]; try discriminate E; inversion E; subst.
        + apply exec_ret_inv in H2; destruct H2 as [-> ->]. exists [(EFlush f, AOk)]. repeat split; repeat constructor.
        + apply exec_ret_inv in H2; destruct H2 as [-> ->]. exists [(EFlush f, AErr)]. repeat split; repeat constructor. eauto.
        + exists []. repeat split; constructor.
      - intros tr st HX. destruct (exec_bind_inv _ _ _ _ HX) as [(u1 & u2 & x & -> & H1 & H2)|[(e & -> & H1)|(s' & -> & H1)]];
          destruct (close_inv _ _ _ H1) as [[-> E]|[-> E]]; try discriminate E; inversion E; subst.
        + apply exec_ret_inv in H2; destruct H2 as [-> ->]. eexists. repeat split; repeat constructor.
        + exists []. repeat split; constructor.
      - intros tr st HX. destruct (exec_bind_inv _ _ _ _ HX) as [(u1 & u2 & x & -> & H1 & H2)|[(e & -> & H1)|(s' & -> & H1)]];
          destruct (close_inv _ _ _ H1) as [[-> E]|[-> E]]; try discriminate E; inversion E; subst.
        + apply exec_ret_inv in H2; destruct H2 as [-> ->]. eexists. repeat split; repeat constructor.
        + exists []. repeat split; constructor.
      - apply sat_ret. exists []. rewrite app_nil_r. repeat split; constructor. }
    eapply sat_conseq; [exact HC|cbn; auto|].
    intros h' r (tr & -> & Hoc & Hr). destruct r as [[]|e].
    + eapply sat_conseq; [apply IH| |].
      * intros h'' e (tr' & -> & H1 & H2). exists (tr ++ tr'). rewrite app_assoc. repeat split; auto. now apply only_closing_app.
      * intros h'' r (tr' & -> & H1 & H2). exists (tr ++ tr'). rewrite app_assoc. split; [reflexivity|]. split; [now apply only_closing_app|].
        destruct r as [[]|e].
        -- constructor; [apply shut_app; auto|]. eapply Forall_impl; [|exact H2]. intros q Hq. cbn in Hq. apply shut_app; auto.
        -- destruct H2 as (j & q & -> & Hq & Hj). exists j, q. split; [reflexivity|]. split; [now right|exact Hj].
    + apply sat_ret. exists tr. split; [reflexivity|]. split; [exact Hoc|].
      destruct Hr as (j & -> & Hj). exists j, p. split; [reflexivity|]. split; [now left|exact Hj].
Qed.

Lemma close_mon_sat m h :
  sat h (close_mon m) (fun h' e => exists tr, h' = h ++ tr /\ only_closing tr /\ closing_eff e)
    (fun h' _ => exists tr, h' = h ++ tr /\ only_closing tr /\ match m with Some c => In (EClose (CMon c), AOk) tr | None => True end).
Proof.
  destruct m as [c|]; cbn [close_mon].
  - intros tr st HX. destruct (close_inv _ _ _ HX) as [[-> ->]|[-> ->]].
    + exists []. repeat split; constructor.
    + eexists. repeat split; repeat constructor.
  - apply sat_ret. exists []. rewrite app_nil_r. repeat split; constructor.
Qed.

Lemma pull_released_app p a b : pull_released p a \/ pull_released p b -> pull_released p (a ++ b).
Proof. destruct p; cbn; unfold closed_by; auto; rewrite in_app_iff; tauto. Qed.
Lemma push_released_app p a b : push_released p a \/ push_released p b -> push_released p (a ++ b).
Proof. destruct p; cbn; unfold closed_by; auto; rewrite in_app_iff; tauto. Qed.

Definition closing_from (h : trace) (h' : trace) (e : eff) : Prop := exists tr, h' = h ++ tr /\ only_closing tr /\ closing_eff e.

Lemma drop_pull_sat pl h :
  sat h (drop_pull pl) (closing_from h) (fun h' _ => exists tr, h' = h ++ tr /\ only_closing tr /\ pull_released pl tr).
Proof.
  destruct pl as [k j f sc|j n|j q|]; cbn [drop_pull].
  - intros tr st HX. destruct (drop_fd_inv _ _ _ HX) as [[-> ->]|[-> ->]]; eexists; repeat split; repeat constructor.
  - intros tr st HX. destruct (close_inv _ _ _ HX) as [[-> ->]|[-> ->]]; eexists; repeat split; repeat constructor.
  - apply sat_ret. exists []. rewrite app_nil_r. repeat split; constructor.
  - apply sat_ret. exists []. rewrite app_nil_r. repeat split; constructor.
Qed.
Lemma drop_push_sat p h :
  sat h (drop_push p) (closing_from h) (fun h' _ => exists tr, h' = h ++ tr /\ only_closing tr /\ push_released p tr).
Proof.
  destruct p as [j q|k j f|j n|j n|]; cbn [drop_push].
  - apply sat_ret. exists []. rewrite app_nil_r. repeat split; constructor.
  - intros tr st HX. destruct (drop_fd_inv _ _ _ HX) as [[-> ->]|[-> ->]]; eexists; repeat split; repeat constructor.
  - intros tr st HX. destruct (close_inv _ _ _ HX) as [[-> ->]|[-> ->]]; eexists; repeat split; repeat constructor.
  - intros tr st HX. destruct (close_inv _ _ _ HX) as [[-> ->]|[-> ->]]; eexists; repeat split; repeat constructor.
  - apply sat_ret. exists []. rewrite app_nil_r. repeat split; constructor.
Qed.

(** Sequencing programs that only close. *)
Lemma sat_closing_bind {A B} h0 h (p : prog A) (k : A -> prog B) P (Q : trace -> B -> Prop) :
  (exists t, h = h0 ++ t /\ only_closing t) ->
  sat h p (closing_from h) (fun h' a => exists tr, h' = h ++ tr /\ only_closing tr /\ P tr a) ->
  (forall tr a, only_closing tr -> P tr a -> sat (h ++ tr) (k a) (closing_from h0) Q) ->
  sat h (bind p k) (closing_from h0) Q.
Proof.
  intros (t & -> & Ht) Hp Hk. apply sat_bind. eapply sat_conseq; [exact Hp| |].
  - intros h' e (tr & -> & H1 & H2). exists (t ++ tr). rewrite app_assoc. repeat split; auto. now apply only_closing_app.
  - intros h' a (tr & -> & H1 & H2). apply Hk; assumption.
Qed.

Lemma drop_pushes_sat pushs : forall h,
  sat h (drop_pushes pushs) (closing_from h) (fun h' _ => exists tr, h' = h ++ tr /\ only_closing tr /\ Forall (fun p => push_released p tr) pushs).
Proof.
  induction pushs as [|p rest IH]; intro h; cbn [drop_pushes].
  - apply sat_ret. exists []. rewrite app_nil_r. repeat split; constructor.
  - eapply sat_closing_bind with (P := fun tr _ => push_released p tr).
    + exists []. rewrite app_nil_r. split; [reflexivity|constructor].
    + apply drop_push_sat.
    + intros tr _ Hoc Hp. eapply sat_conseq; [apply IH| |].
      * intros h' e (tr' & -> & H1 & H2). exists (tr ++ tr'). rewrite app_assoc. repeat split; auto. now apply only_closing_app.
      * intros h' r (tr' & -> & H1 & H2). exists (tr ++ tr'). rewrite app_assoc. split; [reflexivity|]. split; [now apply only_closing_app|].
        constructor; [apply push_released_app; auto|]. eapply Forall_impl; [|exact H2]. intros q Hq. cbn in Hq. apply push_released_app; auto.
Qed.
Lemma drop_pulls_sat pulls : forall h,
  sat h (drop_pulls pulls) (closing_from h) (fun h' _ => exists tr, h' = h ++ tr /\ only_closing tr /\ Forall (fun p => pull_released p tr) pulls).
Proof.
  induction pulls as [|p rest IH]; intro h; cbn [drop_pulls].
  - apply sat_ret. exists []. rewrite app_nil_r. repeat split; constructor.
  - eapply sat_closing_bind with (P := fun tr _ => pull_released p tr).
    + exists []. rewrite app_nil_r. split; [reflexivity|constructor].
    + apply drop_pull_sat.
    + intros tr _ Hoc Hp. eapply sat_conseq; [apply IH| |].
      * intros h' e (tr' & -> & H1 & H2). exists (tr ++ tr'). rewrite app_assoc. repeat split; auto. now apply only_closing_app.
      * intros h' r (tr' & -> & H1 & H2). exists (tr ++ tr'). rewrite app_assoc. split; [reflexivity|]. split; [now apply only_closing_app|].
        constructor; [apply pull_released_app; auto|]. eapply Forall_impl; [|exact H2]. intros q Hq. cbn in Hq. apply pull_released_app; auto.
Qed.

Lemma erase_released p p' tr : erase p = erase p' -> push_released p tr -> push_released p' tr.
Proof. destruct p, p'; cbn; intro E; inversion E; auto. Qed.
Lemma erase_shut p p' tr : erase p = erase p' -> shut p tr -> shut p' tr.
Proof. destruct p, p'; cbn; intro E; inversion E; auto. Qed.
Lemma Forall_erase (P : push -> Prop) pushs : forall pushs', (forall p p', erase p = erase p' -> P p -> P p') ->
  map erase pushs = map erase pushs' -> Forall P pushs -> Forall P pushs'.
Proof.
  intros pushs' HP E HF. revert pushs' E. induction HF as [|p ps Hp HF IH]; intros [|p' ps'] E; try discriminate; constructor.
  - inversion E. eapply HP; eauto.
  - inversion E. now apply IH.
Qed.

(** ** [motion] *)
Section Motion.
Variables (pl0 : pull) (ps : push) (mon : notifications) (spy : option nat).
Hypothesis Hfresh : fresh_pull pl0.
Hypothesis Hmon : pull_journey pl0 <> None \/ mon = mn_empty.

(** Between the last message and the end. *)
Definition over (h : trace) (n : nat) : Prop :=
  exists l, Forall (round_ok [ps]) l /\ n = S (length l) /\ (fin pl0 [ps] h l \/ exists d os, all_closed pl0 [ps] h l d os).

Definition motion_now (h : trace) (e : eff) : Prop :=
  now pl0 [ps] false h e \/ (closing_eff e /\ exists n, over h n).

Definition loop_ok (h : trace) (r : mres nat) : Prop :=
  match r with
  | Ok n => over h n /\ shut ps h
  | Err e => failed pl0 [ps] false h e \/ (exists n j, over h n /\ push_journey ps = Some j /\ e = CloseIOError j)
  end.

Definition loop_post (h : trace) (x : mres nat * pull * list push) : Prop :=
  let '(r, pl, pushs) := x in
  read_eff pl false = read_eff pl0 false /\ map erase pushs = map erase [ps] /\ loop_ok h r.

Lemma over_frame h n tr : over h n -> no_reads tr -> attempts tr = [] -> over (h ++ tr) n.
Proof.
  intros (l & H1 & H2 & H3) Hn Ha. exists l. split; [exact H1|]. split; [exact H2|].
  destruct H3 as [H3|(d & os & H3)]; [left; now apply fin_frame|right; exists d, os; now apply all_closed_frame].
Qed.

Lemma no_try : try_ok pl0 false.
Proof. intro H; discriminate. Qed.

Lemma motion_loop : sat [] (iter (motion_body mon spy) (pl0, [ps], 0)) motion_now loop_post.
Proof.
  apply sat_iter with (Inv := fun h (s : motion_state) => let '(pl, pushs, n) := s in exists l, LI pl0 [ps] h l pl pushs /\ n = length l).
  2:{ exists []. split; [|reflexivity]. split; [now apply rinv_start|]. repeat split; constructor. }
  intros h [[pl pushs] n] (l & HL & ->). unfold motion_body. apply sat_bind.
  eapply sat_conseq; [apply (worker_flow pl0 [ps] h l pl pushs mon spy false HL no_try Hmon)| |].
  { intros h' e H. left. exact H. }
  intros h' [[r pl'] pushs'] (Hj & Hre & He & Hpost).
  destruct r as [[finished rd]|e]; cbn [wr_read wr_finished].
  2:{ apply sat_ret. split; [exact Hre|]. split; [exact He|]. left. exact Hpost. }
  destruct finished, rd.
  - assert (Hover : over h' (S (length l))).
    { exists l. split; [apply HL|]. split; [reflexivity|]. destruct Hpost as [[Hf _]|Hc]; auto. }
    apply sat_bind. eapply sat_conseq; [apply close_all_sat| |].
    { intros h2 e (tr & -> & H1 & H2). right. split; [exact H2|]. exists (S (length l)).
      apply over_frame; [exact Hover|now apply only_closing_no_reads|now apply only_closing_attempts]. }
    intros h2 c (tr & -> & Hoc & Hc). destruct c as [[]|e].
    + apply sat_bind. eapply sat_conseq; [apply close_mon_sat| |].
      { intros h3 e (tr3 & -> & H1 & H2). right. split; [exact H2|]. exists (S (length l)). rewrite <- app_assoc.
        pose proof (only_closing_app _ _ Hoc H1) as H12.
        apply over_frame; [exact Hover|now apply only_closing_no_reads|now apply only_closing_attempts]. }
      intros h3 _ (tr3 & -> & Hoc3 & _). apply sat_bind. eapply sat_conseq; [apply close_mon_sat| |].
      { intros h4 e (tr4 & -> & H1 & H2). right. split; [exact H2|]. exists (S (length l)). rewrite <- !app_assoc.
        pose proof (only_closing_app _ _ Hoc (only_closing_app _ _ Hoc3 H1)) as H12.
        apply over_frame; [exact Hover|now apply only_closing_no_reads|now apply only_closing_attempts]. }
      intros h4 _ (tr4 & -> & Hoc4 & _). apply sat_ret. split; [exact Hre|]. split; [exact He|].
      rewrite <- !app_assoc. pose proof (only_closing_app _ _ Hoc (only_closing_app _ _ Hoc3 Hoc4)) as H12.
      split; [apply over_frame; [exact Hover|now apply only_closing_no_reads|now apply only_closing_attempts]|].
      apply shut_app. right. apply shut_app. left.
      assert (HF : Forall (fun p => shut p tr) [ps]) by (eapply (Forall_erase _ pushs'); [intros p p'; apply erase_shut|exact He|exact Hc]).
      now inversion HF.
    + apply sat_ret. split; [exact Hre|]. split; [exact He|]. right. exists (S (length l)).
      destruct Hc as (j & p & -> & HIn & Hjp).
      exists j. split; [apply over_frame; [exact Hover|now apply only_closing_no_reads|now apply only_closing_attempts]|].
      split; [|reflexivity]. destruct pushs' as [|q [|]]; try discriminate He. destruct HIn as [->|[]].
      cbn in He. inversion He as [Hq]. rewrite <- Hjp. symmetry. now apply erase_journey.
  - destruct Hpost.
  - destruct Hpost as (d & os & HL'). apply sat_ret. exists (l ++ [(d, os)]). split; [exact HL'|].
    rewrite app_length. cbn. lia.
  - destruct Hpost as [Hf _]. discriminate Hf.
Qed.

Definition motion_done (h : trace) (r : mres nat) : Prop :=
  loop_ok h r /\ pull_released pl0 h /\ push_released ps h /\
  (forall c, mon_read mon = Some c -> closed_by (CMon c) h) /\ (forall c, mon_written mon = Some c -> closed_by (CMon c) h).

Lemma shut_app_l p a b : shut p a -> shut p (a ++ b).
Proof. intro; apply shut_app; auto. Qed.

Lemma loop_ok_frame h r tr : loop_ok h r -> only_closing tr -> loop_ok (h ++ tr) r.
Proof.
  intros H Hc. pose proof (only_closing_no_reads _ Hc) as Hn. pose proof (only_closing_attempts _ Hc) as Ha. revert H.
  destruct r as [n|e]; cbn.
  - intros [H1 H2]. split; [now apply over_frame|now apply shut_app_l].
  - intros [H|(n & j & H & Hj & ->)]; [left; now apply failed_frame|right]. exists n, j. split; [now apply over_frame|auto].
Qed.

(** Dropping. *)
Definition dropping (h : trace) (e : eff) : Prop :=
  closing_eff e /\ exists h0 r tr, h = h0 ++ tr /\ only_closing tr /\ loop_ok h0 r.

Lemma pull_released_eff pl tr : read_eff pl false = read_eff pl0 false -> pull_released pl tr -> pull_released pl0 tr.
Proof. destruct pl, pl0; cbn; intro E; inversion E; auto. Qed.

Lemma motion_sat : sat [] (motion pl0 mon spy ps) (fun h e => motion_now h e \/ dropping h e) motion_done.
Proof.
  unfold motion. apply sat_bind. eapply sat_conseq; [apply motion_loop|cbn; auto|].
  intros h [[r pl] pushs] (Hre & He & Hok).
  apply sat_conseq with (N := closing_from h) (Q := fun h' r' => r' = r /\ exists tr, h' = h ++ tr /\ only_closing tr /\ pull_released pl tr /\ Forall (fun p => push_released p tr) pushs /\
     (match mon_read mon with Some c => In (EClose (CMon c), AOk) tr | None => True end) /\ (match mon_written mon with Some c => In (EClose (CMon c), AOk) tr | None => True end)).
  - eapply sat_closing_bind with (P := fun tr _ => pull_released pl tr);
      [exists []; rewrite app_nil_r; split; [reflexivity|constructor]|apply drop_pull_sat|].
    intros t1 _ Ho1 H1.
    eapply sat_closing_bind with (P := fun tr _ => Forall (fun p => push_released p tr) pushs); [eauto|apply drop_pushes_sat|].
    intros t2 _ Ho2 H2. rewrite <- app_assoc.
    eapply sat_closing_bind with (P := fun tr _ => match mon_read mon with Some c => In (EClose (CMon c), AOk) tr | None => True end);
      [eexists; split; [reflexivity|now apply only_closing_app]|apply close_mon_sat|].
    intros t3 _ Ho3 H3. rewrite <- !app_assoc.
    eapply sat_closing_bind with (P := fun tr _ => match mon_written mon with Some c => In (EClose (CMon c), AOk) tr | None => True end);
      [eexists; split; [reflexivity|repeat apply only_closing_app; assumption]|apply close_mon_sat|].
    intros t4 _ Ho4 H4. rewrite <- !app_assoc. apply sat_ret. split; [reflexivity|].
    eexists. split; [reflexivity|]. split; [repeat apply only_closing_app; assumption|].
    split; [apply pull_released_app; auto|]. split.
    { eapply Forall_impl; [|exact H2]. intros p Hp. cbn in Hp. apply push_released_app. right. apply push_released_app. auto. }
    split.
    + destruct (mon_read mon); [|exact I]. rewrite !in_app_iff. auto.
    + destruct (mon_written mon); [|exact I]. rewrite !in_app_iff. auto.
  - intros h' e (tr & -> & H1 & H2). right. split; [exact H2|]. exists h, r, tr. auto.
  - intros h' r' (-> & tr & -> & Hoc & H1 & H2 & H3 & H4).
    split; [apply loop_ok_frame; assumption|].
    split; [apply pull_released_app; right; eapply pull_released_eff; eassumption|].
    split.
    { apply push_released_app. right.
      assert (HF : Forall (fun p => push_released p tr) [ps]) by (eapply (Forall_erase _ pushs); [intros p p'; apply erase_released|exact He|exact H2]).
      now inversion HF. }
    unfold closed_by. split; intros c Hc.
    + rewrite Hc in H3. apply in_or_app; auto.
    + rewrite Hc in H4. apply in_or_app; auto.
Qed.

End Motion.
