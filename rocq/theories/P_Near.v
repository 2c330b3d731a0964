(** * P_Near: within a pass the controller hears at most one size from each buffer *)
From Coq Require Import Ascii String List Bool Arith Lia.
From Verif Require Import M_Prog P_Prog P_Exec M_Motion M_BackOff M_Utils M_Regulator M_Manager S_Trace S_World S_Regulator.
From Verif Require Import P_Read P_World P_Machine P_Manager.
Import ListNotations.

Lemma sat_and {A} h (p : prog A) (N1 N2 : trace -> eff -> Prop) (Q1 Q2 : trace -> A -> Prop) : sat h p N1 Q1 -> sat h p N2 Q2 -> sat h p (fun h e => N1 h e /\ N2 h e) (fun h a => Q1 h a /\ Q2 h a).
Proof. intros H1 H2 tr st HX. specialize (H1 _ _ HX). specialize (H2 _ _ HX). destruct st; auto. Qed.

Section Near.
Variables (low high c : nat) (chans : list nat).
Hypothesis Hnd : NoDup chans.
Local Notation settled := (settled low high c chans).
Local Notation held := (held chans).
Definition top : nat := Nat.max (S low) high.

Definition calm_before (h : trace) : Prop := told_to_pause c h = false -> level chans h < top.
Definition near (h : trace) : Prop :=
  ~ closed_by (CCtl c) h /\ exists h0 t, h = h0 ++ t /\ calm_before h0 /\ signals c t = 0 /\ forall n, length (taken (CSize n) t) <= 1.
Definition near_now (h : trace) (e : eff) : Prop := near h.

Lemma settled_calm h : settled h -> calm_before h.
Proof. unfold S_Regulator.settled, calm_before, top. intros H E. rewrite E in H. lia. Qed.
Lemma near_at h : ~ closed_by (CCtl c) h -> calm_before h -> near h.
Proof. intros H0 H. split; [exact H0|]. exists h, []. rewrite app_nil_r. cbn. auto. Qed.
Lemma near_quiet h ev : near h -> (forall n, taken (CSize n) [ev] = []) -> signals c [ev] = 0 -> ev <> (EClose (CCtl c), AOk) -> near (h ++ [ev]).
Proof.
  intros [H0 (h0 & t & -> & Hc & Hs & Ht)] H1 H2 H3. split.
  - unfold closed_by. rewrite in_app_iff. intros [H|[H|[]]]; [exact (H0 H)|congruence].
  - exists h0, (t ++ [ev]). rewrite app_assoc. split; [reflexivity|]. split; [exact Hc|]. split; [rewrite signals_app; lia|]. intro n. rewrite taken_app, H1, app_nil_r. apply Ht.
Qed.
Lemma near_closes t : forall h, near h -> Forall plain_close t -> near (h ++ t).
Proof.
  induction t as [|ev t IH]; intros h H HF; [now rewrite app_nil_r|]. inversion HF as [|x l Hx Hl]; subst.
  change (ev :: t) with ([ev] ++ t). rewrite app_assoc. apply IH; [|exact Hl]. destruct ev as [[| | |[]| | | | | | | | | | | | | |] a]; try contradiction Hx. apply near_quiet; auto. discriminate.
Qed.

Definition poll_after (h0 : trace) (h' : trace) : Prop := exists t, h' = h0 ++ t /\ signals c t = 0 /\ forall n, length (taken (CSize n) t) <= 1.
Lemma poll_near h0 : ~ closed_by (CCtl c) h0 -> calm_before h0 -> forall ms t i rm total reads, NoDup (map bm_chan ms) -> signals c t = 0 -> ~ closed_by (CCtl c) t -> (forall n, length (taken (CSize n) t) <= 1) ->
  (forall n, In n (map bm_chan ms) -> taken (CSize n) t = []) ->
  sat (h0 ++ t) (poll_monitors ms i rm total reads) near_now (fun h' _ => poll_after h0 h' /\ ~ closed_by (CCtl c) h').
Proof.
  intros Hc0 Hcalm. induction ms as [|m ms IH]; intros t i rm total reads Hd Hs Hcl Ht Hnone.
  { cbn. apply sat_ret. split; [exists t; auto|]. unfold closed_by. rewrite in_app_iff. intros [H|H]; [exact (Hc0 H)|exact (Hcl H)]. }
  cbn [map] in Hd. inversion Hd as [|x l Hx Hd']; subst. cbn [poll_monitors]. apply sat_bind. unfold try_recv. apply sat_vis.
  { split; [unfold closed_by; rewrite in_app_iff; intros [H|H]; [exact (Hc0 H)|exact (Hcl H)]|]. exists h0, t. auto. }
  intros a Ha. rewrite <- app_assoc. set (ev := (ETryRecv (CSize (bm_chan m)), a)).
  assert (HIH : forall rm' total' reads', sat (h0 ++ t ++ [ev]) (poll_monitors ms (S i) rm' total' reads') near_now (fun h' _ => poll_after h0 h' /\ ~ closed_by (CCtl c) h')).
  { intros. apply IH; [exact Hd'| | | |].
    - rewrite signals_app, Hs. reflexivity.
    - unfold closed_by. rewrite in_app_iff. intros [H|[H|[]]]; [exact (Hcl H)|discriminate H].
    - intro n. rewrite taken_app, app_length. unfold ev. rewrite taken_size_one. destruct (Nat.eq_dec n (bm_chan m)) as [->|D].
      + rewrite Hnone by now left. destruct a; cbn; try lia. destruct (_ =? _); cbn; lia.
      + specialize (Ht n). destruct a; cbn; try lia. apply Nat.eqb_neq in D. rewrite D. cbn. lia.
    - intros n Hn. rewrite taken_app. rewrite Hnone by now right. unfold ev. rewrite taken_size_one. destruct a; try reflexivity. destruct (n =? bm_chan m) eqn:E; [|reflexivity]. apply Nat.eqb_eq in E. subst n. contradiction. }
  destruct a as [v| | | | | | | | | |]; try discriminate Ha; try (destruct v; try discriminate Ha); apply sat_ret; apply sat_bind; (eapply sat_conseq; [apply HIH|auto|]); intros h' [[[ms' rm1] tot] rd] HP; apply sat_ret; exact HP.
Qed.

Lemma pause_near cond rc shut h : rc = RC shut c -> shut = told_to_pause c h -> (cond = true -> shut = false) -> near h ->
  sat h (pause_if cond rc shut) near_now (fun h' _ => near h').
Proof.
  intros -> Hs Hc HN. unfold pause_if. destruct cond; [|now apply sat_ret]. rewrite (Hc eq_refl) in *. unfold rc_pause. cbn [rc_paused rc_control]. apply sat_bind. apply sat_bind. unfold send. apply sat_vis; [exact HN|].
  intros a Ha. assert (H : near (h ++ [(ESend (CCtl c) VUnit, a)])).
  { apply near_at; [|unfold calm_before; rewrite told_step, <- Hs; discriminate]. unfold closed_by. rewrite in_app_iff. intros [H|[H|[]]]; [exact (proj1 HN H)|discriminate H]. }
  destruct a; try discriminate Ha; apply sat_ret; apply sat_ret; apply sat_ret; exact H.
Qed.
Lemma resume_near cond rc shut h : rc = RC shut c -> (cond = true -> shut = true /\ level chans h <= low) -> near h ->
  sat h (resume_if cond rc shut) near_now (fun h' _ => near h').
Proof.
  intros -> Hc HN. unfold resume_if. destruct cond; [|now apply sat_ret]. destruct (Hc eq_refl) as [-> Hl]. unfold rc_resume. cbn [rc_paused rc_control negb]. apply sat_bind. apply sat_bind. unfold send. apply sat_vis; [exact HN|].
  intros a Ha. assert (H : near (h ++ [(ESend (CCtl c) VUnit, a)])).
  { apply near_at; [|intros _; rewrite no_size_level by exact I; unfold top; lia]. unfold closed_by. rewrite in_app_iff. intros [H|[H|[]]]; [exact (proj1 HN H)|discriminate H]. }
  destruct a; try discriminate Ha; apply sat_ret; apply sat_ret; apply sat_ret; exact H.
Qed.

Definition ninv (h : trace) (s : mstate) : Prop := minv low high c chans h s /\ ~ closed_by (CCtl c) h.
Lemma body_near h s : ninv h s -> sat h (manage_body low high s) near_now (fun h' r => match r with inl s' => ninv h' s' | inr n => True end).
Proof.
  intros [HM Hcl]. pose proof (body_sat low high c chans Hnd h s HM) as HB.
  enough (HN : sat h (manage_body low high s) near_now (fun h' r => match r with inl s' => ~ closed_by (CCtl c) h' | inr n => True end)).
  { eapply sat_conseq; [exact (sat_and _ _ _ _ _ _ HN HB)|intros h' e [H _]; exact H|]. intros h' [s'|n] [H1 H2]; [split; assumption|exact I]. }
  clear HB. destruct HM as (Hheld & Hlg & Hsz & Hrc & Hsh & Hset & Hcnt). unfold manage_body.
  assert (Hndh : NoDup (held h)) by (apply NoDup_filter; exact Hnd).
  assert (Hww : watched chans h = map bm_chan (ms_monitors s)) by (rewrite <- held_level by exact Hlg; exact Hheld).
  apply sat_bind. eapply sat_conseq; [apply sat_and; [apply (poll_sat low high c chans Hnd (ms_monitors s) h 0 [] 0 0 []); auto|pose proof (poll_near h Hcl (settled_calm _ Hset) (ms_monitors s) [] 0 [] 0 0) as HP; rewrite app_nil_r in HP; apply HP]| |].
  { intros m Hm. split; [|now apply Hsz]. assert (HI : In (bm_chan m) (held h)) by (rewrite Hheld; now apply in_map).
    unfold S_Regulator.held in HI. apply filter_In in HI. destruct HI as [HI1 HI2]. rewrite Hlg in HI2 by exact HI1. now destruct (gone (bm_chan m) h). }
  { rewrite <- Hheld. exact Hndh. }
  { reflexivity. }
  { intros []. }
  { intro n. cbn. lia. }
  { reflexivity. }
  { intros h' e [_ H]. exact H. }
  intros h1 [[[ms1 rm] total] reads] [(t1 & -> & Hsig1 & Hlet1 & Hmap1 & Hsz1 & Hout1 & Erm & Etot & Erd) [HA Hcl1]].
  cbn [app] in Erm. cbn [Nat.add] in Etot, Erd. subst rm reads.
  rewrite <- Hww, level_watched in Etot. subst total.
  set (h1 := h ++ t1) in *.
  assert (HN1 : near h1).
  { split; [exact Hcl1|]. destruct HA as (t & E & H1 & H2). exists h, t. split; [exact E|]. split; [exact (settled_calm _ Hset)|]. auto. }
  assert (Htold1 : ms_shut s = told_to_pause c h1).
  { unfold h1, told_to_pause. now rewrite signals_app, Hsig1, Nat.add_0_r. }
  apply sat_bind. eapply sat_conseq; [apply sat_and; [apply (pause_sat low high c chans); [exact Hrc|exact Htold1|]|apply pause_near; [exact Hrc|exact Htold1| |exact HN1]]|intros h' e [_ H]; exact H|].
  { rewrite andb_true_iff, negb_true_iff, Nat.leb_le. tauto. }
  { rewrite andb_true_iff, negb_true_iff. tauto. }
  intros h2 [c1 shut1] [(t2 & -> & Hs2 & Hc1 & Hsh1 & Ev1) HN2]. cbn [fst snd] in Hc1, Hsh1, Ev1.
  destruct (signal_frame c chans Hnd h1 t2 Hs2) as (Fg2 & Fl2 & Fh2 & Fr2).
  pose proof (level_frame chans h1 t2 Fg2 Fl2) as FL2.
  apply sat_bind. eapply sat_conseq; [apply sat_and; [apply (resume_sat low high c chans); [exact Hc1|exact Hsh1|]|apply resume_near; [exact Hc1| |exact HN2]]|intros h' e [_ H]; exact H|].
  { rewrite andb_true_iff, Nat.leb_le, FL2. tauto. }
  { rewrite andb_true_iff, Nat.leb_le, FL2. tauto. }
  intros h3 [c2 shut2] [(t3 & -> & Hs3 & Hc2 & Hsh2 & Ev2) HN3]. cbn [fst snd] in Hc2, Hsh2, Ev2.
  destruct (signal_frame c chans Hnd (h1 ++ t2) t3 Hs3) as (Fg3 & Fl3 & Fh3 & Fr3).
  set (h3 := (h1 ++ t2) ++ t3) in *.
  assert (Eg : forall ms, gone_at 0 ms h1 = gone_at 0 ms h3).
  { intro ms. generalize 0. induction ms as [|m ms IH]; intro i; [reflexivity|]. cbn. rewrite IH, Fg3, Fg2. reflexivity. }
  rewrite Eg. replace (remove_monitors (rev (gone_at 0 ms1 h3)) ms1) with (remove_monitors (rev (gone_at 0 ms1 h3)) (ms1 ++ [])) by now rewrite app_nil_r.
  assert (HR : sat h3 (remove_monitors (rev (gone_at 0 ms1 h3)) (ms1 ++ [])) near_now (fun h' _ => near h')).
  { assert (G : forall idx ms h', near h' -> forall tr st, exec (remove_monitors idx ms) tr st -> match st with At _ => near (h' ++ tr) | Done _ => near (h' ++ tr) | Panicked _ => True end).
    { induction idx as [|i idx IH]; intros ms h' HN tr st HX.
      - cbn in HX. inversion HX; subst. now rewrite app_nil_r.
      - cbn in HX. destruct (vec_remove i ms) as [[m|] ms'].
        + unfold close in HX. rewrite bind_vis in HX. inversion HX as [| |e k He Htr Hst| |e k a tr' st' Hwt HX' He Htr Hst]; subst; [now rewrite app_nil_r|]. destruct a; try discriminate Hwt. cbn beta iota in HX'. rewrite bind_ret in HX'.
          match goal with H : exec _ tr' _ |- _ => pose proof (IH _ (h' ++ [(EClose (CSize (bm_chan m)), AOk)]) ltac:(apply near_quiet; auto; discriminate) _ _ H) as K end. rewrite <- app_assoc in K. exact K.
        + inversion HX; subst. exact I. }
    intros tr st HX. pose proof (remove_sat low high c chans Hnd h3 ms1 [] h3 [] ltac:(now rewrite app_nil_r) ltac:(constructor) _ _ HX) as H0. specialize (G _ _ _ HN3 _ _ HX). destruct st; [exact G|exact G|exact H0]. }
  apply sat_bind. eapply sat_conseq; [exact HR|intros h' e H; exact H|]. intros h4 ms2 HN4.
  destruct ms2 as [|m0 ms2'].
  - rewrite Hc2. cbn [rc_control]. apply sat_bind. unfold close. apply sat_vis; [exact HN4|]. intros a Ha. destruct a; try discriminate Ha. apply sat_ret. apply sat_ret. exact I.
  - destruct (report_count chans t1 =? 0).
    + unfold back_off_wait. apply sat_bind. apply sat_bind. unfold sleep. apply sat_vis; [exact HN4|]. intros a Ha. destruct a; try discriminate Ha. apply sat_ret. apply sat_ret. apply sat_ret.
      unfold closed_by. rewrite in_app_iff. intros [H|[H|[]]]; [exact (proj1 HN4 H)|discriminate H].
    + apply sat_ret. exact (proj1 HN4).
Qed.

Lemma manager_near tr e : exec (manage_regulator low high (RC false c) chans) tr (At e) -> near tr.
Proof.
  intro HX. refine (sat_iter _ ninv near_now (fun _ _ => True) _ [] _ _ tr (At e) HX).
  - intros h i Hi. exact (body_near h i Hi).
  - split; [|intros []]. unfold minv. cbn [ms_monitors ms_control ms_shut ms_count].
    assert (E : held [] = chans).
    { unfold S_Regulator.held. clear. induction chans as [|x l IH]; [reflexivity|]. cbn [filter let_go existsb negb]. f_equal. exact IH. }
    rewrite E. repeat split.
    + rewrite map_map. cbn. now rewrite map_id.
    + intros m Hm. apply in_map_iff in Hm. destruct Hm as (x & <- & _). reflexivity.
    + unfold S_Regulator.settled. cbn. right. unfold level. clear. induction chans as [|x l IH]; [cbn; lia|]. cbn. exact IH.
    + rewrite (report_none chans Hnd []); [reflexivity|]. intro n. reflexivity.
Qed.
End Near.
