(** * P_Regulator: the loop of regulators and faucets *)
From Coq Require Import Ascii String List Bool Arith Lia ZArith.
From Verif Require Import M_Prog P_Prog P_Exec M_Motion M_Connectable M_Regulator S_Trace S_Lines S_Motion S_World.
From Verif Require Import P_Split P_Read P_Motion P_Worker P_Flow P_Loop P_Copy.
Import ListNotations.

(** Nothing is taken from a control channel, nor is one closed. *)
Definition quiet (tr : trace) : Prop :=
  Forall (fun ev : event => match fst ev with ERecv (CCtl _) | ETryRecv (CCtl _) | EClose (CCtl _) => False | _ => True end) tr.

Lemma quiet_app a b : quiet a -> quiet b -> quiet (a ++ b).
Proof. intros. apply Forall_app; auto. Qed.
Lemma output_quiet' tr : Forall is_output tr -> quiet tr.
Proof. apply Forall_impl. intros [e a]. unfold is_output. cbn. destruct e; try contradiction; auto. Qed.
Lemma reads_quiet pl t tr : reads_of pl t tr -> quiet tr.
Proof.
  apply Forall_impl. intros [e a]. cbn. destruct pl; cbn; intro H; inversion H; subst; auto. destruct t; exact I.
Qed.
Lemma quiet_taken c tr : quiet tr -> taken (CCtl c) tr = [].
Proof.
  induction 1 as [|[e a] tr H _ IH]; [reflexivity|]. change ((e, a) :: tr) with ([(e, a)] ++ tr).
  rewrite taken_app, IH, app_nil_r. cbn in H. destruct e as [[]|[]| |[]| | | | | | | | | | | | | |]; try contradiction; cbn; destruct a; reflexivity.
Qed.

Lemma round_length pushs d : forall os, length (round pushs d os) <= length pushs.
Proof.
  induction pushs as [|p ps IH]; intros [|o os]; cbn; try lia. rewrite app_length. specialize (IH os).
  assert (length (attempt p d o) <= 1) by (unfold attempt; destruct (write_eff p d); cbn; lia). lia.
Qed.

Lemma after_attempts mon spy pushs data pl tr st : data <> Skipped -> after mon spy pushs data pl tr st ->
  length (attempts tr) <= length pushs.
Proof.
  intros Hns HA.
  assert (HP : forall tr st, pushes_run spy data pushs tr st -> length (attempts tr) <= length pushs).
  { intros tr' st' HP. destruct data as [d| |]; [| |congruence].
    - destruct (pushes_attempts _ _ _ _ _ HP) as (done & rest & os & -> & _ & -> & _).
      rewrite app_length. pose proof (round_length done d os). lia.
    - destruct (pushes_finished _ _ _ _ HP) as [-> _]. cbn. lia. }
  destruct HA; cbn; try lia; rewrite ?attempts_app, ?attempts_mon_ev, ?app_length; cbn; try rewrite Nat.add_0_r; eauto.
Qed.

Lemma worker_calm pl0 h acc pl mon pushs spy t tr st :
  rinv pl0 h acc pl -> try_ok pl0 t -> exec (motion_worker pl mon pushs spy t) tr st ->
  quiet tr /\ length (attempts tr) <= length pushs.
Proof.
  intros HR Ht HX. destruct (worker_inv _ _ _ _ _ _ _ _ _ _ HR Ht HX) as (tr1 & tr2 & -> & Hrd & HC).
  pose proof (reads_quiet _ _ _ Hrd) as Hq. pose proof (reads_of_attempts _ _ _ Hrd) as Ha.
  rewrite attempts_app, Ha. cbn [app].
  destruct HC as [(-> & _)|[(-> & _)|[(-> & _)|[(d & pl1 & _ & HAf)|(pl1 & _ & _ & _ & HAf)]]]].
  1-3: rewrite app_nil_r; split; [exact Hq|cbn; lia].
  - split; [apply quiet_app; [exact Hq|]; eapply output_quiet', after_output; eassumption|].
    eapply after_attempts; [|eassumption]. discriminate.
  - split; [apply quiet_app; [exact Hq|]; eapply output_quiet', after_output; eassumption|].
    eapply after_attempts; [|eassumption]. discriminate.
Qed.

(** Keep hold of what a program did by itself. *)
Lemma sat_and_local {A} h (p : prog A) N Q (P : trace -> Prop) :
  sat h p N Q -> (forall tr st, exec p tr st -> P tr) ->
  sat h p (fun h' e => N h' e /\ exists tr, h' = h ++ tr /\ P tr) (fun h' a => Q h' a /\ exists tr, h' = h ++ tr /\ P tr).
Proof.
  intros HS HP tr st HX. specialize (HS _ _ HX). specialize (HP _ _ HX). destruct st; auto; split; auto; eauto.
Qed.

Section Gate.
Variables (pl0 : pull) (ps : push) (ctl spy : option nat).
Hypothesis Hfresh : fresh_pull pl0.

(** One look at the control channel. *)
Definition check (k : trace) : Prop :=
  match ctl with
  | None => k = []
  | Some c => k = [(ETryRecv (CCtl c), AEmpty)] \/ k = [(ETryRecv (CCtl c), AClosed)] \/
              exists a, k = [(ETryRecv (CCtl c), AMsg VUnit); (ERecv (CCtl c), a)] /\ wt (ERecv (CCtl c)) a = true
  end.

(** Complete turns: at most one write attempt, then one look at the control channel. *)
Inductive turns : trace -> Prop :=
| T_nil : turns []
| T_snoc : forall h w k, turns h -> quiet w -> length (attempts w) <= 1 -> check k -> turns ((h ++ w) ++ k).

(** ... and the one under way. *)
Definition turning (tr : trace) : Prop :=
  exists h w k, tr = (h ++ w) ++ k /\ turns h /\ quiet w /\ length (attempts w) <= 1 /\
    (k = [] \/ exists c, ctl = Some c /\ k = [(ETryRecv (CCtl c), AMsg VUnit)]).

(** ... and then the closing at the end. *)
Definition turned (tr : trace) : Prop := exists h t, tr = h ++ t /\ turning h /\ only_closing t.
Lemma turned_closing tr t : turned tr -> only_closing t -> turned (tr ++ t).
Proof.
  intros (h & t0 & -> & HT & Hc) Ht. exists h, (t0 ++ t). rewrite app_assoc. split; [reflexivity|]. split; [exact HT|now apply only_closing_app].
Qed.
Lemma turning_turned tr : turning tr -> turned tr.
Proof. intro H. exists tr, []. rewrite app_nil_r. repeat split; [exact H|constructor]. Qed.

Definition ctl_eff (e : eff) : Prop := match e with ERecv (CCtl _) | ETryRecv (CCtl _) => True | _ => False end.

Lemma check_frame k : check k -> no_reads k /\ attempts k = [].
Proof.
  unfold check. destruct ctl as [c|]; [|intros ->; split; [constructor|reflexivity]].
  intros [->|[->|(a & -> & _)]]; (split; [repeat constructor|reflexivity]).
Qed.

Lemma control_sat h :
  sat h (control ctl)
    (fun h' e => exists c, ctl = Some c /\ ((h' = h /\ e = ETryRecv (CCtl c)) \/ (h' = h ++ [(ETryRecv (CCtl c), AMsg VUnit)] /\ e = ERecv (CCtl c))))
    (fun h' _ => exists k, h' = h ++ k /\ check k).
Proof.
  unfold control, check. destruct ctl as [c|].
  2:{ apply sat_ret. exists []. now rewrite app_nil_r. }
  apply sat_bind. intros tr st HX. destruct (try_recv_inv _ _ _ HX) as [[-> ->]|[(v & -> & -> & Hf)|[[-> ->]|[-> ->]]]].
  - exists c. rewrite app_nil_r. auto.
  - destruct v; try discriminate Hf. apply sat_bind. intros tr st HX'.
    destruct (recv_inv _ _ _ HX') as [[-> ->]|[(v' & -> & -> & Hf')|[-> ->]]].
    + exists c. rewrite app_nil_r. auto.
    + apply sat_ret. eexists. rewrite <- app_assoc. split; [reflexivity|]. right; right. eexists. split; [reflexivity|]. exact Hf'.
    + apply sat_ret. eexists. rewrite <- app_assoc. split; [reflexivity|]. right; right. eexists. split; reflexivity.
  - apply sat_ret. eexists. split; [reflexivity|]. auto.
  - apply sat_ret. eexists. split; [reflexivity|]. auto.
Qed.

(** Looking at the control channel, between two messages. *)
Definition waiting (h : trace) (e : eff) : Prop :=
  exists l, Forall (round_ok [ps]) l /\ at_read pl0 [ps] h l /\
  exists c, ctl = Some c /\ (e = ETryRecv (CCtl c) \/ (e = ERecv (CCtl c) /\ exists h0, h = h0 ++ [(ETryRecv (CCtl c), AMsg VUnit)])).

(** How the loop ends: [n] messages handled (the refused one of a Finish output not counted). *)
Definition gate_ok (h : trace) (r : mres nat) : Prop :=
  match r with
  | Ok n => over pl0 ps h (S n) /\ (forall c, ctl = Some c -> closed_by (CCtl c) h)
  | Err e => failed pl0 [ps] false h e
  end.

Definition gate_now (h : trace) (e : eff) : Prop :=
  (now pl0 [ps] false h e \/ waiting h e \/ (closing_eff e /\ exists n, over pl0 ps h n)) /\ turned h.

Definition gate_post (h : trace) (x : mres nat * pull * list push) : Prop :=
  let '(r, pl, pushs) := x in
  read_eff pl false = read_eff pl0 false /\ map erase pushs = map erase [ps] /\ gate_ok h r /\ turned h.

Lemma close_ctl_sat h :
  sat h (close_ctl ctl) (closing_from h)
    (fun h' _ => exists tr, h' = h ++ tr /\ only_closing tr /\ forall c, ctl = Some c -> closed_by (CCtl c) tr).
Proof.
  unfold close_ctl. destruct ctl as [c|].
  - intros tr st HX. destruct (close_inv _ _ _ HX) as [[-> ->]|[-> ->]].
    + exists []. repeat split; constructor.
    + eexists. split; [reflexivity|]. split; [repeat constructor|]. intros c' E. inversion E. now left.
  - apply sat_ret. exists []. rewrite app_nil_r. split; [reflexivity|]. split; [constructor|]. discriminate.
Qed.

Lemma failed_closed_terminate h j reason d : failed pl0 [ps] false h (OutputClosed j reason d) -> push_brk ps = Terminate.
Proof.
  intros (l & HO & [(_ & j' & _ & E & _)|[(d' & done & p & rest & os & o & _ & H2 & _ & _ & _ & H6 & _)|(_ & H)]]).
  - discriminate E.
  - destruct done as [|p2 done].
    2:{ exfalso. apply (f_equal (@length push)) in H2. cbn in H2. rewrite app_length in H2. cbn in H2. lia. }
    inversion H2; subst p. unfold push_fail in H6. unfold push_brk. destruct (push_journey ps) as [j'|]; [|destruct o; discriminate].
    destruct o; try discriminate. destruct (j_brk j'); [reflexivity|discriminate|discriminate].
  - destruct H as [(s & dd & p & m & E)|[(s & E)|(j' & E)]]; discriminate E.
Qed.

Lemma gate_loop : sat [] (iter (gate_body ctl spy (push_brk ps)) (pl0, [ps], 0)) gate_now gate_post.
Proof.
  apply sat_iter with (Inv := fun h (s : motion_state) => let '(pl, pushs, n) := s in
     exists l, LI pl0 [ps] h l pl pushs /\ n = length l /\ turns h).
  2:{ exists []. split; [|split; [reflexivity|constructor]]. split; [now apply rinv_start|]. repeat split; constructor. }
  intros h [[pl pushs] n] (l & HL & -> & HT). unfold gate_body. apply sat_bind.
  assert (Hnt : try_ok pl0 false) by (intro H; discriminate).
  assert (Hlen : length pushs = 1).
  { destruct HL as (_ & HE & _). apply (f_equal (@length push)) in HE. rewrite !map_length in HE. exact HE. }
  eapply sat_conseq; [apply (sat_and_local _ _ _ _ (fun tr => quiet tr /\ length (attempts tr) <= 1)
      (worker_flow pl0 [ps] h l pl pushs mn_empty spy false HL Hnt (or_intror eq_refl)))| |].
  { intros tr st HX. rewrite <- Hlen. eapply worker_calm; [apply HL|exact Hnt|exact HX]. }
  { intros h' e (H & tr & -> & Hq & Hl). split; [left; exact H|]. apply turning_turned. exists h, tr, []. rewrite app_nil_r. auto 8. }
  intros h' [[r pl'] pushs'] ((Hj & Hre & He & Hpost) & w & -> & Hq & Hl).
  assert (HTw : turned (h ++ w)) by (apply turning_turned; exists h, w, []; rewrite app_nil_r; auto 8).
  assert (HTc : forall t, only_closing t -> turned ((h ++ w) ++ t)) by (intros t Ht; now apply turned_closing).
  destruct r as [[finished rd]|e]; cbn [wr_finished].
  - destruct finished, rd.
    + assert (Hover : over pl0 ps (h ++ w) (S (length l))).
      { exists l. split; [apply HL|]. split; [reflexivity|]. destruct Hpost as [[Hf _]|Hc]; auto. }
      apply sat_bind. eapply sat_conseq; [apply close_ctl_sat| |].
      { intros h2 e (tr & -> & H1 & H2). split; [|now apply HTc]. right; right. split; [exact H2|]. exists (S (length l)).
        apply over_frame; [exact Hover|now apply only_closing_no_reads|now apply only_closing_attempts]. }
      intros h2 _ (tr & -> & Hoc & Hcl). apply sat_ret. split; [exact Hre|]. split; [exact He|]. split; [|now apply HTc].
      split; [apply over_frame; [exact Hover|now apply only_closing_no_reads|now apply only_closing_attempts]|].
      intros c Hc. apply in_or_app. right. now apply Hcl.
    + destruct Hpost.
    + destruct Hpost as (d & os & HL'). apply sat_bind. eapply sat_conseq; [apply control_sat| |].
      { intros h2 e (c & Hc & H). split.
        - right; left. exists (l ++ [(d, os)]). split; [apply HL'|].
          assert (HA : at_read pl0 [ps] (h ++ w) (l ++ [(d, os)])) by (destruct HL' as (H1 & _ & H3 & _); split; [exact H3|eapply rinv_seen; exact H1]).
          destruct H as [(-> & ->)|(-> & ->)]; (split; [|exists c; eauto 6]); [exact HA|].
          apply at_read_frame; [exact HA|repeat constructor|reflexivity].
        - destruct H as [(-> & _)|(-> & _)]; [exact HTw|]. apply turning_turned. exists h, w, [(ETryRecv (CCtl c), AMsg VUnit)]. eauto 9. }
      intros h2 _ (k & -> & Hk). apply sat_ret. exists (l ++ [(d, os)]). destruct (check_frame _ Hk) as [Hk1 Hk2].
      split; [now apply LI_frame|]. split; [rewrite app_length; cbn; lia|]. now apply T_snoc.
    + destruct Hpost as [Hf _]. discriminate Hf.
  - assert (HE : forall x, x = Err e -> sat (h ++ w) (Ret (inr (x, pl', pushs')) : prog (motion_state + mres nat * pull * list push)) gate_now
       (fun h' lr => match lr with inl (pl, pushs, n) => exists l, LI pl0 [ps] h' l pl pushs /\ n = length l /\ turns h' | inr r => gate_post h' r end)).
    { intros x ->. apply sat_ret. split; [exact Hre|]. split; [exact He|]. split; [exact Hpost|exact HTw]. }
    destruct e; try (apply HE; reflexivity).
    rewrite (failed_closed_terminate _ _ _ _ Hpost). apply HE. reflexivity.
Qed.

Lemma gate_ok_frame h r tr : gate_ok h r -> only_closing tr -> gate_ok (h ++ tr) r.
Proof.
  intros H Hc. pose proof (only_closing_no_reads _ Hc) as Hn. pose proof (only_closing_attempts _ Hc) as Ha. revert H.
  destruct r as [n|e]; cbn.
  - intros [H1 H2]. split; [now apply over_frame|]. intros c E. apply in_or_app. left. now apply H2.
  - intro H. now apply failed_frame.
Qed.

Definition gate_dropping (h : trace) (e : eff) : Prop :=
  closing_eff e /\ exists h0 r tr, h = h0 ++ tr /\ only_closing tr /\ gate_ok h0 r /\ turned h0.
Definition gate_done (h : trace) (r : mres nat) : Prop :=
  (exists h0 tr, h = h0 ++ tr /\ only_closing tr /\ gate_ok h0 r /\ turned h0) /\ pull_released pl0 h /\ push_released ps h.

Lemma gate_sat : sat [] (start_secret false (Some pl0) (Some ps) ctl spy) (fun h e => gate_now h e \/ gate_dropping h e) gate_done.
Proof.
  unfold start_secret. apply sat_bind. eapply sat_conseq; [apply gate_loop|cbn; auto|].
  intros h [[r pl] pushs] (Hre & He & Hok & HT).
  apply sat_conseq with (N := closing_from h) (Q := fun h' r' => r' = r /\ exists tr, h' = h ++ tr /\ only_closing tr /\ pull_released pl tr /\ Forall (fun p => push_released p tr) pushs).
  - eapply sat_closing_bind with (P := fun tr _ => Forall (fun p => push_released p tr) pushs);
      [exists []; rewrite app_nil_r; split; [reflexivity|constructor]|apply drop_pushes_sat|].
    intros t1 _ Ho1 H1.
    eapply sat_closing_bind with (P := fun tr _ => pull_released pl tr); [eauto|apply drop_pull_sat|].
    intros t2 _ Ho2 H2. rewrite <- app_assoc. apply sat_ret. split; [reflexivity|].
    eexists. split; [reflexivity|]. split; [apply only_closing_app; assumption|].
    split; [apply pull_released_app; auto|].
    eapply Forall_impl; [|exact H1]. intros p Hp. cbn in Hp. apply push_released_app. auto.
  - intros h' e (tr & -> & H1 & H2). right. split; [exact H2|]. exists h, r, tr. auto.
  - intros h' r' (-> & tr & -> & Hoc & H1 & H2).
    split; [exists h, tr; auto|].
    split; [apply pull_released_app; right; exact (pull_released_eff pl0 mn_empty Hfresh (or_intror eq_refl) pl tr Hre H1)|].
    apply push_released_app. right.
    assert (HF : Forall (fun p => push_released p tr) [ps]) by (eapply (Forall_erase _ pushs); [intros p p'; apply erase_released|exact He|exact H2]).
    now inversion HF.
Qed.

(** ** Observations *)
Lemma turns_taken c h : ctl = Some c -> turns h -> Nat.Even (length (taken (CCtl c) h)) \/ In (ERecv (CCtl c), AClosed) h.
Proof.
  intros Hc HT. induction HT as [|h w k HT IH Hq Hl Hk].
  - left. exists 0. reflexivity.
  - destruct IH as [[m IH]|IH]; [|right; apply in_or_app; left; apply in_or_app; auto].
    rewrite !taken_app, !app_length, (quiet_taken _ _ Hq). cbn [length]. unfold check in Hk. rewrite Hc in Hk.
    destruct Hk as [->|[->|(a & -> & Hw)]].
    + left. exists m. cbn. lia.
    + left. exists m. cbn. lia.
    + destruct a; try discriminate Hw.
      * left. exists (S m).
        cbn. rewrite Nat.eqb_refl. cbn. lia.
      * right. apply in_or_app. right. now right; left.
Qed.

Lemma quiet_not_closed c tr : quiet tr -> ~ closed_by (CCtl c) tr.
Proof. intros H HI. unfold quiet in H. rewrite Forall_forall in H. exact (H _ HI). Qed.
Lemma check_not_closed c k : check k -> ~ closed_by (CCtl c) k.
Proof.
  unfold check, closed_by. destruct ctl; intro H.
  - destruct H as [->|[->|(a & -> & _)]]; cbn; intuition discriminate.
  - subst k. intros [].
Qed.
Lemma turns_not_closed c h : turns h -> ~ closed_by (CCtl c) h.
Proof.
  induction 1 as [|h w k HT IH Hq Hl Hk]; [intros []|]. unfold closed_by. rewrite !in_app_iff.
  pose proof (quiet_not_closed c _ Hq). pose proof (check_not_closed c _ Hk). unfold closed_by in *. tauto.
Qed.

(** Two write attempts have a complete look at the control channel between them (or before them). *)
Lemma two_attempts c tr u v : ctl = Some c -> turned tr -> tr = u ++ v -> 2 <= length (attempts v) ->
  exists y1 k y2, v = y1 ++ k ++ y2 /\ check k /\ ~ closed_by (CCtl c) (u ++ y1 ++ k) /\
    (Nat.Even (length (taken (CCtl c) (u ++ y1))) \/ In (ERecv (CCtl c), AClosed) (u ++ y1)).
Proof.
  intros Hc (tr0 & t & -> & (T & w2 & k' & E & HT & Hq2 & Hl2 & Hk') & Hcl) Euv H2.
  apply app_eq_app in Euv. destruct Euv as (lx & [[E1 E2]|[E1 E2]]).
  2:{ exfalso. pose proof (only_closing_attempts _ Hcl) as Ha. rewrite E2, attempts_app in Ha. apply app_eq_nil in Ha.
      destruct Ha as [_ Ha]. rewrite Ha in H2. cbn in H2. lia. }
  subst v. rewrite attempts_app, (only_closing_attempts _ Hcl), app_nil_r in H2.
  rewrite E1 in E. clear E1 tr0.
  assert (Hk'a : attempts k' = []).
  { destruct Hk' as [->|(c' & _ & ->)]; reflexivity. }
  assert (Hle : length (attempts (w2 ++ k')) <= 1) by (rewrite attempts_app, Hk'a, app_nil_r; exact Hl2).
  rewrite <- app_assoc in E.
  apply app_eq_app in E. destruct E as (l2 & [[E1 E2]|[E1 E2]]).
  { exfalso. rewrite E2, attempts_app, app_length in Hle. lia. }
  destruct HT as [|h w k HT Hq Hl Hk].
  { destruct u; [|discriminate E1]. destruct l2; [|discriminate E1]. cbn in E2. subst lx. lia. }
  symmetry in E1. apply app_eq_app in E1. destruct E1 as (l3 & [[E3 E4]|[E3 E4]]).
  - exfalso. destruct (check_frame _ Hk) as [_ Hka]. rewrite E4, attempts_app in Hka.
    apply app_eq_nil in Hka. destruct Hka as [_ Hka]. rewrite E2, attempts_app, Hka in H2. cbn in H2. lia.
  - exists l3, k, ((w2 ++ k') ++ t). split; [rewrite E2, E4, <- !app_assoc; reflexivity|]. split; [exact Hk|].
    rewrite (app_assoc u), <- E3. split.
    + unfold closed_by. rewrite !in_app_iff. pose proof (quiet_not_closed c _ Hq). pose proof (check_not_closed c _ Hk).
      pose proof (turns_not_closed c _ HT). unfold closed_by in *. tauto.
    + destruct (turns_taken c h Hc HT) as [H|H].
      * left. now rewrite taken_app, (quiet_taken _ _ Hq), app_nil_r.
      * right. apply in_or_app; auto.
Qed.

Lemma gate_turned tr st : exec (start_secret false (Some pl0) (Some ps) ctl spy) tr st -> turned tr.
Proof.
  intro HX. pose proof (gate_sat _ _ HX) as H. destruct st as [e|r|s]; cbn [app] in H.
  - destruct H as [[_ H]|(_ & h0 & r & t & -> & Hc & _ & H)]; [exact H|now apply turned_closing].
  - destruct H as ((h0 & t & -> & Hc & _ & H) & _). now apply turned_closing.
  - contradiction.
Qed.

Lemma gate_position tr st : real_push ps -> exec (start_secret false (Some pl0) (Some ps) ctl spy) tr st -> position pl0 ps tr.
Proof.
  intros Hreal HX. pose proof (gate_sat _ _ HX) as H.
  assert (G : forall h r, gate_ok h r -> position pl0 ps h).
  { intros h r Hr. destruct r as [n|e]; cbn in Hr; [destruct Hr; eapply over_position; eassumption|eapply failed_position; eassumption]. }
  destruct st as [e|r|s]; cbn [app] in H.
  - destruct H as [[[(l & HO & [(H & _)|[(d & done & rest & os & H & _)|(H & _)]])|[(l & HO & (H1 & H2) & _)|(_ & n & H)]] _]|(_ & h0 & r & t & -> & Hc & H & _)].
    + destruct H as [H1 H2]. exists l, []. rewrite app_nil_r. auto.
    + eapply mid_position; eassumption.
    + eapply fin_position; eassumption.
    + exists l, []. rewrite app_nil_r. auto.
    + eapply over_position; eassumption.
    + apply position_frame; [|exact Hc]. eauto.
  - destruct H as ((h0 & t & -> & Hc & H & _) & _). apply position_frame; [|exact Hc]. eauto.
  - contradiction.
Qed.

Lemma gate_no_panic tr s : ~ exec (start_secret false (Some pl0) (Some ps) ctl spy) tr (Panicked s).
Proof. intro HX. exact (gate_sat _ _ HX). Qed.

Lemma gate_prefix tr st : real_push ps -> exec (start_secret false (Some pl0) (Some ps) ctl spy) tr st ->
  prefix (offered_to ps tr) (got pl0 tr) /\ (is_chan pl0 -> length (got pl0 tr) <= S (length (offered_to ps tr))).
Proof. intros Hr HX. apply position_offered; [exact Hr|]. exact (gate_position _ _ Hr HX). Qed.

Lemma over_ends h n : real_push ps -> over pl0 ps h n ->
  (offered_to ps h = got pl0 h /\ ended pl0 h /\ n = S (length (got pl0 h))) \/
  (push_brk ps = Finish /\ n = length (offered_to ps h) /\
   exists d e pre, write_eff ps d = Some e /\ attempts h = pre ++ [(e, d, closed_ans ps)]).
Proof.
  intros Hr (l & HO & -> & H). destruct H as [(H1 & H2 & H3)|(d & os & (H1 & H2 & H3 & H4 & H5) & Hcf)].
  - left. rewrite offered_attempts, H1, (rounds1_offered _ _ Hr HO). repeat split; auto. now rewrite H2, map_length.
  - right. destruct os as [|o []]; try discriminate H3. destruct (count_finish1 _ _ Hcf) as [-> Hb].
    split; [exact Hb|]. rewrite offered_attempts, H1. cbn [round]. rewrite app_nil_r, flat_map_app, (rounds1_offered _ _ Hr HO), (attempt_offered _ _ _ Hr).
    split; [rewrite app_length, map_length; cbn; lia|].
    exists d. destruct ps; cbn in Hr; try contradiction; cbn; eauto.
Qed.

Lemma gate_end tr n : real_push ps -> exec (start_secret false (Some pl0) (Some ps) ctl spy) tr (Done (Ok n)) ->
  (offered_to ps tr = got pl0 tr /\ ended pl0 tr /\ n = length (got pl0 tr)) \/
  (push_brk ps = Finish /\ S n = length (offered_to ps tr) /\
   exists d e pre, write_eff ps d = Some e /\ attempts tr = pre ++ [(e, d, closed_ans ps)]).
Proof.
  intros Hr HX. pose proof (gate_sat _ _ HX) as H. cbn [app] in H. destruct H as ((h0 & t & -> & Hc & H & _) & _).
  apply gate_ok_frame with (tr := t) in H; [|exact Hc]. destruct H as [H _].
  destruct (over_ends _ _ Hr H) as [(H1 & H2 & H3)|(H1 & H2 & H3)]; [left; repeat split; auto; lia|right; auto].
Qed.

Lemma gate_released tr r : exec (start_secret false (Some pl0) (Some ps) ctl spy) tr (Done r) ->
  pull_released pl0 tr /\ push_released ps tr /\ (forall c n, ctl = Some c -> r = Ok n -> closed_by (CCtl c) tr).
Proof.
  intro HX. pose proof (gate_sat _ _ HX) as H. cbn [app] in H. destruct H as ((h0 & t & -> & Hc & H & _) & H2 & H3).
  split; [exact H2|]. split; [exact H3|]. intros c n E ->. apply gate_ok_frame with (tr := t) in H; [|exact Hc].
  destruct H as [_ H]. now apply H.
Qed.

(** While it asks for more, everything complete has been offered. *)
Lemma gate_reading tr e : real_push ps -> exec (start_secret false (Some pl0) (Some ps) ctl spy) tr (At e) ->
  is_read e = true -> length (got pl0 tr) <= S (length (offered_to ps tr)).
Proof.
  intros Hr HX He. pose proof (gate_sat _ _ HX) as H. cbn [app] in H.
  destruct H as [[[(l & HO & [((H1 & H2) & Hr' & Hl)|[(d & done & rest & os & H & Hn)|(H & Hr')]])|[(l & HO & (H1 & H2) & Hw)|(Hcl & n & H)]] _]|(Hcl & _)].
  - rewrite offered_attempts, H1, (rounds1_offered _ _ Hr HO), map_length. exact Hl.
  - exfalso. destruct Hn as [Hn|(p & rest' & -> & Hn)].
    + destruct e as [[]|[]|[]| | | | | | | | | | | | | | |]; cbn in Hn, He; try contradiction; discriminate.
    + destruct p; cbn in Hn; inversion Hn; subst; discriminate.
  - exfalso. destruct e as [[]|[]|[]| | | | | | | | | | | | | | |]; cbn in Hr', He; try contradiction; discriminate.
  - exfalso. destruct Hw as (c & _ & [->|(-> & _)]); discriminate.
  - exfalso. destruct e; cbn in Hcl, He; try contradiction; discriminate.
  - exfalso. destruct e; cbn in Hcl, He; try contradiction; discriminate.
Qed.

(** While it asks for more, everything taken has been offered. *)
Lemma gate_caught_up tr e : real_push ps -> exec (start_secret false (Some pl0) (Some ps) ctl spy) tr (At e) ->
  is_read e = true \/ ctl_eff e ->
  (is_chan pl0 -> offered_to ps tr = got pl0 tr).
Proof.
  intros Hr HX He Hi. pose proof (gate_sat _ _ HX) as H. cbn [app] in H.
  destruct H as [[[(l & HO & [((H1 & H2) & Hr' & Hl)|[(d & done & rest & os & H & Hn)|(H & Hr')]])|[(l & HO & (H1 & H2) & _)|(Hcl & n & H)]] _]|(Hcl & _)].
  - rewrite offered_attempts, H1, (rounds1_offered _ _ Hr HO). symmetry. now apply H2.
  - exfalso. destruct Hn as [Hn|(p & rest' & -> & Hn)].
    + destruct e as [[]|[]|[]| | | | | | | | | | | | | | |]; cbn in Hn, He; destruct He; try contradiction; discriminate.
    + destruct p; cbn in Hn; inversion Hn; subst; destruct He; try discriminate; contradiction.
  - exfalso. destruct e as [[]|[]|[]| | | | | | | | | | | | | | |]; cbn in Hr', He; destruct He; try contradiction; discriminate.
  - rewrite offered_attempts, H1, (rounds1_offered _ _ Hr HO). symmetry. now apply H2.
  - exfalso. destruct e; cbn in Hcl, He; destruct He; try contradiction; discriminate.
  - exfalso. destruct e; cbn in Hcl, He; destruct He; try contradiction; discriminate.
Qed.
End Gate.

(** An event before the loop that has nothing to do with control. *)
Lemma turns_cons ctl ev h : quiet [ev] -> attempts [ev] = [] -> turns ctl h -> h = [] \/ turns ctl (ev :: h).
Proof.
  intros Hq Ha HT. induction HT as [|h w k HT IH Hw Hl Hk]; [now left|right].
  destruct IH as [->|IH].
  - change (ev :: ([] ++ w) ++ k) with (([] ++ (ev :: w)) ++ k). apply T_snoc; [constructor| | |exact Hk].
    + change (ev :: w) with ([ev] ++ w). now apply quiet_app.
    + change (ev :: w) with ([ev] ++ w). rewrite attempts_app, Ha. exact Hl.
  - change (ev :: (h ++ w) ++ k) with (((ev :: h) ++ w) ++ k). now apply T_snoc.
Qed.
Lemma turned_cons ctl ev tr : quiet [ev] -> attempts [ev] = [] -> turned ctl tr -> turned ctl (ev :: tr).
Proof.
  intros Hq Ha (h0 & t & -> & (h & w & k & -> & HT & Hw & Hl & Hk) & Hc).
  exists (ev :: (h ++ w) ++ k), t. split; [reflexivity|]. split; [|exact Hc].
  destruct (turns_cons ctl ev h Hq Ha HT) as [->|HT'].
  - exists [], (ev :: w), k. split; [reflexivity|]. split; [constructor|]. split; [|split; [|exact Hk]].
    + change (ev :: w) with ([ev] ++ w). now apply quiet_app.
    + change (ev :: w) with ([ev] ++ w). rewrite attempts_app, Ha. exact Hl.
  - exists (ev :: h), w, k. auto.
Qed.
