(** * P_Drain: drains *)
From Coq Require Import Ascii String List Bool Arith Lia.
From Verif Require Import M_Prog P_Prog P_Exec M_Motion M_Drain S_Trace S_Lines S_Motion S_Drain.
From Verif Require Import M_Regulator M_Faucet S_Regulator.
From Verif Require Import P_Split P_Read P_Motion P_Worker P_Flow P_Loop P_Copy P_Regulator P_Control.
Import ListNotations.

(** ** Outputs that must not close *)
Section Accepted.
Variables (pl : pull) (ps : push).
Hypothesis Hreal : real_push ps.

Lemma position_accepted tr : position pl ps tr -> push_brk ps = Terminate ->
  prefix (accepted_by ps tr) (got pl tr).
Proof.
  intros (l & x & HO & (Hp & _) & H) Hb. rewrite accepted_attempts.
  destruct H as [(-> & ->)|(d & -> & [->|(o & Ho & ->)])].
  - rewrite (rounds1_accepted _ _ Hreal Hb HO). now rewrite app_nil_r in Hp.
  - rewrite (rounds1_accepted _ _ Hreal Hb HO). destruct Hp as [c Hp]. exists ([d] ++ c). rewrite Hp, <- app_assoc. reflexivity.
  - rewrite flat_map_app, (rounds1_accepted _ _ Hreal Hb HO), (attempt_accepted _ _ _ Hreal Ho).
    destruct Hp as [c Hp]. destruct o; [exists c; exact Hp| |]; exists ([d] ++ c); rewrite Hp, app_nil_r, <- app_assoc; reflexivity.
Qed.

(** Every attempt is on this output. *)
Lemma attempt_here d o x : In x (attempt ps d o) -> write_eff ps (snd (fst x)) = Some (fst (fst x)).
Proof. unfold attempt. destruct (write_eff ps d) eqn:E; [|intros []]. intros [<-|[]]. exact E. Qed.
Lemma rounds1_here l x : In x (rounds [ps] l) -> write_eff ps (snd (fst x)) = Some (fst (fst x)).
Proof.
  unfold rounds. intro H. apply in_flat_map in H. destruct H as ([d os] & _ & H). destruct os as [|o os]; [destruct H|].
  cbn [round fst snd] in H. rewrite app_nil_r in H. exact (attempt_here _ _ _ H).
Qed.
Lemma position_here tr x : position pl ps tr -> In x (attempts tr) -> write_eff ps (snd (fst x)) = Some (fst (fst x)).
Proof.
  intros (l & y & _ & _ & H) HI. destruct H as [(_ & E)|(d & _ & [E|(o & _ & E)])]; rewrite E in HI.
  - eapply rounds1_here; eassumption.
  - eapply rounds1_here; eassumption.
  - apply in_app_or in HI. destruct HI as [HI|HI]; [eapply rounds1_here|eapply attempt_here]; eassumption.
Qed.
End Accepted.

(** A discarding output. *)
Lemma none_attempts tr pl : position pl PsNone tr -> attempts tr = [].
Proof.
  intro H. destruct (attempts tr) as [|x l] eqn:E; [reflexivity|].
  assert (HI : In x (attempts tr)) by (rewrite E; now left). pose proof (position_here pl PsNone tr x H HI) as K. discriminate K.
Qed.

Lemma none_end pl mon spy tr n : fresh_pull pl -> (pull_journey pl <> None \/ mon = mn_empty) ->
  exec (motion pl mon spy PsNone) tr (Done (Ok n)) -> ended pl tr /\ n = S (length (got pl tr)).
Proof.
  intros Hf Hm HX. pose proof (motion_sat pl PsNone mon spy Hf Hm _ _ HX) as H. cbn [app] in H.
  destruct H as (((l & HO & -> & H) & _) & _). destruct H as [(H1 & H2 & H3)|(d & os & (H1 & H2 & H3 & H4 & H5) & Hcf)].
  - split; [exact H3|]. now rewrite H2, map_length.
  - destruct os as [|o []]; try discriminate H3. destruct (count_finish1 _ _ Hcf) as [-> Hb]. discriminate Hb.
Qed.

(** ** One run of a drain *)
Definition drain_journey (pj : pjourney) : journey := J (pj_src pj) None (pj_dst pj) Terminate.

Lemma drain_run d pl name tr st : drain_ready d pl name -> exec (drain_start d None) tr st ->
  (opened_for (actual_destination name) = None /\ exec (motion pl mn_empty None PsNone) tr st) \/
  exists e, opened_for (actual_destination name) = Some e /\
   ((tr = [] /\ st = At e) \/
    (exists f rest k pj, tr = (e, AFd f) :: rest /\ pull_journey pl = Some pj /\
       exec (motion pl mn_empty None (PsBytes k (drain_journey pj) f)) rest st) \/
    (exists rest pj, tr = (e, AErr) :: rest /\ pull_journey pl = Some pj /\
       exec (drop_pull pl ;;; Ret (Err (OpenIOError pj))) rest st)).
Proof.
  intros (H1 & H2 & H3 & H4) HX. unfold drain_start, drain_destination, actual_destination in *. rewrite H1, H2 in HX.
  destruct (pull_journey pl) as [pj|]; [|congruence]. clear H4.
  destruct (string_dec name "/dev/null") as [->|N1].
  { left. cbn. split; [reflexivity|]. now rewrite bind_ret in HX. }
  right. destruct (string_dec name "-") as [->|N2]; [|destruct (string_dec name "_") as [->|N3]]; cbn [opened_for];
    eexists; (split; [reflexivity|]); rewrite bind_eq in HX; apply exec_vis_inv in HX;
    destruct HX as [[-> ->]|(a & rest & -> & Hwt & HX)]; auto; right;
    destruct a; try discriminate Hwt; rewrite bind_ret in HX; eauto 10.
Qed.

Lemma openings_app a b : openings (a ++ b) = openings a ++ openings b.
Proof. apply flat_map_app. Qed.

(** A copy opens nothing. *)
Definition copy_eff (e : eff) : Prop :=
  match e with EOpenRead _ | ECreate _ | EStdin | EStdout | EStderr | ESpawn _ | EStatus => False | _ => True end.

Lemma sat_all {A} (P : eff -> Prop) (p : prog A) :
  sat [] p (fun _ e => P e) (fun _ _ => True) -> forall tr st, exec p tr st -> Forall (fun ev => P (fst ev)) tr.
Proof.
  intro HS.
  assert (G : forall (q : prog A) tr st, exec q tr st -> sat [] q (fun _ e => P e) (fun _ _ => True) -> Forall (fun ev => P (fst ev)) tr).
  { clear. intros q tr st HX. induction HX as [x|x|x|q tr st HX IH|e k x tr st Hwt HX IH]; intro H; try constructor.
    - apply IH. intros t s HX'. exact (H _ _ (X_tau _ _ _ HX')).
    - apply (H [] (At e)). constructor.
    - apply IH. intros t s HX'. specialize (H _ _ (X_vis _ _ _ _ _ Hwt HX')). exact H. }
  intros tr st HX. eapply G; eassumption.
Qed.

Lemma motion_copy_eff pl mon spy ps tr st : fresh_pull pl -> (pull_journey pl <> None \/ mon = mn_empty) ->
  exec (motion pl mon spy ps) tr st -> Forall (fun ev => copy_eff (fst ev)) tr /\ match st with At e => copy_eff e | _ => True end.
Proof.
  intros Hf Hm HX.
  assert (HS : sat [] (motion pl mon spy ps) (fun _ e => copy_eff e) (fun _ _ => True)).
  { eapply sat_conseq; [apply motion_sat; assumption| |auto]. intros h e H.
    destruct H as [[(l & _ & [(_ & Hr & _)|[(d & done & rest & os & _ & [Hn|(p & rest' & _ & Hn)])|(_ & Hr)]])|(Hc & _)]|(Hc & _)].
    - destruct pl; cbn in Hr; inversion Hr; exact I.
    - destruct e; cbn in Hn; try contradiction; exact I.
    - destruct p; cbn in Hn; inversion Hn; exact I.
    - destruct e; cbn in Hr; try contradiction; exact I.
    - destruct e; cbn in Hc; try contradiction; exact I.
    - destruct e; cbn in Hc; try contradiction; exact I. }
  split; [eapply sat_all; eassumption|]. specialize (HS _ _ HX). destruct st; auto.
Qed.
Lemma copy_openings tr : Forall (fun ev => copy_eff (fst ev)) tr -> openings tr = [].
Proof. induction 1 as [|[e a] tr He _ IH]; [reflexivity|]. etransitivity; [exact (openings_app [(e, a)] tr)|]. rewrite IH. destruct e; cbn in He; try contradiction; reflexivity. Qed.

Lemma drop_pull_copy pl (r : mres nat) tr st : exec (drop_pull pl ;;; Ret r) tr st ->
  Forall (fun ev => copy_eff (fst ev)) tr /\ attempts tr = [] /\
  match st with At e => copy_eff e | Done x => x = r /\ pull_released pl tr | Panicked _ => False end.
Proof.
  intro HX. destruct pl; cbn [drop_pull] in HX; try (rewrite bind_ret in HX; apply exec_ret_inv in HX; destruct HX as [-> ->]; repeat split; constructor).
  - destruct (exec_bind_inv _ _ _ _ HX) as [(t1 & t2 & x & -> & H1 & H2)|[(e & -> & H1)|(s & -> & H1)]];
      destruct (drop_fd_inv _ _ _ H1) as [[? E]|[? E]]; try discriminate E; inversion E; subst.
    + apply exec_ret_inv in H2. destruct H2 as [-> ->]. cbn. repeat split; auto; repeat constructor.
    + repeat split. constructor.
  - destruct (exec_bind_inv _ _ _ _ HX) as [(t1 & t2 & x & -> & H1 & H2)|[(e & -> & H1)|(s & -> & H1)]];
      destruct (close_inv _ _ _ H1) as [[? E]|[? E]]; try discriminate E; inversion E; subst.
    + apply exec_ret_inv in H2. destruct H2 as [-> ->]. cbn. repeat split; auto; repeat constructor.
    + repeat split. constructor.
Qed.

Lemma drain_opens d pl name tr st : drain_ready d pl name -> exec (drain_start d None) tr st ->
  opening_of st tr = match opened_for (actual_destination name) with Some e => [e] | None => [] end.
Proof.
  intros HR HX. assert (Hf : fresh_pull pl) by apply HR. assert (Hj : pull_journey pl <> None) by apply HR.
  assert (Hop : forall tr st (p : push), exec (motion pl mn_empty None p) tr st -> opening_of st tr = []).
  { intros tr' st' p H. destruct (motion_copy_eff pl mn_empty None p tr' st' Hf (or_introl Hj) H) as [H1 H2]. unfold opening_of.
    rewrite (copy_openings _ H1). destruct st' as [e| |]; try reflexivity. destruct e; cbn in H2; try contradiction; reflexivity. }
  destruct (drain_run _ _ _ _ _ HR HX) as [(E & H)|(e & E & H)]; rewrite E; [exact (Hop _ _ _ H)|].
  assert (He : openings [(e, AOk)] = [e]).
  { revert E. unfold actual_destination. destruct (string_dec _ _); [intro E; inversion E; reflexivity|].
    destruct (string_dec _ _); [intro E; inversion E; reflexivity|]. destruct (string_dec _ _); intro E; inversion E; reflexivity. }
  assert (Hone : forall a rest, opening_of st ((e, a) :: rest) = e :: opening_of st rest).
  { intros a rest. unfold opening_of. replace (openings ((e, a) :: rest)) with (openings [(e, a)] ++ openings rest) by (symmetry; exact (openings_app [(e, a)] rest)).
    replace (openings [(e, a)]) with (openings [(e, AOk)]) by (destruct e; reflexivity). rewrite He. reflexivity. }
  destruct H as [(-> & ->)|[(f & rest & k & pj & -> & Ej & H)|(rest & pj & -> & Ej & H)]].
  - unfold opening_of. rewrite He. reflexivity.
  - rewrite Hone, (Hop _ _ _ H). reflexivity.
  - rewrite Hone. f_equal. destruct (drop_pull_copy _ _ _ _ H) as (H1 & _ & H3). unfold opening_of. rewrite (copy_openings _ H1).
    destruct st as [e'| |]; try reflexivity. destruct e'; cbn in H3; try contradiction; reflexivity.
Qed.

(** Reading what is read is not disturbed by the opening. *)
Lemma got_open pl e a tr : is_read e = false -> got pl ((e, a) :: tr) = got pl tr.
Proof.
  intro H. change ((e, a) :: tr) with ([(e, a)] ++ tr). destruct pl as [k j f sc|j n|j q|]; cbn [got]; try reflexivity.
  - destruct e; try discriminate H; reflexivity.
  - rewrite taken_app, datas_app. destruct e; cbn [taken flat_map]; try (destruct a; reflexivity).
    + destruct c; try discriminate H; destruct a; reflexivity.
    + destruct c; try discriminate H; destruct a; reflexivity.
Qed.
Lemma ended_cons pl ev tr : ended pl tr -> ended pl (ev :: tr).
Proof. destruct pl; cbn; auto. intros [H|H]; [left|right]; now right. Qed.

Lemma opened_not_read name e : opened_for (actual_destination name) = Some e -> is_read e = false /\ forall a, attempts [(e, a)] = [].
Proof.
  unfold actual_destination. destruct (string_dec _ _); [intro E; inversion E; auto|].
  destruct (string_dec _ _); [intro E; inversion E; auto|]. destruct (string_dec _ _); intro E; inversion E; auto.
Qed.

Lemma drain_writes d pl name e tr st : drain_ready d pl name -> opened_for (actual_destination name) = Some e ->
  exec (drain_start d None) tr st ->
  match tr with
  | (e', AFd f) :: _ =>
    e' = e /\ prefix (written f tr) (got pl tr) /\
    (forall x, In x (attempts tr) -> fst (fst x) = EWrite f (snd (fst x))) /\
    match st with
    | Done (Ok n) => written f tr = got pl tr /\ ended pl tr /\ In (EFlush f, AOk) tr /\ n = S (length (got pl tr))
    | Panicked _ => False
    | _ => True
    end
  | _ => attempts tr = [] /\ match st with Done (Ok _) | Panicked _ => False | _ => True end
  end.
Proof.
  intros HR He HX. assert (Hf : fresh_pull pl) by apply HR. assert (Hj : pull_journey pl <> None) by apply HR.
  destruct (drain_run _ _ _ _ _ HR HX) as [(E & H)|(e' & E & H)]; [congruence|]. rewrite He in E. injection E as <-.
  destruct H as [(-> & ->)|[(f & rest & k & pj & -> & Ej & H)|(rest & pj & -> & Ej & H)]].
  - split; [reflexivity|exact I].
  - destruct (opened_not_read _ _ He) as [He1 He2]. split; [reflexivity|]. rewrite (got_open _ _ _ _ He1).
    set (ps := PsBytes k (drain_journey pj) f) in *.
    assert (Hw : written f ((e, AFd f) :: rest) = written f rest) by (destruct e; reflexivity). rewrite Hw.
    assert (Ha : attempts ((e, AFd f) :: rest) = attempts rest).
    { change ((e, AFd f) :: rest) with ([(e, AFd f)] ++ rest). now rewrite attempts_app, He2. }
    rewrite Ha.
    pose proof (motion_position pl mn_empty None ps Hf (or_introl Hj) _ _ H) as HP.
    split; [exact (position_accepted pl ps I rest HP eq_refl)|]. split.
    { intros x Hx. pose proof (position_here pl ps rest x HP Hx) as K. cbn in K. now injection K as <-. }
    destruct st as [e1|[n|err]|s]; try exact I.
    + pose proof (copy_terminate_all pl mn_empty None ps Hf (or_introl Hj) I _ _ H eq_refl) as K1. cbn in K1.
      destruct (copy_end pl mn_empty None ps Hf (or_introl Hj) I _ _ H) as [(K2 & K3 & K4)|(K2 & _)]; [|discriminate K2].
      split; [exact K1|]. split; [now apply ended_cons|]. split; [|exact K4]. right.
      exact (copy_shut pl mn_empty None ps Hf (or_introl Hj) _ _ H).
    + exact (motion_no_panic pl mn_empty None ps Hf (or_introl Hj) _ _ H).
  - destruct (drop_pull_copy _ _ _ _ H) as (H1 & H2 & H3). split.
    + change ((e, AErr) :: rest) with ([(e, AErr)] ++ rest). rewrite attempts_app, H2, app_nil_r.
      apply (opened_not_read _ _ He).
    + destruct st as [e1|[n|err]|s]; try exact I; [|contradiction]. destruct H3. discriminate.
Qed.

Lemma drain_null d pl name tr st : drain_ready d pl name -> opened_for (actual_destination name) = None ->
  exec (drain_start d None) tr st ->
  attempts tr = [] /\
  match st with Done (Ok n) => ended pl tr /\ n = S (length (got pl tr)) | Panicked _ => False | _ => True end.
Proof.
  intros HR He HX. assert (Hf : fresh_pull pl) by apply HR. assert (Hj : pull_journey pl <> None) by apply HR.
  destruct (drain_run _ _ _ _ _ HR HX) as [(_ & H)|(e' & E & H)]; [|congruence].
  split; [exact (none_attempts _ _ (motion_position pl mn_empty None PsNone Hf (or_introl Hj) _ _ H))|].
  destruct st as [e1|[n|err]|s]; try exact I.
  - exact (none_end _ _ _ _ _ Hf (or_introl Hj) H).
  - exact (motion_no_panic pl mn_empty None PsNone Hf (or_introl Hj) _ _ H).
Qed.

Lemma pull_released_cons pl ev tr : pull_released pl tr -> pull_released pl (ev :: tr).
Proof. destruct pl; cbn; auto; intro; now right. Qed.

Lemma drain_releases d pl name tr r : drain_ready d pl name -> exec (drain_start d None) tr (Done r) ->
  pull_released pl tr /\ forall e f, In (e, AFd f) tr -> In (EDropFd f, AOk) tr.
Proof.
  intros HR HX. assert (Hf : fresh_pull pl) by apply HR. assert (Hj : pull_journey pl <> None) by apply HR.
  assert (Hno : forall tr, Forall (fun ev => copy_eff (fst ev)) tr -> (forall ev, In ev tr -> wt (fst ev) (snd ev) = true) -> forall e f, ~ In (e, AFd f) tr).
  { intros t H1 H2 e f HI. rewrite Forall_forall in H1. specialize (H1 _ HI). specialize (H2 _ HI). destruct e; cbn in *; try contradiction; discriminate. }
  assert (Hwt : forall A (p : prog A) tr st, exec p tr st -> forall ev, In ev tr -> wt (fst ev) (snd ev) = true).
  { clear. intros A p tr st HX. induction HX as [x|x|x|p tr st HX IH|e k x tr st Hwt HX IH]; intros ev HI; try (now destruct HI); auto.
    destruct HI as [<-|HI]; auto. }
  destruct (drain_run _ _ _ _ _ HR HX) as [(_ & H)|(e' & E & H)].
  - split; [apply (copy_released pl mn_empty None PsNone Hf (or_introl Hj) _ _ H)|].
    intros e f HI. exfalso. eapply Hno; [eapply motion_copy_eff; [exact Hf|left; exact Hj|exact H]|eapply Hwt; exact H|exact HI].
  - destruct H as [(-> & K)|[(f & rest & k & pj & -> & Ej & H)|(rest & pj & -> & Ej & H)]]; [discriminate K| |].
    + destruct (copy_released pl mn_empty None _ Hf (or_introl Hj) _ _ H) as (K1 & K2 & _).
      split; [now apply pull_released_cons|]. intros e f' [HI|HI].
      * injection HI as -> ->. right. exact K2.
      * exfalso. eapply Hno; [eapply motion_copy_eff; [exact Hf|left; exact Hj|exact H]|eapply Hwt; exact H|exact HI].
    + destruct (drop_pull_copy _ _ _ _ H) as (H1 & H2 & _ & H3). split; [now apply pull_released_cons|].
      intros e f' [HI|HI]; [discriminate HI|]. exfalso. eapply Hno; [exact H1|eapply Hwt; exact H|exact HI].
Qed.

Lemma drain_open_fails d pl name e tr st : drain_ready d pl name -> opened_for (actual_destination name) = Some e ->
  exec (drain_start d None) ((e, AErr) :: tr) (Done st) ->
  exists pj, pull_journey pl = Some pj /\ st = Err (OpenIOError pj).
Proof.
  intros HR He HX. destruct (drain_run _ _ _ _ _ HR HX) as [(E & _)|(e' & E & H)]; [congruence|].
  destruct H as [(K & _)|[(f & rest & k & pj & K & _)|(rest & pj & K & Ej & H)]]; try discriminate K.
  destruct (drop_pull_copy _ _ _ _ H) as (_ & _ & H3 & _). eauto.
Qed.

(** ** What a faucet opens *)

Lemma now_copy_eff pl pushs h e : now pl pushs false h e -> copy_eff e.
Proof.
  intros (l & _ & [(_ & Hr & _)|[(d & done & rest & os & _ & [Hn|(p & rest' & _ & Hn)])|(_ & Hr)]]).
  - destruct pl; cbn in Hr; inversion Hr; exact I.
  - destruct e; cbn in Hn; try contradiction; exact I.
  - destruct p; cbn in Hn; inversion Hn; exact I.
  - destruct e; cbn in Hr; try contradiction; exact I.
Qed.

Lemma gate_copy_eff pl ps ctl spy tr st : fresh_pull pl -> exec (start_secret false (Some pl) (Some ps) ctl spy) tr st ->
  Forall (fun ev => copy_eff (fst ev)) tr /\ match st with At e => copy_eff e | _ => True end.
Proof.
  intros Hf HX.
  assert (HS : sat [] (start_secret false (Some pl) (Some ps) ctl spy) (fun _ e => copy_eff e) (fun _ _ => True)).
  { eapply sat_conseq; [apply gate_sat; assumption| |auto]. intros h e [[[H|[(l & _ & _ & c & _ & H)|(Hc & _)]] _]|(Hc & _)].
    - eapply now_copy_eff; eassumption.
    - destruct H as [->|(-> & _)]; exact I.
    - destruct e; cbn in Hc; try contradiction; exact I.
    - destruct e; cbn in Hc; try contradiction; exact I. }
  split; [eapply sat_all; eassumption|]. specialize (HS _ _ HX). destruct st; auto.
Qed.

Lemma faucet_opens f name ps spy tr st : faucet_ready f name ps -> name <> ""%string -> exec (faucet_start f spy) tr st ->
  opening_of st tr = match opened_from (documented_source name) with Some e => [e] | None => [] end.
Proof.
  intros HR Hn HX.
  assert (E : opened_from (documented_source name) = Some (source_eff name)).
  { unfold documented_source, source_eff. destruct (string_dec name "-"); [reflexivity|]. destruct (string_dec name ""); [contradiction|]. reflexivity. }
  rewrite E. assert (He : forall a, openings [(source_eff name, a)] = [source_eff name]).
  { intro a. unfold source_eff. destruct (string_dec name "-"); reflexivity. }
  assert (Hone : forall a rest, opening_of st ((source_eff name, a) :: rest) = source_eff name :: opening_of st rest).
  { intros a rest. unfold opening_of. replace (openings ((source_eff name, a) :: rest)) with (openings [(source_eff name, a)] ++ openings rest)
      by (symmetry; exact (openings_app [(source_eff name, a)] rest)). rewrite He. reflexivity. }
  destruct (faucet_run _ _ _ _ _ _ HR HX) as [[-> ->]|[(j & _ & -> & -> & _)|(d & rest & k & j & -> & HY)]].
  - unfold opening_of. rewrite He. reflexivity.
  - rewrite Hone. reflexivity.
  - rewrite Hone. f_equal. destruct (gate_copy_eff (PlBytes k j d split_control_new) ps _ _ _ _ eq_refl HY) as [H1 H2]. unfold opening_of. rewrite (copy_openings _ H1).
    destruct st as [e| |]; try reflexivity. destruct e; cbn in H2; try contradiction; reflexivity.
Qed.

Lemma drain_opens_documented d pl name tr st : drain_ready d pl name -> name <> ""%string -> name <> "/dev/null"%string -> exec (drain_start d None) tr st ->
  opening_of st tr = match opened_for (documented_destination name) with Some e => [e] | None => [] end.
Proof.
  intros HR N1 N2 HX. rewrite (drain_opens d pl name tr st HR HX).
  unfold actual_destination, documented_destination. destruct (string_dec name "-"); [reflexivity|]. destruct (string_dec name "_"); [reflexivity|].
  destruct (string_dec name "/dev/null"); [contradiction|]. destruct (string_dec name ""); [contradiction|]. reflexivity.
Qed.
