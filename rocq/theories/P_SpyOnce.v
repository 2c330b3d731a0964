(** * P_SpyOnce: components with one input report one end, at the end *)
From Coq Require Import Ascii String List Bool Arith ZArith Lia.
From Verif Require Import M_Prog M_Motion M_Connectable M_BackOff M_Utils M_Regulator M_Faucet M_Join M_Buffer M_Launch S_Motion S_World S_Spy P_Prog P_Motion P_Phase P_Exec P_World P_JStart P_Spy.
Import ListNotations.

Lemma unended_once l : unended l -> ended_once l.
Proof. now left. Qed.
Lemma unended_app l l' : unended l -> unended l' -> unended (l ++ l').
Proof. unfold unended. intros H H' K. apply in_app_or in K. tauto. Qed.
Lemma once_more l : unended l -> ended_once (l ++ [inr Finished]).
Proof. right. eauto. Qed.

Section Once.
Variables (p : push) (s : nat) (src dst : nat) (port : oport) (brk : breakable).
Hypothesis Hreal : real_push p.
Hypothesis Hj : push_journey p = Some (J src (Some port) dst brk).

Definition still (e : eff) : Prop := forall a, unended (word_of p s (e, a)).
Definition ON1 (h : trace) (_ : eff) : Prop := ended_once (talk p s h).
Lemma still_talk tr : within_eff still tr -> unended (talk p s tr).
Proof. induction 1 as [|[e a] tr H _ IH]; [intros []|]. change (unended (word_of p s (e, a) ++ talk p s tr)). apply unended_app; [exact (H a)|exact IH]. Qed.
Lemma hush_still e : hush p s e -> still e.
Proof. intros H a. rewrite H. intros []. Qed.
Lemma more {A} (Q : A -> Prop) (q : prog A) h : works still Q q -> unended (talk p s h) -> tsat h q ON1 (fun h' a => unended (talk p s h') /\ Q a).
Proof.
  intros HW H tr st HX. destruct (HW _ _ HX) as [H1 H2].
  assert (E : unended (talk p s (h ++ tr))) by (rewrite talk_app; apply unended_app; [exact H|now apply still_talk]).
  destruct st; [now left|auto|exact I].
Qed.
Lemma quiet {A} (F : list word -> Prop) (Q : A -> Prop) (q : prog A) h :
  (forall l, F l -> ended_once l) -> works (hush p s) Q q -> F (talk p s h) -> tsat h q ON1 (fun h' a => F (talk p s h') /\ Q a).
Proof.
  intros HF HW H tr st HX. destruct (HW _ _ HX) as [H1 H2].
  assert (E : talk p s (h ++ tr) = talk p s h) by (rewrite talk_app, (hush_talk _ _ _ H1); apply app_nil_r).
  destruct st; [apply HF; now rewrite E|rewrite E; auto|exact I].
Qed.

Lemma still_write d e : write_eff p d = Some e -> still e.
Proof. unfold still. clear Hreal Hj. destruct p; cbn [write_eff]; intros [= <-] a K; unfold word_of in K; rewrite Nat.eqb_refl in K; destruct a; destruct K as [K|[]]; discriminate K. Qed.
Lemma still_spy d : works still (fun r => forall j x d', r <> Err (OutputClosed j x d')) (worker_spy (Some s) (IOData d) p).
Proof.
  unfold worker_spy. rewrite Hj. eapply works_bind; [apply works_send|intros ok _; apply works_ret; destruct ok; discriminate].
  intro a. cbn -[names]. destruct a; try (intros []; fail). destruct (_ && _); [intros [K|[]]; discriminate K|intros []].
Qed.
(** The end is told. *)
Lemma end_spy h : unended (talk p s h) -> tsat h (worker_spy (Some s) Finished p) ON1 (fun h' r => ended_once (talk p s h') /\ forall j x d, r <> Err (OutputClosed j x d)).
Proof.
  intros HU. unfold worker_spy. rewrite Hj. apply tsat_bind. intros tr st HX. unfold send in HX. apply exec_vis_inv in HX.
  destruct HX as [[-> ->]|(a & tr' & -> & Hw & HX)]; [left; now rewrite app_nil_r|].
  assert (E : ended_once (talk p s (h ++ [(ESend (CSpy s) (VSpy src dst port Finished), a)]))).
  { rewrite talk_app. cbn -[names]. rewrite Nat.eqb_refl. destruct a; try (left; rewrite app_nil_r; exact HU). destruct (true && _); cbn; [now apply once_more|left; rewrite app_nil_r; exact HU]. }
  destruct a; try discriminate Hw; apply exec_ret_inv in HX; destruct HX as [-> ->]; apply tsat_ret; (split; [exact E|discriminate]).
Qed.

Definition after_turn (h : trace) (x : mres worker_result * pull * list push) : Prop :=
  snd x = [p] /\ ended_once (talk p s h) /\ fair_error [p] (fst (fst x)) /\
  match fst (fst x) with Ok w => wr_finished w = false -> unended (talk p s h) | Err _ => True end.
Lemma turn mon pl t h : unended (talk p s h) -> tsat h (motion_worker pl mon [p] (Some s) t) ON1 after_turn.
Proof.
  intro HT. unfold motion_worker. apply tsat_bind. eapply tsat_conseq; [apply (quiet unended); [exact unended_once|apply hush_read_works|exact HT]|].
  intros h1 [r pl'] (K1 & K2). cbn in K2. destruct r as [data|e]; [|apply tsat_ret; repeat split; cbn; [now left|exact (K2 [p])]].
  pose proof (hush_notify p s (mon_read mon) VRead pl' (fun j => MonitorReadError (pj_src j)) (or_introl eq_refl) (fun _ => I)) as N1.
  pose proof (hush_notify p s (mon_written mon) VWrote pl' MonitorWriteError (or_intror eq_refl) (fun _ => I)) as N2.
  destruct data as [d| |].
  - apply tsat_bind. eapply tsat_conseq; [apply (quiet unended); [exact unended_once|exact N1|exact K1]|].
    intros h2 [u|e] (L1 & L2); [|apply tsat_ret; repeat split; cbn; [now left|exact (fair_error_nil [p] (Err e : mres unit) L2)]].
    cbn [worker_pushes]. rewrite ?bind_bind. apply tsat_bind. apply tsat_bind. eapply tsat_conseq; [apply more; [apply (wwrite_same still p (IOData d) Hreal); intros; eapply still_write; eassumption|exact L1]|].
    intros h3 [r q] (M1 & E & M2). cbn in E, M2. subst q. destruct r as [dec|e]; [|apply tsat_ret; apply tsat_ret; repeat split; cbn; [now left|exact M2]].
    apply tsat_bind. eapply tsat_conseq; [apply more; [apply still_spy|exact M1]|]. intros h4 [u'|e] (O1 & O2).
    2:{ apply tsat_ret. apply tsat_ret. repeat split; cbn; [now left|]. destruct e; cbn; auto. exfalso. eapply O2. reflexivity. }
    apply tsat_bind. apply tsat_ret. apply tsat_ret. apply tsat_bind. eapply tsat_conseq; [apply (quiet unended); [exact unended_once|exact N2|exact O1]|].
    intros h5 [u2|e] (P1 & P2); apply tsat_ret; repeat split; cbn; auto using unended_once. exact (fair_error_nil [p] (Err e : mres unit) P2).
  - apply tsat_bind. eapply tsat_conseq; [apply (quiet unended); [exact unended_once|exact N1|exact K1]|].
    intros h2 [u|e] (L1 & L2); [|apply tsat_ret; repeat split; cbn; [now left|exact (fair_error_nil [p] (Err e : mres unit) L2)]].
    cbn [worker_pushes]. apply tsat_bind. apply tsat_bind. eapply tsat_conseq; [apply more; [apply (wwrite_same still p Finished Hreal); intros; eapply still_write; eassumption|exact L1]|].
    intros h3 [r q] (M1 & E & M2). cbn in E, M2. subst q. destruct r as [dec|e]; [|apply tsat_ret; apply tsat_ret; repeat split; cbn; [now left|exact M2]].
    apply tsat_bind. eapply tsat_conseq; [apply end_spy; exact M1|]. intros h4 [u'|e] (O1 & O2).
    2:{ apply tsat_ret. apply tsat_ret. repeat split; cbn; [exact O1|]. destruct e; cbn; auto. exfalso. eapply O2. reflexivity. }
    apply tsat_bind. apply tsat_ret. apply tsat_ret. apply tsat_bind. eapply tsat_conseq; [apply (quiet ended_once); [auto|exact N2|exact O1]|].
    intros h5 [u2|e] (P1 & P2); apply tsat_ret; repeat split; cbn; auto; [|exact (fair_error_nil [p] (Err e : mres unit) P2)].
    destruct (_ =? 0); discriminate.
  - apply tsat_ret. repeat split; cbn; auto using unended_once.
Qed.

Definition at_last {A} (h : trace) (_ : A) : Prop := ended_once (talk p s h).
Lemma at_last_words {B C} (q : prog B) (k : B -> prog C) h : ended_once (talk p s h) -> works (hush p s) (fun _ => True) q ->
  (forall h' x, ended_once (talk p s h') -> tsat h' (k x) ON1 at_last) -> tsat h (bind q k) ON1 at_last.
Proof. intros HS HW HK. apply tsat_bind. eapply tsat_conseq; [apply (quiet ended_once); [auto|exact HW|exact HS]|]. intros h' x [K _]. apply HK. exact K. Qed.

Lemma motion_once pl mon : tsat [] (motion pl mon (Some s) p) ON1 at_last.
Proof.
  unfold motion. apply tsat_bind. eapply tsat_conseq.
  - apply (tsat_iter (motion_body mon (Some s)) (fun h x => unended (talk p s h) /\ snd (fst x) = [p]) ON1 (fun h x => ended_once (talk p s h) /\ snd x = [p])); [|split; [intros []|reflexivity]].
    intros h [[pl' ps] count] [HT HP]. cbn in HP. subst ps. unfold motion_body.
    apply tsat_bind. eapply tsat_conseq; [exact (turn mon pl' false h HT)|].
    intros h1 [[r pl1] ps1] (K1 & K2 & K3 & K4). cbn in K1, K2, K3, K4. subst. destruct r as [w|e]; [|apply tsat_ret; split; auto].
    destruct (wr_finished w); [|apply tsat_ret; split; auto].
    apply tsat_bind. eapply tsat_conseq; [apply (quiet ended_once); [auto|apply hush_close_all|exact K2]|]. intros h2 c [L1 _].
    destruct c as [u|e]; [|apply tsat_ret; split; cbn; auto].
    apply tsat_bind. eapply tsat_conseq; [apply (quiet ended_once); [auto|apply hush_close_mon|exact L1]|]. intros h3 _ [M1 _].
    apply tsat_bind. eapply tsat_conseq; [apply (quiet ended_once); [auto|apply hush_close_mon|exact M1]|]. intros h4 _ [O1 _].
    apply tsat_ret. split; auto.
  - intros h [[r pl'] ps'] [K1 K2]. cbn in K1, K2. subst.
    apply at_last_words; [exact K1|apply hush_drop_pull|]. intros h1 _ L1.
    apply at_last_words; [exact L1|apply hush_drop_pushes|]. intros h2 _ L2.
    apply at_last_words; [exact L2|apply hush_close_mon|]. intros h3 _ L3.
    apply at_last_words; [exact L3|apply hush_close_mon|]. intros h4 _ L4. apply tsat_ret. exact L4.
Qed.
Lemma gate_once started pl ctl h : unended (talk p s h) -> tsat h (start_secret started (Some pl) (Some p) ctl (Some s)) ON1 at_last.
Proof.
  intro H0. unfold start_secret. destruct started; [intros tr st HX; inversion HX; exact I|]. apply tsat_bind. eapply tsat_conseq.
  - apply (tsat_iter (gate_body ctl (Some s) (push_brk p)) (fun h x => unended (talk p s h) /\ snd (fst x) = [p]) ON1 (fun h x => ended_once (talk p s h) /\ snd x = [p])); [|split; [exact H0|reflexivity]].
    intros h' [[pl' ps] count] [HT HP]. cbn in HP. subst ps. unfold gate_body.
    apply tsat_bind. eapply tsat_conseq; [exact (turn mn_empty pl' false h' HT)|].
    intros h1 [[r pl1] ps1] (K1 & K2 & K3 & K4). cbn in K1, K2, K3, K4. subst. destruct r as [w|e].
    + destruct (wr_finished w).
      * apply tsat_bind. eapply tsat_conseq; [apply (quiet ended_once (fun _ => True)); [auto| |exact K2]|]; [destruct ctl; cbn; [apply hush_close|now apply works_ret]|]. intros h2 _ [L1 _]. apply tsat_ret. split; auto.
      * apply tsat_bind. eapply tsat_conseq; [apply (quiet unended); [exact unended_once|apply hush_control|exact (K4 eq_refl)]|]. intros h2 _ [L1 _]. apply tsat_ret. split; auto.
    + destruct e; try (apply tsat_ret; split; cbn; auto; fail).
      cbn in K3. destruct K3 as (q & [<-|[]] & ->). apply tsat_ret. split; cbn; auto.
  - intros h' [[r pl'] ps'] [K1 K2]. cbn in K1, K2. subst.
    apply at_last_words; [exact K1|apply hush_drop_pushes|]. intros h1 _ L1.
    apply at_last_words; [exact L1|apply hush_drop_pull|]. intros h2 _ L2. apply tsat_ret. exact L2.
Qed.
Lemma faucet_once f : fc_stdout f = Some p -> tsat [] (faucet_start f (Some s)) ON1 at_last.
Proof.
  intro E. unfold faucet_start. apply tsat_bind. eapply tsat_conseq; [apply (quiet unended (fun _ => True)); [exact unended_once| |intros []]|].
  - unfold faucet_source. destruct (fc_pull_journey f) as [j|], (fc_read_location f) as [name|]; try (now apply works_ret).
    destruct (string_dec name "-"); (apply works_vis; [intros []; reflexivity|]); intros [] Hw; try discriminate Hw; now apply works_ret.
  - intros h [pl|e] [K _]; [|apply tsat_ret; left; exact K]. rewrite E. apply gate_once. exact K.
Qed.
Lemma regulator_once r : rg_stdout r = Some p -> tsat [] (regulator_start r (Some s)) ON1 at_last.
Proof.
  intro E. unfold regulator_start. rewrite E. destruct (rg_stdin r) as [pl|]; [apply gate_once; intros []|].
  unfold start_secret. destruct (rg_started r); [intros tr st HX; inversion HX; exact I|].
  apply at_last_words; [left; intros []|apply hush_drop_push|]. intros h _ K. apply tsat_ret. exact K.
Qed.
End Once.

Lemma once_of {A} p s tr (st : status A) (q : prog A) : tsat [] q (ON1 p s) (at_last p s) -> exec q tr st -> (forall m, st <> Panicked m) -> ended_once (talk p s tr).
Proof. intros H HX HN. specialize (H _ _ HX). cbn in H. destruct st as [e|x|m]; [exact H|exact H|now elim (HN m)]. Qed.
Theorem ends_once s p : followed p ->
  (forall pl mon tr st, exec (motion pl mon (Some s) p) tr st -> (forall m, st <> Panicked m) -> ended_once (talk p s tr)) /\
  (forall f tr st, fc_stdout f = Some p -> exec (faucet_start f (Some s)) tr st -> (forall m, st <> Panicked m) -> ended_once (talk p s tr)) /\
  (forall r tr st, rg_stdout r = Some p -> exec (regulator_start r (Some s)) tr st -> (forall m, st <> Panicked m) -> ended_once (talk p s tr)).
Proof.
  intros (HR & src & port & dst & b & Hj). split; [|split].
  - intros pl mon tr st HX. apply (once_of p s tr st _ (motion_once p s src dst port b HR Hj pl mon) HX).
  - intros f tr st E HX. apply (once_of p s tr st _ (faucet_once p s src dst port b HR Hj f E) HX).
  - intros r tr st E HX. apply (once_of p s tr st _ (regulator_once p s src dst port b HR Hj r E) HX).
Qed.
