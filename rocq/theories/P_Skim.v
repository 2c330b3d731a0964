(** * P_Skim: programs with and without the effects by which they are regulated *)
From Coq Require Import Ascii String List Bool Arith Lia ZArith.
From Verif Require Import M_Prog P_Prog P_Exec M_Motion M_BackOff M_Regulator M_Faucet M_Buffer M_Join S_Trace S_Lines S_Motion S_World S_Regulator S_Net S_Delay P_Split P_Machine P_Phase P_JPass P_Respond.
Import ListNotations.

Definition skim (tr : trace) : trace := filter (fun ev => negb (control_eff (fst ev))) tr.
(** No size that was told was refused. *)
Definition unrefused (tr : trace) : Prop := forall n v, ~ In (ESend (CSize n) v, AClosed) tr.
Definition stands {A B} (R : A -> B -> Prop) (st : status A) (st' : status B) : Prop :=
  match st with At e => control_eff e = true \/ st' = At e | Done a => exists b, st' = Done b /\ R a b | Panicked s => st' = Panicked s end.
(** The second program does what the first does, apart from regulation. *)
Definition skims {A B} (p : prog A) (q : prog B) (R : A -> B -> Prop) : Prop :=
  forall tr st, exec p tr st -> unrefused tr -> exists st', exec q (skim tr) st' /\ stands R st st'.

Lemma skim_app a b : skim (a ++ b) = skim a ++ skim b.
Proof. apply filter_app. Qed.
Lemma unrefused_app a b : unrefused (a ++ b) -> unrefused a /\ unrefused b.
Proof. intro H. split; intros n v K; apply (H n v), in_or_app; auto. Qed.
Lemma skim_all (P : eff -> Prop) tr : (forall e, P e -> control_eff e = false) -> within_eff P tr -> skim tr = tr.
Proof. intros HP. induction 1 as [|[e a] tr H _ IH]; [reflexivity|]. unfold skim in *. cbn [filter fst]. rewrite (HP e H). cbn. now rewrite IH. Qed.
Lemma skim_none (P : eff -> Prop) tr : (forall e, P e -> control_eff e = true) -> within_eff P tr -> skim tr = [].
Proof. intros HP. induction 1 as [|[e a] tr H _ IH]; [reflexivity|]. unfold skim in *. cbn [filter fst]. rewrite (HP e H). exact IH. Qed.

Lemma skims_weak {A B} (p : prog A) (q : prog B) (R R' : A -> B -> Prop) : skims p q R -> (forall a b, R a b -> R' a b) -> skims p q R'.
Proof.
  intros H HR tr st HX Hu. destruct (H _ _ HX Hu) as (st' & H1 & H2). exists st'. split; [exact H1|]. destruct st; cbn in *; auto. destruct H2 as (b & E & K). eauto.
Qed.
Lemma skims_ret {A B} (a : A) (b : B) (R : A -> B -> Prop) : R a b -> skims (Ret a) (Ret b) R.
Proof. intros H tr st HX _. apply exec_ret_inv in HX. destruct HX as [-> ->]. exists (Done b). split; [constructor|]. cbn. eauto. Qed.
Lemma skims_panic {A B} s (R : A -> B -> Prop) : skims (Panic s) (Panic s) R.
Proof. intros tr st HX _. apply exec_panic_inv in HX. destruct HX as [-> ->]. exists (Panicked s). split; [constructor|reflexivity]. Qed.
Lemma skims_self {A} (Q : A -> Prop) p : works (fun e => control_eff e = false) Q p -> skims p p (fun a b => a = b /\ Q a).
Proof.
  intros H tr st HX _. destruct (H _ _ HX) as [H1 H2]. exists st. rewrite (skim_all _ _ (fun e K => K) H1). split; [exact HX|]. destruct st; cbn; eauto.
Qed.
Lemma skims_quiet {A B} e (k : ans -> prog A) (q : prog B) R : control_eff e = true -> starts q -> (forall a, wt e a = true -> unrefused [(e, a)] -> skims (k a) q R) -> skims (Vis e k) q R.
Proof.
  intros He [s Hs] HK tr st HX Hu. apply exec_vis_inv in HX. destruct HX as [[-> ->]|(a & tr' & -> & Hw & HX)].
  - exists s. split; [exact Hs|]. now left.
  - change ((e, a) :: tr') with ([(e, a)] ++ tr') in *. apply unrefused_app in Hu. destruct Hu as [U1 U2]. destruct (HK a Hw U1 _ _ HX U2) as (st' & H1 & H2). exists st'. split; [|exact H2]. rewrite skim_app. unfold skim at 1. cbn [filter fst]. rewrite He. exact H1.
Qed.
Lemma skims_bind' {A A' B B'} (p : prog A) (q : prog A') (k : A -> prog B) (k' : A' -> prog B') R R' :
  skims p q R -> (forall a b, R a b -> skims (k a) (k' b) R') -> (forall tr b, exec q tr (Done b) -> starts (k' b)) -> skims (bind p k) (bind q k') R'.
Proof.
  intros HP HK HS tr st HX Hu. destruct (exec_bind_inv _ _ _ _ HX) as [(t1 & t2 & a & -> & H1 & H2)|[(e & -> & H1)|(s & -> & H1)]].
  - apply unrefused_app in Hu. destruct Hu as [U1 U2]. destruct (HP _ _ H1 U1) as (st1 & E1 & b & -> & HR). destruct (HK _ _ HR _ _ H2 U2) as (st2 & E2 & S2). exists st2. split; [|exact S2]. rewrite skim_app. exact (exec_bind_intro _ _ _ _ E1 _ _ E2).
  - destruct (HP _ _ H1 Hu) as (st1 & E1 & S1). cbn in S1. destruct st1 as [e'|b|s].
    + exists (At e'). split; [now apply exec_bind_at|]. destruct S1 as [S1|S1]; [now left|injection S1 as ->; now right].
    + destruct (HS _ b E1) as [st2 E2]. exists st2. split; [rewrite <- (app_nil_r (skim tr)); exact (exec_bind_intro _ _ _ _ E1 _ _ E2)|]. destruct S1 as [S1|S1]; [now left|discriminate S1].
    + exists (Panicked s). split; [now apply exec_bind_panic|]. destruct S1 as [S1|S1]; [now left|discriminate S1].
  - destruct (HP _ _ H1 Hu) as (st1 & E1 & S1). cbn in S1. subst st1. exists (Panicked s). split; [now apply exec_bind_panic|reflexivity].
Qed.
Lemma skims_bind {A A' B B'} (p : prog A) (q : prog A') (k : A -> prog B) (k' : A' -> prog B') R R' :
  skims p q R -> (forall a b, R a b -> skims (k a) (k' b) R') -> (forall b, starts (k' b)) -> skims (bind p k) (bind q k') R'.
Proof. intros H1 H2 H3. eapply skims_bind'; [exact H1|exact H2|]. intros; apply H3. Qed.
Definition turn_rel {I I' R R'} (RI : I -> I' -> Prop) (RR : R -> R' -> Prop) (x : I + R) (y : I' + R') : Prop :=
  match x, y with inl a, inl b => RI a b | inr a, inr b => RR a b | _, _ => False end.
Lemma skims_iter {I I' R R'} (body : I -> prog (I + R)) (body' : I' -> prog (I' + R')) (RI : I -> I' -> Prop) (RR : R -> R' -> Prop) (Inv : I' -> Prop) :
  (forall i i', RI i i' -> skims (body i) (body' i') (turn_rel RI RR)) -> (forall i i', RI i i' -> Inv i') ->
  (forall i i' tr j, RI i i' -> exec (body i) tr (Done (inl j)) -> tr <> []) ->
  (forall i' tr j', Inv i' -> exec (body' i') tr (Done (inl j')) -> Inv j') -> (forall i', Inv i' -> starts (iter body' i')) ->
  forall i i', RI i i' -> skims (iter body i) (iter body' i') RR.
Proof.
  intros HB HI HN HP HS i i' Hi tr. remember (length tr) as n eqn:En. revert i i' Hi tr En. induction n as [n IH] using lt_wf_ind. intros i i' Hi tr En st HX Hu.
  destruct (exec_iter_inv _ _ _ _ HX) as [(t1 & t2 & j & -> & H1 & H2)|[(r & -> & H1)|[(e & -> & H1)|(s & -> & H1)]]].
  - apply unrefused_app in Hu. destruct Hu as [U1 U2]. destruct (HB _ _ Hi _ _ H1 U1) as (st1 & E1 & [j'|r'] & -> & HR); cbn in HR; [|contradiction].
    assert (Hlt : length t2 < n) by (subst n; rewrite app_length; pose proof (HN _ _ _ _ Hi H1); destruct t1; [congruence|cbn; lia]).
    destruct (IH _ Hlt _ _ HR t2 eq_refl _ H2 U2) as (st2 & E2 & S2). exists st2. split; [|exact S2]. rewrite skim_app. eapply exec_iter_step; eassumption.
  - destruct (HB _ _ Hi _ _ H1 Hu) as (st1 & E1 & [j'|r'] & -> & HR); cbn in HR; [contradiction|]. exists (Done r'). split; [|cbn; eauto]. rewrite iter_eq, <- (app_nil_r (skim tr)). eapply exec_bind_intro; [exact E1|]. constructor.
  - destruct (HB _ _ Hi _ _ H1 Hu) as (st1 & E1 & S1). cbn in S1. destruct st1 as [e'|[j'|r']|s].
    + exists (At e'). split; [rewrite iter_eq; now apply exec_bind_at|]. destruct S1 as [S1|S1]; [now left|injection S1 as ->; now right].
    + destruct (HS j' (HP _ _ _ (HI _ _ Hi) E1)) as [st2 E2]. exists st2. split; [rewrite <- (app_nil_r (skim tr)); eapply exec_iter_step; eassumption|]. destruct S1 as [S1|S1]; [now left|discriminate S1].
    + exists (Done r'). split; [rewrite iter_eq, <- (app_nil_r (skim tr)); eapply exec_bind_intro; [exact E1|constructor]|]. destruct S1 as [S1|S1]; [now left|discriminate S1].
    + exists (Panicked s). split; [rewrite iter_eq; now apply exec_bind_panic|]. destruct S1 as [S1|S1]; [now left|discriminate S1].
  - destruct (HB _ _ Hi _ _ H1 Hu) as (st1 & E1 & S1). cbn in S1. subst st1. exists (Panicked s). split; [rewrite iter_eq; now apply exec_bind_panic|reflexivity].
Qed.

(** ** Regulators and faucets *)
Lemma starts_ret {A} (a : A) : starts (Ret a).
Proof. eexists. constructor. Qed.
Lemma skims_control ctl : skims (control ctl) (Ret tt) eq.
Proof.
  destruct ctl as [c|]; [|now apply skims_ret]. unfold control, try_recv. rewrite bind_vis. apply skims_quiet; [reflexivity|apply starts_ret|]. intros a Hw _. destruct a; try discriminate Hw; rewrite bind_ret; try now apply skims_ret.
  unfold recv. rewrite bind_vis. apply skims_quiet; [reflexivity|apply starts_ret|]. intros b Hw' _. destruct b; try discriminate Hw'; rewrite bind_ret; now apply skims_ret.
Qed.
Lemma skims_close c : control_chan c = true -> skims (close c) (Ret tt) eq.
Proof. intro H. unfold close. apply skims_quiet; [exact H|apply starts_ret|]. intros a Hw _. destruct a; try discriminate Hw. now apply skims_ret. Qed.
Lemma skims_close_ctl ctl : skims (close_ctl ctl) (Ret tt) eq.
Proof. destruct ctl as [c|]; [now apply skims_close|now apply skims_ret]. Qed.

Definition one_push (s : motion_state) : Prop := exists p', snd (fst s) = [p'] /\ busy_ends (fst (fst s)) p'.
Lemma worker_loud pl spy p : works (fun e => control_eff e = false) (fun x => like pl (snd (fst x)) /\ Forall2 likep [p] (snd x)) (motion_worker pl mn_empty [p] spy false).
Proof.
  apply works_worker; [|apply like_refl|constructor; [apply likep_refl|constructor]].
  intros e [H|[(q & d & _ & H)|[(c & _ & ->)|[(c & _ & ->)|(s & v & _ & ->)]]]]; try reflexivity; [destruct pl|destruct q]; cbn in H; try discriminate H; injection H as <-; reflexivity.
Qed.
Lemma gate_turn ctl spy brk s tr s' : one_push s -> exec (gate_body ctl spy brk s) tr (Done (inl s')) -> one_push s' /\ tr <> [].
Proof.
  destruct s as [[pl ps] n]. intros (p & E & HB) HX. cbn [fst snd] in *. subst ps. unfold gate_body in HX.
  destruct (exec_bind_inv _ _ _ _ HX) as [(t1 & t2 & [[r pl'] ps'] & -> & H1 & H2)|[(e & E & _)|(s & E & _)]]; try discriminate E.
  destruct (worker_loud _ _ _ _ _ H1) as [_ [HL HP]]. cbn [fst snd] in HL, HP. inversion HP as [|? q ? ? HL2 HP2]; subst. inversion HP2; subst.
  assert (HF : (forall a, r <> Ok (WR true a)) /\ fst s' = (pl', [q])).
  { destruct r as [[[|] rd]|e]; cbn [wr_finished] in H2.
    - destruct (exec_bind_inv _ _ _ _ H2) as [(t3 & t4 & u & -> & H3 & H4)|[(e & E & _)|(s & E & _)]]; try discriminate E. apply exec_ret_inv in H4. destruct H4 as [_ H4]. discriminate H4.
    - destruct (exec_bind_inv _ _ _ _ H2) as [(t3 & t4 & u & -> & H3 & H4)|[(e & E & _)|(s & E & _)]]; try discriminate E. apply exec_ret_inv in H4. destruct H4 as [_ H4]. injection H4 as ->. split; [discriminate|reflexivity].
    - split; [discriminate|]. destruct e; try (apply exec_ret_inv in H2; destruct H2 as [_ H2]; discriminate H2). destruct brk; try (apply exec_ret_inv in H2; destruct H2 as [_ H2]; discriminate H2).
      destruct (exec_bind_inv _ _ _ _ H2) as [(t3 & t4 & u & -> & H3 & H4)|[(e & E & _)|(s & E & _)]]; try discriminate E. apply exec_ret_inv in H4. destruct H4 as [_ H4]. injection H4 as ->. reflexivity. }
  destruct HF as [HF Es]. split; [exists q; rewrite Es; split; [reflexivity|eapply busy_like; eassumption]|].
  intro Et. apply app_eq_nil in Et. destruct Et as [-> _]. destruct (silent_worker _ _ _ _ _ HB H1) as (a & b & Er). injection Er as -> _ _. exact (HF _ eq_refl).
Qed.
Lemma starts_body spy brk s : one_push s -> starts (iter (gate_body None spy brk) s).
Proof. intro H. apply (resp_iter _ one_push); [intros; apply resp_gate_body|intros; eapply gate_turn; eassumption|exact H]. Qed.
Lemma skims_body ctl spy brk s : one_push s -> skims (gate_body ctl spy brk s) (gate_body None spy brk s) (turn_rel (fun a b => a = b /\ one_push b) eq).
Proof.
  destruct s as [[pl ps] n]. intros (p & E & HB). cbn [fst snd] in *. subst ps. unfold gate_body. eapply skims_bind; [apply skims_self, worker_loud| |].
  - intros [[r pl'] ps'] b [<- [HL HP]]. cbn [fst snd] in HL, HP. inversion HP as [|? q ? ? HL2 HP2]; subst. inversion HP2; subst.
    assert (H1 : one_push (pl', [q], S n)) by (exists q; split; [reflexivity|eapply busy_like; eassumption]).
    destruct r as [[[|] rd]|e]; cbn [wr_finished].
    + eapply skims_bind; [apply skims_close_ctl| |]; [|intros; apply starts_ret]. intros. now apply skims_ret.
    + eapply skims_bind; [apply skims_control| |]; [|intros; apply starts_ret]. intros. now apply skims_ret.
    + destruct e; try now apply skims_ret. destruct brk; try now apply skims_ret. eapply skims_bind; [apply skims_control| |]; [|intros; apply starts_ret]. intros. now apply skims_ret.
  - intros [[r pl'] ps']. destruct r as [w|e]; [destruct (wr_finished w); cbn; rewrite bind_ret; apply starts_ret|]. destruct e; try apply starts_ret. destruct brk; try apply starts_ret. cbn. rewrite bind_ret. apply starts_ret.
Qed.
Lemma drops_loud pl ps : works (fun e => control_eff e = false) (fun _ => True) (drop_pull pl) /\ works (fun e => control_eff e = false) (fun _ => True) (drop_pushes ps).
Proof.
  split; [destruct pl; try (apply works_ret; exact I); [apply works_drop_fd|apply works_close]; reflexivity|].
  induction ps as [|p ps IH]; [now apply works_ret|]. cbn [drop_pushes]. eapply works_bind; [|intros; exact IH]. instantiate (1 := fun _ => True). destruct p; try (apply works_ret; exact I); [apply works_drop_fd|apply works_close|apply works_close]; reflexivity.
Qed.
Lemma skims_gate started pl ps ctl spy : busy_ends pl ps -> skims (start_secret started (Some pl) (Some ps) ctl spy) (start_secret started (Some pl) (Some ps) None spy) eq.
Proof.
  intro HB. unfold start_secret. destruct started; [apply skims_panic|].
  assert (H0 : one_push (pl, [ps], 0)) by (exists ps; auto).
  eapply skims_bind; [apply (skims_iter _ _ (fun a b => a = b /\ one_push b) eq one_push); [| | | | |split; [reflexivity|exact H0]]| |].
  - intros i i' [-> H]. now apply skims_body.
  - intros i i' [_ H]. exact H.
  - intros i i' tr j [-> H] HX. exact (proj2 (gate_turn _ _ _ _ _ _ H HX)).
  - intros i' tr j' H HX. exact (proj1 (gate_turn _ _ _ _ _ _ H HX)).
  - intros i' H. now apply starts_body.
  - intros [[r pl'] ps'] b <-. eapply skims_bind; [apply skims_self, (proj2 (drops_loud PlNone ps'))| |].
    + intros u v _. eapply skims_bind; [apply skims_self, (proj1 (drops_loud pl' []))| |]; [intros; now apply skims_ret|intros; apply starts_ret].
    + intros _. apply start_bind; [apply resp_drop_pull|]. intros. apply starts_ret.
  - intros [[r pl'] ps']. apply start_bind; [apply resp_drop_pushes|]. intros. apply start_bind; [apply resp_drop_pull|]. intros. apply starts_ret.
Qed.
Lemma source_loud f : works (fun e => control_eff e = false) (fun a => forall pl ps, a = Ok pl -> real_push ps -> busy_ends pl ps) (faucet_source f).
Proof.
  unfold faucet_source. assert (H0 : forall ps, busy_ends PlNone ps) by (intros; exact I).
  destruct (fc_pull_journey f); [|apply works_ret; intros pl ps E; injection E as <-; auto]. destruct (fc_read_location f); [|apply works_ret; intros pl ps E; injection E as <-; auto].
  destruct (string_dec _ _); (apply works_vis; [reflexivity|]; intros a Hw; destruct a; try discriminate Hw; apply works_ret; intros pl ps E; try discriminate E; injection E as <-; auto).
Qed.
Lemma skims_faucet f name ps spy : faucet_ready f name ps -> skims (faucet_start f spy) (faucet_start (Faucet (fc_started f) (fc_stdout_size f) (fc_stdout f) (fc_stdin f) None (fc_pull_journey f) (fc_read_location f)) spy) eq.
Proof.
  intros (H1 & H2 & H3 & H4 & H5). unfold faucet_start. cbn [fc_started fc_stdout fc_control].
  change (faucet_source (Faucet _ _ _ _ None _ _)) with (faucet_source f). rewrite H1, H3.
  eapply skims_bind'; [apply skims_self, source_loud| |].
  - intros a b [<- Hb]. destruct a as [pl|e]; [|now apply skims_ret]. apply skims_gate. now apply Hb.
  - intros tr [pl|e] HX; [|apply starts_ret]. destruct (source_loud f _ _ HX) as [_ Hb]. apply resp_gate. now apply Hb.
Qed.
Lemma skims_regulator r pj i ps spy : regulator_ready r (PlReceiver pj i) ps -> skims (regulator_start r spy) (regulator_start (Regulator (rg_started r) (rg_stdout_size r) (rg_stdout r) (rg_stdin r) None) spy) eq.
Proof. intros (H1 & H2 & H3 & H4 & H5). unfold regulator_start. cbn [rg_started rg_stdin rg_stdout rg_control]. rewrite H2, H3. apply skims_gate. exact I. Qed.

(** ** The counter of a buffer *)
Definition same_count (a b : counter) : Prop := ct_size a = ct_size b /\ ct_back a = ct_back b.
Lemma look_in_loud mi n : works (fun e => control_eff e = false) (fun _ => True) (look_in mi n).
Proof. unfold look_in. eapply works_bind; [now apply works_try_recv|]. intros [v| |] _; try now apply works_ret. destruct v; try apply works_panic; now apply works_ret. Qed.
Lemma look_out_loud mo n m : works (fun e => control_eff e = false) (fun _ => True) (look_out mo n m).
Proof.
  unfold look_out. eapply works_bind; [now apply works_try_recv|]. intros [v| |] _; try now apply works_ret. destruct v; try apply works_panic. eapply works_bind; [|intros; now apply works_ret].
  instantiate (1 := fun _ => True). destruct n; [apply works_panic|now apply works_ret].
Qed.
Lemma ask_loud e (k : ans -> prog bool) : control_eff e = false -> (forall a, exists b, k a = Ret b \/ exists s, k a = Panic s) -> works (fun e => control_eff e = false) (fun _ => True) (Vis e k).
Proof. intros H K. apply works_vis; [exact H|]. intros a _. destruct (K a) as (b & [->|(s & ->)]); [now apply works_ret|apply works_panic]. Qed.
Lemma over_loud mi mo : works (fun e => control_eff e = false) (fun _ => True) (both_over mi mo).
Proof.
  assert (HE : forall c, works (fun e => control_eff e = false) (fun _ => True) (is_empty (CMon c))) by (intro c; apply ask_loud; [reflexivity|intros [v| | | | | |d|x|f| |s]; first [exists x; left; reflexivity|exists true; right; eexists; reflexivity]]).
  assert (HC : forall c, works (fun e => control_eff e = false) (fun _ => True) (is_closed (CMon c))) by (intro c; apply ask_loud; [reflexivity|intros [v| | | | | |d|x|f| |s]; first [exists x; left; reflexivity|exists true; right; eexists; reflexivity]]).
  unfold both_over. eapply works_bind; [apply HE|]. intros [] _; cbn; [|now apply works_ret]. eapply works_bind; [apply HC|]. intros [] _; cbn; [|now apply works_ret]. eapply works_bind; [apply HE|]. intros [] _; cbn; [apply HC|now apply works_ret].
Qed.
Lemma wait_loud b : works (fun e => control_eff e = false) (fun _ => True) (back_off_wait b).
Proof. unfold back_off_wait. eapply works_bind; [|intros; now apply works_ret]. instantiate (1 := fun _ => True). unfold sleep. apply works_vis; [reflexivity|]. intros a Hw. destruct a; try discriminate Hw. now apply works_ret. Qed.
Lemma skims_report s n last (last' : nat) : skims (report_size s n last) (Ret (Some last')) (fun a b => exists x, a = Some x /\ b = Some last').
Proof.
  unfold report_size. destruct s as [s|]; [|apply skims_ret; eauto]. destruct (negb _); [|apply skims_ret; eauto]. unfold send. rewrite bind_vis. apply skims_quiet; [reflexivity|apply starts_ret|].
  intros a Hw Hu. destruct a; try discriminate Hw; rewrite bind_ret; [exfalso; eapply Hu; now left|]. apply skims_ret; eauto.
Qed.
Lemma skims_count s mi mo i i' : same_count i i' -> skims (count_body s mi mo i) (count_body None mi mo i') (turn_rel same_count eq).
Proof.
  intros [E1 E2]. unfold count_body. rewrite E1, E2.
  assert (S3 : forall (moved : bool) (size last : nat), starts (over <- both_over mi mo ;; if over then Ret (@inr counter (option nat) (Some size)) else if moved then Ret (inl (Counter size (snd (back_off_reset (ct_back i'))) last)) else ' (_, b) <- back_off_wait (ct_back i') ;; Ret (inl (Counter size b last)))).
  { intros. unfold both_over, is_empty. rewrite !bind_vis. eexists. constructor. }
  eapply skims_bind; [apply skims_self, look_in_loud| |].
  - intros [moved size] b [<- _]. eapply skims_bind; [apply skims_self, look_out_loud| |].
    + intros [moved' size'] b [<- _]. eapply skims_bind; [apply (skims_report s size' (ct_last i) (ct_last i'))| |].
      * intros a b (x & -> & ->). eapply skims_bind; [apply skims_self, over_loud| |].
        -- intros [] b [<- _]; [now apply skims_ret|]. destruct moved'; [now apply skims_ret|]. eapply skims_bind; [apply skims_self, wait_loud| |]; [|intros []; apply starts_ret]. intros [u bo] b [<- _]. now apply skims_ret.
        -- intros []; [apply starts_ret|]. destruct moved'; [apply starts_ret|]. unfold back_off_wait, sleep. rewrite !bind_vis. eexists. constructor.
      * intros [x|]; [apply S3|apply starts_ret].
    + intros [moved' size']. cbn [report_size]. rewrite bind_ret. apply S3.
  - intros [moved size]. unfold look_out, try_recv. rewrite !bind_vis. eexists. constructor.
Qed.
Lemma skims_total s mi mo : skims (total_in_buffer s mi mo) (total_in_buffer None mi mo) eq.
Proof.
  unfold total_in_buffer.
  assert (ST : forall i, starts (iter (count_body None mi mo) i)).
  { intro i. apply (resp_iter _ (fun _ => True)); [intros; apply resp_count_body| |exact I]. intros s0 tr s' _ HX. split; [exact I|]. intros ->.
    unfold count_body in HX. apply exec_bind_nil in HX. destruct HX as (x & HX & _). unfold look_in in HX. apply exec_bind_nil in HX. destruct HX as (y & HX & _). exact (vis_not_nil _ _ _ HX). }
  eapply skims_bind; [apply (skims_iter _ _ same_count eq (fun _ => True)); [| | | | |split; reflexivity]| |].
  - intros i i' H. now apply skims_count.
  - auto.
  - intros i i' tr j _ HX ->. unfold count_body in HX. apply exec_bind_nil in HX. destruct HX as (x & HX & _). unfold look_in in HX. apply exec_bind_nil in HX. destruct HX as (y & HX & _). exact (vis_not_nil _ _ _ HX).
  - auto.
  - intros; apply ST.
  - intros r r' <-. assert (HC : forall c, skims (close (CMon c)) (close (CMon c)) (fun a b => a = b /\ True)) by (intro c; apply skims_self, works_close; reflexivity).
    eapply skims_bind; [apply HC| |]; [intros _ _ _|intros; apply start_bind; [apply resp_close|]; intros; rewrite bind_ret; apply starts_ret].
    eapply skims_bind; [apply HC| |]; [intros _ _ _|intros; rewrite bind_ret; apply starts_ret].
    eapply skims_bind; [destruct s as [s|]; [now apply skims_close|now apply (skims_ret _ _ eq)]| |]; [intros; now apply skims_ret|intros; apply starts_ret].
  - intros r. apply start_bind; [apply resp_close|]. intros. apply start_bind; [apply resp_close|]. intros. rewrite bind_ret. apply starts_ret.
Qed.
