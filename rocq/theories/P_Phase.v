(** * P_Phase: programs that work and then close *)
From Coq Require Import Ascii String List Bool Arith Lia.
From Verif Require Import M_Prog P_Prog P_Exec M_Motion M_Regulator M_Faucet M_Drain S_Trace S_Lines S_Motion P_Split.
Import ListNotations.

Definition within_eff (P : eff -> Prop) (tr : trace) : Prop := Forall (fun ev => P (fst ev)) tr.

(** Every effect is in [P], the result in [Q]. *)
Definition works {A} (P : eff -> Prop) (Q : A -> Prop) (p : prog A) : Prop :=
  forall tr st, exec p tr st -> within_eff P tr /\ match st with At e => P e | Done a => Q a | Panicked _ => True end.

Section W.
Context {A B : Type}.
Lemma works_ret (P : eff -> Prop) (Q : A -> Prop) a : Q a -> works P Q (Ret a).
Proof. intros H tr st HX. apply exec_ret_inv in HX. destruct HX as [-> ->]. split; [constructor|exact H]. Qed.
Lemma works_panic (P : eff -> Prop) (Q : A -> Prop) s : works P Q (Panic s).
Proof. intros tr st HX. apply exec_panic_inv in HX. destruct HX as [-> ->]. split; [constructor|exact I]. Qed.
Lemma works_vis (P : eff -> Prop) (Q : A -> Prop) e k : P e -> (forall a, wt e a = true -> works P Q (k a)) -> works P Q (Vis e k).
Proof.
  intros HP HK tr st HX. apply exec_vis_inv in HX. destruct HX as [[-> ->]|(a & tr' & -> & Hw & HX)]; [split; [constructor|exact HP]|].
  destruct (HK a Hw _ _ HX) as [H1 H2]. split; [constructor; assumption|exact H2].
Qed.
Lemma works_bind (P : eff -> Prop) (Q : A -> Prop) (R : B -> Prop) p k : works P Q p -> (forall a, Q a -> works P R (k a)) -> works P R (bind p k).
Proof.
  intros Hp Hk tr st HX. destruct (exec_bind_inv _ _ _ _ HX) as [(t1 & t2 & x & -> & H1 & H2)|[(e & -> & H1)|(s & -> & H1)]]; destruct (Hp _ _ H1) as [G1 G2].
  - destruct (Hk _ G2 _ _ H2) as [K1 K2]. split; [now apply Forall_app|exact K2].
  - auto.
  - auto.
Qed.
Lemma works_weak (P P' : eff -> Prop) (Q Q' : A -> Prop) p : works P Q p -> (forall e, P e -> P' e) -> (forall a, Q a -> Q' a) -> works P' Q' p.
Proof.
  intros H HP HQ tr st HX. destruct (H _ _ HX) as [H1 H2]. split; [eapply Forall_impl; [|exact H1]; auto|]. destruct st; auto.
Qed.
End W.


(** As [sat], but a panic is allowed. *)
Definition tsat {A} (h : trace) (p : prog A) (N : trace -> eff -> Prop) (Q : trace -> A -> Prop) : Prop :=
  forall tr st, exec p tr st -> match st with At e => N (h ++ tr) e | Done a => Q (h ++ tr) a | Panicked _ => True end.
Lemma tsat_ret {A} h (a : A) (N : trace -> eff -> Prop) (Q : trace -> A -> Prop) : Q h a -> tsat h (Ret a) N Q.
Proof. intros HQ tr st HX. inversion HX; subst. now rewrite app_nil_r. Qed.
Lemma tsat_bind {A B} h (p : prog A) (k : A -> prog B) (N : trace -> eff -> Prop) (Q : trace -> B -> Prop) :
  tsat h p N (fun h' a => tsat h' (k a) N Q) -> tsat h (bind p k) N Q.
Proof.
  intros HS tr st HX.
  destruct (exec_bind_inv _ _ _ _ HX) as [(t1 & t2 & x & Ht & H1 & H2)|[(e & He & H1)|(s & Hs & H1)]]; subst.
  - specialize (HS _ _ H1). cbn in HS. specialize (HS _ _ H2). rewrite <- app_assoc in HS. exact HS.
  - exact (HS _ _ H1).
  - exact I.
Qed.
Lemma tsat_conseq {A} h (p : prog A) (N : trace -> eff -> Prop) (Q Q' : trace -> A -> Prop) :
  tsat h p N Q -> (forall h' a, Q h' a -> Q' h' a) -> tsat h p N Q'.
Proof. intros HS HQ tr st HX. specialize (HS _ _ HX). destruct st; auto. Qed.
Lemma tsat_iter {I R} (body : I -> prog (I + R)) (Inv : trace -> I -> Prop) (N : trace -> eff -> Prop) (Q : trace -> R -> Prop) :
  (forall h i, Inv h i -> tsat h (body i) N (fun h' lr => match lr with inl i' => Inv h' i' | inr r => Q h' r end)) ->
  forall h i, Inv h i -> tsat h (iter body i) N Q.
Proof.
  intros Hbody h i Hi tr st HX.
  set (kk := fun lr : I + R => match lr with inl i' => Tau (iter body i') | inr r => Ret r end) in *.
  assert (G : forall p tr st, exec p tr st ->
     forall q h, p = bind q kk ->
       tsat h q N (fun h' lr => match lr with inl i' => Inv h' i' | inr r => Q h' r end) ->
       match st with At e => N (h ++ tr) e | Done a => Q (h ++ tr) a | Panicked _ => True end).
  { intros p tr' st' HX'.
    induction HX' as [b|s|e k|p' tr' st' HX' IH|e k a tr' st' Hwt HX' IH]; intros q h' Hq Hs;
      rewrite bind_eq in Hq; destruct q as [x|s'|q'|e' f]; try discriminate; try exact Logic.I.
    - destruct x as [i'|r]; cbn in Hq; [discriminate|]. inversion Hq; subst. exact (Hs _ _ (X_ret _)).
    - destruct x as [i'|r]; cbn in Hq; discriminate.
    - inversion Hq; subst. exact (Hs _ _ (X_at _ _)).
    - destruct x as [i'|r]; cbn in Hq; [|discriminate]. inversion Hq; subst.
      apply (IH (body i') h').
      + apply iter_eq.
      + apply Hbody. pose proof (Hs _ _ (X_ret _)) as HI. cbn in HI. rewrite app_nil_r in HI. exact HI.
    - inversion Hq; subst. apply (IH q' h' eq_refl).
      intros t2 s2 H2. exact (Hs _ _ (X_tau _ _ _ H2)).
    - destruct x as [i'|r]; cbn in Hq; discriminate.
    - inversion Hq; subst.
      replace (h' ++ (e', a) :: tr') with ((h' ++ [(e', a)]) ++ tr') by (rewrite <- app_assoc; reflexivity).
      apply (IH (f a) (h' ++ [(e', a)]) eq_refl).
      intros t2 s2 H2. pose proof (Hs _ _ (X_vis e' f a _ _ Hwt H2)) as HH.
      replace (h' ++ (e', a) :: t2) with ((h' ++ [(e', a)]) ++ t2) in HH by (rewrite <- app_assoc; reflexivity).
      exact HH. }
  apply (G _ _ _ HX (body i) h).
  - apply iter_eq.
  - apply Hbody; assumption.
Qed.

(** ** Working, then closing *)
Definition quiet (tr : trace) : Prop := within_eff (fun e => ~ closing_eff e) tr.
Definition orderly (tr : trace) : Prop := forall t1 e a t2, tr = t1 ++ (e, a) :: t2 -> closing_eff e -> only_closing t2.

Lemma quiet_orderly tr : quiet tr -> orderly tr.
Proof.
  intros H t1 e a t2 -> Hc. exfalso. apply Forall_app in H. destruct H as [_ H]. inversion H; subst. auto.
Qed.
Lemma orderly_app tr t : orderly tr -> within_eff closing_eff t -> orderly (tr ++ t).
Proof.
  intros H Ht t1 e a t2 E Hc. revert t1 H E. induction tr as [|x tr IH]; intros t1 H E.
  - cbn in E. subst t. apply Forall_app in Ht. destruct Ht as [_ Ht]. inversion Ht; subst. assumption.
  - destruct t1 as [|y t1]; cbn in E; inversion E; subst.
    + apply Forall_app. split; [exact (H [] e a tr eq_refl Hc)|exact Ht].
    + apply (IH t1); [|assumption]. intros s1 e' a' s2 -> Hc'. apply (H (y :: s1) e' a' s2 eq_refl Hc').
Qed.

Section Order.
Variable P : eff -> Prop.
Definition ON (h : trace) (e : eff) : Prop := P e /\ within_eff P h /\ orderly h /\ (closing_eff e \/ quiet h).
Lemma lift_work {A} (Q : A -> Prop) p h : works (fun e => P e /\ ~ closing_eff e) Q p -> within_eff P h -> quiet h ->
  tsat h p ON (fun h' a => within_eff P h' /\ quiet h' /\ Q a).
Proof.
  intros Hw HP Hq tr st HX. destruct (Hw _ _ HX) as [H1 H2].
  assert (K1 : within_eff P (h ++ tr)) by (apply Forall_app; split; [exact HP|]; eapply Forall_impl; [|exact H1]; cbn; tauto).
  assert (K2 : quiet (h ++ tr)) by (apply Forall_app; split; [exact Hq|]; eapply Forall_impl; [|exact H1]; cbn; tauto).
  destruct st; [|auto|exact I]. destruct H2 as [H2 H3]. repeat split; auto. now apply quiet_orderly.
Qed.
Lemma lift_close {A} (Q : A -> Prop) p h : works (fun e => P e /\ closing_eff e) Q p -> within_eff P h -> orderly h ->
  tsat h p ON (fun h' a => within_eff P h' /\ orderly h' /\ Q a).
Proof.
  intros Hw HP Hq tr st HX. destruct (Hw _ _ HX) as [H1 H2].
  assert (K1 : within_eff P (h ++ tr)) by (apply Forall_app; split; [exact HP|]; eapply Forall_impl; [|exact H1]; cbn; tauto).
  assert (K2 : orderly (h ++ tr)) by (apply orderly_app; [exact Hq|]; eapply Forall_impl; [|exact H1]; cbn; tauto).
  destruct st; [|auto|exact I]. destruct H2 as [H2 H3]. repeat split; auto.
Qed.
End Order.

(** ** The pieces *)
Section Pieces.
Variable P : eff -> Prop.

Lemma works_recv_data n : P (ERecv (CData n)) -> works P (fun _ => True) (recv_data n).
Proof. intro H. apply works_vis; [exact H|]. intros [v| | | | | | | | | |] Hw; try discriminate Hw; [destruct v; try discriminate Hw|]; now apply works_ret. Qed.
Lemma works_send c v : P (ESend c v) -> works P (fun _ => True) (send c v).
Proof. intro H. apply works_vis; [exact H|]. intros [] Hw; try discriminate Hw; now apply works_ret. Qed.
Lemma works_close c : P (EClose c) -> works P (fun _ => True) (close c).
Proof. intro H. apply works_vis; [exact H|]. intros [] Hw; try discriminate Hw; now apply works_ret. Qed.
Lemma works_drop_fd f : P (EDropFd f) -> works P (fun _ => True) (drop_fd f).
Proof. intro H. apply works_vis; [exact H|]. intros [] Hw; try discriminate Hw; now apply works_ret. Qed.
Lemma works_flush f : P (EFlush f) -> works P (fun _ => True) (flush f).
Proof. intro H. apply works_vis; [exact H|]. intros [] Hw; try discriminate Hw; now apply works_ret. Qed.
Lemma works_write_all f d : P (EWrite f d) -> works P (fun _ => True) (write_all f d).
Proof. intro H. apply works_vis; [exact H|]. intros [] Hw; try discriminate Hw; now apply works_ret. Qed.
Lemma works_try_recv c : P (ETryRecv c) -> works P (fun _ => True) (try_recv c).
Proof. intro H. apply works_vis; [exact H|]. intros [] Hw; try discriminate Hw; now apply works_ret. Qed.
Lemma works_recv c : P (ERecv c) -> works P (fun _ => True) (recv c).
Proof. intro H. apply works_vis; [exact H|]. intros [] Hw; try discriminate Hw; now apply works_ret. Qed.

Lemma works_read_loop f splits ov start : P (ERead f) -> works P (fun _ => True) (read_loop f splits ov start).
Proof.
  intros HP tr st HX. remember (read_loop f splits ov start) as p eqn:Ep. revert ov start Ep.
  induction HX as [b|s|e k|p' tr st HX IH|e k a tr st Hwt HX IH]; intros ov start Ep; rewrite read_loop_eq in Ep;
    destruct (scan splits (skipn start ov) start start) as [s' [x|]]; try discriminate Ep; try (inversion Ep; subst).
  - split; [constructor|exact I].
  - split; [constructor|exact HP].
  - assert (HH : within_eff P tr /\ match st with At e => P e | _ => True end).
    { destruct a as [| | | | | |d| | | |]; try discriminate Hwt.
      - apply exec_ret_inv in HX. destruct HX as [-> ->]. split; [constructor|exact I].
      - destruct d as [|x d]; [apply exec_ret_inv in HX; destruct HX as [-> ->]; split; [constructor|exact I]|].
        destruct (IH _ _ eq_refl) as [H1 H2]. split; [exact H1|]. destruct st; auto. }
    destruct HH as [H1 H2]. split; [now constructor|]. destruct st; auto.
Qed.

(** An input after some use is the same input. *)
Definition like (pl pl' : pull) : Prop :=
  match pl, pl' with
  | PlBytes k j f sc, PlBytes k' j' f' sc' => k = k' /\ j = j' /\ f = f'
  | PlReceiver j n, PlReceiver j' n' => j = j' /\ n = n'
  | PlMock j _, PlMock j' _ => j = j'
  | PlNone, PlNone => True
  | _, _ => False
  end.
Lemma like_refl pl : like pl pl.
Proof. destruct pl; cbn; auto. Qed.
Lemma like_trans a b c : like a b -> like b c -> like a c.
Proof. destruct a, b, c; cbn; intuition congruence. Qed.
Lemma like_drop a b : like a b -> drop_pull a = drop_pull b.
Proof. destruct a, b; cbn; try contradiction; intuition congruence. Qed.

Lemma works_read pl0 pl t : like pl0 pl -> (forall e, read_eff pl0 t = Some e -> P e) -> works P (fun x => like pl0 (snd x)) (motion_read pl t).
Proof.
  intros HL HP. destruct pl0 as [k j f sc|j n|j q|], pl as [k' j' f' sc'|j' n'|j' q'|]; try contradiction HL; cbn in HL; destruct t; cbn [motion_read];
    try apply works_panic.
  - destruct HL as (<- & <- & <-). eapply works_bind with (Q := fun _ => True).
    + unfold motion_read_buffer. eapply works_bind; [apply works_read_loop; apply HP; reflexivity|]. intros [r ov] _. apply works_ret. exact I.
    + intros [[v|] sc''] _; apply works_ret; cbn; auto.
  - destruct HL as [<- <-]. eapply works_bind; [apply works_try_recv; apply HP; reflexivity|]. intros [v| |] _; try (apply works_ret; cbn; auto). destruct v; try apply works_panic. apply works_ret; cbn; auto.
  - destruct HL as [<- <-]. eapply works_bind; [apply works_recv_data; apply HP; reflexivity|]. intros [v|] _; apply works_ret; cbn; auto.
  - destruct q'; apply works_ret; exact HL.
  - destruct q'; apply works_ret; exact HL.
  - apply works_ret. exact I.
Qed.
Lemma works_notify m v pl onerr : (forall c, m = Some c -> P (ESend (CMon c) v)) -> works P (fun _ => True) (notify m v pl onerr).
Proof.
  intro H. destruct m as [c|]; cbn; [|now apply works_ret]. eapply works_bind; [apply works_send; auto|]. intros [] _; [now apply works_ret|]. destruct (pull_journey pl); [now apply works_ret|apply works_panic].
Qed.

(** Outputs after some use are the same outputs. *)
Definition likep (p q : push) : Prop :=
  match p, q with
  | PsMock j _, PsMock j' _ => j = j'
  | PsMock _ _, _ | _, PsMock _ _ => False
  | _, _ => p = q
  end.
Lemma likep_refl p : likep p p.
Proof. destruct p; cbn; auto. Qed.
Lemma likep_trans a b c : likep a b -> likep b c -> likep a c.
Proof. destruct a, b, c; cbn; intuition congruence. Qed.

Lemma works_mwrite p0 p d : likep p0 p -> (forall e, write_eff p0 d = Some e -> P e) -> works P (fun x => likep p0 (snd x)) (motion_write p d).
Proof.
  intros HL HP. destruct p0, p; cbn in HL; try contradiction; try discriminate HL; try (inversion HL; subst; clear HL); cbn [motion_write].
  - now apply works_ret.
  - eapply works_bind; [apply works_write_all; apply HP; reflexivity|]. intros r _. now apply works_ret.
  - eapply works_bind; [apply works_send; apply HP; reflexivity|]. intros r _. now apply works_ret.
  - eapply works_bind; [apply works_send; apply HP; reflexivity|]. intros r _. now apply works_ret.
  - now apply works_ret.
Qed.
Lemma works_wwrite p0 p data : likep p0 p -> (forall d e, write_eff p0 d = Some e -> P e) -> works P (fun x => likep p0 (snd x)) (worker_write data p).
Proof.
  intros HL HP. unfold worker_write. destruct data as [d| |]; [|destruct (push_brk p); now apply works_ret..].
  destruct (push_brk p); (eapply works_bind; [apply (works_mwrite _ _ _ HL); intro e; apply HP|]; intros [r p'] H; now apply works_ret).
Qed.
Lemma works_wspy spy data p : (forall s v, spy = Some s -> P (ESend (CSpy s) v)) -> works P (fun _ => True) (worker_spy spy data p).
Proof.
  intro HP. unfold worker_spy. destruct spy as [s|]; [|now apply works_ret]. destruct (push_journey p) as [[src [port|] dst b]|]; try now apply works_ret.
  eapply works_bind; [apply works_send; auto|]. intros r _. now apply works_ret.
Qed.
Lemma works_pushes spy data ps0 : (forall s v, spy = Some s -> P (ESend (CSpy s) v)) -> (forall p d e, In p ps0 -> write_eff p d = Some e -> P e) ->
  forall ps n, Forall2 likep ps0 ps -> works P (fun x => Forall2 likep ps0 (snd x)) (worker_pushes spy data ps n).
Proof.
  intros HS. induction ps0 as [|p0 ps0 IH]; intros HP ps n HF; inversion HF; subst; cbn [worker_pushes]; [now apply works_ret|].
  eapply works_bind; [apply (works_wwrite p0); [assumption|]; intros d e E; eapply HP; [now left|exact E]|]. intros [r p'] H.
  destruct r as [dec|e]; [|apply works_ret; constructor; assumption].
  eapply works_bind; [now apply works_wspy|]. intros [u|e] _; [|apply works_ret; constructor; assumption].
  eapply works_bind; [apply IH; [intros p d e Hp; apply HP; now right|assumption]|]. intros [r' rest'] H'. apply works_ret. now constructor.
Qed.
End Pieces.

Definition work_eff (pl : pull) (mon : notifications) (spy : option nat) (pushs : list push) (t : bool) (e : eff) : Prop :=
  read_eff pl t = Some e \/ (exists p d, In p pushs /\ write_eff p d = Some e) \/
  (exists c, mon_read mon = Some c /\ e = ESend (CMon c) VRead) \/ (exists c, mon_written mon = Some c /\ e = ESend (CMon c) VWrote) \/
  (exists s v, spy = Some s /\ e = ESend (CSpy s) v).
Lemma works_worker (P : eff -> Prop) pl0 mon spy ps0 t : (forall e, work_eff pl0 mon spy ps0 t e -> P e) -> forall pl ps, like pl0 pl -> Forall2 likep ps0 ps ->
  works P (fun x => like pl0 (snd (fst x)) /\ Forall2 likep ps0 (snd x)) (motion_worker pl mon ps spy t).
Proof.
  intros HP pl ps HL HF. unfold motion_worker. eapply works_bind; [apply (works_read _ pl0); [exact HL|]; intros e E; apply HP; now left|].
  intros [r pl'] HL'. destruct r as [data|e]; [|now apply works_ret].
  assert (HH : works P (fun x => like pl0 (snd (fst x)) /\ Forall2 likep ps0 (snd x)) (
    nr <- notify (mon_read mon) VRead pl' (fun j => MonitorReadError (pj_src j)) ;;
    match nr with
    | Err e => Ret (Err e, pl', ps)
    | Ok _ =>
      ' (wr, pushs') <- worker_pushes spy data ps (length ps) ;;
      match wr with
      | Err e => Ret (Err e, pl', pushs')
      | Ok unfinished =>
        nw <- notify (mon_written mon) VWrote pl' MonitorWriteError ;;
        match nw with
        | Err e => Ret (Err e, pl', pushs')
        | Ok _ => Ret (Ok (WR (if unfinished =? 0 then true else is_finished data) true), pl', pushs')
        end
      end
    end)).
  { eapply works_bind; [apply works_notify; intros c Hc; apply HP; right; right; left; eauto|]. intros [u|e] _; [|now apply works_ret].
    eapply works_bind; [apply (works_pushes _ _ _ ps0); [intros s v Hs; apply HP; do 4 right; eauto|intros p d e Hp E; apply HP; right; left; eauto|exact HF]|].
    intros [wr ps'] HF'. destruct wr as [n|e]; [|now apply works_ret].
    eapply works_bind; [apply works_notify; intros c Hc; apply HP; do 3 right; left; eauto|]. intros [u'|e] _; now apply works_ret. }
  destruct data; try exact HH. now apply works_ret.
Qed.

(** ** Closing *)
Definition end_eff (pl : pull) (mon : notifications) (pushs : list push) (e : eff) : Prop :=
  (match pl with PlReceiver _ n => e = EClose (CData n) | PlBytes _ _ f _ => e = EDropFd f | _ => False end) \/
  (exists p, In p pushs /\ match p with PsSender _ n | PsIoSender _ n => e = EClose (CData n) | PsBytes _ _ f => e = EDropFd f \/ e = EFlush f | _ => False end) \/
  (exists c, (mon_read mon = Some c \/ mon_written mon = Some c) /\ e = EClose (CMon c)).
Lemma works_drop_pull (P : eff -> Prop) pl mon ps pl' : (forall e, end_eff pl mon ps e -> P e) -> like pl pl' -> works P (fun _ => True) (drop_pull pl').
Proof.
  intros HP HL. rewrite <- (like_drop _ _ HL). destruct pl; cbn; try (now apply works_ret); [apply works_drop_fd|apply works_close]; apply HP; left; reflexivity.
Qed.
Lemma works_drop_push (P : eff -> Prop) pl mon ps p p' : (forall e, end_eff pl mon ps e -> P e) -> In p ps -> likep p p' -> works P (fun _ => True) (drop_push p').
Proof.
  intros HP Hin HL. destruct p, p'; cbn in HL; try contradiction; try discriminate HL; try (inversion HL; subst; clear HL); cbn [drop_push];
    try (now apply works_ret); [apply works_drop_fd|apply works_close..]; apply HP; right; left; eexists; (split; [exact Hin|]); cbn; auto.
Qed.
Lemma works_drop_pushes (P : eff -> Prop) pl mon ps : (forall e, end_eff pl mon ps e -> P e) -> forall qs ps', incl qs ps -> Forall2 likep qs ps' -> works P (fun _ => True) (drop_pushes ps').
Proof.
  intros HP qs. induction qs as [|q qs IH]; intros ps' Hi HF; inversion HF; subst; cbn; [now apply works_ret|].
  eapply works_bind; [eapply works_drop_push; [exact HP|apply Hi; now left|eassumption]|]. intros _ _. apply IH; [|assumption]. intros x Hx. apply Hi. now right.
Qed.
Lemma works_close_all (P : eff -> Prop) pl mon ps : (forall e, end_eff pl mon ps e -> P e) -> forall qs ps', incl qs ps -> Forall2 likep qs ps' -> works P (fun _ => True) (close_all ps').
Proof.
  intros HP qs. induction qs as [|q qs IH]; intros ps' Hi HF; inversion HF as [|? q' ? ? HL HF']; subst; cbn; [now apply works_ret|].
  eapply works_bind with (Q := fun _ => True).
  - assert (Hin : In q ps) by (apply Hi; now left).
    destruct q, q'; cbn in HL; try contradiction; try discriminate HL; try (inversion HL; subst; clear HL); cbn [motion_close].
    + apply works_ret. exact I.
    + eapply works_bind; [apply works_flush; apply HP; right; left; eexists; split; [exact Hin|]; cbn; auto|]. intros. apply works_ret. exact I.
    + eapply works_bind; [apply works_close; apply HP; right; left; eexists; split; [exact Hin|]; cbn; auto|]. intros. apply works_ret. exact I.
    + eapply works_bind; [apply works_close; apply HP; right; left; eexists; split; [exact Hin|]; cbn; auto|]. intros. apply works_ret. exact I.
    + apply works_ret. exact I.
  - intros [u|e] _; [|now apply works_ret]. apply IH; [|assumption]. intros x Hx. apply Hi. now right.
Qed.
Lemma works_close_mon (P : eff -> Prop) pl mon ps m : (forall e, end_eff pl mon ps e -> P e) -> m = mon_read mon \/ m = mon_written mon -> works P (fun _ => True) (close_mon m).
Proof.
  intros HP Hm. destruct m as [c|]; cbn; [|now apply works_ret]. apply works_close, HP. right; right. exists c. split; [|reflexivity]. destruct Hm; [left|right]; congruence.
Qed.
Lemma end_closing pl mon ps e : end_eff pl mon ps e -> closing_eff e.
Proof.
  intros [H|[(p & _ & H)|(c & _ & ->)]]; [destruct pl; try contradiction; subst; exact I| |exact I].
  destruct p; try contradiction; subst; try exact I. destruct H as [->| ->]; exact I.
Qed.
Lemma work_not_closing pl mon spy ps t e : work_eff pl mon spy ps t e -> ~ closing_eff e.
Proof.
  intros [H|[(p & d & _ & H)|[(c & _ & ->)|[(c & _ & ->)|(s & v & _ & ->)]]]]; try (intros []).
  - destruct pl; try discriminate H; cbn in H; injection H as <-; destruct t; intros [].
  - destruct p; try discriminate H; injection H as <-; intros [].
Qed.

(** ** Whole components *)
Definition motion_eff (pl : pull) (mon : notifications) (spy : option nat) (ps : push) (e : eff) : Prop :=
  work_eff pl mon spy [ps] false e \/ end_eff pl mon [ps] e.

Section Motion.
Variables (pl : pull) (mon : notifications) (spy : option nat) (ps : push).
Let P := motion_eff pl mon spy ps.
Lemma P_work e : work_eff pl mon spy [ps] false e -> P e /\ ~ closing_eff e.
Proof. intro H. split; [now left|]. eapply work_not_closing. exact H. Qed.
Lemma P_end e : end_eff pl mon [ps] e -> P e /\ closing_eff e.
Proof. intro H. split; [now right|]. eapply end_closing. exact H. Qed.

Definition same_state (h : trace) (s : motion_state) : Prop := within_eff P h /\ quiet h /\ like pl (fst (fst s)) /\ Forall2 likep [ps] (snd (fst s)).
Lemma motion_orderly : tsat [] (motion pl mon spy ps) (ON P) (fun h _ => within_eff P h /\ orderly h).
Proof.
  unfold motion. apply tsat_bind. eapply tsat_conseq.
  - apply (tsat_iter _ same_state (ON P) (fun h r => within_eff P h /\ orderly h /\ like pl (snd (fst r)) /\ Forall2 likep [ps] (snd r))).
    + intros h [[pl' ps'] n] (H1 & H2 & H3 & H4). cbn [fst snd] in H3, H4. unfold motion_body. apply tsat_bind. eapply tsat_conseq.
      * eapply lift_work; [eapply works_worker with (pl0 := pl) (ps0 := [ps]); [exact P_work|exact H3|exact H4]|exact H1|exact H2].
      * intros h' [[r pl''] ps''] (K1 & K2 & K3 & K4). cbn [fst snd] in K3, K4. destruct r as [wr|e].
        2:{ apply tsat_ret. repeat split; auto. now apply quiet_orderly. }
        destruct (wr_finished wr).
        2:{ apply tsat_ret. repeat split; auto. }
        apply tsat_bind. eapply tsat_conseq.
        -- eapply lift_close; [eapply works_close_all with (qs := [ps]); [exact P_end|apply incl_refl|exact K4]|exact K1|now apply quiet_orderly].
        -- intros h2 [u|e] (L1 & L2 & _); [|apply tsat_ret; repeat split; auto].
           apply tsat_bind. eapply tsat_conseq.
           ++ eapply lift_close; [eapply works_close_mon; [exact P_end|now left]|exact L1|exact L2].
           ++ intros h3 _ (M1 & M2 & _). apply tsat_bind. eapply tsat_conseq.
              ** eapply lift_close; [eapply works_close_mon; [exact P_end|now right]|exact M1|exact M2].
              ** intros h4 _ (N1 & N2 & _). apply tsat_ret. repeat split; auto.
    + repeat split; try constructor; [apply like_refl|apply likep_refl|constructor].
  - intros h [[r pl'] ps'] (H1 & H2 & H3 & H4). cbn [fst snd] in H3, H4. apply tsat_bind. eapply tsat_conseq.
    + eapply lift_close; [eapply works_drop_pull; [exact P_end|exact H3]|exact H1|exact H2].
    + intros h1 _ (K1 & K2 & _). apply tsat_bind. eapply tsat_conseq.
      * eapply lift_close; [eapply works_drop_pushes with (qs := [ps]); [exact P_end|apply incl_refl|exact H4]|exact K1|exact K2].
      * intros h2 _ (L1 & L2 & _). apply tsat_bind. eapply tsat_conseq.
        -- eapply lift_close; [eapply works_close_mon; [exact P_end|now left]|exact L1|exact L2].
        -- intros h3 _ (M1 & M2 & _). apply tsat_bind. eapply tsat_conseq.
           ++ eapply lift_close; [eapply works_close_mon; [exact P_end|now right]|exact M1|exact M2].
           ++ intros h4 _ (N1 & N2 & _). apply tsat_ret. split; auto.
Qed.
End Motion.

Definition ctl_eff (ctl : option nat) (e : eff) : Prop := exists c, ctl = Some c /\ (e = ETryRecv (CCtl c) \/ e = ERecv (CCtl c)).
Definition gate_eff (pl : pull) (ctl spy : option nat) (ps : push) (e : eff) : Prop :=
  work_eff pl mn_empty spy [ps] false e \/ end_eff pl mn_empty [ps] e \/ ctl_eff ctl e \/ (exists c, ctl = Some c /\ e = EClose (CCtl c)).

Section Gate.
Variables (pl : pull) (ctl spy : option nat) (ps : push).
Let P := gate_eff pl ctl spy ps.
Lemma G_work e : work_eff pl mn_empty spy [ps] false e -> P e /\ ~ closing_eff e.
Proof. intro H. split; [now left|]. eapply work_not_closing. exact H. Qed.
Lemma G_end e : end_eff pl mn_empty [ps] e -> P e /\ closing_eff e.
Proof. intro H. split; [now right; left|]. eapply end_closing. exact H. Qed.
Lemma works_control : works (fun e => P e /\ ~ closing_eff e) (fun _ => True) (control ctl).
Proof.
  assert (HP : forall e, ctl_eff ctl e -> P e /\ ~ closing_eff e) by (intros e H; split; [now do 2 right; left|]; destruct H as (c & _ & [->| ->]); intros []).
  unfold control. destruct ctl as [c|] eqn:E; [|now apply works_ret].
  eapply works_bind; [apply works_try_recv; apply HP; exists c; auto|]. intros [v| |] _; try now apply works_ret.
  eapply works_bind; [apply works_recv; apply HP; exists c; auto|]. intros _ _. now apply works_ret.
Qed.
Lemma works_close_ctl : works (fun e => P e /\ closing_eff e) (fun _ => True) (close_ctl ctl).
Proof. unfold close_ctl. destruct ctl as [c|] eqn:E; [|now apply works_ret]. apply works_close. split; [do 3 right; exists c; auto|exact I]. Qed.

Definition gate_state (h : trace) (s : motion_state) : Prop := within_eff P h /\ quiet h /\ like pl (fst (fst s)) /\ Forall2 likep [ps] (snd (fst s)).
Lemma gate_orderly : tsat [] (start_secret false (Some pl) (Some ps) ctl spy) (ON P) (fun h _ => within_eff P h /\ orderly h).
Proof.
  unfold start_secret. apply tsat_bind. eapply tsat_conseq.
  - apply (tsat_iter _ gate_state (ON P) (fun h r => within_eff P h /\ orderly h /\ like pl (snd (fst r)) /\ Forall2 likep [ps] (snd r))).
    + intros h [[pl' ps'] n] (H1 & H2 & H3 & H4). cbn [fst snd] in H3, H4. unfold gate_body. apply tsat_bind. eapply tsat_conseq.
      * eapply lift_work; [eapply works_worker with (pl0 := pl) (ps0 := [ps]); [exact G_work|exact H3|exact H4]|exact H1|exact H2].
      * intros h' [[r pl''] ps''] (K1 & K2 & K3 & K4). cbn [fst snd] in K3, K4.
        assert (HC : tsat h' (control ctl ;;; Ret (inl (pl'', ps'', S n))) (ON P) (fun h'0 lr => match lr with inl i' => gate_state h'0 i' | inr r => within_eff P h'0 /\ orderly h'0 /\ like pl (snd (fst (r : mres nat * pull * list push))) /\ Forall2 likep [ps] (snd r) end)).
        { apply tsat_bind. eapply tsat_conseq; [eapply lift_work; [apply works_control|exact K1|exact K2]|]. intros h2 _ (L1 & L2 & _). apply tsat_ret. repeat split; auto. }
        destruct r as [wr|e].
        -- destruct (wr_finished wr); [|exact HC]. apply tsat_bind. eapply tsat_conseq; [eapply lift_close; [apply works_close_ctl|exact K1|now apply quiet_orderly]|].
           intros h2 _ (L1 & L2 & _). apply tsat_ret. repeat split; auto.
        -- assert (HR : forall x, tsat h' (Ret (inr (x, pl'', ps''))) (ON P) (fun h'0 lr => match lr with inl i' => gate_state h'0 i' | inr r => within_eff P h'0 /\ orderly h'0 /\ like pl (snd (fst (r : mres nat * pull * list push))) /\ Forall2 likep [ps] (snd r) end)).
           { intro x. apply tsat_ret. repeat split; auto. now apply quiet_orderly. }
           destruct e; try apply HR. destruct (push_brk ps); [apply HR|apply HR|exact HC].
    + repeat split; try constructor; [apply like_refl|apply likep_refl|constructor].
  - intros h [[r pl'] ps'] (H1 & H2 & H3 & H4). cbn [fst snd] in H3, H4. apply tsat_bind. eapply tsat_conseq.
    + eapply lift_close; [eapply works_drop_pushes with (qs := [ps]); [exact G_end|apply incl_refl|exact H4]|exact H1|exact H2].
    + intros h1 _ (K1 & K2 & _). apply tsat_bind. eapply tsat_conseq.
      * eapply lift_close; [eapply works_drop_pull; [exact G_end|exact H3]|exact K1|exact K2].
      * intros h2 _ (L1 & L2 & _). apply tsat_ret. split; auto.
Qed.
End Gate.

Lemma orderly_run {A} P (p : prog A) : tsat [] p (ON P) (fun h _ => within_eff P h /\ orderly h) -> forall tr st, exec p tr st -> (forall s, st <> Panicked s) ->
  within_eff P tr /\ orderly tr /\ (forall e, st = At e -> P e /\ (closing_eff e \/ quiet tr)).
Proof.
  intros H tr st HX Hn. specialize (H _ _ HX). destruct st as [e|a|s]; cbn in H.
  - destruct H as (H1 & H2 & H3 & H4). repeat split; auto; now inversion H; subst.
  - destruct H as (H1 & H2). repeat split; auto; discriminate.
  - destruct (Hn s eq_refl).
Qed.
