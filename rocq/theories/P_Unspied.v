(** * P_Unspied: being watched makes no difference *)
From Coq Require Import Ascii String List Bool Arith ZArith Lia.
From Verif Require Import M_Prog M_Motion M_Connectable M_BackOff M_Utils M_Junction M_Regulator M_Faucet M_Join M_Buffer M_Launch S_Motion S_World S_Unspied P_Prog P_Exec P_Motion P_Phase P_World.
Import ListNotations.

Lemma unspied_app a b : unspied (a ++ b) = unspied a ++ unspied b.
Proof. apply filter_app. Qed.
Lemma took_app a b : spy_took (a ++ b) <-> spy_took a /\ spy_took b.
Proof.
  split; [intro H; split; intros e x Hin; apply H, in_or_app; auto|]. intros [H1 H2] e x Hin. apply in_app_or in Hin. destruct Hin; eauto.
Qed.
Lemma took_nil : spy_took [].
Proof. intros e a []. Qed.
Lemma took_one e a : (is_spying e = true -> a = AOk) -> spy_took [(e, a)].
Proof. intros H e' a' [E|[]] Hs. injection E as <- <-. auto. Qed.

Lemma wo_refl {A} (p : prog A) : works (fun e => is_spying e = false) (fun _ => True) p -> watched_only p p.
Proof.
  intro HW.
  assert (E : forall tr, within_eff (fun e => is_spying e = false) tr -> unspied tr = tr /\ spy_took tr).
  { induction 1 as [|[e a] tr H _ [IH1 IH2]]; [split; [reflexivity|apply took_nil]|]. cbn in H. split; [cbn; rewrite H; cbn; now f_equal|].
    apply (took_app [(e, a)] tr). split; [apply took_one; congruence|exact IH2]. }
  split.
  - intros tr st HX _ _. destruct (HW _ _ HX) as [H1 _]. now rewrite (proj1 (E _ H1)).
  - intros tr st HX. destruct (HW _ _ HX) as [H1 _]. destruct (E _ H1). eauto.
Qed.
Lemma wo_ret {A} (a : A) : watched_only (Ret a) (Ret a).
Proof. apply wo_refl. now apply works_ret. Qed.
Lemma wo_panic {A} s : watched_only (Panic s : prog A) (Panic s).
Proof. apply wo_refl. apply works_panic. Qed.

Lemma wo_bind {A B} (p q : prog A) (k k' : A -> prog B) : watched_only p q -> (forall x, watched_only (k x) (k' x)) -> watched_only (bind p k) (bind q k').
Proof.
  intros [P1 P2] HK. split.
  - intros tr st HX HT HN. destruct (exec_bind_inv _ _ _ _ HX) as [(t1 & t2 & x & Ht & H1 & H2)|[(e & He & H1)|(s & Hs & H1)]]; subst.
    + apply took_app in HT. destruct HT. rewrite unspied_app. eapply exec_bind_intro; [exact (P1 _ _ H1 H Logic.I)|apply (HK x); auto].
    + apply exec_bind_at. apply P1; auto.
    + apply exec_bind_panic. apply P1; auto.
  - intros tr st HX. destruct (exec_bind_inv _ _ _ _ HX) as [(t1 & t2 & x & Ht & H1 & H2)|[(e & He & H1)|(s & Hs & H1)]]; subst.
    + destruct (P2 _ _ H1) as (u1 & X1 & T1 & E1). destruct (proj2 (HK x) _ _ H2) as (u2 & X2 & T2 & E2).
      exists (u1 ++ u2). split; [eapply exec_bind_intro; eauto|]. split; [apply took_app; auto|]. rewrite unspied_app. congruence.
    + destruct (P2 _ _ H1) as (u1 & X1 & T1 & E1). exists u1. split; [now apply exec_bind_at|auto].
    + destruct (P2 _ _ H1) as (u1 & X1 & T1 & E1). exists u1. split; [now apply exec_bind_panic|auto].
Qed.

Lemma wo_iter {I R} (f g : I -> prog (I + R)) : (forall i, watched_only (f i) (g i)) -> forall i, watched_only (iter f i) (iter g i).
Proof.
  intros HB i.
  set (kf := fun lr : I + R => match lr with inl i' => Tau (iter f i') | inr r => Ret r end).
  set (kg := fun lr : I + R => match lr with inl i' => Tau (iter g i') | inr r => Ret r end).
  assert (Ef : forall i, iter f i = bind (f i) kf) by (intro; apply iter_eq).
  assert (Eg : forall i, iter g i = bind (g i) kg) by (intro; apply iter_eq).
  split.
  - assert (G : forall P tr st, exec P tr st -> forall i h q, P = bind q kf ->
      (forall t st', exec q t st' -> spy_took t -> not_telling st' -> exec (g i) (h ++ unspied t) st') ->
      spy_took tr -> not_telling st -> exec (bind (g i) kg) (h ++ unspied tr) st).
    { intros P tr st HX. induction HX as [a|s|e k|P tr st HX IH|e k a tr st Hw HX IH]; intros i0 h q Eq HQ HT HN;
        rewrite bind_eq in Eq; destruct q as [x|s'|q'|e' k']; try discriminate Eq.
      - destruct x as [i'|r]; cbn in Eq; [discriminate|]. injection Eq as <-. pose proof (HQ [] _ (X_ret _) took_nil Logic.I) as K. cbn in K. rewrite app_nil_r in K.
        eapply exec_bind_intro; [exact K|constructor].
      - destruct x; discriminate Eq.
      - injection Eq as <-. apply exec_bind_panic. exact (HQ [] _ (X_panic _) took_nil Logic.I).
      - destruct x; discriminate Eq.
      - injection Eq as -> _. apply exec_bind_at. exact (HQ [] _ (X_at _ _) took_nil HN).
      - destruct x as [i'|r]; cbn in Eq; [|discriminate]. injection Eq as ->.
        pose proof (HQ [] _ (X_ret _) took_nil Logic.I) as K. cbn in K. rewrite app_nil_r in K.
        eapply exec_bind_intro; [exact K|]. apply X_tau. rewrite Eg. apply (IH i' [] (f i')); auto. intros t st' X' T' N'. now apply (HB i').
      - injection Eq as ->. apply (IH i0 h q' eq_refl); auto. intros t st' X'. apply HQ. now apply X_tau.
      - destruct x; discriminate Eq.
      - injection Eq as -> ->. apply (took_app [(e', a)] tr) in HT. destruct HT as [T1 T2].
        change ((e', a) :: tr) with ([(e', a)] ++ tr). rewrite unspied_app, app_assoc. apply (IH i0 (h ++ unspied [(e', a)]) (k' a) eq_refl); auto.
        intros t st' X' T' N'. rewrite <- app_assoc, <- unspied_app. apply HQ; [now apply X_vis|apply took_app; auto|exact N']. }
    intros tr st HX HT HN. rewrite Eg. apply (G _ _ _ HX i [] (f i)); auto. intros t st' X' T' N'. now apply (HB i).
  - assert (G : forall P tr st, exec P tr st -> forall i h q, P = bind q kg ->
      (forall t st', exec q t st' -> exists t', exec (f i) t' st' /\ spy_took t' /\ unspied t' = h ++ t) ->
      exists tr', exec (bind (f i) kf) tr' st /\ spy_took tr' /\ unspied tr' = h ++ tr).
    { intros P tr st HX. induction HX as [a|s|e k|P tr st HX IH|e k a tr st Hw HX IH]; intros i0 h q Eq HQ;
        rewrite bind_eq in Eq; destruct q as [x|s'|q'|e' k']; try discriminate Eq.
      - destruct x as [i'|r]; cbn in Eq; [discriminate|]. injection Eq as <-. destruct (HQ [] _ (X_ret _)) as (t' & K1 & K2 & K3).
        exists t'. split; [|auto]. rewrite <- (app_nil_r t'). eapply exec_bind_intro; [exact K1|constructor].
      - destruct x; discriminate Eq.
      - injection Eq as <-. destruct (HQ [] _ (X_panic _)) as (t' & K1 & K2 & K3). exists t'. split; [now apply exec_bind_panic|auto].
      - destruct x; discriminate Eq.
      - injection Eq as -> _. destruct (HQ [] _ (X_at _ _)) as (t' & K1 & K2 & K3). exists t'. split; [now apply exec_bind_at|auto].
      - destruct x as [i'|r]; cbn in Eq; [|discriminate]. injection Eq as ->. destruct (HQ [] _ (X_ret _)) as (t' & K1 & K2 & K3).
        destruct (IH i' [] (g i')) as (u & L1 & L2 & L3); [apply Eg|intros t st' X'; now apply (HB i')|].
        exists (t' ++ u). split; [eapply exec_bind_intro; [exact K1|]; apply X_tau; now rewrite Ef|]. split; [apply took_app; auto|].
        rewrite unspied_app, K3, L3. now rewrite app_nil_r.
      - injection Eq as ->. apply (IH i0 h q' eq_refl). intros t st' X'. apply HQ. now apply X_tau.
      - destruct x; discriminate Eq.
      - injection Eq as -> ->. change ((e', a) :: tr) with ([(e', a)] ++ tr). rewrite app_assoc. apply (IH i0 (h ++ [(e', a)]) (k' a) eq_refl).
        intros t st' X'. destruct (HQ ((e', a) :: t) st') as (t' & K1 & K2 & K3); [now apply X_vis|]. exists t'. rewrite <- app_assoc. auto. }
    intros tr st HX. rewrite Ef. rewrite Eg in HX. apply (G _ _ _ HX i [] (g i) eq_refl). intros t st' X'. now apply (HB i).
Qed.

(** ** The pieces *)
Notation plain := (fun e : eff => is_spying e = false).
Lemma wo_spy spy data p : watched_only (worker_spy spy data p) (worker_spy None data p).
Proof.
  unfold worker_spy. destruct spy as [s|]; [|apply wo_ret]. destruct (push_journey p) as [[src [port|] dst b]|]; try apply wo_ret. unfold send. rewrite bind_eq. split.
  - intros tr st HX HT HN. inversion HX as [| | | |? ? a ? ? Hw HX']; subst; [discriminate HN|].
    assert (a = AOk) by (eapply HT; [now left|reflexivity]). subst a. cbn in HX'. rewrite bind_ret in HX'. apply exec_ret_inv in HX'. destruct HX' as [-> ->]. constructor.
  - intros tr st HX. apply exec_ret_inv in HX. destruct HX as [-> ->]. eexists. split; [apply X_vis with (a := AOk); [reflexivity|]; cbn; rewrite bind_ret; constructor|].
    split; [apply took_one; auto|reflexivity].
Qed.
Lemma plain_write q d e : write_eff q d = Some e -> is_spying e = false.
Proof. intro E. destruct q; try discriminate E; cbn in E; injection E as <-; reflexivity. Qed.
Lemma wo_write data p : watched_only (worker_write data p) (worker_write data p).
Proof.
  apply wo_refl. eapply works_weak; [apply (works_wwrite plain p p); [apply likep_refl|intros d e; apply plain_write]|auto|auto].
Qed.
Lemma wo_pushes spy data : forall l n, watched_only (worker_pushes spy data l n) (worker_pushes None data l n).
Proof.
  induction l as [|p l IH]; intro n; cbn [worker_pushes]; [apply wo_ret|]. apply wo_bind; [apply wo_write|]. intros [[dec|e] p']; [|apply wo_ret].
  apply wo_bind; [apply wo_spy|]. intros [u|e]; [|apply wo_ret]. apply wo_bind; [apply IH|]. intros [r rest]. apply wo_ret.
Qed.
Lemma wo_read pl t : watched_only (motion_read pl t) (motion_read pl t).
Proof.
  apply wo_refl. eapply works_weak; [apply (works_read plain pl pl t (like_refl _))|auto|auto]. intros e E. destruct pl; try discriminate E; cbn in E; injection E as <-; destruct t; reflexivity.
Qed.
Lemma wo_notify m v pl onerr : watched_only (notify m v pl onerr) (notify m v pl onerr).
Proof. apply wo_refl. apply works_notify. reflexivity. Qed.
Lemma wo_worker spy pl mon pushs t : watched_only (motion_worker pl mon pushs spy t) (motion_worker pl mon pushs None t).
Proof.
  unfold motion_worker. apply wo_bind; [apply wo_read|]. intros [[data|e] pl']; [|apply wo_ret].
  destruct data; try apply wo_ret; (apply wo_bind; [apply wo_notify|]; intros [u|e]; [|apply wo_ret]; apply wo_bind; [apply wo_pushes|]; intros [[n|e] ps']; [|apply wo_ret];
    apply wo_bind; [apply wo_notify|]; intros [u'|e]; apply wo_ret).
Qed.

Lemma plain_close c : works plain (fun _ => True) (close c).
Proof. apply works_close. reflexivity. Qed.
Lemma plain_drop_fd f : works plain (fun _ => True) (drop_fd f).
Proof. apply works_drop_fd. reflexivity. Qed.
Lemma wo_close c : watched_only (close c) (close c).
Proof. apply wo_refl, plain_close. Qed.
Lemma wo_drop_pull pl : watched_only (drop_pull pl) (drop_pull pl).
Proof. destruct pl; cbn; try apply wo_ret; apply wo_refl; [apply plain_drop_fd|apply plain_close]. Qed.
Lemma wo_drop_push q : watched_only (drop_push q) (drop_push q).
Proof. destruct q; cbn; try apply wo_ret; apply wo_refl; [apply plain_drop_fd|apply plain_close..]. Qed.
Lemma wo_drop_pushes l : watched_only (drop_pushes l) (drop_pushes l).
Proof. induction l; cbn; [apply wo_ret|]. apply wo_bind; [apply wo_drop_push|]. intros; exact IHl. Qed.
Lemma wo_drop_pulls l : watched_only (drop_pulls l) (drop_pulls l).
Proof. induction l; cbn; [apply wo_ret|]. apply wo_bind; [apply wo_drop_pull|]. intros; exact IHl. Qed.
Lemma wo_close_mon m : watched_only (close_mon m) (close_mon m).
Proof. destruct m; cbn; [apply wo_close|apply wo_ret]. Qed.
Lemma wo_close_all l : watched_only (close_all l) (close_all l).
Proof.
  induction l as [|q l IH]; cbn; [apply wo_ret|]. apply wo_bind; [|intros [u|e]; [exact IH|apply wo_ret]].
  destruct q; cbn; try apply wo_ret; (apply wo_bind; [|intros; apply wo_ret]); [apply wo_refl, works_flush; reflexivity|apply wo_close..].
Qed.

Theorem wo_motion spy pl mon ps : watched_only (motion pl mon spy ps) (motion pl mon None ps).
Proof.
  unfold motion. apply wo_bind.
  - apply wo_iter. intros [[pl' l] count]. unfold motion_body. apply wo_bind; [apply wo_worker|]. intros [[[w|e] pl1] ps1]; [|apply wo_ret].
    destruct (wr_finished w); [|apply wo_ret]. apply wo_bind; [apply wo_close_all|]. intros [u|e]; [|apply wo_ret].
    apply wo_bind; [apply wo_close_mon|]. intros. apply wo_bind; [apply wo_close_mon|]. intros. apply wo_ret.
  - intros [[r pl'] ps']. apply wo_bind; [apply wo_drop_pull|]. intros. apply wo_bind; [apply wo_drop_pushes|]. intros.
    apply wo_bind; [apply wo_close_mon|]. intros. apply wo_bind; [apply wo_close_mon|]. intros. apply wo_ret.
Qed.
Lemma wo_control ctl : watched_only (control ctl) (control ctl).
Proof.
  destruct ctl as [c|]; cbn; [|apply wo_ret]. apply wo_bind; [apply wo_refl, works_try_recv; reflexivity|]. intros [v| |]; try apply wo_ret.
  apply wo_bind; [apply wo_refl, works_recv; reflexivity|]. intros. apply wo_ret.
Qed.
Lemma wo_secret s started pl ps ctl : watched_only (start_secret started pl ps ctl (Some s)) (start_secret started pl ps ctl None).
Proof.
  unfold start_secret. destruct started; [apply wo_panic|]. destruct pl as [pl|], ps as [ps|].
  - apply wo_bind.
    + apply wo_iter. intros [[pl' l] count]. unfold gate_body. apply wo_bind; [apply wo_worker|]. intros [[[w|e] pl1] ps1].
      * destruct (wr_finished w); (apply wo_bind; [|intros; apply wo_ret]); [destruct ctl; [apply wo_close|apply wo_ret]|apply wo_control].
      * destruct e; try apply wo_ret. destruct (push_brk ps); try apply wo_ret. apply wo_bind; [apply wo_control|]. intros. apply wo_ret.
    + intros [[r pl'] ps']. apply wo_bind; [apply wo_drop_pushes|]. intros. apply wo_bind; [apply wo_drop_pull|]. intros. apply wo_ret.
  - apply wo_bind; [apply wo_drop_pull|]. intros. apply wo_ret.
  - apply wo_bind; [apply wo_drop_push|]. intros. apply wo_ret.
  - apply wo_ret.
Qed.
Theorem wo_faucet s f : watched_only (faucet_start f (Some s)) (faucet_start f None).
Proof.
  unfold faucet_start. apply wo_bind; [|intros [pl|e]; [apply wo_secret|apply wo_ret]]. apply wo_refl.
  unfold faucet_source. destruct (fc_pull_journey f) as [j|], (fc_read_location f) as [name|]; try (now apply works_ret).
  destruct (string_dec name "-"); (apply works_vis; [reflexivity|]); intros [] Hw; try discriminate Hw; now apply works_ret.
Qed.
Theorem wo_regulator s r : watched_only (regulator_start r (Some s)) (regulator_start r None).
Proof. apply wo_secret. Qed.

Lemma wo_jmw s : forall pulls i pushs fin rf sk, watched_only (jmw_loop pulls i pushs (Some s) fin rf sk) (jmw_loop pulls i pushs None fin rf sk).
Proof.
  induction pulls as [|pl rest IH]; intros; cbn [jmw_loop]; [apply wo_ret|]. destruct (existsb (Nat.eqb i) fin).
  - apply wo_bind; [apply IH|]. intros [[r rest'] ps']. apply wo_ret.
  - apply wo_bind; [apply wo_worker|]. intros [[[w|e] p'] ps']; [|apply wo_ret]. apply wo_bind; [apply IH|]. intros [[r rest'] ps'']. apply wo_ret.
Qed.
Lemma wo_groups s : forall groups gi pushs fins count, watched_only (groups_loop groups gi pushs (Some s) fins count) (groups_loop groups gi pushs None fins count).
Proof.
  induction groups as [|g rest IH]; intros; cbn [groups_loop]; [apply wo_ret|]. apply wo_bind; [apply wo_jmw|]. intros [[[o|e] g'] ps']; [|apply wo_ret].
  destruct (length (skipped o) <? length g'); [apply wo_ret|]. apply wo_bind; [apply IH|]. intros [[r rest'] ps'']. apply wo_ret.
Qed.
Lemma wo_remove_all : forall fins stdin, watched_only (remove_all fins stdin) (remove_all fins stdin).
Proof.
  induction fins as [|[i0 i1] fins IH]; intro stdin; cbn [remove_all]; [apply wo_ret|]. destruct (remove_vec_vec_index stdin i0 i1) as [[q|] stdin']; [|apply IH].
  apply wo_bind; [apply wo_drop_pull|]. intros. apply IH.
Qed.
Lemma plain_sleep n : works plain (fun _ => True) (sleep n).
Proof. apply works_vis; [reflexivity|]. intros [] Hw; try discriminate Hw; now apply works_ret. Qed.
Lemma wo_iteration s st : watched_only (junction_iteration st (Some s)) (junction_iteration st None).
Proof.
  destruct st as [[stdin stdout] bo]. unfold junction_iteration. apply wo_bind; [apply wo_groups|]. intros [[[ps|e] stdin1] stdout1]; [|apply wo_ret].
  apply wo_bind; [apply wo_remove_all|]. intro stdin2. destruct (remove_vec_vec stdin2).
  - apply wo_bind; [apply wo_close_all|]. intros [u|e]; apply wo_ret.
  - apply wo_bind; [|intros [x bo']; apply wo_ret]. destruct (ps_any_read ps); [apply wo_ret|]. unfold back_off_wait.
    apply wo_bind; [apply wo_refl, plain_sleep|]. intros. apply wo_ret.
Qed.
Theorem wo_junction s j : watched_only (junction_start j (Some s)) (junction_start j None).
Proof.
  unfold junction_start. destruct (jn_started j); [apply wo_panic|]. apply wo_iter. intros [st count]. unfold junction_body.
  apply wo_bind; [apply wo_iteration|]. intros [[[[] n]|e] st']; try apply wo_ret. apply wo_bind; [apply wo_drop_pulls|]. intros. apply wo_ret.
Qed.

Lemma wo_vis {A} e (k k' : ans -> prog A) : is_spying e = false -> (forall a, watched_only (k a) (k' a)) -> watched_only (Vis e k) (Vis e k').
Proof.
  intros He HK. split.
  - intros tr st HX HT HN. inversion HX as [| | | |? ? a t ? Hw HX']; subst; [constructor|].
    apply (took_app [(e, a)] t) in HT. destruct HT as [_ HT]. cbn. rewrite He. cbn. apply X_vis; [exact Hw|]. now apply HK.
  - intros tr st HX. inversion HX as [| | | |? ? a t ? Hw HX']; subst; [exists []; repeat split; [constructor|apply took_nil]|].
    destruct (proj2 (HK a) _ _ HX') as (t' & K1 & K2 & K3). exists ((e, a) :: t'). split; [now apply X_vis|]. split; [apply (took_app [(e, a)] t'); split; [apply took_one; congruence|exact K2]|].
    cbn. rewrite He. cbn. now f_equal.
Qed.
Lemma wo_send s v {A} (k : bool -> prog A) (q : prog A) : watched_only (k true) q -> watched_only (x <- send (CSpy s) v ;; k x) q.
Proof.
  intro HK. unfold send. rewrite bind_eq. split.
  - intros tr st HX HT HN. inversion HX as [| | | |? ? a t ? Hw HX']; subst; [discriminate HN|].
    assert (a = AOk) by (eapply HT; [now left|reflexivity]). subst a. cbn in HX'. rewrite bind_ret in HX'. apply (took_app [_] t) in HT. destruct HT as [_ HT]. cbn. now apply HK.
  - intros tr st HX. destruct (proj2 HK _ _ HX) as (t' & K1 & K2 & K3). eexists (_ :: t'). split; [apply X_vis with (a := AOk); [reflexivity|]; cbn; rewrite bind_ret; exact K1|].
    split; [apply (took_app [_] t'); split; [apply took_one; auto|exact K2]|exact K3].
Qed.
Lemma wo_exit s j n : watched_only (iter (exit_body (Some s) j n) tt) (iter (exit_body None j n) tt).
Proof.
  apply wo_iter. intros []. unfold exit_body. apply wo_vis; [reflexivity|]. intro a. destruct (exit_message a) as [m|].
  - apply wo_bind; [apply wo_refl, works_send; reflexivity|]. intros []; cbn [negb]; [|apply wo_ret].
    destruct (j_port j) as [port|]; [apply wo_send; cbn [negb]|]; (apply wo_bind; [apply wo_close|]; intros; apply wo_ret).
  - apply wo_bind; [apply wo_refl, plain_sleep|]. intros. apply wo_ret.
Qed.
Lemma wo_finish s l r1 r2 r3 : watched_only (launch_finish l (Some s) r1 r2 r3) (launch_finish l None r1 r2 r3).
Proof. unfold launch_finish. destruct (la_exit_status l) as [[j n]|]; [|apply wo_ret]. apply wo_bind; [apply wo_exit|]. intros []; apply wo_ret. Qed.

(** ** Joined futures *)
Lemma own_unspied i l : own i (unspied_events l) = unspied (own i l).
Proof.
  induction l as [|[k [e a]] l IH]; [reflexivity|]. unfold own, unspied_events, unspied in *. cbn.
  destruct (is_spying e) eqn:E, (k =? i) eqn:K; cbn; rewrite ?K, ?E; cbn; rewrite ?IH; reflexivity.
Qed.
Lemma own_cons i k ev l : own i ((k, ev) :: l) = (if k =? i then [ev] else []) ++ own i l.
Proof. unfold own. cbn. destruct (k =? i); reflexivity. Qed.
Lemma took_own i l : spy_took (all_of l) -> spy_took (own i l).
Proof.
  intros H e a Hin. apply H. unfold own in Hin. apply in_map_iff in Hin. destruct Hin as (x & <- & Hx). apply filter_In in Hx. apply in_map. tauto.
Qed.
Lemma unspied_events_app a b : unspied_events (a ++ b) = unspied_events a ++ unspied_events b.
Proof. apply filter_app. Qed.
Lemma all_of_app a b : all_of (a ++ b) = all_of a ++ all_of b.
Proof. apply map_app. Qed.
Lemma idle_unspied is l : idle is l -> idle is (unspied_events l).
Proof. intros H i Hi. rewrite own_unspied, (H i Hi). reflexivity. Qed.

Lemma unspied_nil tr : unspied tr = [] -> Forall (fun ev => is_spying (fst ev) = true) tr.
Proof. induction tr as [|[e a] tr IH]; [constructor|]. cbn. destruct (is_spying e) eqn:E; cbn; [|discriminate]. auto. Qed.
Lemma unspied_cons tr e a rest : unspied tr = (e, a) :: rest -> exists pre t, tr = pre ++ (e, a) :: t /\ unspied t = rest /\ Forall (fun ev => is_spying (fst ev) = true) pre.
Proof.
  induction tr as [|[e' a'] tr IH]; [discriminate|]. cbn. destruct (is_spying e') eqn:E; cbn.
  - intro H. destruct (IH H) as (pre & t & -> & K1 & K2). exists ((e', a') :: pre), t. repeat split; auto.
  - intro H. injection H as -> -> <-. exists [], tr. repeat split. constructor.
Qed.
Lemma own_tag i k tr : own i (map (pair k) tr) = if k =? i then tr else [].
Proof. unfold own. induction tr as [|x tr IH]; cbn; [destruct (k =? i); reflexivity|]. destruct (k =? i) eqn:E; cbn; [f_equal|]; exact IH. Qed.
Lemma unspied_tag k tr : Forall (fun ev => is_spying (fst ev) = true) tr -> unspied_events (map (pair k) tr) = [].
Proof. induction 1 as [|[e a] tr H _ IH]; [reflexivity|]. cbn in *. now rewrite H. Qed.

Lemma plain_events l : unspied_events l = l <-> Forall (fun x => is_spying (fst (snd x)) = false) l.
Proof.
  split.
  - intro E. apply Forall_forall. intros x Hx. rewrite <- E in Hx. apply filter_In in Hx. destruct Hx as [_ H]. now apply negb_true_iff.
  - induction 1 as [|x l H _ IH]; [reflexivity|]. cbn. rewrite H. cbn. now f_equal.
Qed.
(** Runs of the parts with a spy, put together. *)
Lemma weave l : unspied_events l = l -> forall f : nat -> trace, (forall i, i <= 3 -> unspied (f i) = own i l /\ spy_took (f i)) ->
  exists l', unspied_events l' = l /\ spy_took (all_of l') /\ forall i, i <= 3 -> own i l' = f i.
Proof.
  induction l as [|[k [e a]] l IH]; intros Hl f Hf.
  - assert (HS : forall i, i <= 3 -> Forall (fun ev => is_spying (fst ev) = true) (f i)) by (intros i Hi; apply unspied_nil, (proj1 (Hf i Hi))).
    exists (map (pair 0) (f 0) ++ map (pair 1) (f 1) ++ map (pair 2) (f 2) ++ map (pair 3) (f 3)).
    split; [rewrite !unspied_events_app, !unspied_tag by (apply HS; lia); reflexivity|].
    split.
    + rewrite !all_of_app. unfold all_of. rewrite !map_map. cbn. rewrite !map_id. rewrite !took_app. repeat split; apply Hf; lia.
    + intros i Hi. rewrite !own_app, !own_tag. destruct i as [|[|[|[|i]]]]; cbn; rewrite ?app_nil_r; try reflexivity. lia.
  - assert (Hp : is_spying e = false /\ unspied_events l = l).
    { apply plain_events in Hl. inversion Hl; subst. split; [assumption|]. now apply plain_events. }
    destruct Hp as [He Hl'].
    destruct (le_gt_dec k 3) as [Hk|Hk].
    + destruct (Hf k Hk) as [Hk1 Hk2]. rewrite own_cons, Nat.eqb_refl in Hk1. cbn [app] in Hk1.
      destruct (unspied_cons _ _ _ _ Hk1) as (pre & t & E & Et & HS). rewrite E in Hk2. apply took_app in Hk2. destruct Hk2 as [T1 T2]. apply (took_app [_] t) in T2. destruct T2 as [_ T2].
      destruct (IH Hl' (fun i => if k =? i then t else f i)) as (l' & L1 & L2 & L3).
      { intros i Hi. destruct (Nat.eqb_spec k i) as [<-|Hn]; [auto|]. destruct (Hf i Hi) as [K1 K2]. split; [|exact K2]. rewrite K1, own_cons. apply Nat.eqb_neq in Hn. now rewrite Hn. }
      exists (map (pair k) pre ++ (k, (e, a)) :: l'). split; [|split].
      * rewrite unspied_events_app, unspied_tag by exact HS. cbn. rewrite He. cbn. now f_equal.
      * rewrite all_of_app. apply took_app. split; [unfold all_of; rewrite map_map; cbn; rewrite map_id; exact T1|]. apply (took_app [_] (all_of l')). split; [apply took_one; congruence|exact L2].
      * intros i Hi. rewrite own_app, own_tag, own_cons, (L3 i Hi). destruct (Nat.eqb_spec k i) as [<-|Hn]; [symmetry; exact E|reflexivity].
    + destruct (IH Hl' f) as (l' & L1 & L2 & L3).
      { intros i Hi. destruct (Hf i Hi) as [K1 K2]. split; [|exact K2]. rewrite K1. unfold own. cbn. destruct (Nat.eqb_spec k i); [lia|reflexivity]. }
      exists ((k, (e, a)) :: l'). split; [cbn; rewrite He; cbn; now f_equal|]. split; [apply (took_app [_] (all_of l')); split; [apply took_one; congruence|exact L2]|].
      intros i Hi. unfold own. cbn. destruct (Nat.eqb_spec k i); [lia|]. exact (L3 i Hi).
Qed.

Section Joined.
Context {X A B C R : Type} (pre : prog (R + X)) (p1 q1 : X -> prog A) (p2 q2 : X -> prog B) (p3 q3 : X -> prog C) (post post' : X -> A -> B -> C -> prog R).
Hypothesis W0 : watched_only pre pre.
Hypothesis W1 : forall x, watched_only (p1 x) (q1 x).
Hypothesis W2 : forall x, watched_only (p2 x) (q2 x).
Hypothesis W3 : forall x, watched_only (p3 x) (q3 x).
Hypothesis W4 : forall x a b c, watched_only (post x a b c) (post' x a b c).

Lemma weave_one l t : unspied_events l = l -> idle [1; 2; 3] l -> unspied t = own 0 l -> spy_took t ->
  exists l', unspied_events l' = l /\ spy_took (all_of l') /\ own 0 l' = t /\ idle [1; 2; 3] l'.
Proof.
  intros Hl HI Ht HT. destruct (weave l Hl (fun i => if i =? 0 then t else [])) as (l' & L1 & L2 & L3).
  - intros i Hi. destruct i as [|i]; cbn; [auto|]. split; [|apply took_nil]. symmetry. apply HI. destruct i as [|[|[|i]]]; cbn; auto; lia.
  - exists l'. split; [exact L1|]. split; [exact L2|]. split; [apply (L3 0); lia|]. intros i [<-|[<-|[<-|[]]]]; apply L3; lia.
Qed.
Lemma unspied_split a b : unspied_events (a ++ b) = a ++ b -> unspied_events a = a /\ unspied_events b = b.
Proof. rewrite !plain_events. apply Forall_app. Qed.

Lemma weave_parts l x : unspied_events l = l -> idle [0] l -> forall a b c,
  exec (q1 x) (own 1 l) a -> exec (q2 x) (own 2 l) b -> exec (q3 x) (own 3 l) c ->
  exists l', unspied_events l' = l /\ spy_took (all_of l') /\ idle [0] l' /\ exec (p1 x) (own 1 l') a /\ exec (p2 x) (own 2 l') b /\ exec (p3 x) (own 3 l') c.
Proof.
  intros Hl HI a b c H1 H2 H3. destruct (proj2 (W1 x) _ _ H1) as (t1 & A1 & A2 & A3). destruct (proj2 (W2 x) _ _ H2) as (t2 & B1 & B2 & B3). destruct (proj2 (W3 x) _ _ H3) as (t3 & C1 & C2 & C3).
  destruct (weave l Hl (fun i => match i with 1 => t1 | 2 => t2 | 3 => t3 | _ => [] end)) as (l' & L1 & L2 & L3).
  - intros i Hi. destruct i as [|[|[|[|i]]]]; auto; [|lia]. split; [symmetry; apply HI; now left|apply took_nil].
  - exists l'. split; [exact L1|]. split; [exact L2|]. split; [intros i [<-|[]]; apply (L3 0); lia|].
    rewrite (L3 1), (L3 2), (L3 3) by lia. auto.
Qed.

Lemma wo_joined : watched_jointly (joined pre p1 p2 p3 post) (joined pre q1 q2 q3 post').
Proof.
  split.
  - intros l st HX HT HN. inversion HX as [l' e I0 H0|l' m I0 H0|l' r I0 H0|l0 l' x a o c I0 I1 H0 H1 H2 H3|l0 l' l1 x a o c st' I0 I1 I2 H0 H1 H2 H3 H4]; subst.
    + apply J_before_at; [now apply idle_unspied|]. rewrite own_unspied. apply W0; auto. now apply took_own.
    + apply J_before_panic; [now apply idle_unspied|]. rewrite own_unspied. apply W0; auto. now apply took_own.
    + apply J_before_done; [now apply idle_unspied|]. rewrite own_unspied. apply (proj1 W0 _ (Done (inl r))); [exact H0|now apply took_own|exact I].
    + rewrite all_of_app in HT. apply took_app in HT. destruct HT as [T0 T1]. rewrite unspied_events_app. destruct HN as (N1 & N2 & N3).
      apply J_during with (x := x); try (now apply idle_unspied); rewrite own_unspied.
      * apply (proj1 W0 _ (Done (inr x))); [exact H0|now apply took_own|exact I].
      * apply (W1 x); auto. now apply took_own.
      * apply (W2 x); auto. now apply took_own.
      * apply (W3 x); auto. now apply took_own.
    + rewrite !all_of_app in HT. apply took_app in HT. destruct HT as [T0 T1]. apply took_app in T1. destruct T1 as [T1 T2]. rewrite !unspied_events_app.
      apply J_after with (x := x) (a := a) (b := o) (c := c); try (now apply idle_unspied); rewrite own_unspied.
      * apply (proj1 W0 _ (Done (inr x))); [exact H0|now apply took_own|exact I].
      * apply (proj1 (W1 x) _ (Done a)); [exact H1|now apply took_own|exact I].
      * apply (proj1 (W2 x) _ (Done o)); [exact H2|now apply took_own|exact I].
      * apply (proj1 (W3 x) _ (Done c)); [exact H3|now apply took_own|exact I].
      * apply (W4 x a o c); auto. now apply took_own.
  - intros l st HX HL. inversion HX as [l' e I0 H0|l' m I0 H0|l' r I0 H0|l0 l' x a o c I0 I1 H0 H1 H2 H3|l0 l' l1 x a o c st' I0 I1 I2 H0 H1 H2 H3 H4]; subst.
    + destruct (proj2 W0 _ _ H0) as (t & K1 & K2 & K3). destruct (weave_one l t HL I0 K3 K2) as (k & L1 & L2 & L3 & L4). exists k. split; [apply J_before_at; [exact L4|now rewrite L3]|auto].
    + destruct (proj2 W0 _ _ H0) as (t & K1 & K2 & K3). destruct (weave_one l t HL I0 K3 K2) as (k & L1 & L2 & L3 & L4). exists k. split; [apply J_before_panic; [exact L4|now rewrite L3]|auto].
    + destruct (proj2 W0 _ _ H0) as (t & K1 & K2 & K3). destruct (weave_one l t HL I0 K3 K2) as (k & L1 & L2 & L3 & L4). exists k. split; [apply J_before_done; [exact L4|now rewrite L3]|auto].
    + apply unspied_split in HL. destruct HL as [HL0 HL1].
      destruct (proj2 W0 _ _ H0) as (t & K1 & K2 & K3). destruct (weave_one l0 t HL0 I0 K3 K2) as (k & L1 & L2 & L3 & L4).
      destruct (weave_parts l' x HL1 I1 _ _ _ H1 H2 H3) as (m & M1 & M2 & M3 & M4 & M5 & M6).
      exists (k ++ m). split; [|split; [rewrite all_of_app; apply took_app; auto|rewrite unspied_events_app; congruence]].
      apply J_during with (x := x); auto. now rewrite L3.
    + apply unspied_split in HL. destruct HL as [HL0 HL1]. apply unspied_split in HL1. destruct HL1 as [HL1 HL2].
      destruct (proj2 W0 _ _ H0) as (t & K1 & K2 & K3). destruct (weave_one l0 t HL0 I0 K3 K2) as (k & L1 & L2 & L3 & L4).
      destruct (weave_parts l' x HL1 I1 _ _ _ H1 H2 H3) as (m & M1 & M2 & M3 & M4 & M5 & M6).
      destruct (proj2 (W4 x a o c) _ _ H4) as (u & U1 & U2 & U3). destruct (weave_one l1 u HL2 I2 U3 U2) as (n & N1 & N2 & N3 & N4).
      exists (k ++ m ++ n). split; [|split; [rewrite !all_of_app; rewrite !took_app; auto|rewrite !unspied_events_app; congruence]].
      apply J_after with (x := x) (a := a) (b := o) (c := c); auto; [now rewrite L3|now rewrite N3].
Qed.
End Joined.

Lemma wo_total sender mi mo : watched_only (total_in_buffer sender mi mo) (total_in_buffer sender mi mo).
Proof.
  assert (HT : forall c, watched_only (try_recv c) (try_recv c)) by (intro c; apply wo_refl, works_try_recv; reflexivity).
  assert (HE : forall c, watched_only (is_empty c) (is_empty c)) by (intro c; apply wo_vis; [reflexivity|]; intros []; first [apply wo_ret|apply wo_panic]).
  assert (HC : forall c, watched_only (is_closed c) (is_closed c)) by (intro c; apply wo_vis; [reflexivity|]; intros []; first [apply wo_ret|apply wo_panic]).
  unfold total_in_buffer. apply wo_bind; [apply wo_iter; intro ct|].
  - unfold count_body. apply wo_bind; [unfold look_in; apply wo_bind; [apply HT|]; intros [v| |]; try apply wo_ret; destruct v; first [apply wo_ret|apply wo_panic]|]. intros [moved size].
    apply wo_bind; [unfold look_out; apply wo_bind; [apply HT|]; intros [v| |]; try apply wo_ret; destruct v; try apply wo_panic; apply wo_bind; [|intros; apply wo_ret]; unfold minus_one; destruct size; first [apply wo_ret|apply wo_panic]|]. intros [moved' size'].
    apply wo_bind; [unfold report_size; destruct sender as [c|]; [|apply wo_ret]; destruct (negb _); [|apply wo_ret]; apply wo_bind; [apply wo_refl, works_send; reflexivity|]; intros; apply wo_ret|]. intros [last|]; [|apply wo_ret].
    apply wo_bind; [unfold both_over; apply wo_bind; [apply HE|]; intros []; cbn; [|apply wo_ret]; apply wo_bind; [apply HC|]; intros []; cbn; [|apply wo_ret]; apply wo_bind; [apply HE|]; intros []; cbn; [apply HC|apply wo_ret]|].
    intros []; [apply wo_ret|]. destruct moved'; [apply wo_ret|]. apply wo_bind; [|intros [x y]; apply wo_ret]. unfold back_off_wait. apply wo_bind; [apply wo_refl, plain_sleep|]. intros. apply wo_ret.
  - intro r. apply wo_bind; [apply wo_close|]. intros. apply wo_bind; [apply wo_close|]. intros. apply wo_bind; [destruct sender; [apply wo_close|apply wo_ret]|]. intros. apply wo_ret.
Qed.

Theorem wo_buffer s b u mi mo : watched_jointly (buffer_start b (Some s) u mi mo) (buffer_start b None u mi mo).
Proof.
  unfold buffer_start. apply wo_joined.
  - unfold buffer_ends. destruct (bf_stdin b) as [pl|], (bf_stdout b) as [ps|]; try apply wo_ret; [destruct (push_journey ps); [apply wo_ret|]; apply wo_bind; [apply wo_drop_push|]; intros|];
      (apply wo_bind; [apply wo_drop_pull|]; intros; apply wo_ret).
  - intros x. unfold half_a. apply wo_motion.
  - intros x. unfold half_b. apply wo_motion.
  - intros x. apply wo_total.
  - intros. apply wo_ret.
Qed.
Theorem wo_launch s cwd vars l : watched_jointly (launch_start cwd vars l (Some s)) (launch_start cwd vars l None).
Proof.
  unfold launch_start. apply wo_joined.
  - unfold launch_spawn. destruct (la_launched l); [apply wo_panic|]. apply wo_vis; [reflexivity|]. intros []; first [apply wo_ret|apply wo_panic].
  - intros x. apply wo_motion.
  - intros x. apply wo_motion.
  - intros x. apply wo_motion.
  - intros. apply wo_finish.
Qed.
