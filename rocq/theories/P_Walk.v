(** * P_Walk: where the controller of a regulator comes to when nobody else does anything *)
From Coq Require Import Ascii String List Bool Arith Lia.
From Verif Require Import M_Prog P_Prog P_Exec M_Motion M_BackOff M_Utils M_Regulator M_Manager M_Waiter M_Join S_Trace S_World S_Regulator S_Net M_Start S_Lasting
  P_World P_Machine P_JPass P_Ask P_Manager P_Respond P_NetMoves P_Fair P_Later P_Act P_WatchRun.
Import ListNotations.

Lemma idle_same w ev w' : forward ev = false -> wstep w ev w' -> w' = w.
Proof.
  intros HU HS. unfold forward in HU. apply andb_false_iff in HU. destruct HU as [HU|HU]; [exact (useless_same _ _ _ HU HS)|].
  destruct ev as [e a]. destruct e as [c|c|c v|c|c|c| | | | | | | | | | | |]; try discriminate HU; destruct c; try discriminate HU; destruct a; try discriminate HU; inversion HS; subst; auto; discriminate.
Qed.
Lemma idle_answer w e a w1 a' w2 : forward (e, a) = false -> (e, a) <> (EStatus, AErr) -> wstep w (e, a) w1 -> wstep w (e, a') w2 -> a = a'.
Proof.
  intros HU HS H1 H2. unfold forward in HU. apply andb_false_iff in HU. destruct HU as [HU|HU]; [exact (answer_same _ _ _ _ _ _ HU HS H1 H2)|].
  destruct e as [c|c|c v|c|c|c| | | | | | | | | | | |]; try discriminate HU; destruct c; try discriminate HU; destruct a; try discriminate HU; inversion H1; subst; inversion H2; subst; try congruence; try discriminate.
Qed.
Definition idlers (w : world) (s : trace) : Prop := wrun w (by_task 0 s) w /\ forallb (fun ev => negb (forward ev)) s = true.
Lemma idlers_nil w : idlers w [].
Proof. split; [constructor|reflexivity]. Qed.
Lemma idlers_cons w ev s : wstep w ev w -> forward ev = false -> idlers w s -> idlers w (ev :: s).
Proof. intros H1 H2 [H3 H4]. split; [cbn; econstructor; eassumption|]. cbn [forallb]. now rewrite H2. Qed.
Lemma idlers_app w s s' : idlers w s -> idlers w s' -> idlers w (s ++ s').
Proof.
  intros [H1 H2] [H3 H4]. split; [|rewrite forallb_app; now rewrite H2, H4]. unfold by_task in *. rewrite map_app. apply wrun_app. eauto.
Qed.
Lemma idlers_in w s ev : idlers w s -> In ev s -> forward ev = false /\ wstep w ev w.
Proof.
  intros [H1 H2] Hin. rewrite forallb_forall in H2. pose proof (H2 _ Hin) as Hf. apply negb_true_iff in Hf. split; [exact Hf|].
  assert (HG : forall s w1 w2, wrun w1 (by_task 0 s) w2 -> forallb (fun ev => negb (forward ev)) s = true -> w2 = w1 /\ forall ev, In ev s -> wstep w1 ev w1).
  { clear. induction s as [|x s IH]; intros w1 w2 HR HB; [inversion HR; subst; split; [reflexivity|intros ev []]|]. cbn [forallb] in HB. apply andb_true_iff in HB. destruct HB as [B1 B2]. apply negb_true_iff in B1.
    cbn in HR. inversion HR as [|? ? w3 ? ? K1 K2]; subst. pose proof (idle_same _ _ _ B1 K1) as ->. destruct (IH _ _ K2 B2) as [-> IH2]. split; [reflexivity|]. intros ev [<-|Hin]; auto. }
  apply (HG _ _ _ H1 ltac:(apply forallb_forall; exact H2)). exact Hin.
Qed.

(** ** Programs that come to an end *)
Definition ctl_eff (e : eff) : Prop :=
  match e with ETryRecv (CSize _) | EClose (CSize _) | EClose (CCtl _) | ESleep _ => True | ESend (CCtl _) VUnit => True | _ => False end.
Inductive fin {A} : prog A -> Prop :=
| F_ret : forall a, fin (Ret a)
| F_panic : forall s, fin (Panic s)
| F_tau : forall p, fin p -> fin (Tau p)
| F_vis : forall e k, ctl_eff e -> (forall a, wt e a = true -> fin (k a)) -> fin (Vis e k).
Lemma fin_bind {A B} (p : prog A) (k : A -> prog B) : fin p -> (forall a, fin (k a)) -> fin (bind p k).
Proof.
  intros HP HK. induction HP as [a|s|p HP IH|e k' He HP IH].
  - rewrite bind_ret. apply HK.
  - rewrite bind_panic. constructor.
  - rewrite bind_eq. now constructor.
  - rewrite bind_vis. constructor; [exact He|]. intros a Ha. now apply IH.
Qed.
Lemma fin_rest {A} (p : prog A) tr st : exec p tr st -> forall e, st = At e -> fin p -> exists q, fin q /\ starts q /\ forall s st', exec q s st' -> exec p (tr ++ s) st'.
Proof.
  induction 1 as [x|x|e k|p tr st HX IH|e k x tr st Hw HX IH]; intros e' E HF; try discriminate E.
  - exists (Vis e k). split; [exact HF|]. split; [exists (At e); constructor|]. auto.
  - inversion HF; subst. destruct (IH _ eq_refl ltac:(assumption)) as (q & K1 & K2 & K3). exists q. split; [exact K1|]. split; [exact K2|]. intros. constructor. auto.
  - inversion HF; subst. destruct (IH _ eq_refl ltac:(auto)) as (q & K1 & K2 & K3). exists q. split; [exact K1|]. split; [exact K2|]. intros. cbn [app]. constructor; auto.
Qed.

(** Somebody alone: it changes something, or is refused, or comes to its end. *)
Definition goes (w : world) (e : eff) : Prop := exists a w', wt e a = true /\ wstep w (e, a) w' /\ forward (e, a) = true.
Definition refused (w : world) (e : eff) : Prop := exists x, e = ESend (CCtl x) VUnit /\ full (w (CCtl x)).
Lemma ctl_step w e : fitting w -> ctl_eff e -> goes w e \/ refused w e \/ exists a, wt e a = true /\ wstep w (e, a) w /\ forward (e, a) = false.
Proof.
  intros HF He. destruct e as [|[]|[] []|[]| | | | | | |ms| | | | | | |]; try contradiction He.
  - destruct (cs_queue (w (CSize n))) as [|v q] eqn:Eq.
    + right. right. destruct (cs_closed (w (CSize n))) eqn:Ec; [exists AClosed|exists AEmpty]; (split; [reflexivity|]); (split; [|reflexivity]); [now apply W_try_end|now apply W_try_empty].
    + left. exists (AMsg v). eexists. split; [change (fits (CSize n) v = true); apply HF; rewrite Eq; now left|]. split; [eapply W_try; exact Eq|reflexivity].
  - destruct (cs_closed (w (CCtl n))) eqn:Ec; [right; right; exists AClosed; split; [reflexivity|]; split; [now apply W_send_closed|reflexivity]|].
    destruct (room_dec (w (CCtl n))) as [Hr|Hr]; [left; exists AOk; eexists; split; [reflexivity|]; split; [now apply W_send|reflexivity]|].
    right. left. exists n. split; [reflexivity|]. split; assumption.
  - left. exists AOk. eexists. split; [reflexivity|]. split; [apply W_close|reflexivity].
  - left. exists AOk. eexists. split; [reflexivity|]. split; [apply W_close|reflexivity].
  - right. right. exists AOk. split; [reflexivity|]. split; [now apply W_other|reflexivity].
Qed.
Lemma fin_walk {A} (p : prog A) w : fin p -> fitting w -> exists s st, exec p s st /\ idlers w s /\ match st with At e => goes w e \/ refused w e | _ => True end.
Proof.
  intros HP HF. induction HP as [a|s|p HP IH|e k He HP IH].
  - exists [], (Done a). split; [constructor|]. split; [apply idlers_nil|exact Logic.I].
  - exists [], (Panicked s). split; [constructor|]. split; [apply idlers_nil|exact Logic.I].
  - destruct IH as (s & st & H1 & H2 & H3). exists s, st. split; [now constructor|auto].
  - destruct (ctl_step w e HF He) as [H|[H|(a & Hw & Hs & Hf)]].
    + exists [], (At e). split; [constructor|]. split; [apply idlers_nil|now left].
    + exists [], (At e). split; [constructor|]. split; [apply idlers_nil|now right].
    + destruct (IH a Hw) as (s & st & H1 & H2 & H3). exists ((e, a) :: s), st. split; [now constructor|]. split; [now apply idlers_cons|exact H3].
Qed.

(** ** One turn of a controller *)
Lemma fin_poll ms : forall i rm tot rd, fin (poll_monitors ms i rm tot rd).
Proof.
  induction ms as [|m ms IH]; intros; cbn [poll_monitors]; [constructor|]. unfold try_recv. rewrite bind_vis. constructor; [exact Logic.I|]. intros a Ha. destruct a; try discriminate Ha; rewrite bind_ret.
  - destruct v; try constructor. apply fin_bind; [apply IH|]. intros [[[a b] c] d]. constructor.
  - apply fin_bind; [apply IH|]. intros [[[a b] c] d]. constructor.
  - apply fin_bind; [apply IH|]. intros [[[a b] c] d]. constructor.
Qed.
Lemma fin_close c : ctl_eff (EClose c) -> fin (close c).
Proof. intro H. unfold close. constructor; [exact H|]. intros a Ha. destruct a; try discriminate Ha. constructor. Qed.
Lemma fin_remove idx : forall ms, fin (remove_monitors idx ms).
Proof.
  induction idx as [|i idx IH]; intro ms; cbn [remove_monitors]; [constructor|]. destruct (vec_remove i ms) as [[m|] ms']; [|constructor]. apply fin_bind; [now apply fin_close|]. intros. apply IH.
Qed.
Lemma fin_send x : fin (send (CCtl x) VUnit).
Proof. unfold send. constructor; [exact Logic.I|]. intros a Ha. destruct a; try discriminate Ha; constructor. Qed.
Lemma fin_pause b c s : fin (pause_if b c s).
Proof. unfold pause_if, rc_pause. destruct b; [|constructor]. apply fin_bind; [|intros []; constructor]. destruct (rc_paused c); [constructor|]. apply fin_bind; [apply fin_send|]. intros. constructor. Qed.
Lemma fin_resume b c s : fin (resume_if b c s).
Proof. unfold resume_if, rc_resume. destruct b; [|constructor]. apply fin_bind; [|intros []; constructor]. destruct (negb _); [constructor|]. apply fin_bind; [apply fin_send|]. intros. constructor. Qed.
Lemma fin_turn low high s : fin (manage_body low high s).
Proof.
  unfold manage_body. apply fin_bind; [apply fin_poll|]. intros [[[ms1 rm] tot] rd]. apply fin_bind; [apply fin_pause|]. intros [c1 s1]. apply fin_bind; [apply fin_resume|]. intros [c2 s2].
  apply fin_bind; [apply fin_remove|]. intros [|m ms2]; [apply fin_bind; [now apply fin_close|]; intros; constructor|]. destruct (rd =? 0); [|constructor].
  apply fin_bind; [|intros []; constructor]. unfold back_off_wait, sleep. apply fin_bind; [|intros; constructor]. constructor; [exact Logic.I|]. intros a Ha. destruct a; try discriminate Ha. constructor.
Qed.
(** Everybody who is watched is asked. *)
Lemma poll_asks ms : forall i rm tot rd tr r, exec (poll_monitors ms i rm tot rd) tr (Done r) -> forall m, In m ms -> exists a, In (ETryRecv (CSize (bm_chan m)), a) tr.
Proof.
  induction ms as [|m0 ms IH]; intros i rm tot rd tr r HX m Hm; [destruct Hm|]. cbn [poll_monitors] in HX. unfold try_recv in HX. rewrite bind_vis in HX. apply exec_vis_inv in HX. destruct HX as [[_ HX]|(a & tr' & -> & Hw & HX)]; [discriminate HX|].
  destruct Hm as [->|Hm]; [exists a; now left|].
  assert (HG : exists i rm tot rd r t1 t2, tr' = t1 ++ t2 /\ exec (poll_monitors ms i rm tot rd) t1 (Done r)).
  { destruct a; try discriminate Hw; rewrite bind_ret in HX; [destruct v; try (apply exec_panic_inv in HX; destruct HX as [_ HX]; discriminate HX)| |]; apply exec_bind_inv in HX; destruct HX as [(t1 & t2 & x & -> & K & _)|[(e & E & _)|(s & E & _)]]; try discriminate E; eauto 12. }
  destruct HG as (i' & rm' & tot' & rd' & r' & t1 & t2 & -> & HX'). destruct (IH _ _ _ _ _ _ HX' m Hm) as (x & Hx). exists x. right. apply in_or_app. now left.
Qed.
Lemma turn_asks low high s tr r : exec (manage_body low high s) tr (Done r) -> forall m, In m (ms_monitors s) -> exists a, In (ETryRecv (CSize (bm_chan m)), a) tr.
Proof.
  intros HX m Hm. unfold manage_body in HX. apply exec_bind_inv in HX. destruct HX as [(t1 & t2 & x & -> & K & _)|[(e & E & _)|(s' & E & _)]]; try discriminate E.
  destruct (poll_asks _ _ _ _ _ _ _ K m Hm) as (a & Ha). exists a. apply in_or_app. now left.
Qed.
Lemma turn_keeps low high s tr s' : exec (manage_body low high s) tr (Done (inl s')) -> ms_monitors s' <> [].
Proof.
  intro HX. unfold manage_body in HX. apply exec_bind_inv in HX. destruct HX as [(t1 & t2 & [[[ms1 rm] tot] rd] & -> & _ & HX)|[(e & E & _)|(s0 & E & _)]]; try discriminate E.
  apply exec_bind_inv in HX. destruct HX as [(t3 & t4 & [c1 s1] & -> & _ & HX)|[(e & E & _)|(s0 & E & _)]]; try discriminate E.
  apply exec_bind_inv in HX. destruct HX as [(t5 & t6 & [c2 s2] & -> & _ & HX)|[(e & E & _)|(s0 & E & _)]]; try discriminate E.
  apply exec_bind_inv in HX. destruct HX as [(t7 & t8 & ms2 & -> & _ & HX)|[(e & E & _)|(s0 & E & _)]]; try discriminate E.
  destruct ms2 as [|m ms2].
  - exfalso. apply exec_bind_inv in HX. destruct HX as [(t9 & t0 & u & -> & HC & HX)|[(e & E & _)|(s0 & E & _)]]; try discriminate E. apply exec_ret_inv in HX. destruct HX as [_ HX]. discriminate HX.
  - destruct (rd =? 0).
    + apply exec_bind_inv in HX. destruct HX as [(t9 & t0 & [u b] & -> & HC & HX)|[(e & E & _)|(s0 & E & _)]]; try discriminate E. apply exec_ret_inv in HX. destruct HX as [_ HX]. injection HX as ->. discriminate.
    + apply exec_ret_inv in HX. destruct HX as [_ HX]. injection HX as ->. discriminate.
Qed.
Lemma turn_ends low high s tr n : exec (manage_body low high s) tr (Done (inr n)) -> exists tr' x, tr = tr' ++ [(EClose (CCtl x), AOk)].
Proof.
  intro HX. unfold manage_body in HX. apply exec_bind_inv in HX. destruct HX as [(t1 & t2 & [[[ms1 rm] tot] rd] & -> & _ & HX)|[(e & E & _)|(s' & E & _)]]; try discriminate E.
  apply exec_bind_inv in HX. destruct HX as [(t3 & t4 & [c1 s1] & -> & _ & HX)|[(e & E & _)|(s' & E & _)]]; try discriminate E.
  apply exec_bind_inv in HX. destruct HX as [(t5 & t6 & [c2 s2] & -> & _ & HX)|[(e & E & _)|(s' & E & _)]]; try discriminate E.
  apply exec_bind_inv in HX. destruct HX as [(t7 & t8 & ms2 & -> & _ & HX)|[(e & E & _)|(s' & E & _)]]; try discriminate E.
  destruct ms2 as [|m ms2].
  - apply exec_bind_inv in HX. destruct HX as [(t9 & t0 & u & -> & HC & HX)|[(e & E & _)|(s' & E & _)]]; try discriminate E. apply exec_ret_inv in HX. destruct HX as [-> _].
    apply close_inv in HC. destruct HC as [[_ HC]|[-> _]]; [discriminate HC|]. exists (t1 ++ t3 ++ t5 ++ t7), (rc_control c2). rewrite app_nil_r, <- !app_assoc. reflexivity.
  - exfalso. destruct (rd =? 0).
    + apply exec_bind_inv in HX. destruct HX as [(t9 & t0 & [u b] & -> & HC & HX)|[(e & E & _)|(s' & E & _)]]; try discriminate E. apply exec_ret_inv in HX. destruct HX as [_ HX]. discriminate HX.
    + apply exec_ret_inv in HX. destruct HX as [_ HX]. discriminate HX.
Qed.

Section Walk.
Variables (low high c : nat) (chans : list nat).
Hypothesis Hnd : NoDup chans.
Notation body := (manage_body low high).
Notation p := (manage_regulator low high (RC false c) chans).
Notation inv := (minv low high c chans).

(** The last turn. *)
Lemma turn_of : forall n s0 h tr e, length tr <= n -> inv h s0 -> exec (iter body s0) tr (At e) ->
  exists t1 t2 s, tr = t1 ++ t2 /\ inv (h ++ t1) s /\ exec (body s) t2 (At e) /\ forall t st, exec (iter body s) t st -> exec (iter body s0) (t1 ++ t) st.
Proof.
  induction n as [|n IH]; intros s0 h tr e Hn HI HX.
  - destruct tr; [|cbn in Hn; lia]. exists [], [], s0. split; [reflexivity|]. split; [now rewrite app_nil_r|]. split; [|auto].
    destruct (exec_iter_inv _ _ _ _ HX) as [(t1 & t2 & j & E & H1 & H2)|[(r & E & _)|[(e' & E & H1)|(s & E & _)]]]; try discriminate E.
    + symmetry in E. apply app_eq_nil in E. destruct E as [-> ->]. destruct (manage_turn _ _ _ _ _ H1 eq_refl).
    + injection E as <-. exact H1.
  - destruct (exec_iter_inv _ _ _ _ HX) as [(t1 & t2 & j & E & H1 & H2)|[(r & E & _)|[(e' & E & H1)|(s & E & _)]]]; try discriminate E.
    + pose proof (manage_turn _ _ _ _ _ H1) as Hne. subst tr. rewrite app_length in Hn. assert (Hl : length t2 <= n) by (destruct t1; [congruence|cbn in Hn; lia]).
      pose proof (body_sat low high c chans Hnd h s0 HI _ _ H1) as HI'. cbn in HI'.
      destruct (IH j (h ++ t1) t2 e Hl HI' H2) as (u1 & u2 & s & -> & K1 & K2 & K3). exists (t1 ++ u1), u2, s. split; [now rewrite app_assoc|]. split; [now rewrite app_assoc|]. split; [exact K2|].
      intros t st HT. rewrite <- app_assoc. eapply exec_iter_step; [exact H1|]. now apply K3.
    + injection E as <-. exists [], tr, s0. split; [reflexivity|]. split; [now rewrite app_nil_r|]. auto.
Qed.
Definition first_state : mstate := MS (map (Bsm 0) chans) (RC false c) false back_off_new 0.
Lemma inv_first : inv [] first_state.
Proof.
  unfold minv, first_state. cbn [ms_monitors ms_control ms_shut ms_count].
  assert (E : held chans [] = chans) by (unfold held; clear; induction chans as [|x l IH]; [reflexivity|]; cbn [filter let_go existsb negb]; f_equal; exact IH).
  rewrite E. split; [rewrite map_map; cbn; now rewrite map_id|]. split; [reflexivity|]. split; [intros m Hm; apply in_map_iff in Hm; destruct Hm as (x & <- & _); reflexivity|]. split; [reflexivity|]. split; [reflexivity|].
  split; [|rewrite report_none; [reflexivity|exact Hnd|reflexivity]].
  unfold settled. cbn. right. unfold level. clear. induction chans as [|x l IH]; [cbn; lia|]. cbn. exact IH.
Qed.

Definition walked (w : world) (tr s : trace) : Prop :=
  (exists e, exec p (tr ++ s) (At e) /\ goes w e) \/
  (exec p (tr ++ s) (At (ESend (CCtl c) VUnit)) /\ full (w (CCtl c))) \/
  ((exists st, exec p (tr ++ s) st) /\ settled low high c chans (tr ++ s) /\ (exists n, In n chans /\ gone n (tr ++ s) = false) /\ forall n, In n chans -> gone n (tr ++ s) = false -> dry (w (CSize n))).

Lemma manager_walk w tr e : fitting w -> exec p tr (At e) -> exists s, idlers w s /\ walked w tr s.
Proof.
  intros HF HX. change p with (iter body first_state) in HX.
  destruct (turn_of (length tr) first_state [] tr e (le_n _) inv_first HX) as (t1 & t2 & s0 & -> & HI & HB & HG). cbn [app] in HI.
  destruct (fin_rest _ _ _ HB _ eq_refl (fin_turn _ _ _)) as (q & HQ & _ & HR). destruct (fin_walk q w HQ HF) as (s1 & st1 & X1 & I1 & K1).
  apply HR in X1.
  assert (HG1 : forall e0, exec (body s0) (t2 ++ s1) (At e0) -> exec p ((t1 ++ t2) ++ s1) (At e0)).
  { intros e0 H. rewrite <- app_assoc. apply HG. rewrite iter_eq. now apply exec_bind_at. }
  assert (HStop : forall t e0, exec p t (At e0) -> refused w e0 -> exec p t (At (ESend (CCtl c) VUnit)) /\ full (w (CCtl c))).
  { intros t e0 H (x & -> & Hfl). destruct (manager_signal low high c chans Hnd _ _ _ H) as (E & _ & _). injection E as ->. auto. }
  destruct st1 as [e1|[s2|n]|m].
  - exists s1. split; [exact I1|]. destruct K1 as [K1|K1]; [left; exists e1; auto|right; left]. eapply HStop; [apply HG1; exact X1|exact K1].
  - (* another turn *)
    pose proof (body_sat low high c chans Hnd t1 s0 HI _ _ X1) as HI2. cbn in HI2.
    destruct (fin_walk (body s2) w (fin_turn _ _ _) HF) as (s3 & st3 & X3 & I3 & K3).
    assert (HG3 : forall t st, exec (iter body s2) t st -> exec p ((t1 ++ t2) ++ s1 ++ t) st).
    { intros t st H. rewrite <- app_assoc. apply HG. rewrite app_assoc. eapply exec_iter_step; eassumption. }
    exists (s1 ++ s3). split; [now apply idlers_app|]. destruct st3 as [e3|[s4|n]|m].
    + assert (H : exec p ((t1 ++ t2) ++ s1 ++ s3) (At e3)) by (apply HG3; rewrite iter_eq; now apply exec_bind_at).
      destruct K3 as [K3|K3]; [left; exists e3; auto|right; left]. eapply HStop; [exact H|exact K3].
    + right. right. pose proof (body_sat low high c chans Hnd _ s2 HI2 _ _ X3) as HI4. cbn in HI4. replace ((t1 ++ t2 ++ s1) ++ s3) with ((t1 ++ t2) ++ s1 ++ s3) in HI4 by (now rewrite <- !app_assoc).
      split; [|split; [|split]].
      * assert (HS : starts (iter body s4)) by (apply (resp_iter _ (fun _ => True)); [intros; apply resp_manage| |exact Logic.I]; intros i0 tr0 i1 _ H; split; [exact Logic.I|]; exact (manage_turn _ _ _ _ _ H)).
        destruct HS as (st & HS). exists st. rewrite <- (app_nil_r s3). apply HG3. eapply exec_iter_step; eassumption.
      * now destruct HI4 as (_ & _ & _ & _ & _ & H & _).
      * pose proof (turn_keeps _ _ _ _ _ X3) as HK. destruct HI4 as (Hh & Hlg & _). destruct (ms_monitors s4) as [|m ms]; [contradiction|]. exists (bm_chan m).
        assert (Hin : In (bm_chan m) (held chans ((t1 ++ t2) ++ s1 ++ s3))) by (rewrite Hh; now left). apply filter_In in Hin. destruct Hin as [Hn Hl]. split; [exact Hn|].
        rewrite <- (Hlg _ Hn). now destruct (let_go (bm_chan m) ((t1 ++ t2) ++ s1 ++ s3)).
      * intros n Hn Hg. assert (Hg2 : gone n (t1 ++ t2 ++ s1) = false /\ gone n s3 = false).
        { replace ((t1 ++ t2) ++ s1 ++ s3) with ((t1 ++ t2 ++ s1) ++ s3) in Hg by (now rewrite <- !app_assoc). rewrite gone_app in Hg. now apply orb_false_iff in Hg. }
        destruct Hg2 as [Hg2 Hg3]. destruct HI2 as (Hh & Hlg & _).
        assert (Hin : In n (held chans (t1 ++ t2 ++ s1))) by (apply filter_In; split; [exact Hn|]; now rewrite Hlg, Hg2).
        rewrite Hh in Hin. apply in_map_iff in Hin. destruct Hin as (m & Em & Hm). destruct (turn_asks _ _ _ _ _ X3 m Hm) as (a & Ha). rewrite Em in Ha.
        destruct (idlers_in _ _ _ I3 Ha) as [Hf Hs]. pose proof (exec_wt _ _ _ X3 _ _ Ha) as Hw. destruct a; try discriminate Hw; try discriminate Hf.
        -- inversion Hs; subst; [|discriminate]. now split.
        -- exfalso. assert (gone n s3 = true); [|congruence]. unfold gone. apply existsb_exists. eexists. split; [exact Ha|]. cbn. apply Nat.eqb_refl.
    + exfalso. destruct (turn_ends _ _ _ _ _ X3) as (tr' & x & ->). destruct (idlers_in _ _ (EClose (CCtl x), AOk) I3) as [Hf _]; [apply in_or_app; right; now left|]. discriminate Hf.
    + exfalso. refine (manager_no_panic low high c chans Hnd _ m (HG3 s3 _ _)). rewrite iter_eq. now apply exec_bind_panic.
  - exfalso. destruct (turn_ends _ _ _ _ _ X1) as (tr' & x & E). destruct s1 as [|y s1 _] using rev_ind.
    + rewrite app_nil_r in E, X1. pose proof (exec_det _ _ _ HB _ X1) as K. discriminate K.
    + rewrite app_assoc in E. apply app_inj_tail in E. destruct E as [_ ->]. destruct (idlers_in _ _ (EClose (CCtl x), AOk) I1) as [Hf _]; [apply in_or_app; right; now left|]. discriminate Hf.
  - exfalso. refine (manager_no_panic low high c chans Hnd ((t1 ++ t2) ++ s1) m _). rewrite <- app_assoc. apply HG. rewrite iter_eq. now apply exec_bind_panic.
Qed.
End Walk.
