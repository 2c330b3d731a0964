(** * P_Spy: what a spy is told *)
From Coq Require Import Ascii String List Bool Arith ZArith Lia.
From Verif Require Import M_Prog M_Motion M_Connectable M_BackOff M_Utils M_Junction M_Regulator M_Faucet M_Join M_Buffer M_Launch S_Motion S_World S_Spy P_Prog P_Motion P_Phase P_Exec P_World P_JStart.
Import ListNotations.

Lemma oport_eqb_refl o : oport_eqb o o = true.
Proof. destruct o; reflexivity. Qed.
Lemma talk_app p s t1 t2 : talk p s (t1 ++ t2) = talk p s t1 ++ talk p s t2.
Proof. apply flat_map_app. Qed.
Lemma told_all_told l : told_all l -> told l.
Proof. now left. Qed.
Lemma told_mid l d : told_all l -> told (l ++ [inl d]).
Proof. intro H. right. eauto. Qed.
#[local] Hint Resolve told_all_told told_mid : core.

Section Spy.
Variables (p : push) (s : nat) (src dst : nat) (port : oport) (brk : breakable).
Hypothesis Hreal : real_push p.
Hypothesis Hj : push_journey p = Some (J src (Some port) dst brk).

Definition hush (e : eff) : Prop := forall a, word_of p s (e, a) = [].
Definition TN (h : trace) (_ : eff) : Prop := told (talk p s h).

Lemma hush_talk tr : within_eff hush tr -> talk p s tr = [].
Proof. induction 1 as [|[e a] tr H _ IH]; [reflexivity|]. change (word_of p s (e, a) ++ talk p s tr = []). pose proof (H a) as Ha. cbn [fst] in Ha. rewrite Ha. exact IH. Qed.
Lemma lift {A} (F : list word -> Prop) (Q : A -> Prop) (q : prog A) h :
  (forall l, F l -> told l) -> works hush Q q -> F (talk p s h) -> tsat h q TN (fun h' a => F (talk p s h') /\ Q a).
Proof.
  intros HF HW H tr st HX. destruct (HW _ _ HX) as [H1 H2].
  assert (E : talk p s (h ++ tr) = talk p s h) by (rewrite talk_app, (hush_talk _ H1); apply app_nil_r).
  destruct st; [apply HF; now rewrite E|rewrite E; auto|exact I].
Qed.

(** ** One output *)
Definition none_to (q : push) : Prop := (forall d e, write_eff q d = Some e -> hush e) /\ match push_journey q with Some (J a (Some r) z _) => names p a z r = false | _ => True end.
Lemma distinct_none q : distinct p q -> real_push q /\ none_to q.
Proof.
  intros (H1 & H2 & H3). split; [exact H1|]. split; [|exact H3]. intros d e E a.
  destruct q; try contradiction; cbn in E; injection E as <-; destruct p; try contradiction; cbn; try reflexivity;
    match goal with |- context[?x =? ?y] => destruct (Nat.eqb_spec x y) as [->|]; [now elim H2|] end; destruct a; reflexivity.
Qed.

(** What a write may say of itself: an output found closed is an error only if it is a Terminate one. *)
Definition fair_error {A} (pushs : list push) (r : mres A) : Prop :=
  match r with Err (OutputClosed _ _ _) => exists q, In q pushs /\ push_brk q = Terminate | _ => True end.

Lemma mwrite_same (P : eff -> Prop) q d : real_push q -> (forall e, write_eff q d = Some e -> P e) -> works P (fun x => snd x = q) (motion_write q d).
Proof.
  intros HR HP. destruct q; try contradiction; cbn [motion_write].
  - eapply works_bind; [apply works_write_all, HP; reflexivity|]. intros r _. now apply works_ret.
  - eapply works_bind; [apply works_send, HP; reflexivity|]. intros r _. now apply works_ret.
  - eapply works_bind; [apply works_send, HP; reflexivity|]. intros r _. now apply works_ret.
Qed.
Lemma wwrite_same (P : eff -> Prop) q data : real_push q -> (forall d e, write_eff q d = Some e -> P e) -> works P (fun x => snd x = q /\ fair_error [q] (fst x)) (worker_write data q).
Proof.
  intros HR HP. unfold worker_write. destruct data as [d| |]; [|destruct (push_brk q); apply works_ret; cbn; auto..].
  destruct (push_brk q) eqn:E; (eapply works_bind; [apply mwrite_same; [exact HR|intro e; apply HP]|]; intros [r q'] H; cbn in H; subst q'; apply works_ret; cbn; split; [reflexivity|]);
    destruct r as [u|[] ]; cbn; auto; exists q; cbn; auto.
Qed.

(** The watched output itself: afterwards the message is on its way, but not reported yet. *)
Definition due (data : iodw) (h0 : list word) (l : list word) : Prop :=
  match data with IOData d => l = h0 ++ [inl d] | _ => l = h0 end.
Lemma own_write data h : told_all (talk p s h) -> data <> Skipped ->
  tsat h (worker_write data p) TN (fun h' x => due data (talk p s h) (talk p s h') /\ snd x = p /\ fair_error [p] (fst x)).
Proof.
  intros HT HD tr st HX. destruct data as [d| |]; [| |now elim HD].
  2:{ unfold worker_write in HX. destruct (push_brk p); inversion HX; subst; rewrite app_nil_r; cbn; auto. }
  assert (HW : works (fun e => write_eff p d = Some e) (fun x => snd x = p /\ fair_error [p] (fst x)) (worker_write (IOData d) p)).
  { unfold worker_write. destruct (push_brk p) eqn:E; (eapply works_bind; [apply mwrite_same; [exact Hreal|auto]|]; intros [r q'] H; cbn in H; subst q'; apply works_ret; cbn; split; [reflexivity|]);
    destruct r as [u|[] ]; cbn; auto; exists p; cbn; auto. }
  destruct (HW _ _ HX) as [_ H2]. clear HW.
  assert (HS : (tr = [] /\ exists e, st = At e) \/ (exists e a x, tr = [(e, a)] /\ st = Done x /\ write_eff p d = Some e) \/ (exists m, st = Panicked m)).
  { clear -HX Hreal. unfold worker_write, motion_write, send, write_all in HX. destruct (push_brk p), p; try contradiction; cbn in HX; rewrite ?bind_eq in HX; cbn in HX.
    all: match type of HX with exec (bind _ _) _ _ => idtac | exec (Vis _ _) _ _ => idtac | _ => idtac end.
    all: inversion HX; subst; [left; eauto|right].
    all: match goal with H : wt _ ?a = true |- _ => destruct a; try discriminate H end.
    all: match goal with H : exec (bind _ _) _ _ |- _ => rewrite ?bind_eq in H; cbn in H; rewrite ?bind_eq in H; cbn in H; inversion H; subst end.
    all: left; do 3 eexists; repeat split; reflexivity. }
  destruct HS as [[-> [e ->]]|[(e & a & x & -> & -> & E)|[m ->]]].
  - rewrite app_nil_r. red. auto.
  - split; [|exact H2]. cbn [due]. rewrite talk_app. f_equal. clear -E Hreal.
    destruct p; try contradiction; cbn in E; injection E as <-; cbn; rewrite Nat.eqb_refl; destruct a; reflexivity.
  - exact I.
Qed.
Lemma due_told data h0 l : told_all h0 -> due data h0 l -> told l.
Proof. intros H. destruct data; cbn; intros ->; auto. Qed.
Lemma own_spy data h0 h : told_all h0 -> data <> Skipped -> due data h0 (talk p s h) ->
  tsat h (worker_spy (Some s) data p) TN (fun h' r => match r with Ok _ => told_all (talk p s h') | Err e => told (talk p s h') /\ forall j x d, e <> OutputClosed j x d end).
Proof.
  intros HT HD HU tr st HX. unfold worker_spy in HX. rewrite Hj in HX. unfold send in HX. rewrite bind_eq in HX. cbn in HX.
  pose proof (due_told _ _ _ HT HU) as Hold.
  inversion HX as [| |? ?| |? ? a ? ? Hwt HX']; subst; [rewrite app_nil_r; exact Hold|].
  destruct a; try discriminate Hwt; cbn in HX'; rewrite bind_eq in HX'; cbn in HX'; apply exec_ret_inv in HX'; destruct HX' as [-> ->]; rewrite talk_app; cbn -[names]; unfold names.
  - rewrite app_nil_r. split; [exact Hold|discriminate].
  - rewrite Hj, !Nat.eqb_refl, oport_eqb_refl. cbn. destruct data as [d| |]; cbn in HU; rewrite HU; [|now constructor|now elim HD].
    rewrite <- app_assoc. now constructor.
Qed.

(** ** All outputs *)
Lemma hush_spy q data : none_to q -> works hush (fun r => forall j x d, r <> Err (OutputClosed j x d)) (worker_spy (Some s) data q).
Proof.
  intros [_ H]. unfold worker_spy. destruct (push_journey q) as [[a [r|] z b]|]; try (apply works_ret; discriminate).
  eapply works_bind; [apply works_send|].
  - intro ans. cbn -[names]. rewrite H, andb_false_r. destruct ans; reflexivity.
  - intros ok _. apply works_ret. destruct ok; discriminate.
Qed.
Lemma none_pushes data : forall l n, Forall (fun q => real_push q /\ none_to q) l ->
  works hush (fun x => snd x = l /\ fair_error l (fst x)) (worker_pushes (Some s) data l n).
Proof.
  induction l as [|q l IH]; intros n HF; cbn [worker_pushes]; [apply works_ret; cbn; auto|].
  inversion HF as [|? ? [HR HN] HF']; subst.
  eapply works_bind; [apply wwrite_same; [exact HR|apply HN]|]. intros [r q'] [E HE]. cbn in E, HE. subst q'.
  destruct r as [dec|e]; [|apply works_ret; cbn; split; [reflexivity|]; destruct e; cbn in *; auto; destruct HE as (q0 & [->|[]] & ?); eauto].
  eapply works_bind; [apply hush_spy; exact HN|]. intros [u|e] HE'; [|apply works_ret; cbn; split; [reflexivity|]; destruct e; cbn; auto; exfalso; eapply HE'; reflexivity].
  eapply works_bind; [apply IH; exact HF'|]. intros [r' rest'] [E2 HE2]. cbn in E2, HE2. subst. apply works_ret. cbn. split; [reflexivity|].
  destruct r' as [|[]]; cbn in *; auto. destruct HE2 as (q0 & ? & ?); eauto.
Qed.

Definition ended_well {A} (pushs : list push) (h : trace) (x : mres A * list push) : Prop :=
  match fst x with Ok _ => told_all (talk p s h) | Err _ => told (talk p s h) end /\ snd x = pushs /\ fair_error pushs (fst x).
Lemma all_pushes data l2 : data <> Skipped -> Forall (fun q => real_push q /\ none_to q) l2 ->
  forall l1 n h, Forall (fun q => real_push q /\ none_to q) l1 -> told_all (talk p s h) ->
  tsat h (worker_pushes (Some s) data (l1 ++ p :: l2) n) TN (ended_well (l1 ++ p :: l2)).
Proof.
  intros HD H2. induction l1 as [|q l1 IH]; intros n h HF HT; cbn [app worker_pushes].
  - apply tsat_bind. eapply tsat_conseq; [apply own_write; assumption|]. intros h1 [r p'] (HU & E & HE). cbn in E, HE. subst p'.
    destruct r as [dec|e]; [|apply tsat_ret; repeat split; cbn; [exact (due_told _ _ _ HT HU)|]; destruct e; cbn in *; auto; destruct HE as (q0 & [->|[]] & ?); eauto].
    apply tsat_bind. eapply tsat_conseq; [apply (own_spy data _ _ HT HD HU)|]. intros h2 [u|e] K.
    + apply tsat_bind. eapply tsat_conseq; [apply (lift told_all); [auto|apply none_pushes; exact H2|exact K]|]. intros h3 [r' rest'] (K1 & K2 & K3). cbn in K2, K3. subst.
      apply tsat_ret. split; cbn; [destruct r'; auto|]. split; [reflexivity|]. destruct r' as [|[]]; cbn in *; auto. destruct K3 as (q0 & ? & ?); eauto.
    + destruct K as [K1 K2]. apply tsat_ret. split; cbn; [exact K1|]. split; [reflexivity|]. destruct e; cbn; auto. exfalso; eapply K2; reflexivity.
  - inversion HF as [|? ? [HR HN] HF']; subst.
    apply tsat_bind. eapply tsat_conseq; [apply (lift told_all); [auto|apply wwrite_same; [exact HR|apply HN]|exact HT]|]. intros h1 [r q'] (K1 & E & HE). cbn in E, HE. subst q'.
    destruct r as [dec|e]; [|apply tsat_ret; split; cbn; [auto|]; split; [reflexivity|]; destruct e; cbn in *; auto; destruct HE as (q0 & [->|[]] & ?); eauto].
    apply tsat_bind. eapply tsat_conseq; [apply (lift told_all); [auto|apply hush_spy; exact HN|exact K1]|]. intros h2 [u|e] (L1 & L2).
    + apply tsat_bind. eapply tsat_conseq; [apply IH; assumption|]. intros h3 [r' rest'] (M1 & M2 & M3). cbn in M1, M2, M3. subst. apply tsat_ret. split; cbn; [exact M1|]. split; [reflexivity|].
      destruct r' as [|[]]; cbn in *; auto. destruct M3 as (q0 & ? & ?); eauto.
    + apply tsat_ret. split; cbn; [auto|]. split; [reflexivity|]. destruct e; cbn; auto. exfalso; eapply L2; reflexivity.
Qed.

(** ** One message *)
Lemma hush_read pl t : forall e, read_eff pl t = Some e -> hush e.
Proof. intros e E a. destruct pl; try discriminate E; cbn in E; injection E as <-; [reflexivity|]. destruct t; reflexivity. Qed.
Lemma read_error pl t tr r pl' : exec (motion_read pl t) tr (Done (r, pl')) -> forall pushs, fair_error pushs r.
Proof.
  intros HX pushs.
  assert (HW : works (fun _ => True) (fun x => fair_error pushs (fst x)) (motion_read pl t)).
  { destruct pl as [k j f sc|j n|j q|], t; cbn [motion_read]; try apply works_panic.
    - eapply works_bind with (Q := fun _ => True); [unfold motion_read_buffer; eapply works_bind; [apply works_read_loop; exact I|]; intros [x ov] _; apply works_ret; exact I|].
      intros [[v|] sc'] _; apply works_ret; exact I.
    - eapply works_bind; [apply works_try_recv; exact I|]. intros [v| |] _; try (apply works_ret; exact I). destruct v; try apply works_panic. apply works_ret; exact I.
    - eapply works_bind; [apply works_recv_data; exact I|]. intros [v|] _; apply works_ret; exact I.
    - destruct q; apply works_ret; exact I.
    - destruct q; apply works_ret; exact I.
    - apply works_ret; exact I. }
  exact (proj2 (HW _ _ HX)).
Qed.
Lemma hush_read_works pl t : works hush (fun x => forall pushs, fair_error pushs (fst x)) (motion_read pl t).
Proof.
  intros tr st HX. destruct (works_read hush pl pl t (like_refl _) (hush_read pl t) _ _ HX) as [H1 H2]. split; [exact H1|].
  destruct st as [e|[r pl']|]; [exact H2|exact (read_error _ _ _ _ _ HX)|exact I].
Qed.
Lemma hush_notify m v pl onerr : (v = VRead \/ v = VWrote) -> (forall j, fair_error (A := unit) [] (Err (onerr j))) -> works hush (fair_error []) (notify m v pl onerr).
Proof.
  intros Hv Ho. destruct m as [c|]; cbn; [|now apply works_ret]. eapply works_bind; [apply works_send; intros a; destruct Hv as [-> | ->]; reflexivity|].
  intros [] _; [now apply works_ret|]. destruct (pull_journey pl); [apply works_ret; apply Ho|apply works_panic].
Qed.
Lemma fair_error_nil {A} pushs (r : mres A) : fair_error [] r -> fair_error pushs r.
Proof. destruct r as [|[]]; cbn; auto. now intros (q & [] & _). Qed.

Definition moved_on {A} (pushs : list push) (h : trace) (x : mres A * pull * list push) : Prop := ended_well pushs h (fst (fst x), snd x).

Variables (l1 l2 : list push).
Hypothesis H1 : Forall (fun q => real_push q /\ none_to q) l1.
Hypothesis H2 : Forall (fun q => real_push q /\ none_to q) l2.
Let pushs := l1 ++ p :: l2.

Lemma worker_tells mon pl t h : told_all (talk p s h) -> tsat h (motion_worker pl mon pushs (Some s) t) TN (moved_on pushs).
Proof.
  intro HT. unfold motion_worker. apply tsat_bind. eapply tsat_conseq; [apply (lift told_all); [auto|apply hush_read_works|exact HT]|].
  intros h1 [r pl'] (K1 & K2). cbn in K2. destruct r as [data|e]; [|apply tsat_ret; split; cbn; [auto|]; split; [reflexivity|apply K2]].
  assert (G : data <> Skipped -> tsat h1 (
    nr <- notify (mon_read mon) VRead pl' (fun j => MonitorReadError (pj_src j)) ;;
    match nr with
    | Err e => Ret (Err e, pl', pushs)
    | Ok _ =>
      ' (wr, pushs') <- worker_pushes (Some s) data pushs (length pushs) ;;
      match wr with
      | Err e => Ret (Err e, pl', pushs')
      | Ok unfinished =>
        nw <- notify (mon_written mon) VWrote pl' MonitorWriteError ;;
        match nw with
        | Err e => Ret (Err e, pl', pushs')
        | Ok _ => Ret (Ok (WR (if unfinished =? 0 then true else is_finished data) true), pl', pushs')
        end
      end
    end) TN (moved_on pushs)).
  { intro HD. apply tsat_bind. eapply tsat_conseq; [apply (lift told_all); [auto|apply hush_notify; [now left|intros; exact I]|exact K1]|].
    intros h2 [u|e] (L1 & L2); [|apply tsat_ret; split; cbn; [auto|]; split; [reflexivity|exact (fair_error_nil pushs (Err e : mres unit) L2)]].
    apply tsat_bind. eapply tsat_conseq; [apply all_pushes; assumption|]. intros h3 [wr ps'] (M1 & M2 & M3). cbn in M1, M2, M3. subst ps'.
    destruct wr as [n|e]; [|apply tsat_ret; split; cbn; auto].
    apply tsat_bind. eapply tsat_conseq; [apply (lift told_all); [auto|apply hush_notify; [now right|intros; exact I]|exact M1]|].
    intros h4 [u'|e] (N1 & N2); apply tsat_ret; split; cbn; auto. split; [reflexivity|exact (fair_error_nil pushs (Err e : mres unit) N2)]. }
  destruct data; [apply G; discriminate|apply G; discriminate|]. apply tsat_ret. split; cbn; auto.
Qed.

(** ** Ends *)
Lemma hush_close c : works hush (fun _ => True) (close c).
Proof. apply works_close. intros []; reflexivity. Qed.
Lemma hush_drop_fd f : works hush (fun _ => True) (drop_fd f).
Proof. apply works_drop_fd. intros []; reflexivity. Qed.
Lemma hush_drop_pull pl : works hush (fun _ => True) (drop_pull pl).
Proof. destruct pl; cbn; try (now apply works_ret); [apply hush_drop_fd|apply hush_close]. Qed.
Lemma hush_drop_push q : works hush (fun _ => True) (drop_push q).
Proof. destruct q; cbn; try (now apply works_ret); [apply hush_drop_fd|apply hush_close..]. Qed.
Lemma hush_drop_pushes l : works hush (fun _ => True) (drop_pushes l).
Proof. induction l; cbn; [now apply works_ret|]. eapply works_bind; [apply hush_drop_push|]. auto. Qed.
Lemma hush_drop_pulls l : works hush (fun _ => True) (drop_pulls l).
Proof. induction l; cbn; [now apply works_ret|]. eapply works_bind; [apply hush_drop_pull|]. auto. Qed.
Lemma hush_close_mon m : works hush (fun _ => True) (close_mon m).
Proof. destruct m; cbn; [apply hush_close|now apply works_ret]. Qed.
Lemma hush_motion_close q : works hush (fun _ => True) (motion_close q).
Proof.
  destruct q; cbn; try (now apply works_ret).
  - eapply works_bind; [apply works_flush; intros []; reflexivity|]. intros. now apply works_ret.
  - eapply works_bind; [apply hush_close|]. intros. now apply works_ret.
  - eapply works_bind; [apply hush_close|]. intros. now apply works_ret.
Qed.
Lemma hush_close_all l : works hush (fun _ => True) (close_all l).
Proof. induction l; cbn; [now apply works_ret|]. eapply works_bind; [apply hush_motion_close|]. intros [u|e] _; [exact IHl|now apply works_ret]. Qed.

Definition settled {A} (h : trace) (r : mres A) : Prop := match r with Ok _ => told_all (talk p s h) | Err _ => told (talk p s h) end.
Lemma settled_told {A} h (r : mres A) : settled h r -> told (talk p s h).
Proof. destruct r; cbn; auto. Qed.
(** Silence at the end changes nothing. *)
Lemma last_words {A B C} (r : mres A) (q : prog B) (k : B -> prog C) (Q : trace -> C -> Prop) h : settled h r -> works hush (fun _ => True) q ->
  (forall h' x, settled h' r -> tsat h' (k x) TN Q) -> tsat h (bind q k) TN Q.
Proof.
  intros HS HW HK. apply tsat_bind.
  refine (tsat_conseq _ _ _ _ _ (lift (fun l => match r with Ok _ => told_all l | Err _ => told l end) _ q h _ HW _) _).
  - intros l. destruct r; auto.
  - exact HS.
  - intros h' x [HS' _]. apply HK. exact HS'.
Qed.

Lemma told_in_of {A} tr (st : status (mres A)) (q : prog (mres A)) : tsat [] q TN settled -> exec q tr st -> told_in p s tr st.
Proof. intros H HX. specialize (H _ _ HX). cbn in H. destruct st as [e|[x|e]|]; exact H. Qed.
Lemma talk_nil : told_all (talk p s []).
Proof. constructor. Qed.

(** ** A junction *)
Definition round_told {A X} (h : trace) (x : mres A * X * list push) : Prop := settled h (fst (fst x)) /\ snd x = pushs.
Lemma jmw_told : forall pulls i fin rf sk h, told_all (talk p s h) -> tsat h (jmw_loop pulls i pushs (Some s) fin rf sk) TN round_told.
Proof.
  induction pulls as [|pl rest IH]; intros i fin rf sk h HT; cbn [jmw_loop]; [apply tsat_ret; split; cbn; auto|].
  destruct (existsb (Nat.eqb i) fin).
  - apply tsat_bind. eapply tsat_conseq; [apply IH; exact HT|]. intros h' [[r rest'] ps'] [K1 K2]. cbn in K1, K2. subst. apply tsat_ret. split; auto.
  - apply tsat_bind. eapply tsat_conseq; [apply worker_tells; exact HT|]. intros h' [[r p'] ps'] (K1 & K2 & _). cbn in K1, K2. subst.
    destruct r as [w|e]; [|apply tsat_ret; split; auto].
    apply tsat_bind. eapply tsat_conseq; [apply IH; exact K1|]. intros h2 [[r' rest'] ps''] [L1 L2]. cbn in L1, L2. subst. apply tsat_ret. split; auto.
Qed.
Lemma groups_told : forall groups gi fins count h, told_all (talk p s h) -> tsat h (groups_loop groups gi pushs (Some s) fins count) TN round_told.
Proof.
  induction groups as [|g rest IH]; intros gi fins count h HT; cbn [groups_loop]; [apply tsat_ret; split; cbn; auto|].
  apply tsat_bind. eapply tsat_conseq; [apply jmw_told; exact HT|]. intros h' [[r g'] ps'] [K1 K2]. cbn in K1, K2. subst.
  destruct r as [o|e]; [|apply tsat_ret; split; auto].
  destruct (length (skipped o) <? length g'); [apply tsat_ret; split; auto|].
  apply tsat_bind. eapply tsat_conseq; [apply IH; exact K1|]. intros h2 [[r' rest'] ps''] [L1 L2]. cbn in L1, L2. subst. apply tsat_ret. split; auto.
Qed.
Lemma hush_remove_all : forall fins stdin, works hush (fun _ => True) (remove_all fins stdin).
Proof.
  induction fins as [|[i0 i1] fins IH]; intro stdin; cbn [remove_all]; [now apply works_ret|].
  destruct (remove_vec_vec_index stdin i0 i1) as [[q|] stdin']; [|apply IH]. eapply works_bind; [apply hush_drop_pull|]. intros. apply IH.
Qed.
Lemma hush_back_off bo : works hush (fun _ => True) (back_off_wait bo).
Proof. unfold back_off_wait. eapply works_bind with (Q := fun _ => True); [apply works_vis; [intros []; reflexivity|]; intros [] Hw; try discriminate Hw; now apply works_ret|]. intros. now apply works_ret. Qed.
Lemma iteration_told stdin bo h : told_all (talk p s h) ->
  tsat h (junction_iteration (stdin, pushs, bo) (Some s)) TN (fun h' x => settled h' (fst x) /\ snd (fst (snd x)) = pushs).
Proof.
  intro HT. unfold junction_iteration. apply tsat_bind. eapply tsat_conseq; [apply groups_told; exact HT|].
  intros h1 [[r stdin1] ps'] [K1 K2]. cbn in K1, K2. subst. destruct r as [ps|e]; [|apply tsat_ret; split; auto].
  apply tsat_bind. eapply tsat_conseq; [apply (lift told_all); [auto|apply hush_remove_all|exact K1]|]. intros h2 stdin2 [L1 _].
  destruct (remove_vec_vec stdin2) as [|g gs].
  - apply tsat_bind. eapply tsat_conseq; [apply (lift told_all); [auto|apply hush_close_all|exact L1]|]. intros h3 c [M1 _].
    destruct c; apply tsat_ret; split; cbn; auto.
  - apply tsat_bind. eapply tsat_conseq; [apply (lift told_all (fun _ => True)); [auto| |exact L1]|].
    + destruct (ps_any_read ps); [now apply works_ret|apply hush_back_off].
    + intros h3 [x bo'] [M1 _]. apply tsat_ret. split; cbn; auto.
Qed.
Lemma junction_told j : jn_stdout j = pushs -> tsat [] (junction_start j (Some s)) TN settled.
Proof.
  intro E. unfold junction_start. destruct (jn_started j); [intros tr st HX; inversion HX; exact I|].
  assert (E' : jn_stdout (initialize_stdin j) = pushs) by (unfold initialize_stdin; destruct (fold_left _ _ _); exact E).
  apply (tsat_iter (junction_body (Some s)) (fun h x => told_all (talk p s h) /\ snd (fst (fst x)) = pushs)); [|split; [apply talk_nil|exact E']].
  intros h [[[stdin ps] bo] count] [HT HP]. cbn in HP. subst ps. unfold junction_body.
  apply tsat_bind. eapply tsat_conseq; [apply iteration_told; exact HT|]. intros h1 [r [[stdin' ps'] bo']] [K1 K2]. cbn in K1, K2. subst.
  destruct r as [[[] n]|e]; [apply tsat_ret; exact K1|apply tsat_ret; split; auto|].
  apply (last_words (Err e : mres unit)); [exact K1|apply hush_drop_pulls|]. intros h2 _ K. apply tsat_ret. exact K.
Qed.
End Spy.

(** ** One output only *)
Section One.
Variables (p : push) (s : nat) (src dst : nat) (port : oport) (brk : breakable).
Hypothesis Hreal : real_push p.
Hypothesis Hj : push_journey p = Some (J src (Some port) dst brk).
Let none : Forall (fun q => real_push q /\ none_to p s q) [] := Forall_nil _.
Definition turn_told {A} (h : trace) (x : mres A * pull * list push) : Prop := settled p s h (fst (fst x)) /\ snd x = [p].

Lemma motion_told pl mon : tsat [] (motion pl mon (Some s) p) (TN p s) (settled p s).
Proof.
  unfold motion. apply tsat_bind. eapply tsat_conseq.
  - apply (tsat_iter (motion_body mon (Some s)) (fun h x => told_all (talk p s h) /\ snd (fst x) = [p]) (TN p s) turn_told); [|split; [constructor|reflexivity]].
    intros h [[pl' ps] count] [HT HP]. cbn in HP. subst ps. unfold motion_body.
    apply tsat_bind. eapply tsat_conseq; [exact (worker_tells p s src dst port brk Hreal Hj [] [] none none mon pl' false h HT)|].
    intros h1 [[r pl1] ps1] (K1 & K2 & _). cbn in K1, K2. subst. destruct r as [w|e]; [|apply tsat_ret; split; auto].
    destruct (wr_finished w); [|apply tsat_ret; split; auto].
    apply tsat_bind. eapply tsat_conseq; [apply (lift p s told_all); [auto|apply hush_close_all|exact K1]|]. intros h2 c [L1 _].
    destruct c as [u|e]; [|apply tsat_ret; split; cbn; auto].
    apply tsat_bind. eapply tsat_conseq; [apply (lift p s told_all); [auto|apply hush_close_mon|exact L1]|]. intros h3 _ [M1 _].
    apply tsat_bind. eapply tsat_conseq; [apply (lift p s told_all); [auto|apply hush_close_mon|exact M1]|]. intros h4 _ [N1 _].
    apply tsat_ret. split; auto.
  - intros h [[r pl'] ps'] [K1 K2]. cbn in K1, K2. subst.
    apply (last_words p s r); [exact K1|apply hush_drop_pull|]. intros h1 _ L1.
    apply (last_words p s r); [exact L1|apply hush_drop_pushes|]. intros h2 _ L2.
    apply (last_words p s r); [exact L2|apply hush_close_mon|]. intros h3 _ L3.
    apply (last_words p s r); [exact L3|apply hush_close_mon|]. intros h4 _ L4. apply tsat_ret. exact L4.
Qed.

Lemma hush_control ctl : works (hush p s) (fun _ => True) (control ctl).
Proof.
  destruct ctl as [c|]; cbn; [|now apply works_ret]. eapply works_bind; [apply works_try_recv; intros []; reflexivity|].
  intros [v| |] _; try (now apply works_ret). eapply works_bind; [apply works_recv; intros []; reflexivity|]. intros. now apply works_ret.
Qed.
Lemma gate_told started pl ctl h : told_all (talk p s h) -> tsat h (start_secret started (Some pl) (Some p) ctl (Some s)) (TN p s) (settled p s).
Proof.
  intro H0. unfold start_secret. destruct started; [intros tr st HX; inversion HX; exact I|]. apply tsat_bind. eapply tsat_conseq.
  - apply (tsat_iter (gate_body ctl (Some s) (push_brk p)) (fun h x => told_all (talk p s h) /\ snd (fst x) = [p]) (TN p s) turn_told); [|split; [exact H0|reflexivity]].
    intros h' [[pl' ps] count] [HT HP]. cbn in HP. subst ps. unfold gate_body.
    apply tsat_bind. eapply tsat_conseq; [exact (worker_tells p s src dst port brk Hreal Hj [] [] none none mn_empty pl' false h' HT)|].
    intros h1 [[r pl1] ps1] (K1 & K2 & K3). cbn in K1, K2, K3. subst. destruct r as [w|e].
    + destruct (wr_finished w).
      * apply tsat_bind. eapply tsat_conseq; [apply (lift p s told_all (fun _ => True)); [auto| |exact K1]|]; [destruct ctl; cbn; [apply hush_close|now apply works_ret]|]. intros h2 _ [L1 _]. apply tsat_ret. split; auto.
      * apply tsat_bind. eapply tsat_conseq; [apply (lift p s told_all); [auto|apply hush_control|exact K1]|]. intros h2 _ [L1 _]. apply tsat_ret. split; auto.
    + destruct e; try (apply tsat_ret; split; cbn; auto; fail).
      cbn in K3. destruct K3 as (q & [<-|[]] & ->). apply tsat_ret. split; cbn; auto.
  - intros h' [[r pl'] ps'] [K1 K2]. cbn in K1, K2. subst.
    apply (last_words p s r); [exact K1|apply hush_drop_pushes|]. intros h1 _ L1.
    apply (last_words p s r); [exact L1|apply hush_drop_pull|]. intros h2 _ L2. apply tsat_ret. exact L2.
Qed.
Lemma faucet_told f : fc_stdout f = Some p -> tsat [] (faucet_start f (Some s)) (TN p s) (settled p s).
Proof.
  intro E. unfold faucet_start. apply tsat_bind. eapply tsat_conseq; [apply (lift p s told_all (fun _ => True)); [auto| |constructor]|].
  - unfold faucet_source. destruct (fc_pull_journey f) as [j|], (fc_read_location f) as [name|]; try (now apply works_ret).
    destruct (string_dec name "-"); (apply works_vis; [intros []; reflexivity|]); intros [] Hw; try discriminate Hw; now apply works_ret.
  - intros h [pl|e] [K _]; [|apply tsat_ret; cbn; auto]. rewrite E. apply gate_told. exact K.
Qed.
Lemma regulator_told r : rg_stdout r = Some p -> tsat [] (regulator_start r (Some s)) (TN p s) (settled p s).
Proof.
  intro E. unfold regulator_start. rewrite E. destruct (rg_stdin r) as [pl|]; [apply gate_told; constructor|].
  unfold start_secret. destruct (rg_started r); [intros tr st HX; inversion HX; exact I|].
  apply (last_words p s (Ok 0)); [constructor|apply hush_drop_push|]. intros h _ K. apply tsat_ret. exact K.
Qed.
End One.

(** ** As stated *)
Theorem spy_motion pl mon s p tr st : followed p -> exec (motion pl mon (Some s) p) tr st -> told_in p s tr st.
Proof. intros (HR & src & port & dst & b & Hj). apply told_in_of. eapply motion_told; eauto. Qed.
Theorem spy_faucet f s p tr st : followed p -> fc_stdout f = Some p -> exec (faucet_start f (Some s)) tr st -> told_in p s tr st.
Proof. intros (HR & src & port & dst & b & Hj) E. apply told_in_of. eapply faucet_told; eauto. Qed.
Theorem spy_regulator r s p tr st : followed p -> rg_stdout r = Some p -> exec (regulator_start r (Some s)) tr st -> told_in p s tr st.
Proof. intros (HR & src & port & dst & b & Hj) E. apply told_in_of. eapply regulator_told; eauto. Qed.
Theorem spy_junction j s p l1 l2 tr st : followed p -> jn_stdout j = l1 ++ p :: l2 -> Forall (distinct p) (l1 ++ l2) ->
  exec (junction_start j (Some s)) tr st -> told_in p s tr st.
Proof.
  intros (HR & src & port & dst & b & Hj) E HF. apply told_in_of. apply Forall_app in HF. destruct HF as [F1 F2].
  eapply junction_told with (l1 := l1) (l2 := l2); eauto; (eapply Forall_impl; [|eassumption]; intros q Hq; eapply distinct_none; eassumption).
Qed.

(** What the spy was told is what was offered. *)
Lemma reported_all l : told_all l -> reported l = flat_map (fun w => match w with inl d => [d] | _ => [] end) l.
Proof. induction 1 as [|l d _ IH|l _ IH]; [reflexivity|unfold reported in *; rewrite !flat_map_app; f_equal; exact IH..]. Qed.
Lemma talk_offered p s tr : real_push p -> flat_map (fun w => match w with inl d => [d] | _ => [] end) (talk p s tr) = offered_to p tr.
Proof.
  intro HR. induction tr as [|[e a] tr IH]; [destruct p; try contradiction; reflexivity|].
  change (talk p s ((e, a) :: tr)) with (word_of p s (e, a) ++ talk p s tr). rewrite flat_map_app.
  change ((e, a) :: tr) with ([(e, a)] ++ tr).
  assert (E : offered_to p ([(e, a)] ++ tr) = offered_to p [(e, a)] ++ offered_to p tr).
  { destruct p; try contradiction; unfold offered_to, S_Trace.offered, datas; rewrite !flat_map_app; reflexivity. }
  rewrite E. f_equal; [|exact IH]. clear.
  destruct e; try (destruct p; reflexivity).
  - destruct c, v; destruct p; try reflexivity; cbn -[names]; destruct a; cbn -[names]; try reflexivity;
      match goal with |- context[if ?x then _ else _] => destruct x end; reflexivity.
  - destruct p; try reflexivity. cbn. destruct (_ =? _); reflexivity.
Qed.
Theorem spy_same p s tr : followed p -> told_all (talk p s tr) -> reported (talk p s tr) = offered_to p tr.
Proof. intros [HR _] H. rewrite (reported_all _ H). now apply talk_offered. Qed.

(** ** Buffers and programs *)
Theorem spy_buffer b s u mi mo l st p : followed p -> bf_stdout b = Some p -> buffer_start b (Some s) u mi mo l st ->
  match st with During _ out _ => told_in p s (own 2 l) out | _ => True end.
Proof.
  intros HF E HX. inversion HX as [| | |l0 l' x a o c I0 I1 HE _ HO _|]; subst; try exact I.
  rewrite own_app, (I0 2) by (cbn; auto). cbn [app].
  unfold buffer_ends in HE. rewrite E in HE. destruct (bf_stdin b) as [pl|]; [|inversion HE].
  destruct HF as (HR & src & port & dst & b' & Hj). rewrite Hj in HE. apply exec_ret_inv in HE. destruct HE as [_ HE]. injection HE as E2. subst x.
  eapply spy_motion; [|exact HO]. cbn. split; [exact HR|eauto 6].
Qed.
Theorem spy_launch cwd vars la s l st : launch_start cwd vars la (Some s) l st ->
  match st with
  | During _ out err =>
    (forall p, followed p -> la_stdout la = Some p -> told_in p s (own 2 l) out) /\
    (forall p, followed p -> la_stderr la = Some p -> told_in p s (own 3 l) err)
  | _ => True
  end.
Proof.
  intros HX. inversion HX as [| | |l0 l' x a o c I0 I1 HE _ HO HC|]; subst; try exact I.
  rewrite !own_app, (I0 2), (I0 3) by (cbn; auto). cbn [app].
  unfold launch_spawn in HE. destruct (la_launched la); [inversion HE|].
  inversion HE as [| | | |? ? an ? ? Hw HE']; subst. destruct an; try discriminate Hw; [inversion HE'|].
  apply exec_ret_inv in HE'. destruct HE' as [_ HE']. injection HE' as E2. subst x. unfold relay in HO, HC. cbn in HO, HC.
  split; intros p HF E; rewrite E in *; cbn in *; eapply spy_motion; eassumption.
Qed.

(** ** Where nobody has left *)
Lemma open_accepted p tr : (match p with PsSender _ _ | PsIoSender _ _ => True | _ => False end) -> Forall (fun ev => wt (fst ev) (snd ev) = true) tr ->
  (forall d, ~ found_closed p d tr) -> accepted_by p tr = offered_to p tr.
Proof.
  intros HP HW HF. induction tr as [|[e a] tr IH]; [destruct p; reflexivity|].
  inversion HW as [|? ? W HW']; subst. cbn [fst snd] in W.
  assert (HF' : forall d, ~ found_closed p d tr) by (intros d (e' & E1 & E2); apply (HF d); exists e'; split; [exact E1|now right]).
  specialize (IH HW' HF'). change ((e, a) :: tr) with ([(e, a)] ++ tr).
  assert (E : offered_to p ([(e, a)] ++ tr) = offered_to p [(e, a)] ++ offered_to p tr /\ accepted_by p ([(e, a)] ++ tr) = accepted_by p [(e, a)] ++ accepted_by p tr).
  { destruct p; try contradiction; unfold offered_to, accepted_by, S_Trace.offered, S_Trace.sent, datas; rewrite !flat_map_app; split; reflexivity. }
  destruct E as [-> ->]. f_equal; [|exact IH].
  destruct p; try contradiction; unfold offered_to, accepted_by, S_Trace.offered, S_Trace.sent; cbn [flat_map];
    (destruct e as [| |c v| | | | | | | | | | | | | | |]; try reflexivity; destruct a; try discriminate W; try reflexivity;
     destruct c; try reflexivity; cbn [S_Trace.chan_eqb]; match goal with |- context[?x =? ?y] => destruct (Nat.eqb_spec x y) as [->|]; [|reflexivity] end;
     destruct v; try reflexivity; exfalso; eapply HF; eexists; (split; [reflexivity|]); left; reflexivity).
Qed.
Theorem spy_open {A} (q : prog A) p s tr st : (match p with PsSender _ _ | PsIoSender _ _ => True | _ => False end) -> exec q tr st ->
  (forall d, ~ found_closed p d tr) -> told_all (talk p s tr) -> reported (talk p s tr) = accepted_by p tr.
Proof.
  intros HP HX HF HT. rewrite (reported_all _ HT), talk_offered by (destruct p; first [exact I|contradiction]). symmetry. apply open_accepted; [exact HP| |exact HF].
  apply (exec_wt _ _ _ HX).
Qed.
