(** * P_Prefix: what has happened by an earlier moment of a run is a run *)
From Coq Require Import Ascii String List Bool Arith Lia.
From Verif Require Import M_Prog P_Prog P_Exec M_Motion M_Config M_Regulator M_Faucet M_Drain M_Buffer M_Junction M_Launch M_Manager M_Waiter M_Join S_Trace S_Motion S_World S_Network S_Net M_Start P_World P_Ask P_Link P_Network P_Net.
Import ListNotations.

Lemma exec_before {A} (p : prog A) a b st : exec p (a ++ b) st -> exists st', exec p a st' /\ (b = [] -> st' = st) /\ (b <> [] -> exists e, st' = At e).
Proof.
  intro H. destruct b as [|[e x] b].
  - rewrite app_nil_r in H. exists st. split; [exact H|]. split; [reflexivity|]. intro N. now destruct N.
  - exists (At e). split; [exact (exec_prefix _ _ _ H _ _ _ _ eq_refl)|]. split; [discriminate|]. eauto.
Qed.
Lemma idle_app is a b : idle is (a ++ b) -> idle is a /\ idle is b.
Proof. intro H. split; intros i Hi; specialize (H i Hi); rewrite own_app in H; now apply app_eq_nil in H. Qed.
Lemma idle_join is a b : idle is a -> idle is b -> idle is (a ++ b).
Proof. intros H H' i Hi. rewrite own_app, (H i Hi), (H' i Hi). reflexivity. Qed.

Lemma cut_split {A} (a b x y : list A) : a ++ b = x ++ y -> (exists z, x = a ++ z /\ b = z ++ y) \/ exists z, a = x ++ z /\ y = z ++ b.
Proof.
  revert x. induction a as [|e a IH]; intros x E; [left; exists x; auto|]. destruct x as [|e' x]; [right; exists (e :: a); auto|].
  cbn in E. injection E as -> E. destruct (IH x E) as [(z & -> & ->)|(z & -> & ->)]; [left|right]; exists z; auto.
Qed.

Section Join.
Context {X A B C R : Type}.
Variables (pre : prog (R + X)) (p1 : X -> prog A) (p2 : X -> prog B) (p3 : X -> prog C) (post : X -> A -> B -> C -> prog R).
Notation J := (joined pre p1 p2 p3 post).

Lemma cut_pre l0 z x (st : status (R + X)) : idle [1; 2; 3] (l0 ++ z) -> exec pre (own 0 (l0 ++ z)) st -> own 0 z <> [] -> (fun _ : X => True) x -> exists st', J l0 st' /\ moved_on st'.
Proof.
  intros Hi HX Hz _. rewrite own_app in HX. destruct (exec_before _ _ _ _ HX) as (st' & H & _ & He). destruct (He Hz) as (e & ->). exists (Before (At e)). split; [|exact I]. apply J_before_at; [now apply idle_app in Hi|exact H].
Qed.
(** In the middle: after [l0], the parts have done [l]. *)
Lemma cut_mid l0 l z x a b c : idle [1; 2; 3] l0 -> idle [0] (l ++ z) -> exec pre (own 0 l0) (Done (inr x)) -> exec (p1 x) (own 1 (l ++ z)) a -> exec (p2 x) (own 2 (l ++ z)) b -> exec (p3 x) (own 3 (l ++ z)) c ->
  (moved_on (R := R) (During a b c) \/ exists a0 b0 c0 st, a = Done a0 /\ b = Done b0 /\ c = Done c0 /\ exec (post x a0 b0 c0) [] st) -> exists st', J (l0 ++ l) st' /\ moved_on st'.
Proof.
  intros Hi Hz HX HA HB HC HM. rewrite own_app in HA, HB, HC. apply idle_app in Hz. destruct Hz as [Hz Hz'].
  destruct (exec_before _ _ _ _ HA) as (a' & A1 & A2 & A3). destruct (exec_before _ _ _ _ HB) as (b' & B1 & B2 & B3). destruct (exec_before _ _ _ _ HC) as (c' & C1 & C2 & C3).
  assert (D : moved_on (R := R) (During a' b' c') \/ exists a0 b0 c0, a' = Done a0 /\ b' = Done b0 /\ c' = Done c0) by (destruct a', b', c'; cbn; auto; right; eauto 10).
  destruct D as [D|(a0 & b0 & c0 & -> & -> & ->)].
  - exists (During a' b' c'). split; [|exact D]. now apply J_during with (x := x).
  - assert (Ea : own 1 z = []) by (destruct (own 1 z) as [|e t]; [reflexivity|destruct (A3 ltac:(discriminate)) as (? & E); discriminate E]).
    assert (Eb : own 2 z = []) by (destruct (own 2 z) as [|e t]; [reflexivity|destruct (B3 ltac:(discriminate)) as (? & E); discriminate E]).
    assert (Ec : own 3 z = []) by (destruct (own 3 z) as [|e t]; [reflexivity|destruct (C3 ltac:(discriminate)) as (? & E); discriminate E]).
    rewrite <- (A2 Ea), <- (B2 Eb), <- (C2 Ec) in HM. destruct HM as [[]|(a1 & b1 & c1 & st & Ja & Jb & Jc & HP)]. injection Ja as <-. injection Jb as <-. injection Jc as <-.
    exists (After st). split; [|exact I]. replace (l0 ++ l) with (l0 ++ l ++ []) by (now rewrite app_nil_r). now apply J_after with (x := x) (a := a0) (b := b0) (c := c0).
Qed.
Lemma done_start {T} (p : prog T) t st : exec p t st -> exists st', exec p [] st'.
Proof. intro H. destruct (exec_before p [] t st H) as (st' & H' & _). eauto. Qed.

Lemma joined_before m n st : J (m ++ n) st -> moved_on st -> exists st', J m st' /\ moved_on st'.
Proof.
  intros HJ HM. remember (m ++ n) as L eqn:EL. destruct HJ as [L e Hi HX|L s Hi HX|L r Hi HX|l0 l x a b c K0 K1 HX HA HB HZ|l0 l l1 x a b c st K0 K1 K2 HX HA HB HZ HF].
  - subst L. rewrite own_app in HX. destruct (exec_before _ _ _ _ HX) as (st' & H & H0 & He). destruct (own 0 n) as [|ev t].
    + rewrite (H0 eq_refl) in H. exists (Before (At e)). split; [|exact I]. apply J_before_at; [now apply idle_app in Hi|exact H].
    + destruct (He ltac:(discriminate)) as (e' & ->). exists (Before (At e')). split; [|exact I]. apply J_before_at; [now apply idle_app in Hi|exact H].
  - subst L. rewrite own_app in HX. destruct (exec_before _ _ _ _ HX) as (st' & H & H0 & He). destruct (own 0 n) as [|ev t].
    + rewrite (H0 eq_refl) in H. exists (Before (Panicked s)). split; [|exact I]. apply J_before_panic; [now apply idle_app in Hi|exact H].
    + destruct (He ltac:(discriminate)) as (e' & ->). exists (Before (At e')). split; [|exact I]. apply J_before_at; [now apply idle_app in Hi|exact H].
  - subst L. rewrite own_app in HX. destruct (exec_before _ _ _ _ HX) as (st' & H & H0 & He). destruct (own 0 n) as [|ev t].
    + rewrite (H0 eq_refl) in H. exists (Before (Done r)). split; [|exact I]. apply J_before_done; [now apply idle_app in Hi|exact H].
    + destruct (He ltac:(discriminate)) as (e' & ->). exists (Before (At e')). split; [|exact I]. apply J_before_at; [now apply idle_app in Hi|exact H].
  - destruct (cut_split _ _ _ _ (eq_sym EL)) as [(z & -> & ->)|(z & -> & ->)].
    + destruct (own 0 z) as [|ev t] eqn:Ez; [|apply (cut_pre m z x _ K0 HX); [rewrite Ez; discriminate|exact I]].
      rewrite own_app, Ez, app_nil_r in HX. apply idle_app in K0. replace m with (m ++ []) by apply app_nil_r. apply (cut_mid m [] l x a b c); auto; apply K0.
    + apply (cut_mid l0 z n x a b c); auto.
  - assert (HP : exists a0 b0 c0 st, Done a = Done a0 /\ Done b = Done b0 /\ Done c = Done c0 /\ exec (post x a0 b0 c0) [] st) by (destruct (done_start _ _ _ HF) as (st' & H'); eauto 10).
    destruct (cut_split _ _ _ _ (eq_sym EL)) as [(z & -> & ->)|(z & -> & E)].
    + destruct (own 0 z) as [|ev t] eqn:Ez; [|apply (cut_pre m z x _ K0 HX); [rewrite Ez; discriminate|exact I]].
      rewrite own_app, Ez, app_nil_r in HX. apply idle_app in K0. replace m with (m ++ []) by apply app_nil_r. apply (cut_mid m [] l x (Done a) (Done b) (Done c)); auto; apply K0.
    + destruct (cut_split _ _ _ _ (eq_sym E)) as [(y & -> & ->)|(y & -> & ->)].
      * apply (cut_mid l0 z y x (Done a) (Done b) (Done c)); auto.
      * rewrite own_app in HF. destruct (exec_before _ _ _ _ HF) as (st' & H' & _). exists (After st'). split; [|exact I].
        apply J_after with (x := x) (a := a) (b := b) (c := c); auto. now apply idle_app in K2.
Qed.
End Join.

Lemma alone_before p m n st : alone p (m ++ n) st -> exists st', alone p m st'.
Proof.
  intros (Hi & s & -> & HX). rewrite own_app in HX. destruct (exec_before _ _ _ _ HX) as (s' & H & _). exists (Before s'). split; [now apply idle_app in Hi|eauto].
Qed.
Lemma comp_before c m n oc : comp_runs c (m ++ n) oc -> exists oc', comp_runs c m oc'.
Proof.
  destruct c; cbn; intros (st & HX & H); try (destruct (alone_before _ _ _ _ HX) as (st' & H'); eauto; fail); destruct H as [HM _]; destruct (joined_before _ _ _ _ _ _ _ _ HX HM) as (st' & H' & HM'); eauto 6.
Qed.
Lemma run_before a b : forall x y, wrun x (a ++ b) y -> exists z, wrun x a z /\ wrun z b y.
Proof.
  induction a as [|[i ev] a IH]; intros x y H; [exists x; split; [constructor|exact H]|]. cbn in H. inversion H as [|i' ev' w1 l' w2 HS HW]; subst. destruct (IH _ _ HW) as (z & H1 & H2). exists z. split; [econstructor; eassumption|exact H2].
Qed.
(** Choosing for each of finitely many. *)
Lemma choose_all {A B} (P : nat -> A -> B -> Prop) (d : B) (xs : list A) : (forall k x, nth_error xs k = Some x -> exists y, P k x y) -> exists f : nat -> B, forall k x, nth_error xs k = Some x -> P k x (f k).
Proof.
  revert P. induction xs as [|x xs IH]; intros P H; [exists (fun _ => d); intros [|k] x E; discriminate E|].
  destruct (H 0 x eq_refl) as (y & Hy). destruct (IH (fun k => P (S k)) (fun k x' E => H (S k) x' E)) as (f & Hf). exists (fun k => match k with 0 => y | S k => f k end).
  intros [|k] x' E; [injection E as <-; exact Hy|exact (Hf k x' E)].
Qed.
Theorem free_before net cs w0 a b w ocs : free_run net cs w0 (a ++ b) w ocs -> exists w1 ocs1, free_run net cs w0 a w1 ocs1 /\ wrun w1 b w.
Proof.
  intros [H1 H2 H3 H4 H5]. destruct (run_before _ _ _ _ H3) as (w1 & W1 & W2).
  destruct (choose_all (fun k c oc => comp_runs c (seen_by k a) oc) Going net) as (f & Hf).
  { intros k c Hk. pose proof (H1 k c Hk) as X. rewrite seen_app in X. exact (comp_before _ _ _ _ X). }
  destruct (choose_all (fun m c oc => exists st, exec (controller c) (own (4 * (length net + m)) a) st /\ oc = outcome_of (A := mres nat) (B := mres nat) (C := option nat) (Before st)) Going cs) as (g & Hg).
  { intros m c Hm. destruct (H2 m c Hm) as (st & X & _). rewrite own_app in X. destruct (exec_before _ _ _ _ X) as (st' & X' & _). eauto. }
  exists w1, (fun k => if k <? length net then f k else g (k - length net)). split; [|exact W2]. constructor; auto.
  - intros k c Hk. assert (k < length net) by (apply nth_error_Some; congruence). rewrite (proj2 (Nat.ltb_lt _ _)) by lia. exact (Hf k c Hk).
  - intros m c Hm. destruct (Hg m c Hm) as (st & X & E). exists st. split; [exact X|]. rewrite (proj2 (Nat.ltb_ge _ _)) by lia. replace (length net + m - length net) with m by lia. exact E.
  - intros t ev Hin. apply (H4 t ev). apply in_or_app. now left.
Qed.
Theorem net_before net w0 a b w ocs : net_run net w0 (a ++ b) w ocs -> exists w1 ocs1, net_run net w0 a w1 ocs1 /\ wrun w1 b w.
Proof.
  intros [H1 H2 H3 H4 H5 H6]. destruct (run_before _ _ _ _ H2) as (w1 & W1 & W2).
  destruct (choose_all (fun k c oc => comp_runs c (seen_by k a) oc) Going net) as (f & Hf).
  { intros k c Hk. pose proof (H1 k c Hk) as X. rewrite seen_app in X. exact (comp_before _ _ _ _ X). }
  exists w1, f. split; [|exact W2]. constructor; auto. intros t ev Hin. apply (H3 t ev). apply in_or_app. now left.
Qed.
