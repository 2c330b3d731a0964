(** * P_Later: what one part of a component can do it can still do after others have looked around *)
From Coq Require Import Ascii String List Bool Arith Lia.
From Verif Require Import M_Prog P_Prog P_Exec M_Motion M_Regulator M_Faucet M_Drain M_Buffer M_Junction M_Launch M_Join S_Trace S_Motion S_World S_Launch S_Regulator S_Drain S_Buffer S_Junction S_Network S_Net
  P_World P_Ask P_Launch P_BufferRun P_Link P_JStart P_Phase P_Conduit P_Respond P_NetComp P_NetMoves P_NetCost.
Import ListNotations.

(** ** Programs answer alike *)
Lemma exec_det {A} (p : prog A) tr st : exec p tr st -> forall st', exec p tr st' -> st = st'.
Proof.
  induction 1 as [x|x|e k|p tr st HX IH|e k x tr st Hw HX IH]; intros st' H'; inversion H'; subst; auto.
Qed.
Lemma done_last {A} (p : prog A) tr a : exec p tr (Done a) -> forall s st, exec p (tr ++ s) st -> s = [] /\ st = Done a.
Proof.
  intros HD s st HX. destruct s as [|[e x] s].
  - rewrite app_nil_r in HX. split; [reflexivity|]. symmetry. exact (exec_det _ _ _ HD _ HX).
  - pose proof (exec_prefix _ _ _ HX _ _ _ _ eq_refl) as K. discriminate (exec_det _ _ _ HD _ K).
Qed.
Lemma panic_last {A} (p : prog A) tr m : exec p tr (Panicked m) -> forall s st, exec p (tr ++ s) st -> s = [].
Proof.
  intros HD s st HX. destruct s as [|[e x] s]; [reflexivity|]. pose proof (exec_prefix _ _ _ HX _ _ _ _ eq_refl) as K. discriminate (exec_det _ _ _ HD _ K).
Qed.
Lemma split_both {A} : forall (a b c d : list A), a ++ b = c ++ d -> (exists x, c = a ++ x /\ b = x ++ d) \/ (exists x, a = c ++ x /\ d = x ++ b).
Proof.
  induction a as [|y a IH]; intros b c d E.
  - left. exists c. split; [reflexivity|exact E].
  - destruct c as [|z c]; [right; exists (y :: a); split; [reflexivity|symmetry; exact E]|]. cbn in E. injection E as -> E.
    destruct (IH _ _ _ E) as [(x & -> & ->)|(x & -> & ->)]; [left|right]; exists x; auto.
Qed.
Lemma done_same {A} (p : prog A) t1 t2 t1' t2' a a' : exec p t1 (Done a) -> exec p t1' (Done a') -> t1 ++ t2 = t1' ++ t2' -> t1 = t1' /\ t2 = t2' /\ a = a'.
Proof.
  intros H H' E. destruct (split_both _ _ _ _ E) as [(x & -> & ->)|(x & -> & ->)].
  - destruct (done_last _ _ _ H _ _ H') as [-> K]. injection K as ->. rewrite app_nil_r. auto.
  - destruct (done_last _ _ _ H' _ _ H) as [-> K]. injection K as ->. rewrite app_nil_r. auto.
Qed.

(** ** Joined parts *)
Section Join.
Context {X A B C R : Type} (pre : prog (R + X)) (p1 : X -> prog A) (p2 : X -> prog B) (p3 : X -> prog C) (post : X -> A -> B -> C -> prog R).
Notation J := (joined pre p1 p2 p3 post).
Lemma joined_parts L st : J L st ->
  match st with
  | Before s => idle [1; 2; 3] L /\ exists s', exec pre (own 0 L) s' /\ (forall x, s' <> Done (inr x)) /\ match s with At e => s' = At e | Done r => s' = Done (inl r) | Panicked m => s' = Panicked m end
  | During a b c => exists x, exec pre (own 0 L) (Done (inr x)) /\ exec (p1 x) (own 1 L) a /\ exec (p2 x) (own 2 L) b /\ exec (p3 x) (own 3 L) c
  | After s => exists x a b c tr0 tr1, own 0 L = tr0 ++ tr1 /\ exec pre tr0 (Done (inr x)) /\ exec (p1 x) (own 1 L) (Done a) /\ exec (p2 x) (own 2 L) (Done b) /\ exec (p3 x) (own 3 L) (Done c) /\ exec (post x a b c) tr1 s
  end.
Proof.
  intros [L0 e Hi HX|L0 s Hi HX|L0 r Hi HX|L0 L1 x a b c K0 K1 HX HA HB HZ|L0 L1 L2 x a b c s K0 K1 K2 HX HA HB HZ HF].
  - split; [exact Hi|]. exists (At e). repeat split; auto; discriminate.
  - split; [exact Hi|]. exists (Panicked s). repeat split; auto; discriminate.
  - split; [exact Hi|]. exists (Done (inl r)). repeat split; auto; discriminate.
  - exists x. rewrite !own_app, (K0 1), (K0 2), (K0 3), (K1 0), app_nil_r by (cbn; auto). auto.
  - exists x, a, b, c, (own 0 L0), (own 0 L2). rewrite !own_app, (K0 1), (K0 2), (K0 3), (K1 0), (K2 1), (K2 2), (K2 3), !app_nil_r by (cbn; auto). cbn [app]. auto 10.
Qed.
(** When part [t] has acted, what came before is over. *)
Definition part (t : nat) (x : X) (tr : trace) : Prop :=
  (t = 1 /\ exists st, exec (p1 x) tr st) \/ (t = 2 /\ exists st, exec (p2 x) tr st) \/ (t = 3 /\ exists st, exec (p3 x) tr st).
Lemma part_began L st t : J L st -> (t = 1 \/ t = 2 \/ t = 3) -> own t L <> [] -> exists x tr0 tr1, own 0 L = tr0 ++ tr1 /\ exec pre tr0 (Done (inr x)) /\ part t x (own t L).
Proof.
  intros HJ Ht Hn. pose proof (joined_parts _ _ HJ) as H. destruct st as [s|a b c|s].
  - destruct H as [H _]. exfalso. apply Hn, H. cbn. intuition.
  - destruct H as (x & H0 & H1 & H2 & H3). exists x, (own 0 L), []. rewrite app_nil_r. split; [reflexivity|]. split; [exact H0|]. unfold part. destruct Ht as [->|[->| ->]]; eauto.
  - destruct H as (x & a & b & c & tr0 & tr1 & E & H0 & H1 & H2 & H3 & _). exists x, tr0, tr1. split; [exact E|]. split; [exact H0|]. unfold part. destruct Ht as [->|[->| ->]]; eauto.
Qed.
Lemma part_next t x tr e a s e' a' s' : part t x (tr ++ (e, a) :: s) -> part t x (tr ++ (e', a') :: s') -> e = e'.
Proof.
  intros H H'. assert (K : forall Y (p : prog Y), (exists st, exec p (tr ++ (e, a) :: s) st) -> (exists st, exec p (tr ++ (e', a') :: s') st) -> e = e').
  { intros Y p (st & K) (st' & K'). pose proof (exec_prefix _ _ _ K _ _ _ _ eq_refl) as E. pose proof (exec_prefix _ _ _ K' _ _ _ _ eq_refl) as E'. pose proof (exec_det _ _ _ E _ E') as EE. now injection EE. }
  destruct H as [(-> & H)|[(-> & H)|(-> & H)]], H' as [(E & H')|[(E & H')|(E & H')]]; try discriminate E; eauto.
Qed.
Lemma own_by_other t i s : t <> i -> own i (by_task t s) = [].
Proof. intro H. rewrite own_by. destruct (Nat.eqb_spec t i); [contradiction|reflexivity]. Qed.
Lemma own_by_mine t s : own t (by_task t s) = s.
Proof. now rewrite own_by, Nat.eqb_refl. Qed.

Lemma joined_next L t e a s st e' a' s' st' : (t = 1 \/ t = 2 \/ t = 3) -> J (L ++ by_task t ((e, a) :: s)) st -> J (L ++ by_task t ((e', a') :: s')) st' -> e = e'.
Proof.
  intros Ht H H'.
  assert (E0 : forall z, own 0 (L ++ by_task t z) = own 0 L) by (intro z; rewrite own_app, own_by_other, app_nil_r; [reflexivity|lia]).
  assert (Et : forall z, own t (L ++ by_task t z) = own t L ++ z) by (intro z; now rewrite own_app, own_by_mine).
  assert (Hn : forall y z, own t L ++ (y : event) :: z <> []) by (intros y z K; destruct (own t L); discriminate K).
  destruct (part_began _ _ t H Ht) as (x & tr0 & tr1 & F1 & F2 & F3); [rewrite Et; apply Hn|]. destruct (part_began _ _ t H' Ht) as (x' & tr0' & tr1' & F1' & F2' & F3'); [rewrite Et; apply Hn|].
  rewrite E0 in F1, F1'. rewrite Et in F3, F3'. rewrite F1 in F1'. destruct (done_same _ _ _ _ _ _ _ F2 F2' F1') as (_ & _ & K). injection K as <-. eapply part_next; eassumption.
Qed.

Hypothesis HP : forall x a b c, starts (post x a b c).
Lemma joined_later L t s st F st2 : (t = 1 \/ t = 2 \/ t = 3) -> s <> [] -> J (L ++ by_task t s) st -> J (L ++ F) st2 -> own t F = [] -> runs_on pre p1 p2 p3 post (L ++ F ++ by_task t s).
Proof.
  intros Ht Hs H H2 HF.
  assert (E0 : own 0 (L ++ by_task t s) = own 0 L) by (rewrite own_app, own_by_other, app_nil_r; [reflexivity|lia]).
  assert (Et : own t (L ++ by_task t s) = own t L ++ s) by (now rewrite own_app, own_by_mine).
  destruct (part_began _ _ t H Ht) as (x & tr0 & tr1 & F1 & F2 & F3); [rewrite Et; intro K; apply app_eq_nil in K; tauto|]. rewrite E0 in F1. rewrite Et in F3.
  assert (E2 : own 0 (L ++ F) = tr0 ++ tr1 ++ own 0 F) by (rewrite own_app, F1, app_assoc; reflexivity).
  assert (E3 : own t (L ++ F) = own t L) by (now rewrite own_app, HF, app_nil_r).
  pose proof (joined_parts _ _ H2) as Q. destruct st2 as [s2|a2 b2 c2|s2].
  - exfalso. destruct Q as (_ & s' & Q1 & Q2 & _). rewrite E2 in Q1. destruct (done_last _ _ _ F2 _ _ Q1) as [_ K]. exact (Q2 _ K).
  - clear Q. inversion H2 as [| | |l0 l x2 a' b' c' K0 K1 HX HA HB HZ E4 [Ea Eb Ec]|]; subst a' b' c'. rewrite app_assoc, <- E4, <- app_assoc.
    assert (Ex : x2 = x).
    { assert (EE : own 0 l0 ++ own 0 l = tr0 ++ tr1 ++ own 0 F) by (rewrite <- E2, <- E4; now rewrite own_app). destruct (done_same _ _ _ _ _ _ _ HX F2 EE) as (_ & _ & K). now injection K. }
    subst x2. assert (El : forall i, i = 1 \/ i = 2 \/ i = 3 -> own i l = own i (L ++ F)) by (intros i Hi; rewrite <- E4, own_app, (K0 i); [reflexivity|cbn; intuition]).
    assert (Er : forall i, i <> t -> own i (l ++ by_task t s) = own i l) by (intros i Hi; rewrite own_app, own_by_other, app_nil_r; [reflexivity|congruence]).
    assert (Em : own t (l ++ by_task t s) = own t L ++ s) by (rewrite own_app, own_by_mine, El, E3; [reflexivity|exact Ht]).
    assert (HI : idle [0] (l ++ by_task t s)) by (apply idle_by; [exact K1|cbn; lia]).
    destruct F3 as [(-> & sx & F3)|[(-> & sx & F3)|(-> & sx & F3)]]; (eapply (during_on _ _ _ _ _ HP); [exact K0|exact HI|exact HX|..]);
      first [rewrite Em; exact F3|rewrite Er by discriminate; first [exact HA|exact HB|exact HZ]].
  - exfalso. destruct Q as (x2 & a & b & c & t0 & t1 & Q0 & Q1 & Q2 & Q3 & Q4 & _). rewrite E2 in Q0. destruct (done_same _ _ _ _ _ _ _ F2 Q1 Q0) as (_ & _ & K). injection K as <-. apply Hs.
    destruct F3 as [(-> & sx & F3)|[(-> & sx & F3)|(-> & sx & F3)]]; [rewrite E3 in Q2; exact (proj1 (done_last _ _ _ Q2 _ _ F3))|rewrite E3 in Q3; exact (proj1 (done_last _ _ _ Q3 _ _ F3))|rewrite E3 in Q4; exact (proj1 (done_last _ _ _ Q4 _ _ F3))].
Qed.
End Join.

(** ** Only what a component's own tasks do matters *)
Definition mine (nev : nevent) : bool := fst nev <? 4.
Lemma own_mine i l : i < 4 -> own i (filter mine l) = own i l.
Proof.
  intro Hi. induction l as [|[k ev] l IH]; [reflexivity|]. cbn [filter]. unfold mine at 1. cbn [fst]. destruct (Nat.ltb_spec k 4) as [H|H].
  - now rewrite !own_one, IH.
  - rewrite own_one, IH. destruct (Nat.eqb_spec k i); [lia|reflexivity].
Qed.
Lemma filter_split {A} (f : A -> bool) : forall l a b, filter f l = a ++ b -> exists l1 l2, l = l1 ++ l2 /\ filter f l1 = a /\ filter f l2 = b.
Proof.
  induction l as [|x l IH]; intros a b E.
  - cbn in E. symmetry in E. apply app_eq_nil in E. destruct E as [-> ->]. exists [], []. auto.
  - cbn in E. destruct (f x) eqn:Ef.
    + destruct a as [|y a].
      * exists [], (x :: l). cbn. rewrite Ef. auto.
      * cbn in E. injection E as <- E. destruct (IH _ _ E) as (l1 & l2 & -> & <- & <-). exists (x :: l1), l2. cbn. rewrite Ef. auto.
    + destruct (IH _ _ E) as (l1 & l2 & -> & <- & <-). exists (x :: l1), l2. cbn. rewrite Ef. auto.
Qed.
Lemma own_core l l' i : filter mine l = filter mine l' -> i < 4 -> own i l = own i l'.
Proof. intros E Hi. rewrite <- (own_mine i l Hi), <- (own_mine i l' Hi). now rewrite E. Qed.
Lemma idle_core is l l' : filter mine l = filter mine l' -> (forall i, In i is -> i < 4) -> idle is l -> idle is l'.
Proof. intros E Hs HI i Hin. rewrite <- (own_core l l' i E (Hs i Hin)). now apply HI. Qed.
Lemma joined_core {X A B C R} (pre : prog (R + X)) p1 p2 p3 (post : X -> A -> B -> C -> prog R) l l' st :
  filter mine l = filter mine l' -> joined pre p1 p2 p3 post l st -> joined pre p1 p2 p3 post l' st.
Proof.
  intros E HX. destruct HX as [L e Hi HX|L s Hi HX|L r Hi HX|L0 L x a b c K0 K1 HX HA HB HZ|L0 L L1 x a b c st K0 K1 K2 HX HA HB HZ HP].
  - constructor; [eapply idle_core; [exact E|exact small_three|exact Hi]|now rewrite <- (own_core _ _ 0 E) by lia].
  - constructor; [eapply idle_core; [exact E|exact small_three|exact Hi]|now rewrite <- (own_core _ _ 0 E) by lia].
  - constructor; [eapply idle_core; [exact E|exact small_three|exact Hi]|now rewrite <- (own_core _ _ 0 E) by lia].
  - rewrite filter_app in E. symmetry in E. destruct (filter_split _ _ _ _ E) as (l1 & l2 & -> & E1 & E2). symmetry in E1, E2.
    econstructor; [eapply idle_core; [exact E1|exact small_three|exact K0]|eapply idle_core; [exact E2|exact small_zero|exact K1]|rewrite <- (own_core _ _ 0 E1) by lia; exact HX|..];
      [rewrite <- (own_core _ _ 1 E2) by lia; exact HA|rewrite <- (own_core _ _ 2 E2) by lia; exact HB|rewrite <- (own_core _ _ 3 E2) by lia; exact HZ].
  - rewrite !filter_app in E. symmetry in E. destruct (filter_split _ _ _ _ E) as (l1 & l0 & -> & E1 & E'). destruct (filter_split _ _ _ _ E') as (l2 & l3 & -> & E2 & E3). symmetry in E1, E2, E3.
    econstructor; [eapply idle_core; [exact E1|exact small_three|exact K0]|eapply idle_core; [exact E2|exact small_zero|exact K1]|eapply idle_core; [exact E3|exact small_three|exact K2]|rewrite <- (own_core _ _ 0 E1) by lia; exact HX|..];
      [rewrite <- (own_core _ _ 1 E2) by lia; exact HA|rewrite <- (own_core _ _ 2 E2) by lia; exact HB|rewrite <- (own_core _ _ 3 E2) by lia; exact HZ|rewrite <- (own_core _ _ 0 E3) by lia; exact HP].
Qed.
Lemma none_mine F : (forall i, i < 4 -> own i F = []) -> filter mine F = [].
Proof.
  intro H. induction F as [|[k ev] F IH]; [reflexivity|]. cbn [filter]. unfold mine at 1. cbn [fst].
  destruct (Nat.ltb_spec k 4) as [Hk|Hk].
  - specialize (H k Hk). rewrite own_one, Nat.eqb_refl in H. discriminate H.
  - apply IH. intros i Hi. specialize (H i Hi). rewrite own_one in H. destruct (k =? i); [discriminate H|exact H].
Qed.

(** ** Components *)
Lemma alone_later p L t s st F st2 : s <> [] -> t < 4 -> alone p (L ++ by_task t s) st -> alone p (L ++ F) st2 -> own t F = [] -> t = 0 /\ alone p (L ++ F ++ by_task t s) st.
Proof.
  intros Hs Ht (HI & s1 & -> & HX) (HI2 & s2 & -> & HX2) HF.
  assert (E : t = 0).
  { destruct t as [|t]; [reflexivity|]. exfalso. pose proof (HI (S t) ltac:(cbn; lia)) as K. rewrite own_app, own_by_mine in K. apply app_eq_nil in K. tauto. }
  subst t. split; [reflexivity|]. split.
  - intros i Hi. rewrite !own_app, own_by_other, app_nil_r by (cbn in Hi; lia). rewrite <- own_app. now apply HI2.
  - exists s1. split; [reflexivity|]. rewrite !own_app, HF, own_by_mine. cbn [app]. now rewrite own_app, own_by_mine in HX.
Qed.
Lemma alone_next p L t e a s st e' a' s' st' : t < 4 -> alone p (L ++ by_task t ((e, a) :: s)) st -> alone p (L ++ by_task t ((e', a') :: s')) st' -> e = e'.
Proof.
  intros Ht (HI & s1 & -> & HX) (HI2 & s2 & -> & HX2). destruct t as [|t].
  - rewrite own_app, own_by_mine in HX, HX2. pose proof (exec_prefix _ _ _ HX _ _ _ _ eq_refl) as E. pose proof (exec_prefix _ _ _ HX2 _ _ _ _ eq_refl) as E'. pose proof (exec_det _ _ _ E _ E') as EE. now injection EE.
  - exfalso. pose proof (HI (S t) ltac:(cbn; lia)) as K. rewrite own_app, own_by_mine in K. apply app_eq_nil in K. now destruct K.
Qed.

Lemma joined_zero {X A B C R} (pre : prog (R + X)) p1 p2 p3 (post : X -> A -> B -> C -> prog R) L s st F st2 :
  s <> [] -> joined pre p1 p2 p3 post (L ++ by_task 0 s) st -> joined pre p1 p2 p3 post (L ++ F) st2 -> own 0 F = [] -> joined pre p1 p2 p3 post (L ++ F ++ by_task 0 s) st.
Proof.
  intros Hs H H2 HF.
  assert (E0 : own 0 (L ++ F) = own 0 L) by (now rewrite own_app, HF, app_nil_r).
  assert (E1 : own 0 (L ++ by_task 0 s) = own 0 L ++ s) by (now rewrite own_app, own_by_mine).
  assert (Ei : forall i, own (S i) (L ++ by_task 0 s) = own (S i) L) by (intro i; rewrite own_app, own_by_other, app_nil_r by discriminate; reflexivity).
  assert (HN : forall i, i < 4 -> own i F = []).
  { assert (K3 : forall x tr0 tr1, own 0 L = tr0 ++ tr1 -> exec pre tr0 (Done (inr x)) -> (exists sa, exec (p1 x) (own 1 (L ++ F)) sa) -> (exists sb, exec (p2 x) (own 2 (L ++ F)) sb) -> (exists sc, exec (p3 x) (own 3 (L ++ F)) sc) -> forall i, i < 4 -> own i F = []).
    { intros x tr0 tr1 Q0 Q (sa & Ka) (sb & Kb) (sc & Kc). pose proof (joined_parts _ _ _ _ _ _ _ H) as W.
      assert (KK : forall st', exec pre (own 0 L ++ s) st' -> False).
      { intros st' K. rewrite Q0, <- app_assoc in K. destruct (done_last _ _ _ Q _ _ K) as [K' _]. apply app_eq_nil in K'. tauto. }
      destruct st as [s0|a b c|s0].
      - destruct W as (_ & s' & W & _). rewrite E1 in W. contradiction (KK _ W).
      - destruct W as (x' & W & _). rewrite E1 in W. contradiction (KK _ W).
      - destruct W as (x' & a & b & c & t0 & t1 & W0 & W & Wa & Wb & Wc & _). rewrite E1, Q0, <- app_assoc in W0. destruct (done_same _ _ _ _ _ _ _ Q W W0) as (_ & _ & Kx). injection Kx as <-.
        rewrite !Ei in Wa, Wb, Wc. rewrite own_app in Ka, Kb, Kc. intros [|[|[|[|i]]]] Hi; [exact HF|exact (proj1 (done_last _ _ _ Wa _ _ Ka))|exact (proj1 (done_last _ _ _ Wb _ _ Kb))|exact (proj1 (done_last _ _ _ Wc _ _ Kc))|lia]. }
    pose proof (joined_parts _ _ _ _ _ _ _ H2) as Q. destruct st2 as [s2|a b c|s2].
    - destruct Q as (Q & _). intros i Hi. destruct i as [|i]; [exact HF|]. specialize (Q (S i) ltac:(cbn; lia)). rewrite own_app in Q. apply app_eq_nil in Q. tauto.
    - destruct Q as (x & Q & Qa & Qb & Qc). rewrite E0 in Q. eapply (K3 x (own 0 L) []); [now rewrite app_nil_r|exact Q|eauto..].
    - destruct Q as (x & a & b & c & t0 & t1 & Q0 & Q & Qa & Qb & Qc & _). rewrite E0 in Q0. eapply K3; [exact Q0|exact Q|eauto..]. }
  eapply joined_core; [|exact H]. rewrite !filter_app, (none_mine F HN). reflexivity.
Qed.
(** What a part of a component can do it can do after the others have done something. *)
Lemma comp_later_any c L t s oc F oc2 : t < 4 -> s <> [] -> comp_runs c (L ++ by_task t s) oc -> comp_runs c (L ++ F) oc2 -> own t F = [] -> exists oc', comp_runs c (L ++ F ++ by_task t s) oc'.
Proof.
  intros Ht Hs H H2 HF. destruct c as [f name|rg|b u mi mo|j|cwd vars la|d name]; cbn [comp_runs] in *.
  - destruct H as (st & H & _), H2 as (st2 & H2 & _). destruct (alone_later _ _ _ _ _ _ _ Hs Ht H H2 HF) as [_ K]. eauto.
  - destruct H as (st & H & _), H2 as (st2 & H2 & _). destruct (alone_later _ _ _ _ _ _ _ Hs Ht H H2 HF) as [_ K]. eauto.
  - destruct H as (st & H & HM & _), H2 as (st2 & H2 & _). destruct t as [|t].
    + eexists. exists st. split; [|split; [exact HM|reflexivity]]. eapply joined_zero; [exact Hs|exact H|exact H2|exact HF].
    + destruct (joined_later (buffer_ends b) (half_a u mi) (half_b u mo None) (fun _ => total_in_buffer (bf_monitor b) mi mo) (fun _ r_a r_b total => Ret (buffer_result r_a r_b total)) ltac:(intros; eexists; constructor) L (S t) s st F st2 ltac:(lia) Hs H H2 HF) as (st' & K & K'). eexists. exists st'. split; [exact K|]. split; [exact K'|reflexivity].
  - destruct H as (st & H & _), H2 as (st2 & H2 & _). destruct (alone_later _ _ _ _ _ _ _ Hs Ht H H2 HF) as [_ K]. eauto.
  - destruct H as (st & H & HM & _), H2 as (st2 & H2 & _). destruct t as [|t].
    + eexists. exists st. split; [|split; [exact HM|reflexivity]]. eapply joined_zero; [exact Hs|exact H|exact H2|exact HF].
    + destruct (joined_later (launch_spawn cwd vars la) (fun x => relay (rl_in x) None) (fun x => relay (rl_out x) None) (fun x => relay (rl_err x) None) (fun _ r1 r2 r3 => launch_finish la None r1 r2 r3) ltac:(intros; apply resp_finish) L (S t) s st F st2 ltac:(lia) Hs H H2 HF) as (st' & K & K'). eexists. exists st'. split; [exact K|]. split; [exact K'|reflexivity].
  - destruct H as (st & H & _), H2 as (st2 & H2 & _). destruct (alone_later _ _ _ _ _ _ _ Hs Ht H H2 HF) as [_ K]. eauto.
Qed.
Lemma comp_later c L t s oc F oc2 : comp_ready c -> t < 4 -> s <> [] -> comp_runs c (L ++ by_task t s) oc -> comp_runs c (L ++ F) oc2 -> own t F = [] -> exists oc', comp_runs c (L ++ F ++ by_task t s) oc'.
Proof. intros _. apply comp_later_any. Qed.

(** Nobody acts whose component has ended. *)
Lemma comp_over_any c L r t ev s oc : comp_runs c L (Ended r) -> t < 4 -> ~ comp_runs c (L ++ by_task t (ev :: s)) oc.
Proof.
  intros H Ht H'.
  assert (HA : forall p st st', alone p L st -> Ended r = outcome_of st -> alone p (L ++ by_task t (ev :: s)) st' -> False).
  { intros p st st' (HI & s1 & -> & HX) E (HI2 & s2 & -> & HX2). destruct s1 as [e|x|m]; try discriminate E. destruct t as [|t].
    - rewrite own_app, own_by_mine in HX2. destruct (done_last _ _ _ HX _ _ HX2) as [K _]. discriminate K.
    - pose proof (HI2 (S t) ltac:(cbn; lia)) as K. rewrite own_app, own_by_mine in K. apply app_eq_nil in K. now destruct K. }
  assert (HJ : forall X A B C (pre : prog (mres nat + X)) (p1 : X -> prog A) (p2 : X -> prog B) (p3 : X -> prog C) post st st', joined pre p1 p2 p3 post L st -> Ended r = outcome_of st -> joined pre p1 p2 p3 post (L ++ by_task t (ev :: s)) st' -> False).
  { intros X A B C pre p1 p2 p3 post st st' HX E HX'. pose proof (joined_parts _ _ _ _ _ _ _ HX) as Q. destruct st as [s0|a b c0|s0].
    - destruct Q as (Hi & s' & Q1 & Q2 & Q3). destruct s0 as [e|x|m]; try discriminate E. subst s'. destruct t as [|t].
      + pose proof (joined_parts _ _ _ _ _ _ _ HX') as Q'.
        assert (K : forall z st, exec pre (own 0 L ++ z) st -> z = []) by (intros z sz Hz; exact (proj1 (done_last _ _ _ Q1 _ _ Hz))).
        destruct st' as [s'|a b c0|s'].
        * destruct Q' as (_ & s2 & Q' & _). rewrite own_app, own_by_mine in Q'. discriminate (K _ _ Q').
        * destruct Q' as (x' & Q' & _). rewrite own_app, own_by_mine in Q'. discriminate (K _ _ Q').
        * destruct Q' as (x' & a & b & c0 & t0 & t1 & E0 & Q' & _). rewrite own_app, own_by_mine in E0. destruct (split_both _ _ _ _ E0) as [(z & -> & E1)|(z & E1 & E2)].
          -- pose proof (K _ _ Q') as ->. rewrite app_nil_r in Q'. discriminate (exec_det _ _ _ Q1 _ Q').
          -- rewrite E1 in Q1. destruct (done_last _ _ _ Q' _ _ Q1) as [-> K']. discriminate K'.
      + assert (Hn : own (S t) (L ++ by_task (S t) (ev :: s)) <> []) by (rewrite own_app, own_by_mine; intro K; apply app_eq_nil in K; now destruct K).
        destruct (part_began _ _ _ _ _ _ _ (S t) HX' ltac:(lia) Hn) as (x' & t0 & t1 & E0 & Q' & _). rewrite own_app, own_by_other, app_nil_r in E0 by lia. rewrite E0 in Q1. destruct (done_last _ _ _ Q' _ _ Q1) as [_ K']. discriminate K'.
    - cbn in E. destruct (_ || _); discriminate E.
    - destruct Q as (x & a & b & c0 & t0 & t1 & E0 & Q0 & Q1 & Q2 & Q3 & Q4). destruct s0 as [e|z|m]; try discriminate E. destruct t as [|t].
      + pose proof (joined_parts _ _ _ _ _ _ _ HX') as Q'. assert (E1 : own 0 (L ++ by_task 0 (ev :: s)) = t0 ++ t1 ++ (ev :: s)) by (rewrite own_app, own_by_mine, E0, <- app_assoc; reflexivity).
        assert (Ei : forall i, own (S i) (L ++ by_task 0 (ev :: s)) = own (S i) L) by (intro i; rewrite own_app, own_by_other, app_nil_r by discriminate; reflexivity).
        destruct st' as [s'|a' b' c'|s'].
        * destruct Q' as (_ & s2 & Q' & Q'' & _). rewrite E1 in Q'. destruct (done_last _ _ _ Q0 _ _ Q') as [K _]. destruct t1; discriminate K.
        * destruct Q' as (x' & Q' & _). rewrite E1 in Q'. destruct (done_last _ _ _ Q0 _ _ Q') as [K _]. destruct t1; discriminate K.
        * destruct Q' as (x' & a' & b' & c' & t0' & t1' & E0' & Q0' & Q1' & Q2' & Q3' & Q4'). rewrite E1 in E0'. destruct (done_same _ _ _ _ _ _ _ Q0 Q0' E0') as (<- & <- & Kx). injection Kx as <-.
          rewrite Ei in Q1', Q2', Q3'. pose proof (exec_det _ _ _ Q1 _ Q1') as Ka. pose proof (exec_det _ _ _ Q2 _ Q2') as Kb. pose proof (exec_det _ _ _ Q3 _ Q3') as Kc. injection Ka as <-. injection Kb as <-. injection Kc as <-.
          destruct (done_last _ _ _ Q4 _ _ Q4') as [K _]. discriminate K.
      + assert (Hn : own (S t) (L ++ by_task (S t) (ev :: s)) <> []) by (rewrite own_app, own_by_mine; intro K; apply app_eq_nil in K; now destruct K).
        destruct (part_began _ _ _ _ _ _ _ (S t) HX' ltac:(lia) Hn) as (x' & t0' & t1' & E0' & Q0' & Q'). rewrite own_app, own_by_other, app_nil_r in E0' by lia. rewrite own_app, own_by_mine in Q'.
        rewrite E0 in E0'. destruct (done_same _ _ _ _ _ _ _ Q0 Q0' E0') as (<- & <- & Kx). injection Kx as <-.
        destruct Q' as [(Et & sx & Q')|[(Et & sx & Q')|(Et & sx & Q')]]; injection Et as ->; [destruct (done_last _ _ _ Q1 _ _ Q') as [K _]|destruct (done_last _ _ _ Q2 _ _ Q') as [K _]|destruct (done_last _ _ _ Q3 _ _ Q') as [K _]]; discriminate K. }
  destruct c as [f name|rg|b u mi mo|j|cwd vars la|d name]; cbn [comp_runs] in H, H'.
  - destruct H as (st & H & E), H' as (st' & H' & _). eauto.
  - destruct H as (st & H & E), H' as (st' & H' & _). eauto.
  - destruct H as (st & H & _ & E), H' as (st' & H' & _ & _). eapply HJ; [exact H|exact E|exact H'].
  - destruct H as (st & H & E), H' as (st' & H' & _). eauto.
  - destruct H as (st & H & _ & E), H' as (st' & H' & _ & _). eapply HJ; [exact H|exact E|exact H'].
  - destruct H as (st & H & E), H' as (st' & H' & _). eauto.
Qed.
Lemma comp_over c L r t ev s oc : comp_ready c -> comp_runs c L (Ended r) -> t < 4 -> ~ comp_runs c (L ++ by_task t (ev :: s)) oc.
Proof. intros _. apply comp_over_any. Qed.

(** The next thing a part does is one thing. *)
Lemma comp_next c L t e a s oc e' a' s' oc' : comp_ready c -> t < 4 -> comp_runs c (L ++ by_task t ((e, a) :: s)) oc -> comp_runs c (L ++ by_task t ((e', a') :: s')) oc' -> e = e'.
Proof.
  intros HR Ht H H'. destruct c as [f name|rg|b u mi mo|j|cwd vars la|d name]; cbn [comp_runs] in H, H'.
  - destruct H as (st & H & _), H' as (st' & H' & _). eapply alone_next; eassumption.
  - destruct H as (st & H & _), H' as (st' & H' & _). eapply alone_next; eassumption.
  - destruct H as (st & H & _), H' as (st' & H' & _). destruct t as [|t]; [|eapply (joined_next _ _ _ _ _ L (S t)); [lia|exact H|exact H']].
    exfalso. destruct HR as (HC & pj & i & j & o & HR). pose proof (buffer_zero _ _ _ _ _ _ _ _ HR ltac:(discriminate) H) as K. rewrite own_app, own_by_mine in K. apply app_eq_nil in K. now destruct K.
  - destruct H as (st & H & _), H' as (st' & H' & _). eapply alone_next; eassumption.
  - destruct H as (st & H & _), H' as (st' & H' & _). destruct t as [|t]; [|eapply (joined_next _ _ _ _ _ L (S t)); [lia|exact H|exact H']].
    destruct HR as ((HL & _) & _). pose proof (launch_parts _ _ _ _ _ _ HL H) as Q. pose proof (launch_parts _ _ _ _ _ _ HL H') as Q'.
    assert (Ei : forall i z, own (S i) (L ++ by_task 0 z) = own (S i) L) by (intros i z; rewrite own_app, own_by_other, app_nil_r by discriminate; reflexivity).
    destruct (own 0 L) as [|y rest] eqn:E0.
    + assert (K : forall st e a s, match st with
        | Before s0 => idle [1; 2; 3] (L ++ by_task 0 ((e, a) :: s)) /\ (own 0 (L ++ by_task 0 ((e, a) :: s)) = [] /\ s0 = At (ESpawn (launch_spawning cwd vars la)) \/ own 0 (L ++ by_task 0 ((e, a) :: s)) = [(ESpawn (launch_spawning cwd vars la), AErr)] /\ (exists m, s0 = Panicked m))
        | During a0 b c => exists fin fout ferr, let x := launch_relays la fin fout ferr in own 0 (L ++ by_task 0 ((e, a) :: s)) = [(ESpawn (launch_spawning cwd vars la), AChild fin fout ferr)] /\ exec (relay (rl_in x) None) (own 1 (L ++ by_task 0 ((e, a) :: s))) a0 /\ exec (relay (rl_out x) None) (own 2 (L ++ by_task 0 ((e, a) :: s))) b /\ exec (relay (rl_err x) None) (own 3 (L ++ by_task 0 ((e, a) :: s))) c
        | After s0 => exists fin fout ferr a0 b c tr, let x := launch_relays la fin fout ferr in own 0 (L ++ by_task 0 ((e, a) :: s)) = [(ESpawn (launch_spawning cwd vars la), AChild fin fout ferr)] ++ tr /\ exec (relay (rl_in x) None) (own 1 (L ++ by_task 0 ((e, a) :: s))) (Done a0) /\ exec (relay (rl_out x) None) (own 2 (L ++ by_task 0 ((e, a) :: s))) (Done b) /\ exec (relay (rl_err x) None) (own 3 (L ++ by_task 0 ((e, a) :: s))) (Done c) /\ exec (launch_finish la None a0 b c) tr s0
        end -> e = ESpawn (launch_spawning cwd vars la)).
      { clear -E0. intros st e a s Q. rewrite own_app, own_by_mine, E0 in Q. destruct st as [s0|a0 b c|s0].
        - destruct Q as (_ & [[K _]|[K _]]); [discriminate K|]. now injection K.
        - destruct Q as (fin & fout & ferr & K & _). now injection K.
        - destruct Q as (fin & fout & ferr & a0 & b & c & tr & K & _). now injection K. }
      now rewrite (K _ _ _ _ Q), (K _ _ _ _ Q').
    + assert (K : forall st e a s, match st with
        | Before s0 => idle [1; 2; 3] (L ++ by_task 0 ((e, a) :: s)) /\ (own 0 (L ++ by_task 0 ((e, a) :: s)) = [] /\ s0 = At (ESpawn (launch_spawning cwd vars la)) \/ own 0 (L ++ by_task 0 ((e, a) :: s)) = [(ESpawn (launch_spawning cwd vars la), AErr)] /\ (exists m, s0 = Panicked m))
        | During a0 b c => exists fin fout ferr, let x := launch_relays la fin fout ferr in own 0 (L ++ by_task 0 ((e, a) :: s)) = [(ESpawn (launch_spawning cwd vars la), AChild fin fout ferr)] /\ exec (relay (rl_in x) None) (own 1 (L ++ by_task 0 ((e, a) :: s))) a0 /\ exec (relay (rl_out x) None) (own 2 (L ++ by_task 0 ((e, a) :: s))) b /\ exec (relay (rl_err x) None) (own 3 (L ++ by_task 0 ((e, a) :: s))) c
        | After s0 => exists fin fout ferr a0 b c tr, let x := launch_relays la fin fout ferr in own 0 (L ++ by_task 0 ((e, a) :: s)) = [(ESpawn (launch_spawning cwd vars la), AChild fin fout ferr)] ++ tr /\ exec (relay (rl_in x) None) (own 1 (L ++ by_task 0 ((e, a) :: s))) (Done a0) /\ exec (relay (rl_out x) None) (own 2 (L ++ by_task 0 ((e, a) :: s))) (Done b) /\ exec (relay (rl_err x) None) (own 3 (L ++ by_task 0 ((e, a) :: s))) (Done c) /\ exec (launch_finish la None a0 b c) tr s0
        end -> exists fin fout ferr a0 b c, let x := launch_relays la fin fout ferr in y = (ESpawn (launch_spawning cwd vars la), AChild fin fout ferr) /\ exec (relay (rl_in x) None) (own 1 L) (Done a0) /\ exec (relay (rl_out x) None) (own 2 L) (Done b) /\ exec (relay (rl_err x) None) (own 3 L) (Done c) /\ exec (launch_finish la None a0 b c) rest (At e)).
      { clear -E0 Ei. intros st e a s Q. rewrite !Ei, own_app, own_by_mine, E0 in Q. destruct st as [s0|a0 b c|s0].
        - destruct Q as (_ & [[K _]|[K _]]); [discriminate K|]. injection K as _ K. destruct rest; discriminate K.
        - destruct Q as (fin & fout & ferr & K & _). injection K as _ K. destruct rest; discriminate K.
        - destruct Q as (fin & fout & ferr & a0 & b & c & tr & K & Q1 & Q2 & Q3 & Q4). injection K as K1 K2. exists fin, fout, ferr, a0, b, c. cbn zeta. split; [exact K1|]. split; [exact Q1|]. split; [exact Q2|]. split; [exact Q3|].
          eapply exec_prefix; [exact Q4|symmetry; exact K2]. }
      destruct (K _ _ _ _ Q) as (fin & fout & ferr & ra & rb & rc & F0 & F1 & F2 & F3 & F4). destruct (K _ _ _ _ Q') as (fin' & fout' & ferr' & ra' & rb' & rc' & F0' & F1' & F2' & F3' & F4').
      rewrite F0 in F0'. injection F0' as <- <- <-. pose proof (exec_det _ _ _ F1 _ F1') as Ka. pose proof (exec_det _ _ _ F2 _ F2') as Kb. pose proof (exec_det _ _ _ F3 _ F3') as Kc. injection Ka as <-. injection Kb as <-. injection Kc as <-.
      pose proof (exec_det _ _ _ F4 _ F4') as Ke. now injection Ke.
  - destruct H as (st & H & _), H' as (st' & H' & _). eapply alone_next; eassumption.
Qed.
