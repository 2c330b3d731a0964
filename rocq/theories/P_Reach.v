(** * P_Reach: machines and the places they reach *)
From Coq Require Import Ascii String List Bool Arith Lia.
From Verif Require Import M_Prog P_Prog P_Exec M_Motion S_Trace S_Motion S_World P_World P_Machine.
Import ListNotations.

Section Reach.
Variables (P A : Type) (stat : P -> status A) (nxt : P -> ans -> P).

Inductive reach (s : P) : trace -> P -> Prop :=
| R_nil : reach s [] s
| R_snoc : forall tr s1 e a, reach s tr s1 -> stat s1 = At e -> wt e a = true -> reach s (tr ++ [(e, a)]) (nxt s1 a).

Lemma reach_cons s e a tr s' : stat s = At e -> wt e a = true -> reach (nxt s a) tr s' -> reach s ((e, a) :: tr) s'.
Proof.
  intros He Hw H. induction H as [|tr s1 e1 a1 H IH He1 Hw1].
  - exact (R_snoc s [] s e a (R_nil s) He Hw).
  - change ((e, a) :: tr ++ [(e1, a1)]) with (((e, a) :: tr) ++ [(e1, a1)]). now constructor.
Qed.

Lemma reach_snoc_inv s tr ev s' : reach s (tr ++ [ev]) s' -> exists s1, reach s tr s1 /\ stat s1 = At (fst ev) /\ wt (fst ev) (snd ev) = true /\ s' = nxt s1 (snd ev).
Proof.
  intro H. inversion H as [E|tr0 s1 e a H0 He Hw E]; [destruct tr; discriminate|].
  apply app_inj_tail in E. destruct E as [-> <-]. exists s1. auto.
Qed.
Lemma reach_nil_inv s s' : reach s [] s' -> s' = s.
Proof. intro H. inversion H as [E|tr0 s1 e a H0 He Hw E]; [reflexivity|]. destruct tr0; discriminate E. Qed.

Lemma reach_det s tr s1 : reach s tr s1 -> forall s2, reach s tr s2 -> s1 = s2.
Proof.
  induction 1 as [|tr s1 e a H IH He Hw]; intros s2 H2.
  - symmetry. now apply reach_nil_inv.
  - apply reach_snoc_inv in H2. destruct H2 as (s3 & H3 & _ & _ & ->). cbn. now rewrite (IH _ H3).
Qed.

Lemma reach_app s a : forall b s', reach s (a ++ b) s' -> exists s1, reach s a s1 /\ reach s1 b s'.
Proof.
  intros b. induction b as [|ev b IH] using rev_ind; intros s' H.
  - rewrite app_nil_r in H. exists s'. split; [exact H|constructor].
  - rewrite app_assoc in H. apply reach_snoc_inv in H. destruct H as (s1 & H & He & Hw & ->). destruct (IH _ H) as (s2 & H1 & H2).
    exists s2. split; [exact H1|]. destruct ev as [e x]. now constructor.
Qed.
Lemma reach_trans s a s1 b s' : reach s a s1 -> reach s1 b s' -> reach s (a ++ b) s'.
Proof.
  intros H1 H2. induction H2 as [|b s2 e x H2 IH He Hw]; [now rewrite app_nil_r|]. rewrite app_assoc. now constructor.
Qed.

(** An invariant of the machine. *)
Lemma reach_inv (I : trace -> P -> Prop) s0 :
  I [] s0 -> (forall tr s e a, I tr s -> stat s = At e -> wt e a = true -> I (tr ++ [(e, a)]) (nxt s a)) ->
  forall tr s, reach s0 tr s -> I tr s.
Proof. intros H0 HS tr s H. induction H as [|tr s e a H IH He Hw]; auto. Qed.

(** Programs and machines. *)
Variables (valid : P -> Prop) (left : P -> prog A).
Definition step_of (s : P) : prog A :=
  match stat s with At e => Vis e (fun a => left (nxt s a)) | Done r => Ret r | Panicked m => Panic m end.
Hypothesis Hleft : forall s, valid s -> same (left s) (step_of s).
Hypothesis Hvalid : forall s e a, valid s -> stat s = At e -> wt e a = true -> valid (nxt s a).

Lemma exec_reach tr : forall s st, valid s -> exec (left s) tr st -> exists s', reach s tr s' /\ stat s' = st /\ valid s'.
Proof.
  induction tr as [|[e a] tr IH]; intros s st HV HX; apply (Hleft s HV) in HX; unfold step_of in HX; destruct (stat s) as [e'|r|m] eqn:E.
  - apply exec_vis_inv in HX. destruct HX as [[_ ->]|(a & rest & E' & _)]; [|discriminate E']. exists s. repeat split; auto. constructor.
  - apply exec_ret_inv in HX. destruct HX as [_ ->]. exists s. repeat split; auto. constructor.
  - apply exec_panic_inv in HX. destruct HX as [_ ->]. exists s. repeat split; auto. constructor.
  - apply exec_vis_inv in HX. destruct HX as [[E' _]|(a' & rest & E' & Hwt & HX)]; [discriminate E'|]. injection E' as <- <- <-.
    destruct (IH _ _ (Hvalid _ _ _ HV E Hwt) HX) as (s' & H1 & H2 & H3). exists s'. repeat split; auto. eapply reach_cons; eassumption.
  - apply exec_ret_inv in HX. destruct HX as [E' _]. discriminate E'.
  - apply exec_panic_inv in HX. destruct HX as [E' _]. discriminate E'.
Qed.
Lemma reach_valid s tr s' : reach s tr s' -> valid s -> valid s'.
Proof. induction 1 as [|tr s1 e a H IH He Hw]; eauto. Qed.
Lemma reach_exec s tr s' : reach s tr s' -> valid s -> exec (left s) tr (stat s').
Proof.
  intros H HV. assert (G : forall t s1, valid s1 -> forall b s2, reach s1 b s2 -> t = b -> exec (left s1) t (stat s2)).
  { clear H HV. induction t as [|[e a] t IH]; intros s1 HV b s2 HR <-.
    - apply reach_nil_inv in HR. subst s2. apply (Hleft s1 HV). unfold step_of. destruct (stat s1); constructor.
    - change ((e, a) :: t) with ([(e, a)] ++ t) in HR. apply reach_app in HR. destruct HR as (s3 & H3 & H4).
      change [(e, a)] with ([] ++ [(e, a)]) in H3. apply reach_snoc_inv in H3. destruct H3 as (s4 & H4' & He & Hw & ->). apply reach_nil_inv in H4'. subst s4.
      apply (Hleft s1 HV). unfold step_of. cbn in He. rewrite He. constructor; [exact Hw|]. eapply IH; [|exact H4|reflexivity]. eapply Hvalid; eassumption. }
  eapply G; [exact HV|exact H|reflexivity].
Qed.
End Reach.

(** ** Copies *)
Definition mstat (pl : pull) (mon : notifications) (spy : option nat) (ps : push) (s : place) : status (mres nat) :=
  match view pl mon spy ps s with inl e => At e | inr r => Done r end.
Definition mreach (pl : pull) (mon : notifications) (spy : option nat) (ps : push) : trace -> place -> Prop :=
  reach _ _ (mstat pl mon spy ps) (next pl mon spy ps) (start_place pl mon spy ps).

Section Copy.
Variables (pl : pull) (mon : notifications) (spy : option nat) (ps : push).
Hypothesis Hin : match pl with PlBytes _ _ _ _ | PlReceiver _ _ => True | _ => False end.
Hypothesis Hout : real_push ps.
Lemma motion_reach tr st : exec (motion pl mon spy ps) tr st -> exists s, mreach pl mon spy ps tr s /\ mstat pl mon spy ps s = st /\ valid mon spy ps s.
Proof.
  intro HX. apply (motion_left pl mon spy ps Hin) in HX.
  apply (exec_reach _ _ (mstat pl mon spy ps) (next pl mon spy ps) (valid mon spy ps) (left_at pl mon spy ps)) in HX; [exact HX| | |apply valid_start].
  - intros s HV. eapply same_trans; [apply left_step; assumption|]. unfold stepping, step_of, mstat. destruct (view pl mon spy ps s); apply same_refl.
  - intros s e a HV He Hw. unfold mstat in He. destruct (view pl mon spy ps s) eqn:E; [|discriminate He]. injection He as ->. eapply valid_next; eassumption.
Qed.
Lemma reach_motion tr s : mreach pl mon spy ps tr s -> exec (motion pl mon spy ps) tr (mstat pl mon spy ps s).
Proof.
  intro H. apply (motion_left pl mon spy ps Hin).
  apply (reach_exec _ _ (mstat pl mon spy ps) (next pl mon spy ps) (valid mon spy ps) (left_at pl mon spy ps)); [| |exact H|apply valid_start].
  - intros s' HV. eapply same_trans; [apply left_step; assumption|]. unfold stepping, step_of, mstat. destruct (view pl mon spy ps s'); apply same_refl.
  - intros s' e a HV He Hw. unfold mstat in He. destruct (view pl mon spy ps s') eqn:E; [|discriminate He]. injection He as ->. eapply valid_next; eassumption.
Qed.
End Copy.
