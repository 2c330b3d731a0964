(** * P_Top: ranks in graphs without loops *)
From Coq Require Import List Bool Arith Lia Relations.
Import ListNotations.

Section Top.
Context {A : Type}.
Variable eqd : forall x y : A, {x = y} + {x <> y}.
Definition arc (E : list (A * A)) (a b : A) : Prop := In (a, b) E.
Definition path (E : list (A * A)) : A -> A -> Prop := clos_refl_trans A (arc E).

Lemma path_more a b E x y : path E x y -> path ((a, b) :: E) x y.
Proof. induction 1 as [x y H| |x y z _ IH1 _ IH2]; [apply rt_step; right; exact H|apply rt_refl|eapply rt_trans; eassumption]. Qed.
Lemma path_cons a b E x y : path ((a, b) :: E) x y <-> path E x y \/ path E x a /\ path E b y.
Proof.
  split.
  - induction 1 as [x y [[= <- <-]|H]| |x y z _ IH1 _ IH2].
    + right. split; apply rt_refl.
    + left. apply rt_step. exact H.
    + left. apply rt_refl.
    + destruct IH1 as [H1|[H1 H1']], IH2 as [H2|[H2 H2']].
      * left. eapply rt_trans; eassumption.
      * right. split; [eapply rt_trans; eassumption|assumption].
      * right. split; [assumption|eapply rt_trans; eassumption].
      * right. split; assumption.
  - intros [H|[H1 H2]]; [apply path_more; exact H|]. eapply rt_trans; [apply path_more; exact H1|]. eapply rt_trans; [|apply path_more; exact H2]. apply rt_step. left. reflexivity.
Qed.
Lemma path_nil x y : path [] x y -> x = y.
Proof. induction 1 as [x y []| |x y z _ IH1 _ IH2]; congruence. Qed.
Lemma path_dec E : forall x y, {path E x y} + {~ path E x y}.
Proof.
  induction E as [|[a b] E IH]; intros x y.
  - destruct (eqd x y) as [->|N]; [left; apply rt_refl|right]. intros H. apply N, path_nil, H.
  - destruct (IH x y) as [H|N1]; [left; apply path_cons; auto|]. destruct (IH x a) as [Ha|N2]; [|right; rewrite path_cons; tauto].
    destruct (IH b y) as [Hb|N3]; [left; apply path_cons; auto|right; rewrite path_cons; tauto].
Qed.
Lemma path_plus E x y z : path E x y -> arc E y z -> clos_trans A (arc E) x z.
Proof.
  intros H Hyz. revert z Hyz. apply clos_rt_rtn1 in H. induction H as [|y y' H1 _ IH]; intros z Hz; [apply t_step; exact Hz|].
  eapply t_trans; [apply IH; exact H1|apply t_step; exact Hz].
Qed.
Lemma loops_less a b E x : clos_trans A (arc E) x x -> clos_trans A (arc ((a, b) :: E)) x x.
Proof.
  generalize x at 1 3. intros y. induction 1 as [y z H|y z u _ IH1 _ IH2]; [apply t_step; right; exact H|eapply t_trans; eassumption].
Qed.
Theorem ranked E : (forall a, ~ clos_trans A (arc E) a a) -> exists rank : A -> nat, forall a b, In (a, b) E -> rank a < rank b.
Proof.
  induction E as [|[a b] E IH]; intros Hn; [exists (fun _ => 0); intros ? ? []|].
  destruct IH as (r & Hr); [intros x Hx; apply (Hn x), loops_less, Hx|].
  exists (fun x => if path_dec E b x then r x + r a + 1 else r x). intros x y [[= <- <-]|H].
  - destruct (path_dec E b a) as [Hba|_].
    + exfalso. apply (Hn b). eapply path_plus; [apply path_more; exact Hba|]. left. reflexivity.
    + destruct (path_dec E b b) as [_|N]; [lia|]. exfalso. apply N, rt_refl.
  - specialize (Hr x y H). destruct (path_dec E b x) as [Hx|Hx], (path_dec E b y) as [Hy|Hy]; try lia.
    exfalso. apply Hy. eapply rt_trans; [exact Hx|]. apply rt_step. exact H.
Qed.
End Top.
