(** * P_Map: key-sorted lists as maps *)
From Coq Require Import Ascii String List Bool Arith ZArith Sorted Permutation Lia.
From Verif Require Import M_Prog M_Config M_Manip S_Manip.
Import ListNotations.
Local Open Scope string_scope.

Lemma mem_in k l : mem k l = true <-> In k l.
Proof.
  induction l as [|a l IH]; cbn; [split; [discriminate|tauto]|]. rewrite orb_true_iff, IH, String.eqb_eq. intuition.
Qed.
Lemma mem_not k l : mem k l = false <-> ~ In k l.
Proof. rewrite <- mem_in. destruct (mem k l); intuition congruence. Qed.

Lemma ascii_compare_refl a : Ascii.compare a a = Eq.
Proof. unfold Ascii.compare. apply N.compare_refl. Qed.
Lemma compare_refl a : String.compare a a = Eq.
Proof. induction a as [|c a IH]; cbn; [reflexivity|]. rewrite ascii_compare_refl. exact IH. Qed.
Lemma ascii_compare_eq a b : Ascii.compare a b = Eq -> a = b.
Proof. unfold Ascii.compare. rewrite N.compare_eq_iff. intros H. rewrite <- (ascii_N_embedding a), H. apply ascii_N_embedding. Qed.
Lemma compare_eq a : forall b, String.compare a b = Eq -> a = b.
Proof.
  induction a as [|c a IH]; destruct b as [|d b]; cbn; try discriminate; [reflexivity|].
  destruct (Ascii.compare c d) eqn:E; try discriminate. apply ascii_compare_eq in E as ->. intros H. f_equal. auto.
Qed.
Lemma before_trans a : forall b c, before a b -> before b c -> before a c.
Proof.
  unfold before. induction a as [|x a IH]; destruct b as [|y b]; destruct c as [|z c]; cbn; try discriminate; auto.
  destruct (Ascii.compare x y) eqn:E1; try discriminate.
  - apply ascii_compare_eq in E1 as ->. destruct (Ascii.compare y z) eqn:E2; try discriminate; auto. eauto.
  - intros _. destruct (Ascii.compare y z) eqn:E2; try discriminate.
    + apply ascii_compare_eq in E2 as ->. rewrite E1. auto.
    + intros _. assert (H : Ascii.compare x z = Lt). { unfold Ascii.compare in *. rewrite N.compare_lt_iff in *. lia. }
      rewrite H. reflexivity.
Qed.
Lemma ascii_compare_gt a b : Ascii.compare a b = Gt -> Ascii.compare b a = Lt.
Proof. unfold Ascii.compare. rewrite N.compare_gt_iff, N.compare_lt_iff. auto. Qed.
Lemma compare_gt a : forall b, String.compare a b = Gt -> before b a.
Proof.
  unfold before. induction a as [|x a IH]; destruct b as [|y b]; cbn; try discriminate; auto.
  destruct (Ascii.compare x y) eqn:E; try discriminate.
  - apply ascii_compare_eq in E as ->. rewrite ascii_compare_refl. auto.
  - intros _. rewrite (ascii_compare_gt _ _ E). reflexivity.
Qed.
Lemma before_irrefl a : ~ before a a.
Proof. unfold before. rewrite compare_refl. discriminate. Qed.

Section M.
Context {V : Type}.
Implicit Types m : list (string * V).

Lemma lookup_in k m v : lookup k m = Some v -> In (k, v) m.
Proof. induction m as [|[a b] m IH]; cbn; [discriminate|]. destruct (String.eqb_spec k a) as [->|]; [intros [= ->]; auto|auto]. Qed.
Lemma lookup_key k m : lookup k m <> None <-> In k (keys m).
Proof.
  induction m as [|[a b] m IH]; cbn; [tauto|]. destruct (String.eqb_spec k a) as [->|]; [split; [auto|discriminate]|].
  rewrite IH. intuition congruence.
Qed.
Lemma lookup_none k m : lookup k m = None <-> ~ In k (keys m).
Proof. rewrite <- lookup_key. destruct (lookup k m); intuition congruence. Qed.
Lemma ordered_nodup m : ordered m -> NoDup (keys m).
Proof.
  unfold ordered. generalize (keys m). intros l. induction 1 as [|a l Hl IH Ha]; constructor; auto.
  intros Hin. rewrite Forall_forall in Ha. exact (before_irrefl _ (Ha _ Hin)).
Qed.
Lemma in_lookup k m v : NoDup (keys m) -> In (k, v) m -> lookup k m = Some v.
Proof.
  induction m as [|[a b] m IH]; cbn; [tauto|]. intros Hn [[= <- <-]|Hin].
  - rewrite String.eqb_refl. reflexivity.
  - inversion Hn; subst. destruct (String.eqb_spec k a) as [->|]; [|auto]. destruct H1. apply (in_map fst) in Hin. exact Hin.
Qed.

Lemma lookup_bput k v m k' : lookup k' (bput k v m) = if String.eqb k' k then Some v else lookup k' m.
Proof.
  induction m as [|[a b] m IH]; cbn; [reflexivity|]. destruct (String.compare k a) eqn:E; cbn.
  - apply compare_eq in E as ->. destruct (String.eqb_spec k' a); reflexivity.
  - reflexivity.
  - rewrite IH. destruct (String.eqb_spec k' a) as [->|]; [|reflexivity].
    destruct (String.eqb_spec a k) as [->|]; [rewrite compare_refl in E; discriminate|reflexivity].
Qed.
Lemma keys_bput k v m x : In x (keys (bput k v m)) <-> x = k \/ In x (keys m).
Proof.
  rewrite <- !lookup_key, lookup_bput. destruct (String.eqb_spec x k); split; try tauto; try discriminate; intuition congruence.
Qed.
Lemma ordered_bput k v m : ordered m -> ordered (bput k v m).
Proof.
  unfold ordered. induction m as [|[a b] m IH]; cbn; [repeat constructor|].
  intros H. inversion H as [|x l Hl Ha]; subst. destruct (String.compare k a) eqn:E; cbn.
  - exact H.
  - constructor; [exact H|]. constructor; [exact E|]. eapply Forall_impl; [|exact Ha]. intros. eapply before_trans; eauto.
  - constructor; [apply IH; auto|]. rewrite Forall_forall in *. intros x Hx. apply (keys_bput k v m x) in Hx as [->|Hx]; auto.
    apply compare_gt; auto.
Qed.
Lemma lookup_hput k v m k' : lookup k' (hput k v m) = if String.eqb k' k then Some v else lookup k' m.
Proof.
  induction m as [|[a b] m IH]; cbn; [reflexivity|]. destruct (String.eqb_spec k a) as [->|]; cbn.
  - destruct (String.eqb_spec k' a); reflexivity.
  - rewrite IH. destruct (String.eqb_spec k' a) as [->|]; [|reflexivity].
    destruct (String.eqb_spec a k) as [->|]; [congruence|reflexivity].
Qed.
Lemma lookup_app k m1 m2 : lookup k (m1 ++ m2) = match lookup k m1 with Some v => Some v | None => lookup k m2 end.
Proof. induction m1 as [|[a b] m IH]; cbn; [reflexivity|]. destruct (String.eqb k a); auto. Qed.
(** Two ordered maps with the same contents are the same. *)
Lemma ordered_ext m1 : forall m2, ordered m1 -> ordered m2 -> (forall k, lookup k m1 = lookup k m2) -> m1 = m2.
Proof.
  unfold ordered. induction m1 as [|[a b] m1 IH]; intros [|[c d] m2]; cbn; intros H1 H2 He; auto.
  - specialize (He c). cbn in He. rewrite String.eqb_refl in He. discriminate.
  - specialize (He a). cbn in He. rewrite String.eqb_refl in He. discriminate.
  - inversion H1 as [|? ? S1 F1]; inversion H2 as [|? ? S2 F2]; subst. rewrite Forall_forall in F1, F2.
    assert (a = c).
    { pose proof (He a) as Ha. pose proof (He c) as Hc. cbn in Ha, Hc. rewrite String.eqb_refl in Ha, Hc.
      destruct (String.eqb_spec a c); auto. destruct (String.eqb_spec c a); [auto|].
      assert (In a (keys m2)) by (apply lookup_key; congruence). assert (In c (keys m1)) by (apply lookup_key; congruence).
      destruct (before_irrefl a). eapply before_trans; eauto. }
    subst c. pose proof (He a) as Ha. cbn in Ha. rewrite String.eqb_refl in Ha. injection Ha as ->. f_equal. apply IH; auto.
    intros k. specialize (He k). cbn in He. destruct (String.eqb_spec k a) as [Hk|]; [rewrite Hk|exact He].
    transitivity (@None V); [|symmetry]; apply lookup_none; intros Hin; [specialize (F1 _ Hin); exact (before_irrefl _ F1)|specialize (F2 _ Hin); exact (before_irrefl _ F2)].
Qed.
End M.
