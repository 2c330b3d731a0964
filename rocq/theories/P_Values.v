(** * P_Values: proofs about port names, spied messages and equal errors *)
From Coq Require Import Ascii String List Bool Arith ZArith Lia.
From Verif Require Import M_Prog M_Motion M_Serde M_Values S_Values P_Split.
Import ListNotations.
Local Open Scope string_scope.

Lemma port_from s p : output_port_from_str s = Ok p <-> written_as (oport_name p) s.
Proof.
  split.
  - unfold output_port_from_str.
    repeat (match goal with |- context [if ?a =? ?b then _ else _] => destruct (String.eqb_spec a b) as [->|_] end;
            [intros E; injection E as <-; unfold written_as; cbn; auto|]).
    discriminate.
  - intros [-> | [-> | ->]]; destruct p; reflexivity.
Qed.

Lemma port_refused s : (forall p, ~ written_as (oport_name p) s) <-> output_port_from_str s = Err s.
Proof.
  split.
  - intros H. destruct (output_port_from_str s) as [p|e] eqn:E.
    + destruct (H p). now apply port_from.
    + f_equal. revert E. unfold output_port_from_str.
      repeat (match goal with |- context [if ?a =? ?b then _ else _] => destruct (a =? b) end; [discriminate|]).
      intros E; now injection E.
  - intros E p W. apply port_from in W. congruence.
Qed.

Lemma port_names p : de_oport (VStr (oport_name p)) = Some p /\ output_port_from_str (oport_name p) = Ok p.
Proof. destruct p; split; reflexivity. Qed.

Lemma byte_numbers_inj a b :
  map (fun b => VNum (Z.of_nat (nat_of_ascii b))) a = map (fun b => VNum (Z.of_nat (nat_of_ascii b))) b -> a = b.
Proof.
  revert b. induction a as [|x a IH]; intros [|y b] E; try discriminate; auto.
  cbn [map] in E. injection E as E1 E2. f_equal; [|auto].
  apply Nat2Z.inj in E1. rewrite <- (ascii_nat_embedding x), <- (ascii_nat_embedding y). now f_equal.
Qed.

Lemma spied_once a b : ser_iodw a = ser_iodw b -> a = b.
Proof.
  destruct a, b; cbn [ser_iodw]; intros E; try discriminate; auto.
  injection E as E. f_equal. now apply byte_numbers_inj.
Qed.

Lemma spied_bytes v : exists l, ser_iodw (IOData v) = VMap [("status", VStr "data"); ("data", VSeq l)] /\ List.length l = List.length v /\ Forall is_byte l.
Proof.
  eexists; split; [reflexivity|]. split; [apply map_length|].
  apply Forall_forall. intros x I. apply in_map_iff in I as (c & <- & _).
  eexists; split; [reflexivity|]. pose proof (nat_ascii_bounded c). lia.
Qed.

Lemma breakable_eqb_eq a b : breakable_eqb a b = true <-> a = b.
Proof. destruct a, b; cbn; split; congruence. Qed.
Lemma oport_eqb_eq a b : oport_eqb a b = true <-> a = b.
Proof. destruct a, b; cbn; split; congruence. Qed.
Lemma port_eqb_eq a b : option_eqb oport_eqb a b = true <-> a = b.
Proof. destruct a, b; cbn; rewrite ?oport_eqb_eq; split; congruence. Qed.
Lemma journey_eqb_eq a b : journey_eqb a b = true <-> a = b.
Proof.
  destruct a, b. unfold journey_eqb; cbn. rewrite !andb_true_iff, !Nat.eqb_eq, port_eqb_eq, breakable_eqb_eq.
  split; [intros [[[-> ->] ->] ->]; auto | intros E; injection E; auto].
Qed.
Lemma pjourney_eqb_eq a b : pjourney_eqb a b = true <-> a = b.
Proof.
  destruct a, b. unfold pjourney_eqb; cbn. rewrite andb_true_iff, !Nat.eqb_eq.
  split; [intros [-> ->]; auto | intros E; injection E; auto].
Qed.
Lemma iodw_eqb_eq a b : iodw_eqb a b = true <-> a = b.
Proof. destruct a, b; cbn; rewrite ?bytes_eqb_eq; split; congruence. Qed.

Lemma error_eq x y : motion_error_eq x y = true <-> t_error x = t_error y /\ ~ beyond_compare (t_error x).
Proof.
  unfold motion_error_eq, beyond_compare. destruct (t_error x) eqn:X, (t_error y) eqn:Y; try (split; [discriminate|intros [E _]; discriminate]).
  all: try (split; [discriminate|intros [_ N]; destruct N; eauto 9]).
  all: rewrite ?andb_true_iff, ?journey_eqb_eq, ?pjourney_eqb_eq, ?bytes_eqb_eq, ?Nat.eqb_eq, ?oport_eqb_eq, ?iodw_eqb_eq.
  all: split; [intros H; split; [intuition congruence|intros [(? & E)|[(? & E)|[(? & ? & ? & E)|(? & E)]]]; discriminate]|].
  all: intros [E _]; try injection E; intuition congruence.
Qed.

Lemma error_sym x y : motion_error_eq x y = motion_error_eq y x.
Proof.
  destruct (motion_error_eq x y) eqn:A, (motion_error_eq y x) eqn:B; auto; exfalso.
  - apply error_eq in A as [E N]. assert (motion_error_eq y x = true) by (apply error_eq; now rewrite <- E). congruence.
  - apply error_eq in B as [E N]. assert (motion_error_eq x y = true) by (apply error_eq; now rewrite <- E). congruence.
Qed.

Lemma error_trans x y z : motion_error_eq x y = true -> motion_error_eq y z = true -> motion_error_eq x z = true.
Proof. rewrite !error_eq. intros [E N] [F _]. rewrite E, F in *. auto. Qed.

Lemma error_moment e t i t' i' y : motion_error_eq (Timed e t i) y = motion_error_eq (Timed e t' i') y.
Proof. reflexivity. Qed.

Lemma error_itself x : motion_error_eq x x = false <-> beyond_compare (t_error x).
Proof.
  split.
  - intros F. destruct (t_error x) eqn:X; unfold beyond_compare; eauto 9; exfalso.
    all: assert (motion_error_eq x x = true); [|congruence].
    all: apply error_eq; split; auto; rewrite X; intros [(? & E)|[(? & E)|[(? & ? & ? & E)|(? & E)]]]; discriminate.
  - intros B. destruct (motion_error_eq x x) eqn:A; auto. apply error_eq in A. tauto.
Qed.

Lemma not_itself : exists x, motion_error_eq x x = false.
Proof. exists (Timed (OutputClosed (J 1 (Some POut) 2 Terminate) ChannelClosed []) 0 0). reflexivity. Qed.
