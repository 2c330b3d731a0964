(** * P_Text: decimal texts *)
From Coq Require Import Ascii String List Bool Arith ZArith NArith Lia DecimalString DecimalFacts DecimalN Decimal.
From Verif Require Import M_Prog M_Launch S_Launch.
Import ListNotations.

Lemma value_uint d : forall acc, value_from acc (list_ascii_of_string (NilEmpty.string_of_uint d)) =
  Some (match acc with N0 => N.of_uint d | Npos p => Npos (Pos.of_uint_acc d p) end).
Proof.
  induction d as [|d IH|d IH|d IH|d IH|d IH|d IH|d IH|d IH|d IH|d IH]; intro acc; [destruct acc; reflexivity| ..];
    cbn [NilEmpty.string_of_uint list_ascii_of_string value_from];
    match goal with |- match digit ?c with _ => _ end = _ => let v := eval vm_compute in (digit c) in change (digit c) with v end;
    cbv iota beta; rewrite IH; destruct acc as [|p]; [reflexivity| | reflexivity| | reflexivity| | reflexivity| | reflexivity| | reflexivity| |
      reflexivity| | reflexivity| | reflexivity| | reflexivity|].
  - replace (10 * N.pos p + 0)%N with (N.pos (10 * p)) by lia. reflexivity.
  - replace (10 * N.pos p + 1)%N with (N.pos (1 + 10 * p)) by lia. reflexivity.
  - replace (10 * N.pos p + 2)%N with (N.pos (2 + 10 * p)) by lia. reflexivity.
  - replace (10 * N.pos p + 3)%N with (N.pos (3 + 10 * p)) by lia. reflexivity.
  - replace (10 * N.pos p + 4)%N with (N.pos (4 + 10 * p)) by lia. reflexivity.
  - replace (10 * N.pos p + 5)%N with (N.pos (5 + 10 * p)) by lia. reflexivity.
  - replace (10 * N.pos p + 6)%N with (N.pos (6 + 10 * p)) by lia. reflexivity.
  - replace (10 * N.pos p + 7)%N with (N.pos (7 + 10 * p)) by lia. reflexivity.
  - replace (10 * N.pos p + 8)%N with (N.pos (8 + 10 * p)) by lia. reflexivity.
  - replace (10 * N.pos p + 9)%N with (N.pos (9 + 10 * p)) by lia. reflexivity.
Qed.

Lemma unorm_head d u : Decimal.unorm d = D0 u -> u = Nil.
Proof. induction d; cbn; intro E; try discriminate; auto. now inversion E. Qed.

Lemma to_uint_norm n : Decimal.unorm (N.to_uint n) = N.to_uint n.
Proof. rewrite <- Unsigned.to_of. now rewrite Unsigned.of_to. Qed.

Lemma to_uint_nil n : N.to_uint n <> Nil.
Proof. intro E. pose proof (to_uint_norm n) as H. rewrite E in H. discriminate H. Qed.

Lemma number_text n : number n (list_ascii_of_string (NilZero.string_of_uint (N.to_uint n))).
Proof.
  pose proof (to_uint_nil n) as Hnil.
  assert (E : NilZero.string_of_uint (N.to_uint n) = NilEmpty.string_of_uint (N.to_uint n)) by (destruct (N.to_uint n); [congruence|reflexivity ..]).
  rewrite E. split; [|split].
  - destruct (N.to_uint n); [congruence|discriminate ..].
  - rewrite value_uint. f_equal. apply Unsigned.of_to.
  - pose proof (to_uint_norm n) as H. destruct (N.to_uint n) as [|u|u|u|u|u|u|u|u|u|u]; try discriminate; try congruence.
    rewrite (unorm_head _ _ H). reflexivity.
Qed.

Lemma decimal_text z : decimal z (code_text z).
Proof.
  unfold decimal, code_text. destruct z as [|p|p].
  - exact (number_text 0).
  - exact (number_text (Npos p)).
  - eexists. split; [reflexivity|]. exact (number_text (Npos p)).
Qed.
