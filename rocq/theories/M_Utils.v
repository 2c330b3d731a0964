(** * M_Utils: src/utils.rs *)
From Coq Require Import List Arith.
Import ListNotations.

(** [Vec::remove] at an index that exists; the removed element and the rest *)
Fixpoint vec_remove {X} (i : nat) (l : list X) : option X * list X :=
  match l, i with
  | [], _ => (None, [])
  | x :: l', O => (Some x, l')
  | x :: l', S i' => let '(r, l'') := vec_remove i' l' in (r, x :: l'')
  end.

(** Replace the element at an index. *)
Fixpoint vec_set {X} (i : nat) (x : X) (l : list X) : list X :=
  match l, i with
  | [], _ => []
  | _ :: l', O => x :: l'
  | y :: l', S i' => y :: vec_set i' x l'
  end.

(** src/utils.rs 1-7; the removed element, which is dropped, is returned as well *)
Definition remove_vec_vec_index {X} (vals : list (list X)) (i0 i1 : nat) : option X * list (list X) :=
  match nth_error vals i0 with
  | Some v =>
    if i1 <? length v then
      let '(r, v') := vec_remove i1 v in (r, vec_set i0 v' vals)
    else (None, vals)
  | None => (None, vals)
  end.

(** src/utils.rs 10-18: one step of the loop, at index [i] *)
Definition remove_vec_vec_at {X} (vals : list (list X)) (i : nat) : list (list X) :=
  let inner_len := match nth_error vals i with Some iv => length iv | None => 99 end in
  if inner_len =? 0 then snd (vec_remove i vals) else vals.

(** src/utils.rs 9-19: the indices from the last to the first *)
Definition remove_vec_vec {X} (vals : list (list X)) : list (list X) :=
  fold_left remove_vec_vec_at (rev (seq 0 (length vals))) vals.
