(** * M_Join: futures joined in one task

    [a.join(b).join(c).await] (async-std 1.12, src/future/future/join.rs) runs the three until all have
    finished.  Here the three take their steps in any order.  (async-std polls them in turn; what that
    adds is in M_Poll.) *)
From Coq Require Import List Bool Arith.
From Verif Require Import M_Prog S_Trace S_World.
Import ListNotations.

(** A component that does something, then runs three parts side by side, then something more: where it
    stands. *)
Inductive jstatus (A B C R : Type) :=
| Before (st : status R)
| During (a : status A) (b : status B) (c : status C)
| After (st : status R).
Arguments Before {A B C R} st.
Arguments During {A B C R} a b c.
Arguments After {A B C R} st.

(** The parts are numbered 1, 2, 3; what is before and after is number 0.  [l] may also have steps of
    others (numbers from 4). *)
Definition idle (is : list nat) (l : list nevent) : Prop := forall i, In i is -> own i l = [].

Inductive joined {X A B C R} (pre : prog (R + X)) (p1 : X -> prog A) (p2 : X -> prog B) (p3 : X -> prog C)
  (post : X -> A -> B -> C -> prog R) : list nevent -> jstatus A B C R -> Prop :=
| J_before_at : forall l e, idle [1; 2; 3] l -> exec pre (own 0 l) (At e) -> joined pre p1 p2 p3 post l (Before (At e))
| J_before_panic : forall l s, idle [1; 2; 3] l -> exec pre (own 0 l) (Panicked s) -> joined pre p1 p2 p3 post l (Before (Panicked s))
| J_before_done : forall l r, idle [1; 2; 3] l -> exec pre (own 0 l) (Done (inl r)) -> joined pre p1 p2 p3 post l (Before (Done r))
| J_during : forall l0 l x a b c,
    idle [1; 2; 3] l0 -> idle [0] l -> exec pre (own 0 l0) (Done (inr x)) ->
    exec (p1 x) (own 1 l) a -> exec (p2 x) (own 2 l) b -> exec (p3 x) (own 3 l) c ->
    joined pre p1 p2 p3 post (l0 ++ l) (During a b c)
| J_after : forall l0 l l1 x a b c st,
    idle [1; 2; 3] l0 -> idle [0] l -> idle [1; 2; 3] l1 -> exec pre (own 0 l0) (Done (inr x)) ->
    exec (p1 x) (own 1 l) (Done a) -> exec (p2 x) (own 2 l) (Done b) -> exec (p3 x) (own 3 l) (Done c) ->
    exec (post x a b c) (own 0 l1) st ->
    joined pre p1 p2 p3 post (l0 ++ l ++ l1) (After st).
