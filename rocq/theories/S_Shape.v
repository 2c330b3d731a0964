(** * S_Shape: the shape of a pipeline as it is written in the configuration *)
From Coq Require Import Ascii String List Bool Arith Relations.
From Verif Require Import M_Prog M_Config M_Manip S_Grammar S_Manip.
Import ListNotations.

(** [b] comes directly after [a] in one of the connections. *)
Definition followed_by (m : connmap) (a b : component) : Prop :=
  exists k l x y, reads m k l /\ In (x, y) (neighbours l) /\ (conn_type x, conn_name x) = a /\ (conn_type y, conn_name y) = b.
(** Something comes before every regulator and buffer that is mentioned, and something comes after it; something comes after every junction. *)
Definition passing (m : connmap) : Prop := forall t n, is_mentioned m (t, n) ->
  (t = CRegulator \/ t = CBuffer -> exists a, followed_by m a (t, n)) /\
  (t = CRegulator \/ t = CBuffer \/ t = CJunction -> exists b, followed_by m (t, n) b).
(** Nothing comes, through whatever others, after itself. *)
Definition no_loop (m : connmap) : Prop := forall a, ~ clos_trans _ (followed_by m) a a.
(** There is a buffer in every loop. *)
Definition buffered_loops (m : connmap) : Prop := forall a, ~ clos_trans _ (fun a b => followed_by m a b /\ fst b <> CBuffer) a a.
(** No junction comes directly after itself. *)
Definition apart (m : connmap) : Prop := forall n, ~ followed_by m (CJunction, n) (CJunction, n).
