(** * S_Lasting: vocabulary for regulated pipelines that go on and on *)
From Coq Require Import Ascii String List Bool Arith Relations.
From Verif Require Import M_Prog M_Motion M_Config M_Manip M_Waiter M_Start S_Manip S_Trace S_World S_Network S_Net S_Shape S_Watch S_Delay.
Import ListNotations.

(** Events that do more than look and wait.  (The signal that nobody hears any more, and the look at the sizes of a buffer that has ended, change nothing.) *)
Definition forward (ev : event) : bool :=
  useful ev && match ev with (ESend (CCtl _) _, AClosed) | (ETryRecv (CSize _), AClosed) => false | _ => true end.

(** As [could_act], [fair] and [endless] of S_Net, with the controllers. *)
Definition whole_could (net : list comp) (cs : list capture) (w0 : world) (l : list nevent) (i : nat) : Prop :=
  exists ev l' w ocs, free_run net cs w0 (l ++ (i, ev) :: l') w ocs.
Definition whole_fair (net : list comp) (cs : list capture) (w0 : world) (f : nat -> nevent) : Prop :=
  forall i n, exists m, n <= m /\ (fst (f m) = i \/ ~ whole_could net cs w0 (so_far f m) i).
Definition whole_endless (net : list comp) (cs : list capture) (w0 : world) (f : nat -> nevent) : Prop :=
  forall n, exists w ocs, whole_run net cs w0 (so_far f n) w ocs.

(** Whatever happens next, it is only looking and waiting. *)
Definition only_looks (net : list comp) (cs : list capture) (w0 : world) (l : list nevent) : Prop :=
  forall l' w ocs, free_run net cs w0 (l ++ l') w ocs -> forall i ev, In (i, ev) l' -> forward ev = false.

(** The buffers a regulator watches come, through whatever others, after it. *)
Definition watches_ahead (c : config) : Prop := forall n low high bs b,
  set_to_watch c n low high bs -> In b bs -> is_mentioned (cf_connection c) (CBuffer, b) -> clos_trans _ (followed_by (cf_connection c)) (CRegulator, n) (CBuffer, b).

(** From some time on, a buffer and its controller wait for one another. *)
Definition choked_for_good (net : list comp) (cs : list capture) (w0 : world) (f : nat -> nevent) : Prop :=
  exists n0 k m cp, forall n w ocs, n0 <= n -> whole_run net cs w0 (so_far f n) w ocs -> ocs k = Going /\ choked net cs (so_far f n) w k m cp.
