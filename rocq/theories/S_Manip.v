(** * S_Manip: vocabulary for the rewriting of connections *)
From Coq Require Import Ascii String List Bool Arith ZArith Sorted Permutation.
From Verif Require Import M_Prog M_Config M_Manip S_Grammar.
Import ListNotations.
Local Open Scope string_scope.

(** What is assumed of a map: its keys are in order (so there are no two alike). *)
Definition before (a b : string) : Prop := String.compare a b = Lt.
Definition ordered {V} (m : list (string * V)) : Prop := StronglySorted before (keys m).

(** ** Breaking connections into pairs *)

(** A first component, any middle ones, a last one; or nothing. *)
Inductive chain_tail : list connection -> Prop :=
| T_end t n i s : chain_tail [EndC t n i s]
| T_more t n i o s l : chain_tail l -> chain_tail (MiddleC t n i o s :: l).
Inductive chain : list connection -> Prop :=
| C_nothing : chain []
| C_chain t n o s l : chain_tail l -> chain (StartC t n o s :: l).

(** The neighbours in a list. *)
Fixpoint neighbours {A} (l : list A) : list (A * A) :=
  match l with
  | a :: ((b :: _) as r) => (a, b) :: neighbours r
  | _ => []
  end.

(** The side of a component that faces what comes after it, and the side that faces what comes before. *)
Definition conn_set (c : connection) : option string := match c with MiddleC _ _ _ _ s | StartC _ _ _ s | EndC _ _ _ s => s end.
Definition output_side (c d : connection) : Prop := exists o, output_of c = Some o /\ d = StartC (conn_type c) (conn_name c) o (conn_set c).
Definition input_side (c d : connection) : Prop := exists i, input_of c = Some i /\ d = EndC (conn_type c) (conn_name c) i (conn_set c).
Definition pair_of (ab : connection * connection) (p : dconn) : Prop :=
  exists x y, p = Connections [x; y] /\ output_side (fst ab) x /\ input_side (snd ab) y.

(** The pairs made of a map of connections: for each list in turn one pair for each two neighbours, under a name made of the name
    of the list and a number, the numbers going up. *)
Inductive pairs_of : connmap -> list (string * dconn) -> Prop :=
| P_none : pairs_of [] []
| P_list k l m ns ps rest :
    StronglySorted lt ns -> Forall2 pair_of (neighbours l) ps -> List.length ns = List.length ps ->
    pairs_of m rest ->
    pairs_of ((k, Connections l) :: m) (combine (map (numbered k) ns) ps ++ rest)%list.

(** ** Maps of pairs as graphs *)

Record edge := Edge { e_src : source; e_dst : component; e_in : iport }.
Definition edge_of (d : dconn) : option edge :=
  match d with
  | Connections [StartC t n o _; EndC t' n' i _] => Some (Edge (t, n, o) (t', n') i)
  | _ => None
  end.
Definition edge_at (m : connmap) (k : string) : option edge :=
  match lookup k m with Some d => edge_of d | None => None end.

(** All connections are pairs of a first and a last component. *)
Definition all_pairs (m : connmap) : Prop := Forall (fun kv => edge_of (snd kv) <> None) m.

(** The component occurs in a connection. *)
Definition occurs (m : connmap) (c : component) : Prop :=
  exists k e, edge_at m k = Some e /\ (fst (e_src e) = c \/ e_dst e = c).

(** At most one connection arrives at the component; at most one leaves the port. *)
Definition one_arrives (r : connmap) (c : component) : Prop :=
  forall k1 k2 e1 e2, edge_at r k1 = Some e1 -> edge_at r k2 = Some e2 -> e_dst e1 = c -> e_dst e2 = c -> k1 = k2.
Definition one_leaves (r : connmap) (s : source) : Prop :=
  forall k1 k2 e1 e2, edge_at r k1 = Some e1 -> edge_at r k2 = Some e2 -> e_src e1 = s -> e_src e2 = s -> k1 = k2.

(** The first of the connections that are such, in the order of their keys *)
Definition first_such (m : connmap) (P : edge -> Prop) (k : string) (e : edge) : Prop :=
  edge_at m k = Some e /\ P e /\ forall k' e', edge_at m k' = Some e' -> P e' -> k' = k \/ before k k'.

(** A way from a port to a component through components that were not there before (given as [m]). *)
Inductive route (m r : connmap) : source -> component -> list string -> Prop :=
| R_direct k e s d : edge_at r k = Some e -> e_src e = s -> e_dst e = d -> occurs m d -> route m r s d [k]
| R_via k e s o d p : edge_at r k = Some e -> e_src e = s -> ~ occurs m (e_dst e) ->
    route m r (e_dst e, o) d p -> route m r s d (k :: p).

(** The ways from [s] to [d] are one for each connection from [s] to [d], which is part of it. *)
Definition same_routes (m r : connmap) (s : source) (d : component) : Prop :=
  (forall k e, edge_at m k = Some e -> e_src e = s -> e_dst e = d -> exists p, route m r s d p /\ In k p) /\
  (forall p, route m r s d p ->
     exists k e, edge_at m k = Some e /\ e_src e = s /\ e_dst e = d /\ In k p /\
     (forall k', In k' p -> edge_at m k' <> None -> k' = k)) /\
  (forall p1 p2 k, route m r s d p1 -> route m r s d p2 -> In k p1 -> In k p2 -> edge_at m k <> None -> p1 = p2).

(** The order in which sets are gone through is some order. *)
Definition fair (sh : shuffles) : Prop :=
  (forall l, Permutation (sh_starts sh l) l) /\ (forall l, Permutation (sh_ends sh l) l) /\ (forall l, Permutation (sh_launches sh l) l).
Definition in_order : shuffles := Shuffles (fun l => l) (fun l => l) (fun l => l).

(** ** Whole configurations *)

(** Every connection is a chain, written out or as text. *)
Definition good_connection (d : dconn) : Prop :=
  match d with
  | JoinString s => exists l, connection_text l s
  | Connections l => chain l
  end.
Definition good_connections (m : connmap) : Prop := ordered m /\ Forall (fun kv => good_connection (snd kv)) m.

(** The exit port of a launch. *)
Definition exit_of (n : string) : source := (CLaunch, n, PExit).
Definition launches_out (m : connmap) (n : string) : Prop := exists k e, edge_at m k = Some e /\ fst (e_src e) = (CLaunch, n).

(** The connections of a configuration, written out: the text or list under [k] stands for [l]. *)
Definition reads (m : connmap) (k : string) (l : list connection) : Prop :=
  exists d, In (k, d) m /\ (d = Connections l \/ exists s, d = JoinString s /\ connection_text l s).
(** The component has a connection out of it. *)
Definition is_source (m : connmap) (c : component) : Prop :=
  exists k l x o, reads m k l /\ In x l /\ (conn_type x, conn_name x) = c /\ output_of x = Some o.
Definition is_mentioned (m : connmap) (c : component) : Prop :=
  exists k l x, reads m k l /\ In x l /\ (conn_type x, conn_name x) = c.
(** Exactly one connection leaves the port. *)
Definition exactly_one_leaves (m : connmap) (s : source) : Prop := (exists k e, edge_at m k = Some e /\ e_src e = s) /\ one_leaves m s.
Definition spy_connection (launch drain : string) : dconn :=
  Connections [StartC CLaunch launch PExit None; EndC CDrain drain (InPort Terminate 0) None].
