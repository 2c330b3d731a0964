(** * S_Graph: what a diagram should show *)
From Coq Require Import Ascii String List Bool Arith ZArith Permutation.
From Verif Require Import M_Prog M_Motion M_Config M_Manip M_Lint M_Setters M_Cli M_Graph S_Grammar S_Manip S_Lint.
Import ListNotations.
Local Open Scope string_scope.

(** ** The statements of a graph *)

(** [s] is in [l], in the subgraphs of those names *)
Inductive inside : list string -> stmt -> list stmt -> Prop :=
| Here s l : In s l -> inside [] s l
| Within i p s l l' : In (SSub i l') l -> inside p s l' -> inside (i :: p) s l.

(** The edges, in order *)
Definition attr_of (k : string) (attrs : list (string * string)) : string := match lookup k attrs with Some v => v | None => "" end.
Fixpoint edges_in (s : stmt) : list (string * string * string) :=
  match s with
  | SEdge a b attrs => [(a, b, attr_of "label" attrs)]
  | SSub _ l => flat_map edges_in l
  | _ => []
  end.
Definition edges (g : graph) : list (string * string * string) := flat_map edges_in (gr_stmts g).
(** In a strict graph there is one edge from a node to a node; what is said of it last counts. *)
Definition shown (g : graph) (a b label : string) : Prop :=
  if gr_strict g then exists l1 l2, edges g = (l1 ++ (a, b, label) :: l2)%list /\ forall other, ~ In (a, b, other) l2
  else In (a, b, label) (edges g).

(** ** What is to be drawn *)

(** Neighbours in a list, the first with an output *)
Definition comp_of (c : connection) : component := (conn_type c, conn_name c).
Definition joined_pairs (l : list connection) : list (component * oport * component) :=
  flat_map (fun ab => match output_of (fst ab) with Some o => [(comp_of (fst ab), o, comp_of (snd ab))] | None => [] end) (neighbours l).
Definition all_joined (m : connmap) : list (component * oport * component) :=
  flat_map (fun kv => match snd kv with Connections l => joined_pairs l | JoinString _ => [] end) m.
(** The text at an edge: nothing for the ordinary output *)
Definition port_label (o : oport) : string := match o with POut => """""" | PErr => "Err" | PExit => "Exit" end.
Definition as_edge (id : component -> string) (j : component * oport * component) : string * string * string :=
  let '(a, o, b) := j in (id a, id b, port_label o).

(** The configuration that is drawn is the one that was read: the same lists under the same names, written out *)
Definition written (c c' : config) : Prop :=
  keys (cf_connection c') = keys (cf_connection c) /\
  (forall k d, In (k, d) (cf_connection c') -> exists l, d = Connections l) /\
  (forall k l, In (k, Connections l) (cf_connection c') <-> reads (cf_connection c) k l).

(** Frames: where a component is drawn.  [k] is the first list in which it has a neighbour. *)
Definition linked_in (l : list connection) (x : component) : Prop := exists a o b, In (a, o, b) (joined_pairs l) /\ (a = x \/ b = x).
Definition first_list (m : connmap) (x : component) (k : string) (l : list connection) : Prop :=
  exists m1 m2, m = (m1 ++ (k, Connections l) :: m2)%list /\ linked_in l x /\ forall k' l', In (k', Connections l') m1 -> ~ linked_in l' x.
Definition frame (k : string) : list string := if String.eqb k "" then [] else ["cluster_nodes_" ++ k].
(** A junction at an end of a list is not drawn in its frame. *)
Definition at_end (l : list connection) (x : component) : Prop := (exists y r, l = y :: r /\ comp_of y = x) \/ (exists y r, l = (r ++ [y])%list /\ comp_of y = x).

(** ** The language of DOT: identifiers *)

Definition lower (c : ascii) : ascii := let n := nat_of_ascii c in if (65 <=? n)%nat && (n <=? 90)%nat then ascii_of_nat (n + 32) else c.
Fixpoint lowered (s : string) : string := match s with "" => "" | String c r => String (lower c) (lowered r) end.
Definition keywords : list string := ["node"; "edge"; "graph"; "digraph"; "subgraph"; "strict"].
Definition digit_letters : string := "0123456789".
Definition first_letters : string := "abcdefghijklmnopqrstuvwxyzABCDEFGHIJKLMNOPQRSTUVWXYZ_".
Definition all_digits (s : string) : Prop := s <> "" /\ of_letters digit_letters s.
(** (Letters above 127, which are allowed too, are left out.) *)
Inductive dot_id : string -> Prop :=
| D_word c r : In c (list_ascii_of_string first_letters) -> of_letters name_letters r -> ~ In (lowered (String c r)) keywords -> dot_id (String c r)
| D_number s : all_digits s -> dot_id s
| D_decimal a b : all_digits a -> of_letters digit_letters b -> dot_id (a ++ "." ++ b)
| D_fraction b : all_digits b -> dot_id ("." ++ b)
| D_negative s : dot_id s -> (exists c r, s = String c r /\ In c (list_ascii_of_string ".0123456789")) -> dot_id ("-" ++ s)
| D_quoted t : (forall c, In c (list_ascii_of_string t) -> c <> """"%char) -> dot_id ("""" ++ t ++ """")
| D_html t : dot_id ("<" ++ t ++ ">").
(** All the identifiers and values in a statement *)
Fixpoint names_in (s : stmt) : list string :=
  match s with
  | SAttr k v => [k; v]
  | SNode i attrs => i :: flat_map (fun kv => [fst kv; snd kv]) attrs
  | SEdge a b attrs => a :: b :: flat_map (fun kv => [fst kv; snd kv]) attrs
  | SSub i l => i :: flat_map names_in l
  end.
Definition valid_dot (g : graph) : Prop := dot_id (gr_id g) /\ Forall dot_id (flat_map names_in (gr_stmts g)).
(** A name that is an identifier as it is *)
Definition plain_word (n : string) : Prop := exists c r, n = String c r /\ In c (list_ascii_of_string first_letters) /\ of_letters name_letters r /\ ~ In (lowered n) keywords.

(** ** The drawing *)

(** A hash map is gone through in any order. *)
Definition any_order (order : list (ctype * list string) -> list (ctype * list string)) : Prop := forall l, Permutation (order l) l.
Definition shows_diagram (mode : graph_mode) : Prop := match mode with LegendOnly _ => False | _ => True end.
Definition shows_legend (mode : graph_mode) : option bool := match mode with LegendOnly b | Full b => Some b | DiagramOnly => None end.
Definition legend_name (border : bool) : string := if border then "cluster_legend" else "graph_legend".
(** The node is the component's: its label is the name *)
Definition node_of (g : graph) (id : component -> string) (p : list string) (x : component) (attrs : list (string * string)) : Prop :=
  inside ("diagram" :: p) (SNode (id x) attrs) (gr_stmts g) /\ attr_of "label" attrs = snd x.
(** The list has a faucet with something after it; a drain with something before it *)
Definition starts_flow (l : list connection) : Prop := exists n o b, In ((CFaucet, n), o, b) (joined_pairs l).
Definition ends_flow (l : list connection) : Prop := exists a o n, In (a, o, (CDrain, n)) (joined_pairs l).
(** The end of the picture that the frame of the list is drawn at *)
Inductive ranked (l : list connection) : string -> Prop :=
| R_min : starts_flow l -> ranked l "min"
| R_max : ~ starts_flow l -> ends_flow l -> ranked l "max"
| R_same : ~ starts_flow l -> ~ ends_flow l -> ranked l "same".

(** The graph shows the configuration [c], written out as [c']: an edge for each two neighbours, with the port; the nodes are those of the components;
    [id] is the identifier of a component. *)
Record depicts (g : graph) (c c' : config) (id : component -> string) : Prop := {
  dp_written : written c c';
  dp_ids : forall a b, id a = id b -> a = b;
  dp_edges : edges g = map (as_edge id) (all_joined (cf_connection c'));
  dp_all : forall x, is_mentioned (cf_connection c) x -> exists p attrs, node_of g id p x attrs;
  dp_only : forall p i attrs, inside ("diagram" :: p) (SNode i attrs) (gr_stmts g) -> exists x, i = id x /\ is_mentioned (cf_connection c) x /\ node_of g id p x attrs;
  dp_others : forall f p i attrs, f <> "diagram" -> inside (f :: p) (SNode i attrs) (gr_stmts g) -> forall x, i <> id x
}.
