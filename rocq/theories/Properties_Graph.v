(** * Properties_Graph: the diagram *)
From Coq Require Import Ascii String List Bool Arith ZArith.
From Verif Require Import M_Prog M_Motion M_Config M_Manip M_Lint M_Setters M_Cli M_Graph S_Grammar S_Manip S_Lint S_Graph P_Graph P_Dot P_GraphExamples.
Import ListNotations.
Local Open Scope string_scope.

(** C64: an edge for each two neighbours with their port, a node for each component, different components different nodes, the legend apart. *)
Theorem C64_depicts : forall order c mode g, any_order order -> shows_diagram mode -> graph_drawn order c mode = Good (Ok g) -> exists c' id, depicts g c c' id.
Proof. exact depicted_some. Qed.
Print Assumptions C64_depicts.
(** The graph is strict, so of several connections from one component to another only one is shown. *)
Theorem C64_strict_refuted : exists order c mode g, any_order order /\ shows_diagram mode /\ ordered (cf_connection c) /\ graph_drawn order c mode = Good (Ok g) /\
  forall c' id, depicts g c c' id -> exists a o b, In (a, o, b) (all_joined (cf_connection c')) /\ ~ shown g (id a) (id b) (port_label o).
Proof. exact one_lost. Qed.
Print Assumptions C64_strict_refuted.
(** What is missing: connections by different ports between the same two components.  The others are shown, and nothing else is. *)
Theorem C64_shown_partial : forall order c mode g, any_order order -> shows_diagram mode -> graph_drawn order c mode = Good (Ok g) ->
  exists c' id, depicts g c c' id /\
    (forall a o b, In (a, o, b) (all_joined (cf_connection c')) -> (forall o', In (a, o', b) (all_joined (cf_connection c')) -> o' = o) -> shown g (id a) (id b) (port_label o)) /\
    (forall i j t, shown g i j t -> exists a o b, In (a, o, b) (all_joined (cf_connection c')) /\ (i, j, t) = as_edge id (a, o, b)).
Proof. exact shown_lemma. Qed.
Print Assumptions C64_shown_partial.
(** A configuration with two lists, drawn *)
Example C64_example : exists g, graph_drawn as_it_is both_outputs DiagramOnly = Good (Ok g) /\
  edges g = [("l_work", "d_sink", "Err"); ("f_tap", "l_work", """"""); ("l_work", "d_sink", """""")].
Proof. destruct both_picture as (g & H1 & _). exists g. split; [exact H1|]. exact (proj1 (both_edges DiagramOnly g I H1)). Qed.

(** C78: the legend has each kind of component, and says what it looks like; no two kinds have the same shape, and only buffers and regulators share a colour. *)
Theorem C78_legend : forall order c mode g, any_order order -> graph_drawn order c mode = Good (Ok g) ->
  exists look id, (forall t t', fst (look t) = fst (look t') -> t = t') /\ (forall t t', snd (look t) = snd (look t') -> t = t' \/ (In t [CBuffer; CRegulator] /\ In t' [CBuffer; CRegulator])) /\
    (shows_diagram mode -> exists c', depicts g c c' id /\ forall x p attrs, node_of g id p x attrs -> (attr_of "shape" attrs, attr_of "fillcolor" attrs) = look (fst x)) /\
    (forall b, shows_legend mode = Some b ->
       (forall t, exists f i attrs, inside [legend_name b; f] (SAttr "label" (show_kind t)) (gr_stmts g) /\ inside [legend_name b; f] (SNode i attrs) (gr_stmts g)) /\
       (forall t f i attrs, inside [legend_name b; f] (SAttr "label" (show_kind t)) (gr_stmts g) -> inside [legend_name b; f] (SNode i attrs) (gr_stmts g) ->
          (attr_of "shape" attrs, attr_of "fillcolor" attrs) = look t)).
Proof. exact legend_lemma. Qed.
Print Assumptions C78_legend.
Example C78_example : exists g attrs attrs', graph_drawn as_it_is both_outputs (Full true) = Good (Ok g) /\
  inside ["diagram"; "cluster_nodes_main"] (SNode "f_tap" attrs) (gr_stmts g) /\ inside ["cluster_legend"; "cluster_legend_faucet"] (SNode "legend_faucet" attrs') (gr_stmts g) /\
  attr_of "shape" attrs = "trapezium" /\ attr_of "shape" attrs' = "trapezium".
Proof. exact legend_picture. Qed.

(** C79: not every diagram is DOT, even with names of the connection language: a launch called node. *)
Theorem C79_valid_refuted : exists order c mode g, any_order order /\ shows_diagram mode /\ good_connections (cf_connection c) /\ (forall x, is_mentioned (cf_connection c) x -> name_text (snd x)) /\
  graph_drawn order c mode = Good (Ok g) /\ ~ valid_dot g.
Proof. exact not_dot. Qed.
Print Assumptions C79_valid_refuted.
(** Names that are no identifiers always spoil it. *)
Theorem C79_names : forall order c mode g, any_order order -> shows_diagram mode -> graph_drawn order c mode = Good (Ok g) -> valid_dot g ->
  forall x, is_mentioned (cf_connection c) x -> dot_id (snd x).
Proof. exact names_lemma. Qed.
Print Assumptions C79_names.
(** What is missing: names that begin with a digit, keywords of DOT, and names of lists with other characters than letters, digits and underscores. *)
Theorem C79_valid_partial : forall order c mode g, any_order order -> graph_drawn order c mode = Good (Ok g) ->
  (forall x, is_mentioned (cf_connection c) x -> plain_word (snd x)) -> (forall k, In k (keys (cf_connection c)) -> of_letters name_letters k) -> valid_dot g.
Proof. exact valid_lemma. Qed.
Print Assumptions C79_valid_partial.
Example C79_example : exists g, graph_drawn as_it_is both_outputs (Full false) = Good (Ok g) /\ valid_dot g.
Proof. exact both_valid. Qed.

(** C80: a component is drawn in the frame of the first list in which it has a neighbour, under the name of the list; junctions at an end of that list may be
    outside all frames.  Frames of lists with a faucet are at the top, otherwise those with a drain at the bottom. *)
Theorem C80_frames : forall order c mode g, any_order order -> shows_diagram mode -> ordered (cf_connection c) -> graph_drawn order c mode = Good (Ok g) ->
  exists c' id, depicts g c c' id /\
    (forall x p attrs k l, node_of g id p x attrs -> first_list (cf_connection c') x k l -> p = frame k \/ p = [] /\ fst x = CJunction /\ at_end l x) /\
    (forall x p attrs, node_of g id p x attrs -> (forall k l, In (k, Connections l) (cf_connection c') -> ~ linked_in l x) -> p = []) /\
    (forall k l stmts, k <> "" -> In (k, Connections l) (cf_connection c') -> inside ["diagram"] (SSub ("cluster_nodes_" ++ k) stmts) (gr_stmts g) ->
       In (SAttr "label" ("""" ++ k ++ ":""")) stmts /\ forall r, In (SAttr "rank" r) stmts <-> ranked l r).
Proof. exact frames_lemma. Qed.
Print Assumptions C80_frames.
(** The launch is in both lists; it is drawn with the errors, whose name comes first. *)
Example C80_example : exists g, graph_drawn as_it_is both_outputs DiagramOnly = Good (Ok g) /\
  inside ["diagram"; "cluster_nodes_errors"] (component_node (CLaunch, "work")) (gr_stmts g) /\ inside ["diagram"; "cluster_nodes_main"] (SAttr "rank" "min") (gr_stmts g).
Proof. exact frames_picture. Qed.
