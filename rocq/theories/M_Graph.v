(** * M_Graph: src/graph.rs, and its use in src/bin/pa2.rs

    A diagram is a tree of DOT statements.  Printing them is left to the library; identifiers and attribute values are printed as they are. *)
From Coq Require Import Ascii String List Bool Arith ZArith.
From Verif Require Import M_Prog M_Motion M_Config M_Manip M_Lint M_Setters M_Cli.
Import ListNotations.
Local Open Scope string_scope.

(** The statements of DOT that are used *)
Inductive stmt :=
| SAttr (k v : string)
| SNode (id : string) (attrs : list (string * string))
| SEdge (a b : string) (attrs : list (string * string))
| SSub (id : string) (stmts : list stmt).

(** 11-16 *)
Definition BUFFER_COLOR := "lightgray".
Definition REGULATOR_COLOR := "lightgray".
Definition DRAIN_COLOR := "lightpink".
Definition FAUCET_COLOR := "darkseagreen1".
Definition JUNCTION_COLOR := "papayawhip".
Definition LAUNCH_COLOR := "lightblue".

(** 19-23.  A component and the connection set that it is marked with *)
Record graph_connection := GraphConnection {
  gc_src : component; gc_src_set : option string;
  gc_via : oport;
  gc_dst : component; gc_dst_set : option string
}.

Definition marked_set (c : connection) : option string := match c with MiddleC _ _ _ _ s | StartC _ _ _ s | EndC _ _ _ s => s end.
Definition conn_output (c : connection) : option oport := match c with MiddleC _ _ _ o _ | StartC _ _ o _ => Some o | EndC _ _ _ _ => None end.
Definition conn_component (c : connection) : component := (conn_type c, conn_name c).
(** 25-53.  [src] is the connection before, if it has an output. *)
Definition graph_step (st : option (component * oport * option string) * list graph_connection) (c : connection) :=
  let '(src, r) := st in
  let r := match src with Some (s, via, set) => (r ++ [GraphConnection s set via (conn_component c) (marked_set c)])%list | None => r end in
  (match conn_output c with Some o => Some (conn_component c, o, marked_set c) | None => None end, r).
Definition convert_connection_to_graph_connection (acc : list graph_connection) (l : list connection) : list graph_connection :=
  (acc ++ snd (fold_left graph_step l (None, [])))%list.

(** 56-74.  The [HashMap] of the kinds; [and_modify] pushes at the end *)
Fixpoint push_name (t : ctype) (n : string) (m : list (ctype * list string)) : list (ctype * list string) :=
  match m with
  | [] => [(t, [n])]
  | (t', ns) :: r => if ctype_eqb t t' then (t', ns ++ [n])%list :: r else (t', ns) :: push_name t n r
  end.
Definition convert_connection_components_fold (acc : list (ctype * list string)) (l : list connection) : list (ctype * list string) :=
  fold_left (fun acc c => push_name (conn_type c) (conn_name c) acc) l acc.

(** 94-103 *)
Definition component_type_to_letter (t : ctype) : string :=
  match t with CBuffer => "b" | CDrain => "d" | CFaucet => "f" | CJunction => "j" | CLaunch => "l" | CRegulator => "r" end.
(** 105-114 *)
Definition get_node_shape (t : ctype) : string * string :=
  match t with
  | CFaucet => ("shape", "trapezium") | CDrain => ("shape", "invtrapezium") | CJunction => ("shape", "oval")
  | CBuffer => ("shape", "invhouse") | CLaunch => ("shape", "box") | CRegulator => ("shape", "house")
  end.
(** 116-125 *)
Definition get_node_color (t : ctype) : string * string :=
  match t with
  | CFaucet => ("fillcolor", FAUCET_COLOR) | CDrain => ("fillcolor", DRAIN_COLOR) | CJunction => ("fillcolor", JUNCTION_COLOR)
  | CBuffer => ("fillcolor", BUFFER_COLOR) | CRegulator => ("fillcolor", REGULATOR_COLOR) | CLaunch => ("fillcolor", LAUNCH_COLOR)
  end.
(** 127-129 *)
Definition node_id (c : component) : string := component_type_to_letter (fst c) ++ "_" ++ snd c.
(** 131-149 *)
Definition taker (x : option string) : string := match x with None => "" | Some s => s end.
Definition get_connection_set_name (gc : option graph_connection) (c : component) : string :=
  match gc with
  | Some gc => if component_eqb (gc_src gc) c then taker (gc_src_set gc) else taker (gc_dst_set gc)
  | None => ""
  end.

(** 151-166: the sets with a faucet, and those with a drain *)
Definition end_sets (connections : list graph_connection) : list string * list string :=
  fold_left (fun '(acc_faucet, acc_drain) gc =>
    match fst (gc_src gc), gc_src_set gc, fst (gc_dst gc), gc_dst_set gc with
    | CFaucet, Some s, _, _ => (acc_faucet ++ [s], acc_drain)%list
    | _, _, CDrain, Some s => (acc_faucet, acc_drain ++ [s])%list
    | _, _, _, _ => (acc_faucet, acc_drain)
    end) connections ([], []).

(** 173-179 *)
Definition first_connection (connections : list graph_connection) (c : component) : option graph_connection :=
  find (fun gc => component_eqb (gc_src gc) c || component_eqb (gc_dst gc) c) connections.
(** 182-185 *)
Definition component_node (c : component) : stmt :=
  SNode (node_id c) [("label", snd c); ("style", "filled"); get_node_shape (fst c); get_node_color (fst c)].
(** 168-190: by connection set, in the order of their names.  [components] comes in whatever order the hash map has. *)
Definition graph_components (components : list (ctype * list string)) (connections : list graph_connection) : list (string * list stmt) :=
  fold_left (fun acc '(t, names) =>
    fold_left (fun acc n =>
      let set := get_connection_set_name (first_connection connections (t, n)) (t, n) in
      bput set (match lookup set acc with Some l => l ++ [component_node (t, n)] | None => [component_node (t, n)] end)%list acc) names acc)
    components [].

(** 192-221 *)
Record front_and_back := FrontAndBack { fb_front : list stmt; fb_middle : list stmt; fb_back : list stmt }.
Definition fb_ret (f : front_and_back) : list stmt := (fb_front f ++ fb_middle f ++ fb_back f)%list.

(** 223-247 *)
Definition frame_step (faucets drains : list string) (acc : front_and_back) (kv : string * list stmt) : front_and_back :=
  let '(set, nodes) := kv in
  if set =? "" then FrontAndBack (fb_front acc) (fb_middle acc ++ nodes) (fb_back acc)
  else
    let title := """" ++ set ++ ":""" in
    let rank := if mem set faucets then "min" else if mem set drains then "max" else "same" in
    let subgraph := SSub ("cluster_nodes_" ++ set) (SAttr "label" title :: SAttr "rank" rank :: nodes) in
    if mem set faucets then FrontAndBack (fb_front acc ++ [subgraph]) (fb_middle acc) (fb_back acc)
    else if mem set drains then FrontAndBack (fb_front acc) (fb_middle acc) (fb_back acc ++ [subgraph])
    else FrontAndBack (fb_front acc) (fb_middle acc ++ [subgraph]) (fb_back acc).

(** The debug text of a port *)
Definition port_text (p : oport) : string := match p with PErr => "Err" | POut => "Out" | PExit => "Exit" end.
(** 249-258 *)
Definition connection_edge (gc : graph_connection) : stmt :=
  SEdge (node_id (gc_src gc)) (node_id (gc_dst gc)) [("label", match gc_via gc with POut => """""" | p => port_text p end)].

(** 92-267 *)
Definition get_diagram (components : list (ctype * list string)) (connections : list graph_connection) : stmt :=
  let '(faucets, drains) := end_sets connections in
  let framed := fb_ret (fold_left (frame_step faucets drains) (graph_components components connections) (FrontAndBack [] [] [])) in
  SSub "diagram" (framed ++ map connection_edge connections).

(** 269-300 *)
Definition legend_entry (name color shape : string) : stmt :=
  SSub ("cluster_legend_" ++ name) [SAttr "label" name;
    SNode ("legend_" ++ name) [("fillcolor", color); ("label", """"""); ("shape", shape); ("width", "0.3"); ("style", "filled"); ("height", "0.3")]].
Definition get_legend (draw_border : bool) : stmt :=
  SSub (if draw_border then "cluster_legend" else "graph_legend")
    [SAttr "color" "black"; SAttr "label" "Legend";
     legend_entry "launch" LAUNCH_COLOR "box";
     legend_entry "buffer" BUFFER_COLOR "invhouse";
     legend_entry "regulator" REGULATOR_COLOR "house";
     legend_entry "junction" JUNCTION_COLOR "oval";
     legend_entry "faucet" FAUCET_COLOR "trapezium";
     legend_entry "drain" DRAIN_COLOR "invtrapezium"].

(** A graph: its name, whether it is strict, its statements.  76-89 *)
Record graph := Graph { gr_id : string; gr_strict : bool; gr_stmts : list stmt }.
Definition get_graph (subgraphs : list stmt) : graph :=
  Graph "g_get_graph" true (SAttr "labeljust" "l" :: SAttr "newrank" "true" :: subgraphs).

(** src/bin/pa2.rs 571-600.  [order] is the order in which the hash map of the kinds of components is gone through. *)
Definition draw_connections (c : config) : list graph_connection :=
  fold_left (fun acc kv => convert_connection_to_graph_connection acc
    (quick_deserialized_connection_to_connection (quick_add_connection_set (fst kv) (snd kv)))) (cf_connection c) [].
Definition draw_components (c : config) : list (ctype * list string) :=
  fold_left (fun acc kv => convert_connection_components_fold acc
    (quick_deserialized_connection_to_connection (quick_add_connection_set (fst kv) (snd kv)))) (cf_connection c) [].
Definition draw (order : list (ctype * list string) -> list (ctype * list string)) (c : config) (mode : graph_mode) : graph :=
  let diagram := get_diagram (order (draw_components c)) (draw_connections c) in
  get_graph (match mode with
             | Full border => [get_legend border; diagram]
             | DiagramOnly => [diagram]
             | LegendOnly border => [get_legend border]
             end).
(** src/bin/pa2.rs 527-536 and 565-600: [pa2 graph] *)
Definition graph_drawn (order : list (ctype * list string) -> list (ctype * list string)) (c : config) (mode : graph_mode) : outcome (result graph (list string)) :=
  obind (graph_config c) (fun x => Good (match x with Ok c' => Ok (draw order c' mode) | Err e => Err e end)).
