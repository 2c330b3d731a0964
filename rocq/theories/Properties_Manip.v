(** * Properties of the preparation of connections: C44 to C52, C68 to C70 *)
From Coq Require Import Ascii String List Bool Arith ZArith Sorted Permutation Lia.
From Verif Require Import M_Prog M_Config M_Connectable M_Launch M_Join M_Parser M_Manip S_Trace S_World S_Launch S_Grammar S_Manip P_Map P_Pair P_Manip P_ManipExamples Properties_Launch.
Import ListNotations.
Local Open Scope string_scope.

(** C44: pairing gives, for each list and each two neighbours in it, one pair with the facing sides of the two, under names made of the name of the list
    with increasing numbers; none replaces another. *)
Theorem C44_pairs : forall m, Forall (fun kv => exists l, snd kv = Connections l /\ chain l) m ->
  exists r added, pair_up m = Good r /\ ordered r /\ pairs_of m added /\ NoDup (keys added) /\ forall k p, In (k, p) r <-> In (k, p) added.
Proof. exact pair_up_spec. Qed.
Print Assumptions C44_pairs.

(** C44, from texts: every configuration of proper connections is read and paired so. *)
Theorem C44_from_texts : forall m, Forall (fun kv => good_connection (snd kv)) m ->
  exists m1 p added, convert_connections m = Good (m1, []) /\ pair_up m1 = Good p /\ ordered p /\ all_pairs p /\
  pairs_of m1 added /\ (forall k d, In (k, d) p <-> In (k, d) added) /\ (forall k l, In (k, Connections l) m1 <-> reads m k l).
Proof. exact paired_texts. Qed.
Print Assumptions C44_from_texts.

Example C44_example : pair_up [("a", Connections [f_in; mid "x"; d_out "o"]); ("a_2", Connections [f_in; d_out "p"])] =
  Good [("a_1", Connections [f_in; x_end]); ("a_2", Connections [x_start; d_out "o"]); ("a_2_1", Connections [f_in; d_out "p"])].
Proof. reflexivity. Qed.
(** A name that is in the way is passed over. *)
Example C44_clash : option_map keys (match pair_up [("a", Connections [f_in; d_out "o"]); ("a_1", Connections [f_in; mid "x"; d_out "p"]); ("a", Connections [f_in; d_out "q"])] with Good r => Some r | _ => None end)
  = Some ["a_1"; "a_1_1"; "a_1_2"; "a_2"].
Proof. reflexivity. Qed.

(** C45: the name found is the first unused one, and it is found after at most one more attempt than there are names. *)
Theorem C45_fresh : forall k ex, exists j, 1 <= j <= S (List.length ex) /\ generate_new_key k ex = numbered k j /\
  (forall x, 1 <= x < j -> In (numbered k x) ex) /\ ~ In (numbered k j) ex.
Proof. exact new_key. Qed.
Print Assumptions C45_fresh.

Example C45_example : generate_new_key "dyn_connection" ["dyn_connection_2"; "dyn_connection_1"; "dyn_connection_4"; "a"] = "dyn_connection_3".
Proof. reflexivity. Qed.

(** C45 is false for drains as they are used: the names of the drains in the connections are not looked at, only those configured, so that a
    generated drain may be one that is there already, and has two connections then. *)
Theorem C45_drains_refuted : exists c c' out, good_connections (cf_connection c) /\ is_mentioned (cf_connection c) (CDrain, "dyn_drain_1") /\
  connection_manipulation in_order c = Good (c', out) /\ ~ one_arrives (cf_connection c') (CDrain, "dyn_drain_1").
Proof. exact drain_clash. Qed.
Print Assumptions C45_drains_refuted.

(** C46: of the components that were there nothing has two connections arriving, and no port two connections leaving. *)
Theorem C46_spread : forall sh m, fair sh -> ordered m -> all_pairs m -> exists r, add_junctions sh m = Good r /\
  (forall c, occurs m c -> one_arrives r c) /\ (forall c o, occurs m c -> one_leaves r (c, o)).
Proof. exact junctions_spread. Qed.
Print Assumptions C46_spread.

(** C46, for the preparation as a whole (for the exception see C45_drains_refuted). *)
Theorem C46_prepared : forall sh c, fair sh -> good_connections (cf_connection c) -> exists c' out, connection_manipulation sh c = Good (c', out) /\
  forall x, is_mentioned (cf_connection c) x ->
    (forall o, one_leaves (cf_connection c') (x, o)) /\
    ((fst x = CDrain -> lookup (snd x) (cf_drain c) <> None) -> one_arrives (cf_connection c') x).
Proof. exact prepared_spread. Qed.
Print Assumptions C46_prepared.

(** C47: the ways from a port to a component through new junctions are the connections between them, each in exactly one way. *)
Theorem C47_routes : forall sh m, fair sh -> ordered m -> all_pairs m -> exists r, add_junctions sh m = Good r /\
  forall s d, occurs m (fst s) -> same_routes m r s d.
Proof. exact junctions_routes. Qed.
Print Assumptions C47_routes.

(** C48: each connection keeps its key and its input port; new connections are marked Finish and have the priority of the first of the connections that they serve. *)
Theorem C48_marks : forall sh m, fair sh -> ordered m -> all_pairs m -> exists r, add_junctions sh m = Good r /\
  (forall k e, edge_at m k = Some e -> exists e', edge_at r k = Some e' /\ e_in e' = e_in e) /\
  (forall k e, edge_at m k = None -> edge_at r k = Some e -> ip_breakable (e_in e) = Finish /\
     (occurs m (fst (e_src e)) -> exists k0 e0, first_such m (fun x => e_src x = e_src e) k0 e0 /\ ip_priority (e_in e) = ip_priority (e_in e0)) /\
     (occurs m (e_dst e) -> exists k0 e0, first_such m (fun x => e_dst x = e_dst e) k0 e0 /\ ip_priority (e_in e) = ip_priority (e_in e0))).
Proof. exact junctions_marks. Qed.
Print Assumptions C48_marks.

(** C68: what is not shared is left alone, and each new connection joins a shared port or component that was there to a new junction. *)
Theorem C68_only_shared : forall sh m, fair sh -> ordered m -> all_pairs m -> exists r, add_junctions sh m = Good r /\
  (forall k e, edge_at m k = Some e -> one_leaves m (e_src e) -> one_arrives m (e_dst e) -> edge_at r k = Some e) /\
  (forall k e, edge_at m k = None -> edge_at r k = Some e ->
     (occurs m (fst (e_src e)) /\ ~ one_leaves m (e_src e) /\ ~ occurs m (e_dst e) /\ fst (e_dst e) = CJunction) \/
     (occurs m (e_dst e) /\ ~ one_arrives m (e_dst e) /\ ~ occurs m (fst (e_src e)) /\ fst (fst (e_src e)) = CJunction)).
Proof. exact junctions_only_shared. Qed.
Print Assumptions C68_only_shared.

(** Two users of one output, one of which has another input: the kept connection, the two moved ones and the two new ones *)
Example C46_example : add_junctions in_order shared_map =
  Good [("a_1", Connections [StartC CJunction "junction_1" POut None; EndC CDrain "o" (InPort Consume 3) None]);
        ("b_1", Connections [StartC CJunction "junction_1" POut None; EndC CJunction "junction_2" (InPort Terminate 2) None]);
        ("c_1", Connections [StartC CFaucet "two" POut None; EndC CJunction "junction_2" (InPort Finish 1) None]);
        ("d_1", Connections [StartC CLaunch "x" POut (Some "s"); EndC CDrain "p" (InPort Terminate 0) None]);
        ("dyn_connection_1", Connections [StartC CFaucet "in" POut None; EndC CJunction "junction_1" (InPort Finish 3) None]);
        ("dyn_connection_2", Connections [StartC CJunction "junction_2" POut None; EndC CLaunch "x" (InPort Finish 2) None])] /\
  ordered shared_map /\ all_pairs shared_map /\ ~ one_leaves shared_map (CFaucet, "in", POut) /\ ~ one_arrives shared_map (CLaunch, "x").
Proof. exact shared_example. Qed.
Example C47_example : exists r, add_junctions in_order shared_map = Good r /\
  route shared_map r (CFaucet, "in", POut) (CLaunch, "x") ["dyn_connection_1"; "b_1"; "dyn_connection_2"].
Proof. exact shared_route. Qed.

(** C49: after the preparation each launch that has a connection out of it has exactly one connection of its exit port; configured drains and the other
    sections are kept. *)
Theorem C49_one_exit : forall sh c, fair sh -> good_connections (cf_connection c) -> exists c' out, connection_manipulation sh c = Good (c', out) /\
  (forall n, is_source (cf_connection c) (CLaunch, n) -> exactly_one_leaves (cf_connection c') (exit_of n)) /\
  (forall d v, lookup d (cf_drain c) = Some v -> lookup d (cf_drain c') = Some v) /\
  cf_faucet c' = cf_faucet c /\ cf_regulator c' = cf_regulator c /\ cf_launch c' = cf_launch c.
Proof. exact one_exit. Qed.
Print Assumptions C49_one_exit.

(** C49: the connections are those there were after the junctions, and for launches without one an exit connection to a new drain. *)
Theorem C49_rest_kept : forall sh c, fair sh -> good_connections (cf_connection c) -> exists c' out m1 p r, connection_manipulation sh c = Good (c', out) /\
  convert_connections (cf_connection c) = Good (m1, []) /\ pair_up m1 = Good p /\ add_junctions sh p = Good r /\
  (forall k d, lookup k r = Some d -> lookup k (cf_connection c') = Some d) /\
  (forall k d, lookup k (cf_connection c') = Some d -> lookup k r = Some d \/
     exists n dn, d = spy_connection n dn /\ launches_out r n /\ (forall k e, edge_at r k = Some e -> e_src e <> exit_of n) /\
       lookup dn (cf_drain c) = None /\ lookup dn (cf_drain c') = Some "/dev/null").
Proof. exact rest_kept. Qed.
Print Assumptions C49_rest_kept.

Example C49_example : exists c', connection_manipulation in_order two_launches = Good (c', [["out"; "dyn_drain_1"]]) /\
  keys (cf_connection c') = ["dyn_connection_1"; "l_1"; "l_2"; "l_3"; "x_1"] /\
  lookup "dyn_connection_1" (cf_connection c') = Some (spy_connection "b" "dyn_drain_2") /\
  cf_drain c' = [("out", "-"); ("dyn_drain_1", "/tmp/exit"); ("dyn_drain_2", "/dev/null")] /\
  good_connections (cf_connection two_launches) /\ is_source (cf_connection two_launches) (CLaunch, "b").
Proof. exact two_launches_example. Qed.

(** C50 is false: a launch that is only ever at the end of a connection gets no exit connection, and then nobody asks for its exit status. *)
Theorem C50_sink_refuted : exists c c' out, good_connections (cf_connection c) /\ is_mentioned (cf_connection c) (CLaunch, "last") /\
  connection_manipulation in_order c = Good (c', out) /\ occurs (cf_connection c') (CLaunch, "last") /\
  (forall k e, edge_at (cf_connection c') k = Some e -> e_src e <> exit_of "last") /\
  (forall cwd vars l spy L st, launch_ready l -> la_exit_status l = None -> launch_start cwd vars l spy L st -> statuses (own 0 L) = []).
Proof. exact sink_launch. Qed.
Print Assumptions C50_sink_refuted.

(** C50, the part that holds: a launch with a connection out of it has its exit port connected.  (Missing: the launches without one.) *)
Theorem C50_sources_partial : forall sh c, fair sh -> good_connections (cf_connection c) -> exists c' out, connection_manipulation sh c = Good (c', out) /\
  forall n, is_source (cf_connection c) (CLaunch, n) -> exists k e, edge_at (cf_connection c') k = Some e /\ e_src e = exit_of n.
Proof. exact sources_awaited. Qed.
Print Assumptions C50_sources_partial.

(** C51 is false: a text that is not a connection makes the preparation panic, whatever else there is. *)
Theorem C51_reported_refuted : exists c msg s, cf_connection c = [("a", JoinString s)] /\ (forall l, ~ connection_text l s) /\
  connection_manipulation in_order c = Crash msg.
Proof. exact bad_text_witness. Qed.
Print Assumptions C51_reported_refuted.
Theorem C51_panics : forall sh c k s, In (k, JoinString s) (cf_connection c) -> (forall l, ~ connection_text l s) ->
  exists msg, connection_manipulation sh c = Crash msg.
Proof. exact bad_text_crashes. Qed.
Print Assumptions C51_panics.

(** C52 is false: whenever the preparation succeeds it prints one line, the names of the configured drains. *)
Theorem C52_prints_refuted : exists c c' out, good_connections (cf_connection c) /\ connection_manipulation in_order c = Good (c', out) /\ out <> [].
Proof. exists (Config [] [] [] [] []). eexists. eexists. split; [split; constructor|]. split; [reflexivity|discriminate]. Qed.
Print Assumptions C52_prints_refuted.
Theorem C52_one_line : forall sh c c' out, connection_manipulation sh c = Good (c', out) -> out = [keys (cf_drain c)].
Proof. exact prints. Qed.
Print Assumptions C52_one_line.

(** C69: every configuration of proper connections can be prepared; but a list of connections with one element cannot. *)
Theorem C69_prepared_partial : forall sh c, fair sh -> good_connections (cf_connection c) -> exists c' out, connection_manipulation sh c = Good (c', out).
Proof. exact can_prepare. Qed.
Print Assumptions C69_prepared_partial.
Theorem C69_single_refuted : exists c msg, cf_connection c = [("a", Connections [f_in])] /\ connection_manipulation in_order c = Crash msg.
Proof. exists (Config [] [] [] [] [("a", Connections [f_in])]). eexists. split; reflexivity. Qed.
Print Assumptions C69_single_refuted.
Theorem C69_single_panics : forall sh c k x, In (k, Connections [x]) (cf_connection c) -> exists msg, connection_manipulation sh c = Crash msg.
Proof. exact single_crashes. Qed.
Print Assumptions C69_single_panics.

(** C70 is false: the result depends on the order in which a hash table is gone through. *)
Theorem C70_deterministic_refuted : exists sh sh' m r r', fair sh /\ fair sh' /\ ordered m /\ all_pairs m /\
  add_junctions sh m = Good r /\ add_junctions sh' m = Good r' /\ r <> r'.
Proof. exact order_matters. Qed.
Print Assumptions C70_deterministic_refuted.
