(** * S_Waiter: what a pipeline should be built of *)
From Coq Require Import Ascii String List Bool Arith ZArith Permutation.
From Verif Require Import M_Prog M_Motion M_Connectable M_Config M_Manip M_Faucet M_Launch M_Junction M_Buffer M_Drain M_Regulator M_Lint M_Waiter S_Grammar S_Manip.
Import ListNotations.
Local Open Scope string_scope.

(** A connection from a port of one component to another. *)
Record link := Link { lk_src : component; lk_port : oport; lk_dst : component; lk_in : iport }.
Definition link_of (ab : connection * connection) : list link :=
  match output_of (fst ab), input_of (snd ab) with
  | Some o, Some i => [Link (conn_type (fst ab), conn_name (fst ab)) o (conn_type (snd ab), conn_name (snd ab)) i]
  | _, _ => []
  end.
(** All of them, in order: the neighbours in each list. *)
Definition listed (d : dconn) : list connection := match d with Connections l => l | JoinString _ => [] end.
Definition links (m : connmap) : list link := flat_map (fun kv => flat_map link_of (neighbours (listed (snd kv)))) m.
Definition numbered_links (m : connmap) : list (nat * link) := combine (seq 0 (List.length (links m))) (links m).

(** All connections are written out as chains. *)
Definition written_out (m : connmap) : Prop := Forall (fun kv => exists l, snd kv = Connections l /\ chain l) m.

(** ** What has been built *)

(** The component exists. *)
Definition has_component (w : waiter) (c : component) : Prop :=
  In (snd c) (match fst c with
              | CFaucet => keys (w_faucet w) | CLaunch => keys (w_launch w) | CJunction => keys (w_junction w)
              | CBuffer => keys (w_buffer w) | CDrain => keys (w_drain w) | CRegulator => keys (w_regulator w)
              end).
Definition opt {A} (o : option A) : list A := match o with Some a => [a] | None => [] end.
Definition of_push (p : push) : list (journey * nat) := match p with PsIoSender j n => [(j, n)] | _ => [] end.
Definition of_pull (p : pull) : list (pjourney * nat) := match p with PlReceiver j n => [(j, n)] | _ => [] end.

(** The channels out of a component, each with what the component knows about it. *)
Definition outs (w : waiter) (c : component) : list (journey * nat) :=
  let n := snd c in
  match fst c with
  | CFaucet => flat_map (fun f => flat_map of_push (opt (fc_stdout f))) (opt (lookup n (w_faucet w)))
  | CLaunch => flat_map (fun l => flat_map of_push (opt (la_stdout l)) ++ flat_map of_push (opt (la_stderr l)) ++ opt (la_exit_status l))%list (opt (lookup n (w_launch w)))
  | CJunction => flat_map (fun j => flat_map of_push (jn_stdout j)) (opt (lookup n (w_junction w)))
  | CBuffer => flat_map (fun b => flat_map of_push (opt (bf_stdout b))) (opt (lookup n (w_buffer w)))
  | CDrain => []
  | CRegulator => flat_map (fun r => flat_map of_push (opt (rg_stdout r))) (opt (lookup n (w_regulator w)))
  end.
(** The channels into a component, with their priorities. *)
Definition with_priority (z : Z) (p : pull) : list (pjourney * nat * Z) := map (fun x => (x, z)) (of_pull p).
Definition ins (w : waiter) (c : component) : list (pjourney * nat * Z) :=
  let n := snd c in
  match fst c with
  | CFaucet => flat_map (fun f => flat_map (with_priority 0) (opt (fc_stdin f))) (opt (lookup n (w_faucet w)))
  | CLaunch => flat_map (fun l => flat_map (with_priority 0) (opt (la_stdin l))) (opt (lookup n (w_launch w)))
  | CJunction => flat_map (fun j => flat_map (fun pz => with_priority (snd pz) (fst pz)) (jn_inputs j)) (opt (lookup n (w_junction w)))
  | CBuffer => flat_map (fun b => flat_map (with_priority 0) (opt (bf_stdin b))) (opt (lookup n (w_buffer w)))
  | CDrain => flat_map (fun d => flat_map (with_priority 0) (opt (dr_stdin d))) (opt (lookup n (w_drain w)))
  | CRegulator => flat_map (fun r => flat_map (with_priority 0) (opt (rg_stdin r))) (opt (lookup n (w_regulator w)))
  end.

(** A junction calls all its ports standard output. *)
Definition port_kept (c : component) (o : oport) : oport := match fst c with CJunction => POut | _ => o end.

(** The two ends of connection number [k], when [id] gives the numbers of components. *)
Definition out_end (id : component -> nat) (kl : nat * link) : journey * nat :=
  let l := snd kl in
  (J (id (lk_src l)) (Some (port_kept (lk_src l) (lk_port l))) (id (lk_dst l)) (ip_breakable (lk_in l)), fst kl).
Definition in_end (id : component -> nat) (kl : nat * link) : pjourney * nat * Z :=
  let l := snd kl in (PJ (id (lk_src l)) (id (lk_dst l)), fst kl, ip_priority (lk_in l)).
Definition leaves (c : component) (kl : nat * link) : bool := component_eqb (lk_src (snd kl)) c.
Definition arrives (c : component) (kl : nat * link) : bool := component_eqb (lk_dst (snd kl)) c.

(** The rest of what a component is, from its configuration [c] and its number. *)
Definition as_configured (c : config) (w : waiter) (id : component -> nat) : Prop :=
  (forall n f, lookup n (w_faucet w) = Some f -> fc_started f = false /\ fc_stdout_size f = 8 /\ fc_control f = None /\
     fc_read_location f = Some (match lookup n (cf_faucet c) with Some s => s | None => "" end)) /\
  (forall n d, lookup n (w_drain w) = Some d -> dr_started d = false /\
     dr_write_location d = Some (match lookup n (cf_drain c) with Some s => s | None => "" end)) /\
  (forall n l, lookup n (w_launch w) = Some l -> exists lc, lookup n (cf_launch c) = Some lc /\ lc_command lc = Some (la_command l) /\
     la_id l = id (CLaunch, n) /\ la_path l = lc_path lc /\ la_launched l = false /\
     (la_env l = Some (lc_env lc) \/ la_env l = None /\ lc_env lc = []) /\ (la_args l = Some (lc_arg lc) \/ la_args l = None /\ lc_arg lc = [])) /\
  (forall n j, lookup n (w_junction w) = Some j -> jn_started j = false /\ jn_stdout_size j = 8 /\ jn_stdin j = []) /\
  (forall n b, lookup n (w_buffer w) = Some b -> bf_stdout_size b = 8 /\ bf_monitor b = None) /\
  (forall n r, lookup n (w_regulator w) = Some r -> rg_started r = false /\ rg_stdout_size r = 8 /\ rg_control r = None).

(** The pipeline [w] is that of the configuration [cf], with connections [m]: the components are those mentioned, each with a number of its own by which
    it can be found, and the ends of channels that they hold are exactly those of the connections. *)
Record built_as (cf : config) (w : waiter) (id : component -> nat) (m := cf_connection cf) : Prop := BuiltAs {
  ba_components : forall c, has_component w c <-> is_mentioned m c;
  ba_once : NoDup (keys (w_faucet w)) /\ NoDup (keys (w_launch w)) /\ NoDup (keys (w_junction w)) /\
            NoDup (keys (w_buffer w)) /\ NoDup (keys (w_drain w)) /\ NoDup (keys (w_regulator w));
  ba_distinct : forall c c', is_mentioned m c -> is_mentioned m c' -> id c = id c' -> c = c';
  ba_names : forall i c, id_to_component_type_name w i = Some c <-> is_mentioned m c /\ id c = i;
  ba_outs : forall c, Permutation (outs w c) (map (out_end id) (filter (leaves c) (numbered_links m)));
  ba_ins : forall c, ins w c = map (in_end id) (filter (arrives c) (numbered_links m));
  ba_contents : as_configured cf w id;
  ba_settings_once : NoDup (keys (w_settings w));
  (* a regulator watches its buffers if it, and all of them, are there *)
  ba_settings : NoDup (keys (cf_regulator cf)) -> forall n s, lookup n (w_settings w) = Some s <->
    exists rc low high, In (n, rc) (cf_regulator cf) /\ rc_buffered rc = Some (low, high) /\ s = Settings low high (rc_monitored rc) /\
      is_mentioned m (CRegulator, n) /\ Forall (fun b => is_mentioned m (CBuffer, b)) (rc_monitored rc)
}.

(** What stands in the way of building. *)
Definition has_command (c : config) (n : string) : Prop := exists lc cmd, lookup n (cf_launch c) = Some lc /\ lc_command lc = Some cmd.
(** One channel can leave a port (a port of a launch, a faucet, a buffer, a regulator); any number can leave a junction. *)
Definition same_outlet (a b : link) : Prop := lk_src a = lk_src b /\ (fst (lk_src a) = CLaunch -> lk_port a = lk_port b).
Record buildable (c : config) (ls : list link) : Prop := Buildable {
  bl_commands : forall n, is_mentioned (cf_connection c) (CLaunch, n) -> has_command c n;
  bl_no_faucet : forall l, In l ls -> fst (lk_dst l) <> CFaucet;
  bl_no_drain : forall l, In l ls -> fst (lk_src l) <> CDrain;
  bl_ports : forall l, In l ls -> fst (lk_src l) = CFaucet \/ fst (lk_src l) = CRegulator -> lk_port l = POut;
  bl_priority : forall l, In l ls -> fst (lk_dst l) <> CJunction -> ip_priority (lk_in l) = 0%Z;
  bl_one_out : forall i j a b, nth_error ls i = Some a -> nth_error ls j = Some b -> same_outlet a b -> fst (lk_src a) <> CJunction -> i = j;
  bl_one_in : forall i j a b, nth_error ls i = Some a -> nth_error ls j = Some b -> lk_dst a = lk_dst b -> fst (lk_dst a) <> CJunction -> i = j
}.

(** What must be true of the configuration [c], whose connections taken apart are [p], for building to succeed once the configuration is prepared. *)
Record sound (c : config) (p : connmap) : Prop := Sound {
  so_commands : forall n, is_mentioned (cf_connection c) (CLaunch, n) -> has_command c n;
  so_no_faucet : forall k e, edge_at p k = Some e -> fst (e_dst e) <> CFaucet;
  so_no_drain : forall k e, edge_at p k = Some e -> fst (fst (e_src e)) <> CDrain;
  so_ports : forall k e, edge_at p k = Some e -> fst (fst (e_src e)) = CFaucet \/ fst (fst (e_src e)) = CRegulator -> snd (e_src e) = POut;
  so_buffers : forall k e k' e', edge_at p k = Some e -> edge_at p k' = Some e' -> fst (e_src e) = fst (e_src e') -> fst (fst (e_src e)) = CBuffer ->
    snd (e_src e) = snd (e_src e');
  so_priority : forall k e c, first_such p (fun x => e_dst x = c) k e -> fst c <> CJunction -> ip_priority (e_in e) = 0%Z
}.

(** The same, more simply: as the connections are written. *)
Definition written (m : connmap) (x : connection) : Prop := exists k l, reads m k l /\ In x l.
Record plain (c : config) (m := cf_connection c) : Prop := Plain {
  pl_commands : forall n, is_mentioned m (CLaunch, n) -> has_command c n;
  pl_faucets : forall x, written m x -> conn_type x = CFaucet -> input_of x = None;
  pl_drains : forall x, written m x -> conn_type x = CDrain -> output_of x = None;
  pl_ports : forall x o, written m x -> conn_type x = CFaucet \/ conn_type x = CRegulator -> output_of x = Some o -> o = POut;
  pl_buffers : forall x y o o', written m x -> written m y -> conn_type x = CBuffer -> conn_type y = CBuffer -> conn_name x = conn_name y ->
    output_of x = Some o -> output_of y = Some o' -> o = o';
  pl_priority : forall x i, written m x -> conn_type x <> CJunction -> input_of x = Some i -> ip_priority i = 0%Z;
  pl_configured : forall n, is_mentioned m (CDrain, n) -> lookup n (cf_drain c) <> None
}.

(** ** What is reported at the end *)
Definition counts_of (l : list (result nat waiter_error)) : list nat := flat_map (fun r => match r with Ok n => [n] | Err _ => [] end) l.
Definition errors_of (l : list (result nat waiter_error)) : list waiter_error := flat_map (fun r => match r with Ok _ => [] | Err e => [e] end) l.
Definition not_after (a b : waiter_error) : Prop := forall x y, instant a = Some x -> instant b = Some y -> x <= y.

(** ** The watching of buffers *)

(** The buffers that are watched, once for each time *)
Definition watched (l : list (string * settings)) : list string := flat_map (fun kv => st_buffers (snd kv)) l.
(** The controller of a regulator has the regulator's control and, for each buffer, what tells its size. *)
Definition controls (w' : waiter) (ks : string * settings) (c : capture) : Prop :=
  cp_low c = st_low (snd ks) /\ cp_high c = st_high (snd ks) /\
  (exists r, lookup (fst ks) (w_regulator w') = Some r /\ rg_control r = Some (rc_control (cp_control c)) /\ rc_paused (cp_control c) = false) /\
  Forall2 (fun b ch => exists bf, lookup b (w_buffer w') = Some bf /\ bf_monitor bf = Some ch) (st_buffers (snd ks)) (cp_monitors c).

(** ** Lint and building *)

(** The configuration is prepared and accepted by lint, and cannot be built. *)
Definition passes_lint_only (c : config) : Prop := good_connections (cf_connection c) /\
  exists c2 out e, process_config in_order c = Good (Ok c2, out) /\ get_waiter c2 = Good (Err e).
