(** * P_ManipExamples: configurations for examples and refutations *)
From Coq Require Import Ascii String List Bool Arith ZArith Sorted Permutation Lia.
From Verif Require Import M_Prog M_Config M_Connectable M_Launch M_Join M_Parser M_Manip S_Trace S_World S_Launch S_Grammar S_Manip P_Map P_Parser P_Pair P_Junctions P_Junctions2 P_Manip Properties_Launch.
Import ListNotations.
Local Open Scope string_scope.

Definition f_in : connection := StartC CFaucet "in" POut None.
Definition d_out (n : string) : connection := EndC CDrain n (InPort Terminate 0) None.
Definition mid (n : string) : connection := MiddleC CLaunch n (InPort Consume 2) PErr None.
Definition x_end : connection := EndC CLaunch "x" (InPort Consume 2) None.
Definition x_start : connection := StartC CLaunch "x" PErr None.

Lemma paired_texts m : Forall (fun kv => good_connection (snd kv)) m -> exists m1 p added, convert_connections m = Good (m1, []) /\ pair_up m1 = Good p /\ ordered p /\ all_pairs p /\
  pairs_of m1 added /\ (forall k d, In (k, d) p <-> In (k, d) added) /\ (forall k l, In (k, Connections l) m1 <-> reads m k l).
Proof. intros H. destruct (paired m H) as (m1 & p & added & H1 & H2 & H3 & H4 & H5 & H6 & H7 & _). exists m1, p, added. auto 10. Qed.

Ltac sorted := unfold ordered; cbn; repeat (constructor; [repeat constructor|repeat constructor]); try constructor.

(** A drain of the flow without configuration *)
Definition clash : config := Config [] [] [] [] [("l", JoinString "f:in | l:a | d:dyn_drain_1")].
Lemma good_text s l : load_connection_from_string s = Good (Some l) -> good_connection (JoinString s).
Proof. intros H. exists l. apply load_exact. exact H. Qed.
Lemma drain_clash : exists c c' out, good_connections (cf_connection c) /\ is_mentioned (cf_connection c) (CDrain, "dyn_drain_1") /\
  connection_manipulation in_order c = Good (c', out) /\ ~ one_arrives (cf_connection c') (CDrain, "dyn_drain_1").
Proof.
  exists clash. eexists. eexists. split; [|split; [|split; [vm_compute; reflexivity|]]].
  - split; [repeat constructor|]. repeat constructor. eapply good_text. vm_compute. reflexivity.
  - exists "l", [f_in; MiddleC CLaunch "a" (InPort Terminate 0) POut None; d_out "dyn_drain_1"], (d_out "dyn_drain_1").
    split; [|split; [right; right; left; reflexivity|reflexivity]]. eexists. split; [left; reflexivity|]. right. eexists. split; [reflexivity|].
    apply load_exact. vm_compute. reflexivity.
  - intros H. assert (E : "l_2" = "dyn_connection_1"); [|discriminate]. eapply H; [reflexivity|reflexivity|reflexivity|reflexivity].
Qed.

Definition shared_map : connmap :=
  [("a_1", Connections [f_in; EndC CDrain "o" (InPort Consume 3) None]);
   ("b_1", Connections [f_in; EndC CLaunch "x" (InPort Terminate 2) None]);
   ("c_1", Connections [StartC CFaucet "two" POut None; EndC CLaunch "x" (InPort Finish 1) None]);
   ("d_1", Connections [StartC CLaunch "x" POut (Some "s"); EndC CDrain "p" (InPort Terminate 0) None])].
Lemma shared_example : add_junctions in_order shared_map =
  Good [("a_1", Connections [StartC CJunction "junction_1" POut None; EndC CDrain "o" (InPort Consume 3) None]);
        ("b_1", Connections [StartC CJunction "junction_1" POut None; EndC CJunction "junction_2" (InPort Terminate 2) None]);
        ("c_1", Connections [StartC CFaucet "two" POut None; EndC CJunction "junction_2" (InPort Finish 1) None]);
        ("d_1", Connections [StartC CLaunch "x" POut (Some "s"); EndC CDrain "p" (InPort Terminate 0) None]);
        ("dyn_connection_1", Connections [StartC CFaucet "in" POut None; EndC CJunction "junction_1" (InPort Finish 3) None]);
        ("dyn_connection_2", Connections [StartC CJunction "junction_2" POut None; EndC CLaunch "x" (InPort Finish 2) None])] /\
  ordered shared_map /\ all_pairs shared_map /\ ~ one_leaves shared_map (CFaucet, "in", POut) /\ ~ one_arrives shared_map (CLaunch, "x").
Proof.
  split; [vm_compute; reflexivity|]. split; [unfold ordered; cbn; repeat constructor|]. split; [repeat constructor; discriminate|]. split; intros H.
  - assert (E : "a_1" = "b_1"); [|discriminate]. eapply H; reflexivity.
  - assert (E : "b_1" = "c_1"); [|discriminate]. eapply H; reflexivity.
Qed.
Lemma shared_route : exists r, add_junctions in_order shared_map = Good r /\
  route shared_map r (CFaucet, "in", POut) (CLaunch, "x") ["dyn_connection_1"; "b_1"; "dyn_connection_2"].
Proof.
  eexists. split; [apply shared_example|].
  assert (N : forall n, n <> "o" -> ~ occurs shared_map (CJunction, n)).
  { intros n _ (k & e & He & Hc). unfold edge_at in He. destruct (lookup k shared_map) as [d|] eqn:E; [|discriminate]. apply lookup_in in E.
    cbn in E. decompose [or] E; try easy; match goal with H : (_, _) = (_, d) |- _ => injection H as _ <- end; cbn in He; injection He as <-; cbn in Hc; intuition congruence. }
  eapply R_via with (o := POut); [reflexivity|reflexivity|apply N; discriminate|].
  eapply R_via with (o := POut); [reflexivity|reflexivity|apply N; discriminate|].
  eapply R_direct; [reflexivity|reflexivity|reflexivity|]. exists "b_1". eexists. split; [reflexivity|]. right. reflexivity.
Qed.

Definition two_launches : config := Config [("in", "-")] [] [("out", "-"); ("dyn_drain_1", "/tmp/exit")] []
  [("l", JoinString "f:in | l:a | l:b | d:out"); ("x", JoinString "l:a[X] | d:dyn_drain_1")].
Lemma two_launches_example : exists c', connection_manipulation in_order two_launches = Good (c', [["out"; "dyn_drain_1"]]) /\
  keys (cf_connection c') = ["dyn_connection_1"; "l_1"; "l_2"; "l_3"; "x_1"] /\
  lookup "dyn_connection_1" (cf_connection c') = Some (spy_connection "b" "dyn_drain_2") /\
  cf_drain c' = [("out", "-"); ("dyn_drain_1", "/tmp/exit"); ("dyn_drain_2", "/dev/null")] /\
  good_connections (cf_connection two_launches) /\ is_source (cf_connection two_launches) (CLaunch, "b").
Proof.
  eexists. split; [vm_compute; reflexivity|]. split; [reflexivity|]. split; [reflexivity|]. split; [reflexivity|]. split.
  - split; [unfold ordered; cbn; repeat constructor|]. repeat constructor; (eapply good_text; vm_compute; reflexivity).
  - exists "l", [f_in; MiddleC CLaunch "a" (InPort Terminate 0) POut None; MiddleC CLaunch "b" (InPort Terminate 0) POut None; d_out "out"], (MiddleC CLaunch "b" (InPort Terminate 0) POut None), POut. split; [|split; [right; right; left; reflexivity|split; reflexivity]].
    eexists. split; [left; reflexivity|]. right. eexists. split; [reflexivity|]. apply load_exact. vm_compute. reflexivity.
Qed.

Definition sink : config := Config [("in", "-")] [] [] [] [("l", JoinString "f:in | l:last")].
Lemma sink_launch : exists c c' out, good_connections (cf_connection c) /\ is_mentioned (cf_connection c) (CLaunch, "last") /\
  connection_manipulation in_order c = Good (c', out) /\ occurs (cf_connection c') (CLaunch, "last") /\
  (forall k e, edge_at (cf_connection c') k = Some e -> e_src e <> exit_of "last") /\
  (forall cwd vars l spy L st, launch_ready l -> la_exit_status l = None -> launch_start cwd vars l spy L st -> statuses (own 0 L) = []).
Proof.
  exists sink. eexists. eexists. split; [|split; [|split; [vm_compute; reflexivity|split; [|split; [|exact C33_unconnected]]]]].
  - split; [repeat constructor|]. repeat constructor. eapply good_text. vm_compute. reflexivity.
  - exists "l", [f_in; EndC CLaunch "last" (InPort Terminate 0) None], (EndC CLaunch "last" (InPort Terminate 0) None). split; [|split; [right; left; reflexivity|reflexivity]].
    eexists. split; [left; reflexivity|]. right. eexists. split; [reflexivity|]. apply load_exact. vm_compute. reflexivity.
  - exists "l_1". eexists. split; [reflexivity|]. right. reflexivity.
  - intros k e He. unfold edge_at in He. cbn [cf_connection lookup] in He. destruct (String.eqb k "l_1"); [|discriminate]. cbn in He. injection He as <-. discriminate.
Qed.
Lemma sources_awaited sh c : fair sh -> good_connections (cf_connection c) -> exists c' out, connection_manipulation sh c = Good (c', out) /\
  forall n, is_source (cf_connection c) (CLaunch, n) -> exists k e, edge_at (cf_connection c') k = Some e /\ e_src e = exit_of n.
Proof. intros Hf Hg. destruct (one_exit sh c Hf Hg) as (c' & out & E & H & _). exists c', out. split; [exact E|]. intros n Hn. apply (H n Hn). Qed.

Lemma bad_text_witness : exists c msg s, cf_connection c = [("a", JoinString s)] /\ (forall l, ~ connection_text l s) /\ connection_manipulation in_order c = Crash msg.
Proof.
  exists (Config [] [] [] [] [("a", JoinString "f:in | ")]). eexists. exists "f:in | ". split; [reflexivity|]. split; [|vm_compute; reflexivity].
  intros l H. apply load_exact in H. vm_compute in H. discriminate.
Qed.

Lemma can_prepare sh c : fair sh -> good_connections (cf_connection c) -> exists c' out, connection_manipulation sh c = Good (c', out).
Proof. intros Hf [_ Hg]. destruct (prepare sh c Hf Hg) as (c' & p & r & E & _). eauto. Qed.
Lemma convert_same m m1 w : convert_connections m = Good (m1, w) -> forall k l, In (k, Connections l) m -> In (k, Connections l) m1.
Proof.
  unfold convert_connections. revert m1 w. induction m as [|[k0 d] m IH]; intros m1 w; cbn [omap]; [intros _ k l []|].
  destruct (convert_one (k0, d)) as [x|] eqn:E0; [|discriminate]. cbn [obind]. destruct (omap convert_one m) as [r|] eqn:Er; [|discriminate].
  cbn [obind map flat_map]. intros [= <- <-] k l Hin. destruct Hin as [Heq|Hin].
  - injection Heq as -> ->. left. cbn in E0. injection E0 as <-. reflexivity.
  - right. eapply IH; eauto. reflexivity.
Qed.
Lemma single_crashes sh c k x : In (k, Connections [x]) (cf_connection c) -> exists msg, connection_manipulation sh c = Crash msg.
Proof.
  intros Hin. unfold connection_manipulation. destruct (convert_connections (cf_connection c)) as [[m1 w]|msg] eqn:E; [|cbn; eauto]. cbn [obind].
  pose proof (convert_same _ _ _ E _ _ Hin) as Hin1. unfold pair_up.
  edestruct (ofold_crash rebuild_pair_up_connections_folder m1 _ Hin1) as (msg & Em); [|rewrite Em; cbn; eauto].
  intros b. cbn. eauto.
Qed.

Definition backwards : shuffles := Shuffles (fun l => rev l) (fun l => rev l) (fun l => rev l).
Definition two_shared : connmap :=
  [("a_1", Connections [f_in; d_out "o"]); ("b_1", Connections [f_in; d_out "p"]); ("c_1", Connections [x_start; d_out "q"]); ("d_1", Connections [x_start; d_out "r"])].
Lemma order_matters : exists sh sh' m r r', fair sh /\ fair sh' /\ ordered m /\ all_pairs m /\
  add_junctions sh m = Good r /\ add_junctions sh' m = Good r' /\ r <> r'.
Proof.
  exists in_order, backwards, two_shared. eexists. eexists. split; [repeat split; intros; apply Permutation_refl|].
  split; [repeat split; intros; apply Permutation_sym, Permutation_rev|]. split; [unfold ordered; cbn; repeat constructor|]. split; [repeat constructor; discriminate|].
  split; [vm_compute; reflexivity|]. split; [vm_compute; reflexivity|]. discriminate.
Qed.
