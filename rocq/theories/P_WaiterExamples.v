(** * P_WaiterExamples: configurations for examples and refutations; the last lemmas about building *)
From Coq Require Import Ascii String List Bool Arith ZArith Lia Permutation Sorted.
From Verif Require Import M_Prog M_Motion M_Connectable M_Config M_Parser M_Manip M_Faucet M_Launch M_Junction M_Buffer M_Drain M_Regulator M_Lint M_Waiter S_Grammar S_Manip S_Lint S_Waiter P_Text P_Map P_Parser P_Pair P_Junctions P_Junctions2 P_Manip P_Lint P_Cell P_Wire P_Build P_Ready P_Result P_ManipExamples.
Import ListNotations.
Local Open Scope string_scope.

(** ** [pa2 process] *)
Lemma convert_pairs m : all_pairs m -> convert_connections m = Good (m, []).
Proof.
  induction 1 as [|[k d] m Hd Hm IH]; [reflexivity|]. cbn [snd] in Hd. destruct (edge_of d) as [e|] eqn:E; [|congruence].
  apply edge_shape in E as (t & n & o & s & t' & n' & i & s' & -> & ->). revert IH. unfold convert_connections. cbn [omap convert_one fst snd obind].
  destruct (omap convert_one m) as [l|]; cbn [obind]; [|discriminate]. intros [= H1 H2]. cbn. rewrite H1, H2. reflexivity.
Qed.
Lemma with_same c : with_connection c (cf_connection c) = c.
Proof. destruct c. reflexivity. Qed.
Lemma lint_pairs c c' ws : all_pairs (cf_connection c) -> lint c = Good (c', ws) -> c' = c.
Proof.
  intros H. unfold lint. rewrite (convert_pairs _ H). cbn [obind]. rewrite with_same. destruct (ofold _ _ _); cbn [obind]; [|discriminate]. intros [= <- _]. reflexivity.
Qed.
Lemma process_prepared sh c c2 out : fair sh -> good_connections (cf_connection c) -> process_config sh c = Good (Ok c2, out) ->
  connection_manipulation sh c = Good (c2, out) /\ all_pairs (cf_connection c2).
Proof.
  intros Hf [_ Hg] H. destruct (prepare sh c Hf Hg) as (c' & p & r & E & P). unfold process_config in H. rewrite E in *. cbn [obind] in H.
  destruct (lint c') as [[c3 ws]|] eqn:El; cbn [obind] in H; [|discriminate]. pose proof (lint_pairs _ _ _ (pr_pairs _ _ _ _ _ P) El) as ->.
  destruct (filter serious ws); [|discriminate]. injection H as <- <-. split; [reflexivity|]. exact (pr_pairs _ _ _ _ _ P).
Qed.

Theorem process_builds sh c c2 out : fair sh -> good_connections (cf_connection c) -> plain c -> process_config sh c = Good (Ok c2, out) ->
  exists w id, get_waiter c2 = Good (Ok w) /\ built_as c2 w id.
Proof.
  intros Hf Hg Hp H. destruct (process_prepared _ _ _ _ Hf Hg H) as [E _]. destruct (ready_plain sh c Hf Hg Hp) as (c' & out' & w & id & E' & Hw & Hb).
  rewrite E in E'. injection E' as <- _. eauto.
Qed.
Theorem process_exact sh c c2 out : fair sh -> good_connections (cf_connection c) -> (forall n, is_mentioned (cf_connection c) (CDrain, n) -> lookup n (cf_drain c) <> None) ->
  process_config sh c = Good (Ok c2, out) ->
  exists m1 p, convert_connections (cf_connection c) = Good (m1, []) /\ pair_up m1 = Good p /\
    (sound c p -> exists w, get_waiter c2 = Good (Ok w)) /\ (~ sound c p -> exists e, get_waiter c2 = Good (Err e)).
Proof.
  intros Hf Hg Hd H. destruct (process_prepared _ _ _ _ Hf Hg H) as [E _]. destruct (ready_exact sh c Hf Hg Hd) as (c' & out' & m1 & p & E' & E1 & E2 & G1 & G2).
  rewrite E in E'. injection E' as <- _. exists m1, p. auto.
Qed.

(** ** Priorities into what is shared *)
Lemma priority_fails sh c d : fair sh -> good_connections (cf_connection c) -> (forall n, is_mentioned (cf_connection c) (CDrain, n) -> lookup n (cf_drain c) <> None) ->
  fst d <> CJunction -> (exists x, written (cf_connection c) x /\ (conn_type x, conn_name x) = d /\ input_of x <> None) ->
  (forall x i, written (cf_connection c) x -> (conn_type x, conn_name x) = d -> input_of x = Some i -> ip_priority i <> 0%Z) ->
  exists c' out e, connection_manipulation sh c = Good (c', out) /\ get_waiter c' = Good (Err e).
Proof.
  intros Hf Hgc Hd Hj (x & (k & l & Hk & Hx) & Hc & Hin) Hall. destruct (ready_exact sh c Hf Hgc Hd) as (c' & out & m1 & p & E & E1 & E2 & _ & G).
  destruct Hgc as [_ Hg]. destruct (paired _ Hg) as (m1' & p' & added & E1' & E2' & Ho & Hp & Hpo & Hi & Hr & Hch).
  rewrite E1 in E1'. injection E1' as <-. rewrite E2 in E2'. injection E2' as <-.
  destruct G as (e & He); [|exists c', out, e; auto]. intros [_ _ _ _ _ S6].
  pose proof (from_written c p m1 added Hpo Ho Hi Hr) as W.
  (* there is a connection to [d] *)
  assert (Hsome : exists k e, edge_at p k = Some e /\ e_dst e = d).
  { apply Hr in Hk. pose proof Hch as Hch'. unfold chains in Hch'. rewrite Forall_forall in Hch'. destruct (Hch' _ Hk) as (l' & Hl' & Hchl). cbn in Hl'. injection Hl' as <-.
    destruct Hchl as [|t n o s l' Ht]; [destruct Hx|]. destruct Hx as [<-|Hx]; [cbn in Hin; congruence|].
    destruct (tail_before _ Ht t n o s x Hx) as (a & Ha & Hoa). destruct (output_of a) as [o'|] eqn:Eo; [|congruence].
    destruct (pairs_in _ _ Hpo _ _ _ Hk Ha) as (k' & dd & Hin' & Hpair). destruct (pair_edge _ _ _ _ Hpair Eo) as (i & Hi' & He').
    exists k'. eexists. split; [eapply in_edge; [exact Ho|apply Hi; exact Hin'|exact He']|]. exact Hc. }
  (* so there is a first one *)
  assert (Hfirst : exists k e, first_such p (fun y => e_dst y = d) k e).
  { clear -Hsome Ho. unfold first_such. induction p as [|[k0 d0] p IH]; [destruct Hsome as (k & e & H & _); discriminate|].
    pose proof (ordered_nodup _ Ho) as Hnd. cbn [keys map fst] in Hnd. inversion Hnd as [|? ? Hk0 _]; subst.
    unfold ordered in Ho. cbn [keys map fst] in Ho. inversion Ho as [|? ? Ho' Hlt]; subst. rewrite Forall_forall in Hlt.
    destruct (edge_of d0) as [e0|] eqn:Ed; [destruct (component_eqb_spec (e_dst e0) d) as [Eq|Ne]|].
    - exists k0, e0. rewrite edge_at_cons, String.eqb_refl. split; [exact Ed|]. split; [exact Eq|]. intros k' e'. rewrite edge_at_cons. destruct (String.eqb_spec k' k0) as [->|]; [auto|].
      intros He _. right. apply Hlt. apply edge_in_keys in He. exact He.
    - destruct IH as (k & e & H1 & H2 & H3); [exact Ho'| |].
      + destruct Hsome as (k & e & He & Hde). rewrite edge_at_cons in He. destruct (String.eqb_spec k k0) as [->|]; [congruence|eauto].
      + exists k, e. rewrite edge_at_cons. destruct (String.eqb_spec k k0) as [->|]; [apply edge_in_keys in H1; contradiction|]. split; [exact H1|]. split; [exact H2|].
        intros k' e'. rewrite edge_at_cons. destruct (String.eqb_spec k' k0) as [->|]; [congruence|apply H3].
    - destruct IH as (k & e & H1 & H2 & H3); [exact Ho'| |].
      + destruct Hsome as (k & e & He & Hde). rewrite edge_at_cons in He. destruct (String.eqb_spec k k0) as [->|]; [congruence|eauto].
      + exists k, e. rewrite edge_at_cons. destruct (String.eqb_spec k k0) as [->|]; [apply edge_in_keys in H1; contradiction|]. split; [exact H1|]. split; [exact H2|].
        intros k' e'. rewrite edge_at_cons. destruct (String.eqb_spec k' k0) as [->|]; [congruence|apply H3]. }
  destruct Hfirst as (k1 & e1 & F). pose proof (S6 _ _ _ F Hj) as Hz. destruct F as (F1 & F2 & _). destruct (W _ _ F1) as (a & b & _ & Wb & _ & _ & Ib & Eb).
  apply (Hall b (e_in e1) Wb); [congruence|exact Ib|exact Hz].
Qed.

(** ** The settings of a built pipeline *)
Lemma nodup_lookup {V} (m : list (string * V)) k v : NoDup (keys m) -> In (k, v) m -> lookup k m = Some v.
Proof. apply in_lookup. Qed.
Theorem watch_exact c w l : written_out (cf_connection c) -> NoDup (keys (cf_regulator c)) -> get_waiter c = Good (Ok w) -> Permutation l (w_settings w) ->
  (NoDup (watched l) -> exists w' cs, regulator_settings w l = Good (Ok (w', cs)) /\ Forall2 (controls w') l cs /\
     (forall b, ~ In b (watched l) -> lookup b (w_buffer w') = lookup b (w_buffer w)) /\ (forall n, ~ In n (keys l) -> lookup n (w_regulator w') = lookup n (w_regulator w))) /\
  (~ NoDup (watched l) -> exists msg, regulator_settings w l = Crash msg).
Proof.
  intros Hw Hnd Hg Hp. destruct (get_waiter_exact c Hw) as (_ & _ & G). destruct (G w Hg) as (_ & id & B). pose proof (ba_components _ _ _ B) as B1. destruct (ba_contents _ _ _ B) as (_ & _ & _ & _ & Cb & Cr). pose proof (ba_settings_once _ _ _ B) as B8. pose proof (ba_settings _ _ _ B) as B9.
  assert (Hin : forall n s, In (n, s) l -> is_mentioned (cf_connection c) (CRegulator, n) /\ Forall (fun b => is_mentioned (cf_connection c) (CBuffer, b)) (st_buffers s)).
  { intros n s Hi. apply (Permutation_in _ Hp) in Hi. apply (in_lookup _ _ _ B8) in Hi. apply (B9 Hnd) in Hi as (rc & lo & hi & _ & _ & -> & H1 & H2). auto. }
  assert (Hb : forall b, In b (watched l) -> exists bf, lookup b (w_buffer w) = Some bf).
  { intros b Hb. unfold watched in Hb. apply in_flat_map in Hb as ([n s] & Hi & Hb). destruct (Hin _ _ Hi) as [_ H2]. rewrite Forall_forall in H2. specialize (H2 b Hb).
    apply B1 in H2. unfold has_component in H2. cbn [fst snd] in H2. apply lookup_key in H2. destruct (lookup b (w_buffer w)); [eauto|congruence]. }
  assert (Hu : unwatched w (watched l)) by (intros b bf _ Hl; apply (Cb b bf Hl)).
  destruct (settings_exact l w) as [S1 S2].
  - eapply Permutation_NoDup; [|exact B8]. apply Permutation_map, Permutation_sym, Hp.
  - intros n s Hi. destruct (Hin _ _ Hi) as [H1 _]. apply B1 in H1. unfold has_component in H1. cbn [fst snd] in H1. apply lookup_key in H1. destruct (lookup n (w_regulator w)) as [r|] eqn:E; [|congruence].
    exists r. split; [reflexivity|]. apply (Cr n r E).
  - exact Hb.
  - split; [intros H; apply S1; auto|]. intros H. apply S2. intros [H1 _]. exact (H H1).
Qed.

(** ** Examples *)
Definition runs (s : string) : launch_config := LaunchConfig (Some s) None [] [].
Definition one_line (cs : list (string * launch_config)) (regs : list (string * regulator_config)) (conns : connmap) : config :=
  Config [("in", "-"); ("in2", "-")] regs [("out", "-")] cs conns.
Definition watch_q : regulator_config := RegulatorConfig (Some (5, 20)) ["q"].
Definition good_line : config := one_line [("a", runs "cat")] [("reg", watch_q)] [("l", JoinString "f:in | r:reg | b:q | l:a | d:out"); ("m", JoinString "f:in2 | l:a")].
Definition good_line_prepared : config := match process_config in_order good_line with Good (Ok c, _) => c | _ => good_line end.
Definition get_ok {A E} (d : A) (o : outcome (result A E)) : A := match o with Good (Ok a) => a | _ => d end.
Definition good_waiter : waiter := get_ok waiter_new (get_waiter good_line_prepared).
Lemma good_line_runs : process_config in_order good_line = Good (Ok good_line_prepared, [["out"]]) /\ get_waiter good_line_prepared = Good (Ok good_waiter) /\
  keys (w_launch good_waiter) = ["a"] /\ keys (w_junction good_waiter) = ["junction_1"] /\ keys (w_drain good_waiter) = ["dyn_drain_1"; "out"] /\
  map snd (outs good_waiter (CLaunch, "a")) = [5; 1] /\ map (fun e => snd (fst e)) (ins good_waiter (CJunction, "junction_1")) = [4; 6] /\
  w_settings good_waiter = [("reg", Settings 5 20 ["q"])].
Proof. vm_compute. auto 10. Qed.

Lemma text_reads m k s l : In (k, JoinString s) m -> load_connection_from_string s = Good (Some l) -> forall l', reads m k l' -> NoDup (keys m) -> l' = l.
Proof.
  intros Hin Hl l' (d & Hd & H) Hn. assert (d = JoinString s) by (apply (in_lookup _ _ _ Hn) in Hin; apply (in_lookup _ _ _ Hn) in Hd; congruence). subst d.
  destruct H as [[=]|(s' & [= <-] & H)]. apply load_exact in H. congruence.
Qed.
Definition written_in_good_line : list connection :=
  [f_in; MiddleC CRegulator "reg" (InPort Terminate 0) POut None; MiddleC CBuffer "q" (InPort Terminate 0) POut None; MiddleC CLaunch "a" (InPort Terminate 0) POut None; d_out "out";
   StartC CFaucet "in2" POut None; EndC CLaunch "a" (InPort Terminate 0) None].
Lemma good_line_written x : written (cf_connection good_line) x -> In x written_in_good_line.
Proof.
  intros (k & l & Hr & Hx). assert (Hn : NoDup (keys (cf_connection good_line))) by (cbn; repeat constructor; cbn; intuition discriminate).
  pose proof Hr as (d & Hd & _). cbn in Hd. destruct Hd as [[= <- <-]|[[= <- <-]|[]]].
  - assert (l = firstn 5 written_in_good_line) by (apply (text_reads (cf_connection good_line) "l" "f:in | r:reg | b:q | l:a | d:out"); [left; reflexivity|vm_compute; reflexivity|exact Hr|exact Hn]). subst l. cbn in Hx. cbn. intuition.
  - assert (l = skipn 5 written_in_good_line) by (apply (text_reads (cf_connection good_line) "m" "f:in2 | l:a"); [right; left; reflexivity|vm_compute; reflexivity|exact Hr|exact Hn]). subst l. cbn in Hx. cbn. intuition.
Qed.
Lemma good_line_plain : good_connections (cf_connection good_line) /\ plain good_line.
Proof.
  split.
  - split; [unfold ordered; cbn; repeat constructor|]. repeat constructor; (eapply good_text; vm_compute; reflexivity).
  - assert (M : forall t n, is_mentioned (cf_connection good_line) (t, n) -> exists x, In x written_in_good_line /\ conn_type x = t /\ conn_name x = n).
    { intros t n (k & l & x & Hk & Hx & [= <- <-]). exists x. split; [|auto]. apply good_line_written. exists k, l. auto. }
    constructor.
    + intros n Hn. destruct (M _ _ Hn) as (x & Hx & Ht & <-). cbn in Hx. decompose [or] Hx; try subst x; try discriminate; try contradiction; cbn; eexists; eexists; (split; [reflexivity|reflexivity]).
    + intros x Hx Ht. apply good_line_written in Hx. cbn in Hx. decompose [or] Hx; try subst x; try discriminate; try contradiction; reflexivity.
    + intros x Hx Ht. apply good_line_written in Hx. cbn in Hx. decompose [or] Hx; try subst x; try discriminate; try contradiction; reflexivity.
    + intros x o Hx _ Ho. apply good_line_written in Hx. cbn in Hx. decompose [or] Hx; try subst x; try contradiction; cbn in Ho; congruence.
    + intros x y o o' Hx Hy _ _ _ Ho Ho'. apply good_line_written in Hx, Hy. assert (G : forall z u, In z written_in_good_line -> output_of z = Some u -> u = POut).
      { intros z u Hz Hu. cbn in Hz. decompose [or] Hz; try subst z; try contradiction; cbn in Hu; congruence. }
      rewrite (G _ _ Hx Ho), (G _ _ Hy Ho'). reflexivity.
    + intros x i Hx _ Hi. apply good_line_written in Hx. cbn in Hx. decompose [or] Hx; try subst x; try contradiction; cbn in Hi; try discriminate; injection Hi as <-; reflexivity.
    + intros n Hn. destruct (M _ _ Hn) as (x & Hx & Ht & <-). cbn in Hx. decompose [or] Hx; try subst x; try discriminate; try contradiction; cbn; discriminate.
Qed.

(** Configurations that pass lint and cannot be built *)
Definition launch_in (n : string) (z : Z) : connection := EndC CLaunch n (InPort Terminate z) None.
Definition no_command : config := Config [("in", "-")] [] [("out", "-")] [("a", LaunchConfig None None [] [])] [("l", JoinString "f:in | l:a | d:out")].
Definition with_priorities : config := Config [("in", "-"); ("in2", "-")] [] [("out", "-")] [("a", runs "cat")]
  [("l", Connections [f_in; MiddleC CLaunch "a" (InPort Terminate 2) POut None; d_out "out"]); ("m", Connections [StartC CFaucet "in2" POut None; launch_in "a" 1])].
Definition into_faucet : config := Config [("in", "-"); ("in2", "-")] [] [] [] [("l", Connections [f_in; EndC CFaucet "in2" (InPort Terminate 0) None])].
Definition out_of_drain : config := Config [("in", "-")] [] [("out", "-"); ("out2", "-")] []
  [("l", Connections [f_in; MiddleC CDrain "out" (InPort Terminate 0) POut None; d_out "out2"])].
Definition faucet_errors : config := Config [("in", "-")] [] [("out", "-")] [] [("l", Connections [StartC CFaucet "in" PErr None; d_out "out"])].
Definition buffer_ports : config := Config [("in", "-")] [] [("out", "-"); ("out2", "-")] []
  [("l", Connections [f_in; MiddleC CBuffer "q" (InPort Terminate 0) POut None; d_out "out"]); ("m", Connections [StartC CBuffer "q" PErr None; d_out "out2"])].
Definition drain_named : config := Config [("in", "-")] [] [] [("a", runs "cat")] [("l", JoinString "f:in | l:a | d:dyn_drain_1")].

Ltac lint_only := split; [split; [unfold ordered; cbn; repeat constructor|cbn; repeat constructor; try (eapply good_text; vm_compute; reflexivity)]|
  eexists; eexists; eexists; split; vm_compute; reflexivity].
Lemma unbuildable : Forall passes_lint_only [no_command; with_priorities; into_faucet; out_of_drain; faucet_errors; buffer_ports; drain_named].
Proof. constructor; [lint_only|]. constructor; [lint_only|]. constructor; [lint_only|]. constructor; [lint_only|]. constructor; [lint_only|]. constructor; [lint_only|]. constructor; [lint_only|]. constructor. Qed.

Lemma lint_not_enough : exists c c2 out e, good_connections (cf_connection c) /\ process_config in_order c = Good (Ok c2, out) /\ get_waiter c2 = Good (Err e).
Proof. exists no_command. assert (H := Forall_inv unbuildable). destruct H as (Hg & c2 & out & e & H1 & H2). exists c2, out, e. auto. Qed.
Lemma priorities_not_built : exists c c2 out e, good_connections (cf_connection c) /\ process_config in_order c = Good (Ok c2, out) /\ get_waiter c2 = Good (Err e) /\
  e = "AddInput(Launch:a, UnsupportedPriority(2))".
Proof.
  exists with_priorities. assert (H := Forall_inv (Forall_inv_tail unbuildable)). destruct H as (Hg & c2 & out & e & H1 & H2). exists c2, out, e. repeat split; auto; try apply Hg.
  vm_compute in H1. injection H1 as <- _. vm_compute in H2. injection H2 as <-. reflexivity.
Qed.

(** Two regulators that watch one buffer *)
Definition both_watch : config := Config [("in", "-"); ("in2", "-")] [("r1", watch_q); ("r2", watch_q)] [("out", "-")] []
  [("l", JoinString "f:in | r:r1 | b:q | d:out"); ("m", JoinString "f:in2 | r:r2 | b:q")].
Lemma both_watch_panics : exists c c2 out w msg, good_connections (cf_connection c) /\ process_config in_order c = Good (Ok c2, out) /\ get_waiter c2 = Good (Ok w) /\
  regulator_settings w (w_settings w) = Crash msg.
Proof.
  exists both_watch. eexists. eexists. eexists. eexists. split; [|split; [vm_compute; reflexivity|split; vm_compute; reflexivity]].
  split; [unfold ordered; cbn; repeat constructor|]. repeat constructor; (eapply good_text; vm_compute; reflexivity).
Qed.

(** Errors without a time *)
Definition err_at (n : string) (t : nat) : waiter_error := CausedByError CLaunch n (Timed (MonitorReadError 0) t).
Definition err_none (n : string) : waiter_error := CausedByError CJunction n (Timed NoneError 0).
Lemma unsorted : exists l j es, overall l [] [] [] [] [] j = Err es /\ ~ StronglySorted not_after es.
Proof.
  exists [Err (err_at "a" 2); Err (err_none "b"); Err (err_at "c" 1)], []. eexists. split; [vm_compute; reflexivity|]. intros H. inversion H as [|? ? _ H2]; subst.
  rewrite Forall_forall in H2. specialize (H2 (err_at "c" 1) (or_intror (or_introl eq_refl)) 2 1 eq_refl eq_refl). lia.
Qed.
