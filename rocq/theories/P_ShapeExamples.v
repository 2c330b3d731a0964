(** * P_ShapeExamples: shapes of particular configurations *)
From Coq Require Import Ascii String List Bool Arith Lia ZArith Relations.
From Verif Require Import M_Prog M_Motion M_Connectable M_Config M_Manip M_Lint M_Waiter S_Trace S_World S_Network S_Net M_Start S_Start S_Grammar S_Manip S_Shape P_Text P_Map P_Pair P_Junctions P_Manip P_Ready P_ManipExamples P_Shape P_NetExamples P_Whole P_Jam.
Import ListNotations.
Local Open Scope string_scope.
Local Open Scope list_scope.

Definition all_ends (p : connmap) : list component := flat_map (fun kv => match edge_of (snd kv) with Some e => [fst (e_src e); e_dst e] | None => [] end) p.
Section Computed.
Variables (c : config) (m1 p : connmap).
Hypothesis Hg : good_connections (cf_connection c).
Hypothesis E1 : convert_connections (cf_connection c) = Good (m1, []).
Hypothesis E2 : pair_up m1 = Good p.
Lemma computed_follow a b : followed_by (cf_connection c) a b <-> In (a, b) (arcs p).
Proof.
  destruct Hg as [_ Hg']. destruct (paired _ Hg') as (m1' & p' & added & E1' & E2' & Ho & Hp & Hpo & Hi & Hr & Hch). rewrite E1 in E1'. injection E1' as <-. rewrite E2 in E2'. injection E2' as <-.
  rewrite (in_arcs p Ho). exact (follow_edge _ _ _ _ Hpo Ho Hi Hr Hch a b).
Qed.
Lemma computed_mention x : is_mentioned (cf_connection c) x -> In x (all_ends p).
Proof.
  destruct Hg as [_ Hg']. destruct (paired _ Hg') as (m1' & p' & added & E1' & E2' & Ho & Hp & Hpo & Hi & Hr & Hch). rewrite E1 in E1'. injection E1' as <-. rewrite E2 in E2'. injection E2' as <-.
  intros H. destruct (mentioned_occurs _ _ _ _ Hg' Hpo Ho Hi Hr Hch _ H) as (k & e & He & Hx). unfold edge_at in He. destruct (lookup k p) as [d|] eqn:El; [|discriminate].
  apply in_flat_map. exists (k, d). split; [exact (lookup_in _ _ _ El)|]. cbn [snd]. rewrite He. destruct Hx as [<-|<-]; cbn; auto.
Qed.
Definition needs_before (t : ctype) : bool := match t with CRegulator | CBuffer => true | _ => false end.
Definition needs_after (t : ctype) : bool := match t with CRegulator | CBuffer | CJunction => true | _ => false end.
Definition passes (x : component) : bool :=
  implb (needs_before (fst x)) (existsb (fun ab => component_eqb (snd ab) x) (arcs p)) && implb (needs_after (fst x)) (existsb (fun ab => component_eqb (fst ab) x) (arcs p)).
Lemma computed_passing : forallb passes (all_ends p) = true -> passing (cf_connection c).
Proof.
  intros H t n Hm. apply computed_mention in Hm. rewrite forallb_forall in H. specialize (H _ Hm). unfold passes in H. apply andb_true_iff in H as [H1 H2]. cbn [fst] in *. split.
  - intros Ht. assert (Eb : needs_before t = true) by (destruct Ht as [->| ->]; reflexivity). rewrite Eb in H1. cbn [implb] in H1. apply existsb_exists in H1 as ([a b] & Hin & E). cbn [snd] in E. destruct (component_eqb_spec b (t, n)) as [->|]; [|discriminate].
    exists a. apply computed_follow. exact Hin.
  - intros Ht. assert (Eb : needs_after t = true) by (destruct Ht as [->|[->| ->]]; reflexivity). rewrite Eb in H2. cbn [implb] in H2. apply existsb_exists in H2 as ([a b] & Hin & E). cbn [fst] in E. destruct (component_eqb_spec a (t, n)) as [->|]; [|discriminate].
    exists b. apply computed_follow. exact Hin.
Qed.
Variable rank : component -> nat.
Lemma computed_no_loop : forallb (fun ab => Nat.ltb (rank (fst ab)) (rank (snd ab))) (arcs p) = true -> no_loop (cf_connection c).
Proof.
  intros H. assert (G : forall a b, clos_trans _ (followed_by (cf_connection c)) a b -> rank a < rank b).
  { induction 1 as [x y Hxy|x y z _ IH1 _ IH2]; [|lia]. apply computed_follow in Hxy. rewrite forallb_forall in H. specialize (H _ Hxy). apply Nat.ltb_lt in H. exact H. }
  intros a Ha. apply G in Ha. lia.
Qed.
Definition is_buffer (x : component) : bool := match fst x with CBuffer => true | _ => false end.
Lemma computed_buffered : forallb (fun ab => is_buffer (snd ab) || (Nat.ltb (rank (fst ab)) (rank (snd ab)))) (arcs p) = true -> buffered_loops (cf_connection c).
Proof.
  intros H. assert (G : forall a b, clos_trans _ (fun a b => followed_by (cf_connection c) a b /\ fst b <> CBuffer) a b -> rank a < rank b).
  { induction 1 as [x y [Hxy E]|x y z _ IH1 _ IH2]; [|lia]. apply computed_follow in Hxy. rewrite forallb_forall in H. specialize (H _ Hxy). apply orb_true_iff in H as [H|H]; [|apply Nat.ltb_lt in H; exact H].
    unfold is_buffer in H. cbn [snd] in H. destruct (fst y); try discriminate H. contradiction. }
  intros a Ha. apply G in Ha. lia.
Qed.
End Computed.

Definition find_rank (l : list (component * nat)) (x : component) : nat := match find (fun y => component_eqb (fst y) x) l with Some y => snd y | None => 0 end.

(** One way *)
Lemma gd_passing : passing (cf_connection gd_config).
Proof. eapply computed_passing; [exact gd_good|by_vm|by_vm|by_vm]. Qed.
Definition gd_ranks : component -> nat := find_rank [((CRegulator, "pass"), 1); ((CJunction, "all"), 2); ((CBuffer, "store"), 3); ((CDrain, "out"), 4); ((CDrain, "log"), 4)].
Lemma gd_no_loop : no_loop (cf_connection gd_config).
Proof. eapply (computed_no_loop gd_config _ _ gd_good) with (rank := gd_ranks); by_vm. Qed.

(** A loop with a buffer in it *)
Definition rb_config : config := Config [("in", "in.txt")] [] [("out", "out.txt")] [] 
  [("again", JoinString "j:split | j:mix"); ("round", JoinString "f:in | j:mix | b:hold | j:split | d:out")].
Definition rb_net : list S_Net.comp := Eval vm_compute in match settled_up rb_config with Some (w, _) => net_of None [] w | None => [] end.
Lemma rb_makes : makes None [] in_order rb_config rb_net [].
Proof. apply settled_by. by_vm. Qed.
Lemma rb_good : good_connections (cf_connection rb_config).
Proof. good_by. Qed.
Lemma rb_passing : passing (cf_connection rb_config).
Proof. eapply computed_passing; [exact rb_good|by_vm|by_vm|by_vm]. Qed.
Definition rb_ranks : component -> nat := find_rank [((CJunction, "split"), 1); ((CJunction, "mix"), 2); ((CDrain, "out"), 4)].
Lemma rb_buffered : buffered_loops (cf_connection rb_config).
Proof. eapply (computed_buffered rb_config _ _ rb_good) with (rank := rb_ranks); by_vm. Qed.
Lemma rb_loop : ~ no_loop (cf_connection rb_config).
Proof.
  intros H. assert (F : forall a b, In (a, b) [((CJunction, "mix"), (CBuffer, "hold")); ((CBuffer, "hold"), (CJunction, "split")); ((CJunction, "split"), (CJunction, "mix"))] -> followed_by (cf_connection rb_config) a b).
  { intros a b Hin. eapply computed_follow; [exact rb_good|by_vm|by_vm|]. cbn in *. tauto. }
  apply (H (CJunction, "mix")). eapply t_trans; [apply t_step, F; left; reflexivity|]. eapply t_trans; apply t_step, F; cbn; auto.
Qed.
(** The loop of C38 has none. *)
Lemma lw_unbuffered : good_connections (cf_connection lw_config) /\ passing (cf_connection lw_config) /\ apart (cf_connection lw_config) /\ ~ buffered_loops (cf_connection lw_config).
Proof.
  assert (G := lw_good). split; [exact G|]. split; [eapply computed_passing; [exact G|by_vm|by_vm|by_vm]|]. split.
  - intros n Hn. eapply computed_follow in Hn; [|exact G|by_vm|by_vm]. cbn in Hn. repeat match type of Hn with _ \/ _ => destruct Hn as [Hn|Hn] end; try discriminate Hn; contradiction.
  - intros H. assert (F : forall a b, In (a, b) [((CJunction, "mix"), (CRegulator, "back")); ((CRegulator, "back"), (CJunction, "mix"))] -> followed_by (cf_connection lw_config) a b).
    { intros a b Hin. eapply computed_follow; [exact G|by_vm|by_vm|]. cbn in *. tauto. }
    apply (H (CJunction, "mix")). eapply t_trans; apply t_step; (split; [apply F; cbn; auto|discriminate]).
Qed.
