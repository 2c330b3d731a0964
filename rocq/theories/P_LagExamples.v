(** * P_LagExamples: a slow file, and a slow file behind a buffer *)
From Coq Require Import Ascii String List Bool Arith Lia Permutation Relations.
From Verif Require Import M_Prog M_Motion M_Config M_Manip M_Lint M_Waiter M_Regulator M_Drain S_Manip S_Trace S_World S_Network S_Net M_Start S_Start S_Shape S_Waiter S_Watch S_Delay S_Lasting P_Text P_Parser P_ManipExamples P_NetExamples P_Crowd P_Whole P_Jam P_Shape P_ShapeExamples P_LastingExamples S_Path S_Lag P_SpringExamples P_PathExamples P_LeadExamples.
Import ListNotations.
Local Open Scope string_scope.
Local Open Scope list_scope.

Lemma head_more (tr : trace) (e0 : string) n : n <> 0 -> List.length (file_got e0 tr) = n -> exists f rest, tr = (ECreate e0, AFd f) :: rest /\ List.length (S_Trace.written f tr) = n.
Proof. intros Hn E. destruct (file_got e0 tr) as [|m ms] eqn:EE; [cbn in E; congruence|]. destruct (head_is tr e0 (m :: ms) ltac:(discriminate) EE) as (f & rest & H1 & H2). exists f, rest. split; [exact H1|]. now rewrite H2. Qed.

(** in.txt goes to log.txt, and through a regulator to out.txt, which becomes slow when three lines have been written. *)
Definition lg_config : config := Config [("in", "in.txt")] [("gate", RegulatorConfig None [])] [("out", "out.txt"); ("log", "log.txt")] []
  [("one", JoinString "f:in | r:gate | d:out"); ("two", JoinString "f:in | d:log")].
Definition lg_waiter : waiter := Eval vm_compute in match settled_up lg_config with Some (w, _) => w | None => waiter_new end.
Definition lg_net : list comp := Eval vm_compute in net_of None [] lg_waiter.
Lemma lg_good : good_connections (cf_connection lg_config).
Proof. good_by. Qed.
Lemma lg_prepares : prepares in_order lg_config lg_waiter [].
Proof. apply settled_prepares. by_vm. Qed.
Lemma lg_passing : passing (cf_connection lg_config).
Proof. eapply computed_passing; [exact lg_good|by_vm|by_vm|by_vm]. Qed.
Definition lg_ranks : component -> nat := find_rank [((CRegulator, "gate"), 1); ((CDrain, "log"), 1); ((CDrain, "out"), 2)].
Lemma lg_no_loop : no_loop (cf_connection lg_config).
Proof. eapply (computed_no_loop lg_config _ _ lg_good) with (rank := lg_ranks); by_vm. Qed.
Lemma lg_apart : apart (cf_connection lg_config).
Proof. exact (loops_apart _ (no_loop_buffered _ lg_no_loop)). Qed.
Definition lg_steps : list (connection * connection) := Eval vm_compute in steps_of lg_config.
Lemma lg_spelled : spelled (cf_connection lg_config) lg_steps.
Proof. apply (steps_spelled lg_config lg_good); by_vm. Qed.
Definition from_in : M_Manip.source := ((CFaucet, "in"), POut).
Lemma lg_leads : leads_to at_once lg_steps from_in (CDrain, "out") 27.
Proof.
  apply (LT_on at_once lg_steps from_in CRegulator "gate" POut (CDrain, "out") 18); [|now left|vm_compute; tauto]. apply (LT_next at_once lg_steps from_in (CRegulator, "gate")). vm_compute. tauto.
Qed.
Section Slow.
#[local] Existing Instance slow_files.
Definition lg_round (a b : nat) : list nat := concat (map (fun t => if t =? 8 then repeat t a else if t =? 12 then repeat t b else [t])%nat (poll_order lg_net [])).
Definition lg_run := crowd 500 (concat (repeat (lg_round 1 1) 5) ++ concat (repeat (lg_round 0 1) 20)) (repeat a_line 100) (seat lg_net []) lw_world.
Definition lg_events : list nevent := fst (fst lg_run).
Lemma lg_ran : whole_run lg_net [] lw_world lg_events (snd lg_run) (seat_outcome lg_net (ready (snd (fst lg_run)))).
Proof. apply (played_whole lg_net []); [by_vm|by_vm|by_vm|made_of_eights]. Qed.
Lemma lg_willing : willing lg_events.
Proof. apply willing_by; by_vm. Qed.
Lemma lg_sent : List.length (put (own (4 * 1) lg_events)) = 30.
Proof. by_vm. Qed.
Lemma lg_got : List.length (file_got "out.txt" (own (4 * 2) lg_events)) = 3.
Proof. by_vm. Qed.
End Slow.
Lemma lg_there l m n : n <> 0 -> List.length (put (own (4 * 1) l)) = m -> List.length (file_got "out.txt" (own (4 * 2) l)) = n ->
  exists ks ms, has_sent lg_config lg_waiter None [] l from_in ks /\ has_got lg_config lg_waiter None [] l (CDrain, "out") ms /\ List.length ks = m /\ List.length ms = n.
Proof.
  intros Hn E1 E2. destruct (head_more _ _ _ Hn E2) as (f & rest & H1 & H2). eexists _, _. split; [apply (HS_faucet lg_config lg_waiter None [] l "in" 1); eexists; split; reflexivity|]. split; [|split; [exact E1|exact H2]].
  eapply HO_drain; [eexists; split; reflexivity|reflexivity|exact H1].
Qed.
Theorem just_as_far : good_connections (cf_connection lg_config) /\ prepares in_order lg_config lg_waiter [] /\ passing (cf_connection lg_config) /\ apart (cf_connection lg_config) /\
  exists ps w0 l wl ocs ks ms, spelled (cf_connection lg_config) ps /\ whole_run (net_of None [] lg_waiter) [] w0 l wl ocs /\ willing l /\ leads_to at_once ps from_in (CDrain, "out") 27 /\
    has_sent lg_config lg_waiter None [] l from_in ks /\ has_got lg_config lg_waiter None [] l (CDrain, "out") ms /\ List.length ks = 30 /\ List.length ms = 3.
Proof.
  split; [exact lg_good|]. split; [exact lg_prepares|]. split; [exact lg_passing|]. split; [exact lg_apart|]. destruct (lg_there lg_events 30 3 ltac:(discriminate) lg_sent lg_got) as (ks & ms & H1 & H2 & H3 & H4).
  exists lg_steps, lw_world, lg_events, (snd lg_run), (seat_outcome lg_net (ready (snd (fst lg_run)))), ks, ms. change (net_of None [] lg_waiter) with lg_net.
  exact (conj lg_spelled (conj lg_ran (conj lg_willing (conj lg_leads (conj H1 (conj H2 (conj H3 H4))))))).
Qed.

(** ** Behind a buffer *)
Definition lb_config : config := Config [("in", "in.txt")] [] [("out", "out.txt")] [] [("only", JoinString "f:in | b:store | d:out")].
Definition lb_waiter : waiter := Eval vm_compute in match settled_up lb_config with Some (w, _) => w | None => waiter_new end.
Definition lb_net : list comp := Eval vm_compute in net_of None [] lb_waiter.
Lemma lb_good : good_connections (cf_connection lb_config).
Proof. good_by. Qed.
Lemma lb_prepares : prepares in_order lb_config lb_waiter [].
Proof. apply settled_prepares. by_vm. Qed.
Lemma lb_passing : passing (cf_connection lb_config).
Proof. eapply computed_passing; [exact lb_good|by_vm|by_vm|by_vm]. Qed.
Definition lb_ranks : component -> nat := find_rank [((CBuffer, "store"), 1); ((CDrain, "out"), 2)].
Lemma lb_no_loop : no_loop (cf_connection lb_config).
Proof. eapply (computed_no_loop lb_config _ _ lb_good) with (rank := lb_ranks); by_vm. Qed.
Lemma lb_apart : apart (cf_connection lb_config).
Proof. exact (loops_apart _ (no_loop_buffered _ lb_no_loop)). Qed.
Definition lb_steps : list (connection * connection) := Eval vm_compute in steps_of lb_config.
Lemma lb_spelled : spelled (cf_connection lb_config) lb_steps.
Proof. apply (steps_spelled lb_config lb_good); by_vm. Qed.
Lemma lb_leads : leads_to in_the_end lb_steps from_in (CDrain, "out") 18.
Proof.
  apply (LT_on in_the_end lb_steps from_in CBuffer "store" POut (CDrain, "out") 9); [|now right|vm_compute; tauto]. apply (LT_next in_the_end lb_steps from_in (CBuffer, "store")). vm_compute. tauto.
Qed.
Definition lb_world : world := eights (Nat.eqb 2).
Section Slow2.
#[local] Existing Instance slow_files.
Definition lb_run := crowd 500 (concat (repeat (poll_order lb_net []) 5) ++ concat (repeat (filter (fun t => negb (t =? 4)) (poll_order lb_net [])) 20))%nat (repeat a_line 300) (seat lb_net []) lb_world.
Definition lb_events : list nevent := fst (fst lb_run).
Lemma lb_made : made_world lb_net lb_world.
Proof.
  constructor.
  - apply eights_new.
  - intros c n Hc Hn. cbn in Hc. repeat destruct Hc as [<-|Hc]; try contradiction; cbn in Hn; repeat destruct Hn as [<-|Hn]; try contradiction; reflexivity.
  - intros b u mi mo Hc. cbn in Hc. repeat destruct Hc as [Hc|Hc]; try discriminate Hc; try contradiction; injection Hc as <- <- <- <-; repeat split; reflexivity.
  - intros c n Hc Hn. cbn in Hc. repeat destruct Hc as [<-|Hc]; try contradiction; cbn in Hn; repeat destruct Hn as [<-|Hn]; try contradiction; reflexivity.
  - intros c n Hc Hn. cbn in Hc. repeat destruct Hc as [<-|Hc]; try contradiction; cbn in Hn; repeat destruct Hn as [<-|Hn]; try contradiction; reflexivity.
Qed.
Lemma lb_ran : whole_run lb_net [] lb_world lb_events (snd lb_run) (seat_outcome lb_net (ready (snd (fst lb_run)))).
Proof. apply (played_whole lb_net []); [by_vm|by_vm|by_vm|exact lb_made]. Qed.
Lemma lb_willing : willing lb_events.
Proof. apply willing_by; by_vm. Qed.
Lemma lb_sent : List.length (put (own (4 * 0) lb_events)) = 200.
Proof. by_vm. Qed.
Lemma lb_got : List.length (file_got "out.txt" (own (4 * 1) lb_events)) = 3.
Proof. by_vm. Qed.
End Slow2.
Lemma lb_there l m n : n <> 0 -> List.length (put (own (4 * 0) l)) = m -> List.length (file_got "out.txt" (own (4 * 1) l)) = n ->
  exists ks ms, has_sent lb_config lb_waiter None [] l from_in ks /\ has_got lb_config lb_waiter None [] l (CDrain, "out") ms /\ List.length ks = m /\ List.length ms = n.
Proof.
  intros Hn E1 E2. destruct (head_more _ _ _ Hn E2) as (f & rest & H1 & H2). eexists _, _. split; [apply (HS_faucet lb_config lb_waiter None [] l "in" 0); eexists; split; reflexivity|]. split; [|split; [exact E1|exact H2]].
  eapply HO_drain; [eexists; split; reflexivity|reflexivity|exact H1].
Qed.
Theorem far_ahead : exists c w cs ps w0 l wl ocs s n h ks ms, good_connections (cf_connection c) /\ prepares in_order c w cs /\ passing (cf_connection c) /\ apart (cf_connection c) /\ spelled (cf_connection c) ps /\
  whole_run (net_of None [] w) cs w0 l wl ocs /\ willing l /\ leads_to in_the_end ps s (CDrain, n) h /\ has_sent c w None [] l s ks /\ has_got c w None [] l (CDrain, n) ms /\ List.length ms + 10 * h < List.length ks.
Proof.
  destruct (lb_there lb_events 200 3 ltac:(discriminate) lb_sent lb_got) as (ks & ms & H1 & H2 & H3 & H4).
  exists lb_config, lb_waiter, [], lb_steps, lb_world, lb_events, (snd lb_run), (seat_outcome lb_net (ready (snd (fst lb_run)))), from_in, "out", 18, ks, ms. change (net_of None [] lb_waiter) with lb_net.
  refine (conj lb_good (conj lb_prepares (conj lb_passing (conj lb_apart (conj lb_spelled (conj lb_ran (conj lb_willing (conj lb_leads (conj H1 (conj H2 _)))))))))). rewrite H3, H4. apply Nat.ltb_lt. reflexivity.
Qed.
