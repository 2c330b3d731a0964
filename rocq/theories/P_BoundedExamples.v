(** * P_BoundedExamples: a store behind its regulator, and a file that cannot be written *)
From Coq Require Import Ascii String List Bool Arith Lia Permutation Relations.
From Verif Require Import M_Prog M_Motion M_Config M_Manip M_Lint M_Waiter M_Regulator M_Drain S_Manip S_Trace S_World S_Network S_Net M_Start S_Start S_Shape S_Waiter S_Watch S_Delay S_Lasting P_Text P_Parser P_ManipExamples P_NetExamples P_Crowd P_Whole P_Jam P_Shape P_ShapeExamples P_WatchExamples P_DelayRun P_Act P_DelayExamples P_Later P_Watch P_WatchConfig P_WatchRun P_WatchMarks P_Skim P_Delay P_Ahead P_LastingRun P_Spin M_Parser S_Bounded P_LastingExamples P_Straight.
Import ListNotations.
Local Open Scope string_scope.
Local Open Scope list_scope.

(** in.txt is held back while the store has five lines or more, let go when it has two or less. *)
Definition bd_config : config := Config [("in", "in.txt")] [("gate", RegulatorConfig (Some (2, 5)) ["store"])] [("out", "out.txt")] [] [("only", JoinString "f:in | r:gate | b:store | d:out")].
Definition bd_waiter : waiter := Eval vm_compute in match settled_up bd_config with Some (w, _) => w | None => waiter_new end.
Definition bd_controllers : list capture := Eval vm_compute in match settled_up bd_config with Some (_, c) => c | None => [] end.
Definition bd_net : list comp := Eval vm_compute in net_of None [] bd_waiter.
Lemma bd_good : good_connections (cf_connection bd_config).
Proof. good_by. Qed.
Lemma bd_prepares : prepares in_order bd_config bd_waiter bd_controllers.
Proof. apply settled_prepares. by_vm. Qed.
Lemma bd_passing : passing (cf_connection bd_config).
Proof. eapply computed_passing; [exact bd_good|by_vm|by_vm|by_vm]. Qed.
Definition bd_ranks : component -> nat := find_rank [((CRegulator, "gate"), 1); ((CBuffer, "store"), 2); ((CDrain, "out"), 3)].
Lemma bd_no_loop : no_loop (cf_connection bd_config).
Proof. eapply (computed_no_loop bd_config _ _ bd_good) with (rank := bd_ranks); by_vm. Qed.
Lemma bd_apart : apart (cf_connection bd_config).
Proof. exact (loops_apart _ (no_loop_buffered _ bd_no_loop)). Qed.
Lemma bd_once : NoDup (keys (cf_regulator bd_config)).
Proof. repeat constructor. intros []. Qed.
Lemma bd_set : set_to_watch bd_config "gate" 2 5 ["store"].
Proof.
  split; [|exists (RegulatorConfig (Some (2, 5)) ["store"]); split; [now left|split; reflexivity]].
  unfold is_mentioned, S_Manip.reads. eexists "only", _, _. split; [eexists; split; [left; reflexivity|right; eexists; split; [reflexivity|apply load_exact; vm_compute; reflexivity]]|]. split; [right; left; reflexivity|reflexivity].
Qed.
(** The one text of the configuration can be read in one way. *)
Definition bd_text : list connection := Eval vm_compute in match load_connection_from_string "f:in | r:gate | b:store | d:out" with Good (Some l) => l | _ => [] end.
Lemma bd_reads k l : S_Manip.reads (cf_connection bd_config) k l <-> k = "only" /\ l = bd_text.
Proof.
  unfold S_Manip.reads. split.
  - intros (js & Hin & Hj). destruct Hin as [[= <- <-]|[]]. split; [reflexivity|]. destruct Hj as [[=]|(s & [= <-] & Ht)]. apply load_exact in Ht. vm_compute in Ht. injection Ht as <-. reflexivity.
  - intros (-> & ->). eexists. split; [left; reflexivity|]. right. eexists. split; [reflexivity|]. apply load_exact. vm_compute. reflexivity.
Qed.
Lemma bd_straight : straight (cf_connection bd_config) (CRegulator, "gate") (CBuffer, "store").
Proof.
  exists "only", 1. split.
  - eexists bd_text, _, _. split; [now apply bd_reads|]. split; [reflexivity|]. split; reflexivity.
  - intros k i a b (l & x & y & Hl & Hn & Ha & Hb) Hor. apply bd_reads in Hl. destruct Hl as [-> ->]. split; [reflexivity|]. cbn in Hn.
    destruct i as [|[|[|i]]]; cbn in Hn; [|reflexivity| |destruct i; discriminate Hn]; injection Hn as <- <-; cbn in Ha, Hb; subst a b; destruct Hor; discriminate.
Qed.
Lemma bd_buffer : buffer_at None [] bd_waiter "store" 3.
Proof. eexists _, _, _, _. split; reflexivity. Qed.
Definition bd_world : world := eights (Nat.eqb 5).
Section Slow.
#[local] Existing Instance slow_files.
(** The rounds of the loop, in which out.txt cannot be written. *)
Definition bd_sched : list nat := concat (repeat (filter (fun t => negb (Nat.eqb t 8)) (poll_order bd_net bd_controllers)) 8).
Definition bd_run := crowd 500 bd_sched (repeat a_line 40) (seat bd_net bd_controllers) bd_world.
Notation bd_events := (fst (fst bd_run)).
Lemma bd_made : made_world bd_net bd_world.
Proof.
  constructor.
  - apply eights_new.
  - intros c n Hc Hn. cbn in Hc. repeat destruct Hc as [<-|Hc]; try contradiction; cbn in Hn; repeat destruct Hn as [<-|Hn]; try contradiction; reflexivity.
  - intros b u mi mo Hc. cbn in Hc. repeat destruct Hc as [Hc|Hc]; try discriminate Hc; try contradiction; injection Hc as <- <- <- <-; repeat split; reflexivity.
  - intros c n Hc Hn. cbn in Hc. repeat destruct Hc as [<-|Hc]; try contradiction; cbn in Hn; repeat destruct Hn as [<-|Hn]; try contradiction; reflexivity.
  - intros c n Hc Hn. cbn in Hc. repeat destruct Hc as [<-|Hc]; try contradiction; cbn in Hn; repeat destruct Hn as [<-|Hn]; try contradiction; reflexivity.
Qed.
Lemma bd_ran : whole_run bd_net bd_controllers bd_world bd_events (snd bd_run) (seat_outcome bd_net (ready (snd (fst bd_run)))).
Proof. apply (played_whole bd_net bd_controllers); [by_vm|by_vm|by_vm|exact bd_made]. Qed.
Lemma bd_willing : willing bd_events.
Proof. apply willing_by. by_vm. Qed.
Lemma bd_stored : stored bd_net 3 (snd bd_run) = 16.
Proof. by_vm. Qed.
Theorem over_the_mark : good_connections (cf_connection bd_config) /\ prepares in_order bd_config bd_waiter bd_controllers /\ NoDup (keys (cf_regulator bd_config)) /\ passing (cf_connection bd_config) /\ apart (cf_connection bd_config) /\
  set_to_watch bd_config "gate" 2 5 ["store"] /\ straight (cf_connection bd_config) (CRegulator, "gate") (CBuffer, "store") /\ buffer_at None [] bd_waiter "store" 3 /\
  exists w0 l w ocs, whole_run (net_of None [] bd_waiter) bd_controllers w0 l w ocs /\ willing l /\ stored (net_of None [] bd_waiter) 3 w = 16.
Proof.
  split; [exact bd_good|]. split; [exact bd_prepares|]. split; [exact bd_once|]. split; [exact bd_passing|]. split; [exact bd_apart|]. split; [exact bd_set|]. split; [exact bd_straight|]. split; [exact bd_buffer|].
  eexists bd_world, _, _, _. change (net_of None [] bd_waiter) with bd_net. split; [exact bd_ran|]. split; [exact bd_willing|exact bd_stored].
Qed.
End Slow.

(** ** Somebody else feeds the store *)
Definition bo_config : config := Config [("in", "in.txt"); ("more", "more.txt")] [("gate", RegulatorConfig (Some (2, 5)) ["store"])] [("out", "out.txt")] [] [("one", JoinString "f:in | r:gate | b:store | d:out"); ("two", JoinString "f:more | b:store")].
Definition bo_waiter : waiter := Eval vm_compute in match settled_up bo_config with Some (w, _) => w | None => waiter_new end.
Definition bo_controllers : list capture := Eval vm_compute in match settled_up bo_config with Some (_, c) => c | None => [] end.
Definition bo_net : list comp := Eval vm_compute in net_of None [] bo_waiter.
Lemma bo_good : good_connections (cf_connection bo_config).
Proof. good_by. Qed.
Lemma bo_prepares : prepares in_order bo_config bo_waiter bo_controllers.
Proof. apply settled_prepares. by_vm. Qed.
Lemma bo_passing : passing (cf_connection bo_config).
Proof. eapply computed_passing; [exact bo_good|by_vm|by_vm|by_vm]. Qed.
Lemma bo_no_loop : no_loop (cf_connection bo_config).
Proof. eapply (computed_no_loop bo_config _ _ bo_good) with (rank := bd_ranks); by_vm. Qed.
Lemma bo_apart : apart (cf_connection bo_config).
Proof. exact (loops_apart _ (no_loop_buffered _ bo_no_loop)). Qed.
Lemma bo_once : NoDup (keys (cf_regulator bo_config)).
Proof. repeat constructor. intros []. Qed.
Lemma bo_set : set_to_watch bo_config "gate" 2 5 ["store"].
Proof.
  split; [|exists (RegulatorConfig (Some (2, 5)) ["store"]); split; [now left|split; reflexivity]].
  unfold is_mentioned, S_Manip.reads. eexists "one", _, _. split; [eexists; split; [left; reflexivity|right; eexists; split; [reflexivity|apply load_exact; vm_compute; reflexivity]]|]. split; [right; left; reflexivity|reflexivity].
Qed.
Lemma bo_follows : followed_by (cf_connection bo_config) (CRegulator, "gate") (CBuffer, "store").
Proof. eapply computed_follow; [exact bo_good|by_vm|by_vm|]. vm_compute. tauto. Qed.
Lemma bo_buffer : buffer_at None [] bo_waiter "store" 4.
Proof. eexists _, _, _, _. split; reflexivity. Qed.
Definition bo_world : world := eights (Nat.eqb 7).
Section Slow2.
#[local] Existing Instance slow_files.
Definition bo_sched : list nat := concat (repeat (filter (fun t => negb (Nat.eqb t 12)) (poll_order bo_net bo_controllers)) 10).
Definition bo_run := crowd 500 bo_sched (repeat a_line 400) (seat bo_net bo_controllers) bo_world.
Notation bo_events := (fst (fst bo_run)).
Lemma bo_made : made_world bo_net bo_world.
Proof.
  constructor.
  - apply eights_new.
  - intros c n Hc Hn. cbn in Hc. repeat destruct Hc as [<-|Hc]; try contradiction; cbn in Hn; repeat destruct Hn as [<-|Hn]; try contradiction; reflexivity.
  - intros b u mi mo Hc. cbn in Hc. repeat destruct Hc as [Hc|Hc]; try discriminate Hc; try contradiction; injection Hc as <- <- <- <-; repeat split; reflexivity.
  - intros c n Hc Hn. cbn in Hc. repeat destruct Hc as [<-|Hc]; try contradiction; cbn in Hn; repeat destruct Hn as [<-|Hn]; try contradiction; reflexivity.
  - intros c n Hc Hn. cbn in Hc. repeat destruct Hc as [<-|Hc]; try contradiction; cbn in Hn; repeat destruct Hn as [<-|Hn]; try contradiction; reflexivity.
Qed.
Lemma bo_ran : whole_run bo_net bo_controllers bo_world bo_events (snd bo_run) (seat_outcome bo_net (ready (snd (fst bo_run)))).
Proof. apply (played_whole bo_net bo_controllers); [by_vm|by_vm|by_vm|exact bo_made]. Qed.
Lemma bo_willing : willing bo_events.
Proof. apply willing_by. by_vm. Qed.
Lemma bo_stored : stored bo_net 4 (snd bo_run) = 63.
Proof. by_vm. Qed.
Theorem fed_by_others : exists c w cs n low high bs b kb, good_connections (cf_connection c) /\ prepares in_order c w cs /\ NoDup (keys (cf_regulator c)) /\ passing (cf_connection c) /\ apart (cf_connection c) /\
  set_to_watch c n low high bs /\ In b bs /\ followed_by (cf_connection c) (CRegulator, n) (CBuffer, b) /\ buffer_at None [] w b kb /\
  exists w0 l wl ocs, whole_run (net_of None [] w) cs w0 l wl ocs /\ willing l /\ Nat.max (S low) high + 28 < stored (net_of None [] w) kb wl.
Proof.
  exists bo_config, bo_waiter, bo_controllers, "gate", 2, 5, ["store"], "store", 4.
  split; [exact bo_good|]. split; [exact bo_prepares|]. split; [exact bo_once|]. split; [exact bo_passing|]. split; [exact bo_apart|]. split; [exact bo_set|]. split; [now left|]. split; [exact bo_follows|]. split; [exact bo_buffer|].
  eexists bo_world, _, _, _. change (net_of None [] bo_waiter) with bo_net. split; [exact bo_ran|]. split; [exact bo_willing|]. rewrite bo_stored. cbn. lia.
Qed.
End Slow2.
Theorem past_the_mark : exists c w cs n low high bs b kb, good_connections (cf_connection c) /\ prepares in_order c w cs /\ NoDup (keys (cf_regulator c)) /\ passing (cf_connection c) /\ apart (cf_connection c) /\
  set_to_watch c n low high bs /\ In b bs /\ low < high /\ straight (cf_connection c) (CRegulator, n) (CBuffer, b) /\ buffer_at None [] w b kb /\
  exists w0 l wl ocs, whole_run (net_of None [] w) cs w0 l wl ocs /\ willing l /\ high + 8 < stored (net_of None [] w) kb wl.
Proof.
  exists bd_config, bd_waiter, bd_controllers, "gate", 2, 5, ["store"], "store", 3. destruct over_the_mark as (H1 & H2 & H3 & H4 & H5 & H6 & H7 & H8 & w0 & l & w & ocs & HR & HW & HS).
  split; [exact H1|]. split; [exact H2|]. split; [exact H3|]. split; [exact H4|]. split; [exact H5|]. split; [exact H6|]. split; [now left|]. split; [lia|]. split; [exact H7|]. split; [exact H8|].
  exists w0, l, w, ocs. split; [exact HR|]. split; [exact HW|]. rewrite HS. lia.
Qed.
