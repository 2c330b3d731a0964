(** * P_LastingExamples: regulated pipelines that go on and on *)
From Coq Require Import Ascii String List Bool Arith Lia Permutation Relations.
From Verif Require Import M_Prog M_Motion M_Config M_Manip M_Lint M_Waiter M_Regulator M_Drain S_Manip S_Trace S_World S_Network S_Net M_Start S_Start S_Shape S_Waiter S_Watch S_Delay S_Lasting P_Text P_Parser P_ManipExamples P_NetExamples P_Crowd P_Whole P_Jam P_Shape P_ShapeExamples P_WatchExamples P_DelayRun P_Act P_DelayExamples P_Later P_Watch P_WatchConfig P_WatchRun P_WatchMarks P_Skim P_Delay P_Ahead P_LastingRun P_Spin.
Import ListNotations.
Local Open Scope string_scope.
Local Open Scope list_scope.

(** ** The pipelines of C90 *)
Lemma ahead_by c m1 p n rc : good_connections (cf_connection c) -> convert_connections (cf_connection c) = Good (m1, []) -> pair_up m1 = Good p -> cf_regulator c = [(n, rc)] ->
  (forall b, In b (rc_monitored rc) -> clos_trans _ (fun x y => In (x, y) (arcs p)) (CRegulator, n) (CBuffer, b)) -> watches_ahead c.
Proof.
  intros Hg E1 E2 Er H n' low high bs b (_ & rc' & Hin & _ & <-) Hb _. rewrite Er in Hin. destruct Hin as [[= <- <-]|[]]. specialize (H b Hb).
  clear -H Hg E1 E2. induction H as [x y Hxy|x y z _ IH1 _ IH2]; [|eapply t_trans; eassumption]. apply t_step. eapply computed_follow; eassumption.
Qed.
Lemma jm_ahead : watches_ahead jm_config.
Proof.
  eapply ahead_by; [exact jm_good|by_vm|by_vm|reflexivity|]. intros b [<-|[]]. eapply t_trans; apply t_step; [instantiate (1 := (CJunction, "all"))|]; cbn; tauto.
Qed.
Lemma jm_once : NoDup (keys (cf_regulator jm_config)).
Proof. repeat constructor. intros []. Qed.
Lemma locked_looks net cs w0 l : whole_locked net cs w0 l -> only_looks net cs w0 l.
Proof. intros H l' w ocs HX i ev Hin. rewrite (H _ _ _ HX) in Hin. destruct Hin. Qed.

Theorem jammed_looking : good_connections (cf_connection jm_config) /\ NoDup (keys (cf_regulator jm_config)) /\ prepares in_order jm_config jm_waiter jm_controllers /\ passing (cf_connection jm_config) /\ no_loop (cf_connection jm_config) /\ watches_ahead jm_config /\
  (exists w0 l w ocs k m cp, whole_run (net_of None [] jm_waiter) jm_controllers w0 l w ocs /\ willing l /\ only_looks (net_of None [] jm_waiter) jm_controllers w0 l /\ ocs k = Going /\ choked (net_of None [] jm_waiter) jm_controllers l w k m cp) /\
  exists w0 l w ocs, whole_run (net_of None [] jm_waiter) jm_controllers w0 l w ocs /\ willing l /\ only_looks (net_of None [] jm_waiter) jm_controllers w0 l /\ everybody_succeeded (net_of None [] jm_waiter) jm_controllers ocs.
Proof.
  split; [exact jm_good|]. split; [exact jm_once|]. split; [exact jm_prepares|]. split; [exact jm_passing|]. split; [exact jm_no_loop|]. split; [exact jm_ahead|]. split.
  - change (net_of None [] jm_waiter) with jam. exists jm_world, jm_events, (snd jm_run), (seat_outcome jam (ready (snd (fst jm_run)))).
    destruct (prepared_standstill in_order None [] jm_config jm_waiter jm_controllers in_order_fair jm_good jm_prepares jm_passing jm_no_loop _ _ _ _ jm_ran jm_willing jm_locked) as [H|(k & m & cp & H1 & H2)].
    + exfalso. destruct (H 0) as (n & Hn); [cbn; lia|]. rewrite (jm_none 0) in Hn; [discriminate|cbn; lia].
    + exists k, m, cp. split; [exact jm_ran|]. split; [exact jm_willing|]. split; [exact (locked_looks _ _ _ _ jm_locked)|]. split; [exact H1|exact H2].
  - destruct small_end as (w0 & l & w & ocs & R1 & R2 & R3 & _ & _ & R4). exists w0, l, w, ocs. split; [exact R1|]. split; [exact R2|]. split; [exact (locked_looks _ _ _ _ R3)|exact R4].
Qed.

(** ** One that goes on for ever, choked *)

(** As in C86, with a buffer after a.txt: it waits for the regulator and has nobody to report to, but counts for ever. *)
Definition sp_config : config := Config [("a", "a.txt"); ("b", "b.txt")] [("gate", RegulatorConfig (Some (2, 5)) ["store"])]
  [("out", "out.txt"); ("log", "log.txt")] []
  [("free", JoinString "f:b | j:all | b:store | d:out"); ("held", JoinString "f:a | b:other | r:gate | [1]j:all"); ("seen", JoinString "j:all | d:log")].
Definition sp_waiter : waiter := Eval vm_compute in match settled_up sp_config with Some (w, _) => w | None => waiter_new end.
Definition sp_controllers : list capture := Eval vm_compute in match settled_up sp_config with Some (_, c) => c | None => [] end.
Definition sp_net : list comp := Eval vm_compute in net_of None [] sp_waiter.
Lemma sp_good : good_connections (cf_connection sp_config).
Proof. good_by. Qed.
Lemma settled_prepares c w cs : settled_up c = Some (w, cs) -> prepares in_order c w cs.
Proof.
  unfold settled_up, built, prepared. destruct (process_config in_order c) as [[[c2|e] out]|m] eqn:E1; try discriminate. destruct (get_waiter c2) as [[w1|e]|m] eqn:E2; try discriminate.
  destruct (regulator_settings w1 (w_settings w1)) as [[[w2 cs2]|e]|m] eqn:E3; try discriminate. intros [= -> ->]. exists c2, out, w1. auto.
Qed.
Lemma sp_prepares : prepares in_order sp_config sp_waiter sp_controllers.
Proof. apply settled_prepares. by_vm. Qed.
Lemma sp_passing : passing (cf_connection sp_config).
Proof. eapply computed_passing; [exact sp_good|by_vm|by_vm|by_vm]. Qed.
Definition sp_ranks : component -> nat := find_rank [((CBuffer, "other"), 1); ((CRegulator, "gate"), 2); ((CJunction, "all"), 3); ((CBuffer, "store"), 4); ((CDrain, "out"), 5); ((CDrain, "log"), 5)].
Lemma sp_no_loop : no_loop (cf_connection sp_config).
Proof. eapply (computed_no_loop sp_config _ _ sp_good) with (rank := sp_ranks); by_vm. Qed.
Lemma sp_once : NoDup (keys (cf_regulator sp_config)).
Proof. repeat constructor. intros []. Qed.
Lemma sp_ahead : watches_ahead sp_config.
Proof.
  eapply ahead_by; [exact sp_good|by_vm|by_vm|reflexivity|]. intros b [<-|[]]. eapply t_trans; apply t_step; [instantiate (1 := (CJunction, "all"))|]; cbn; tauto.
Qed.
Definition sp_world : world := eights (fun n => Nat.eqb n 11 || Nat.eqb n 13).
Section Slow.
#[local] Existing Instance slow_files.
Definition sp_round (a o g : nat) : list nat :=
  concat (map (fun t => if t =? 8 then repeat t a else if t =? 12 then repeat t o else if t =? 16 then repeat t g else [t])%nat (poll_order sp_net sp_controllers)).
Definition sp_rounds (n a o g : nat) : list nat := concat (repeat (sp_round a o g) n).
Definition sp_sched : list nat :=
  sp_rounds 6 0 0 0 ++ sp_rounds 3 1 0 0 ++ sp_round 1 0 8 ++ sp_rounds 4 1 0 0 ++ sp_round 1 0 8 ++ sp_rounds 4 1 0 0 ++
  sp_round 1 8 0 ++ sp_rounds 4 1 0 0 ++ sp_round 1 8 0 ++ sp_rounds 4 1 0 0 ++ concat (repeat (sp_round 1 0 8 ++ sp_rounds 4 1 0 0) 6) ++ sp_rounds 44 1 10 10 ++ sp_rounds 30 1 1 1.
Definition sp_run := crowd 500 sp_sched (repeat a_line 600) (seat sp_net sp_controllers) sp_world.
Notation sp_events := (fst (fst sp_run)).
Notation sp_tasks := (snd (fst sp_run)).
Lemma sp_made : made_world sp_net sp_world.
Proof.
  constructor.
  - apply eights_new.
  - intros c n Hc Hn. cbn in Hc. repeat destruct Hc as [<-|Hc]; try contradiction; cbn in Hn; repeat destruct Hn as [<-|Hn]; try contradiction; reflexivity.
  - intros b u mi mo Hc. cbn in Hc. repeat destruct Hc as [Hc|Hc]; try discriminate Hc; try contradiction; injection Hc as <- <- <- <-; repeat split; reflexivity.
  - intros c n Hc Hn. cbn in Hc. repeat destruct Hc as [<-|Hc]; try contradiction; cbn in Hn; repeat destruct Hn as [<-|Hn]; try contradiction; reflexivity.
  - intros c n Hc Hn. cbn in Hc. repeat destruct Hc as [<-|Hc]; try contradiction; cbn in Hn; repeat destruct Hn as [<-|Hn]; try contradiction; reflexivity.
Qed.
Lemma sp_playable : forallb playable sp_net = true.
Proof. by_vm. Qed.
Lemma sp_c1 : cs_closed (snd sp_run (CSize 10)) = false.
Proof. by_vm. Qed.
Lemma sp_c2 : length (cs_queue (snd sp_run (CSize 10))) = 8.
Proof. by_vm. Qed.
Lemma sp_c3 : cs_closed (snd sp_run (CCtl 9)) = false.
Proof. by_vm. Qed.
Lemma sp_c4 : length (cs_queue (snd sp_run (CCtl 9))) = 1.
Proof. by_vm. Qed.
Lemma sp_c5 : mstatus (sp_tasks 40) = At (ESend (CCtl 9) VUnit).
Proof. by_vm. Qed.
Lemma sp_c6 : settled_m (sp_tasks 40) = true.
Proof. by_vm. Qed.
Definition sp_capture : capture := hd (Capture 0 0 (RC false 0) []) sp_controllers.
Lemma at_by (r : list nevent * tasks * world) (ts : tasks) l t p e : exec p (own t l) (mstatus (ts t)) -> mstatus (ts t) = e -> exec p (own t l) e.
Proof. now intros H <-. Qed.
Lemma sp_run_is : sp_run = crowd 500 sp_sched (repeat a_line 600) (seat sp_net sp_controllers) sp_world.
Proof. unfold sp_run. reflexivity. Qed.
Lemma sp_seat : seat sp_net sp_controllers 40 = TM (controller sp_capture).
Proof. reflexivity. Qed.
Lemma sp_waiting : exec (controller sp_capture) (own 40 sp_events) (At (ESend (CCtl 9) VUnit)).
Proof.
  pose proof (played_at sp_net sp_controllers 500 sp_sched (repeat a_line 600) sp_world sp_run 40 _ sp_run_is sp_seat sp_c6) as K. exact (at_by sp_run sp_tasks sp_events 40 _ _ K sp_c5).
Qed.
Lemma sp_choked : choked sp_net sp_controllers sp_events (snd sp_run) 5 0 sp_capture.
Proof.
  eexists _, 11, 11, 12, 10. split; [reflexivity|]. split; [reflexivity|]. split; [reflexivity|]. split; [now left|].
  exact (conj sp_c1 (conj sp_c2 (conj sp_waiting (conj sp_c3 sp_c4)))).
Qed.
Lemma sp_willing : willing sp_events.
Proof. apply willing_by. by_vm. Qed.
Lemma sp_spins : exists f, whole_endless sp_net sp_controllers sp_world f /\ whole_fair sp_net sp_controllers sp_world f /\ limited f /\ statuses_come f /\ (forall n, willing (so_far f n)) /\ so_far f (length sp_events) = sp_events /\
    whole_run sp_net sp_controllers sp_world sp_events (snd sp_run) (seat_outcome sp_net sp_tasks) /\
    (forall n, length sp_events <= n -> forward (snd (f n)) = false /\ (forall w ocs, whole_run sp_net sp_controllers sp_world (so_far f n) w ocs -> w = snd sp_run) /\
      forall t, stuck_t (sp_tasks t) (snd sp_run) = true -> own t (so_far f n) = own t sp_events).
Proof.
  apply (played_spins sp_net sp_controllers 500 sp_sched (repeat a_line 600) sp_world [27] sp_run sp_run_is).
  - by_vm.
  - by_vm.
  - exact sp_made.
  - exact sp_willing.
  - by_vm.
  - vm_compute. split; [reflexivity|exact Logic.I].
  - by_vm.
  - by_vm.
Qed.
Lemma choked_same net cs l l' w k m cp : own (4 * (length net + m)) l' = own (4 * (length net + m)) l -> choked net cs l w k m cp -> choked net cs l' w k m cp.
Proof.
  intros E (b & u & mi & mo & s & C1 & C2 & C3 & C4 & C5 & C6 & C7 & C8). exists b, u, mi, mo, s. unfold controller_of in *. rewrite E. auto 12.
Qed.
Lemma sp_waits : stuck_t (sp_tasks (4 * (length sp_net + 0))) (snd sp_run) = true.
Proof. by_vm. Qed.
Theorem spinning_choked : good_connections (cf_connection sp_config) /\ NoDup (keys (cf_regulator sp_config)) /\ prepares in_order sp_config sp_waiter sp_controllers /\ passing (cf_connection sp_config) /\ no_loop (cf_connection sp_config) /\ watches_ahead sp_config /\
  exists w0 f, whole_endless (net_of None [] sp_waiter) sp_controllers w0 f /\ whole_fair (net_of None [] sp_waiter) sp_controllers w0 f /\ limited f /\ statuses_come f /\ (forall n, willing (so_far f n)) /\ choked_for_good (net_of None [] sp_waiter) sp_controllers w0 f.
Proof.
  split; [exact sp_good|]. split; [exact sp_once|]. split; [exact sp_prepares|]. split; [exact sp_passing|]. split; [exact sp_no_loop|]. split; [exact sp_ahead|].
  destruct sp_spins as (f & F1 & F2 & F3 & F4 & F5 & _ & _ & F6). change (net_of None [] sp_waiter) with sp_net. exists sp_world, f. split; [exact F1|]. split; [exact F2|]. split; [exact F3|]. split; [exact F4|]. split; [exact F5|].
  exists (length sp_events), 5, 0, sp_capture. intros n w ocs Hn HR. destruct (F6 n Hn) as (_ & K1 & K2). rewrite (K1 _ _ HR) in HR |- *.
  assert (HC : choked sp_net sp_controllers (so_far f n) (snd sp_run) 5 0 sp_capture) by (apply (choked_same _ _ sp_events); [exact (K2 (4 * (length sp_net + 0)) sp_waits)|exact sp_choked]).
  split; [|exact HC]. destruct (prepared_shape _ None [] _ _ _ in_order_fair sp_good sp_prepares sp_passing (loops_apart _ (no_loop_buffered _ sp_no_loop))) as (S1 & S2 & S3 & _ & _).
  eapply (choked_going (net_of None [] sp_waiter)); [exact S1|exact (prepared_overseen _ None [] _ _ _ in_order_fair sp_good sp_prepares)|exact S2|exact S3|exact HR|exact (F5 n)|exact HC].
Qed.
End Slow.

(** ** The buffer before the regulator *)

(** in.txt is held back, after the store, while there is a line in it. *)
Definition bh_config : config := Config [("in", "in.txt")] [("gate", RegulatorConfig (Some (0, 1)) ["store"])] [("out", "out.txt")] [] [("only", JoinString "f:in | b:store | r:gate | d:out")].
Definition bh_waiter : waiter := Eval vm_compute in match settled_up bh_config with Some (w, _) => w | None => waiter_new end.
Definition bh_controllers : list capture := Eval vm_compute in match settled_up bh_config with Some (_, c) => c | None => [] end.
Definition bh_net : list comp := Eval vm_compute in net_of None [] bh_waiter.
Lemma bh_good : good_connections (cf_connection bh_config).
Proof. good_by. Qed.
Lemma bh_prepares : prepares in_order bh_config bh_waiter bh_controllers.
Proof. apply settled_prepares. by_vm. Qed.
Lemma bh_passing : passing (cf_connection bh_config).
Proof. eapply computed_passing; [exact bh_good|by_vm|by_vm|by_vm]. Qed.
Definition bh_ranks : component -> nat := find_rank [((CBuffer, "store"), 1); ((CRegulator, "gate"), 2); ((CDrain, "out"), 3)].
Lemma bh_no_loop : no_loop (cf_connection bh_config).
Proof. eapply (computed_no_loop bh_config _ _ bh_good) with (rank := bh_ranks); by_vm. Qed.
Lemma bh_once : NoDup (keys (cf_regulator bh_config)).
Proof. repeat constructor. intros []. Qed.
Definition bh_world : world := eights (Nat.eqb 5).
Section Slow2.
#[local] Existing Instance slow_files.
Definition bh_sched : list nat := concat (repeat (poll_order bh_net bh_controllers) 80).
Definition bh_run := crowd 500 bh_sched (repeat a_line 40 ++ [[]]) (seat bh_net bh_controllers) bh_world.
Notation bh_events := (fst (fst bh_run)).
Notation bh_tasks := (snd (fst bh_run)).
Lemma bh_made : made_world bh_net bh_world.
Proof.
  constructor.
  - apply eights_new.
  - intros c n Hc Hn. cbn in Hc. repeat destruct Hc as [<-|Hc]; try contradiction; cbn in Hn; repeat destruct Hn as [<-|Hn]; try contradiction; reflexivity.
  - intros b u mi mo Hc. cbn in Hc. repeat destruct Hc as [Hc|Hc]; try discriminate Hc; try contradiction; injection Hc as <- <- <- <-; repeat split; reflexivity.
  - intros c n Hc Hn. cbn in Hc. repeat destruct Hc as [<-|Hc]; try contradiction; cbn in Hn; repeat destruct Hn as [<-|Hn]; try contradiction; reflexivity.
  - intros c n Hc Hn. cbn in Hc. repeat destruct Hc as [<-|Hc]; try contradiction; cbn in Hn; repeat destruct Hn as [<-|Hn]; try contradiction; reflexivity.
Qed.
Lemma bh_willing : willing bh_events.
Proof. apply willing_by. by_vm. Qed.
Lemma bh_run_is : bh_run = crowd 500 bh_sched (repeat a_line 40 ++ [[]]) (seat bh_net bh_controllers) bh_world.
Proof. unfold bh_run. reflexivity. Qed.
Lemma bh_spins : exists f, whole_endless bh_net bh_controllers bh_world f /\ whole_fair bh_net bh_controllers bh_world f /\ limited f /\ statuses_come f /\ (forall n, willing (so_far f n)) /\ so_far f (length bh_events) = bh_events /\
    whole_run bh_net bh_controllers bh_world bh_events (snd bh_run) (seat_outcome bh_net bh_tasks) /\
    (forall n, length bh_events <= n -> forward (snd (f n)) = false /\ (forall w ocs, whole_run bh_net bh_controllers bh_world (so_far f n) w ocs -> w = snd bh_run) /\
      forall t, stuck_t (bh_tasks t) (snd bh_run) = true -> own t (so_far f n) = own t bh_events).
Proof.
  apply (played_spins bh_net bh_controllers 500 bh_sched (repeat a_line 40 ++ [[]]) bh_world [15; 16] bh_run bh_run_is).
  - by_vm.
  - by_vm.
  - exact bh_made.
  - exact bh_willing.
  - by_vm.
  - vm_compute. split; [reflexivity|split; [reflexivity|exact Logic.I]].
  - by_vm.
  - by_vm.
Qed.
Lemma bh_empty : length (cs_queue (snd bh_run (CSize 4))) = 0.
Proof. by_vm. Qed.
Lemma bh_d1 : stuck_t (bh_tasks (4 * 2)) (snd bh_run) = true.
Proof. by_vm. Qed.
Lemma bh_d2 : settled_m (bh_tasks (4 * 2)) = true.
Proof. by_vm. Qed.
Lemma bh_d3 : mstatus (bh_tasks (4 * 2)) = At (ERecv (CData 2)).
Proof. by_vm. Qed.
Definition bh_drain : drain := Eval vm_compute in match nth_error bh_net 2 with Some (NDrain d _) => d | _ => drain_new "" end.
Lemma bh_seat : seat bh_net bh_controllers (4 * 2) = TM (drain_start bh_drain None).
Proof. reflexivity. Qed.
Lemma bh_waiting : exec (drain_start bh_drain None) (own (4 * 2) bh_events) (At (ERecv (CData 2))).
Proof.
  pose proof (played_at bh_net bh_controllers 500 bh_sched (repeat a_line 40 ++ [[]]) bh_world bh_run (4 * 2) _ bh_run_is bh_seat bh_d2) as K. exact (at_by bh_run bh_tasks bh_events (4 * 2) _ _ K bh_d3).
Qed.
Lemma so_far_more f n m : so_far f (n + m) = so_far f n ++ map f (seq n m).
Proof. unfold so_far. now rewrite seq_app, map_app. Qed.
Theorem behind_endless : exists c w cs w0 f, good_connections (cf_connection c) /\ NoDup (keys (cf_regulator c)) /\ prepares in_order c w cs /\ passing (cf_connection c) /\ no_loop (cf_connection c) /\
  whole_endless (net_of None [] w) cs w0 f /\ whole_fair (net_of None [] w) cs w0 f /\ limited f /\ statuses_come f /\ (forall n, willing (so_far f n)) /\
  (exists n0, forall n, n0 <= n -> forward (snd (f n)) = false) /\
  (exists k d s, nth_error (net_of None [] w) k = Some (NDrain d s) /\ forall n wl ocs, whole_run (net_of None [] w) cs w0 (so_far f n) wl ocs -> ocs k = Going) /\
  ~ choked_for_good (net_of None [] w) cs w0 f.
Proof.
  destruct bh_spins as (f & F1 & F2 & F3 & F4 & F5 & F6 & _ & F7). exists bh_config, bh_waiter, bh_controllers, bh_world, f. change (net_of None [] bh_waiter) with bh_net.
  split; [exact bh_good|]. split; [exact bh_once|]. split; [exact bh_prepares|]. split; [exact bh_passing|]. split; [exact bh_no_loop|]. split; [exact F1|]. split; [exact F2|]. split; [exact F3|]. split; [exact F4|]. split; [exact F5|].
  pose proof bh_waiting as HW. pose proof bh_d1 as HD. pose proof bh_empty as HE. revert F6 F7 HW HD HE. generalize bh_run as r. intros [[l ts] w] F6 F7 HW HD HE. cbn [fst snd] in *.
  split; [exists (length l); intros n Hn; exact (proj1 (F7 n Hn))|]. split.
  - exists 2, bh_drain, "out.txt". split; [reflexivity|]. intros n wl ocs HR. destruct (Nat.le_gt_cases (length l) n) as [Hn|Hn].
    + destruct (F7 n Hn) as (_ & _ & K). specialize (K _ HD). refine (still_going bh_net bh_controllers bh_world (so_far f n) bh_drain "out.txt" [] _ _ _ 2 (ERecv (CData 2)) eq_refl _ HR eq_refl). rewrite app_nil_r, K. exact HW.
    + assert (E : l = so_far f n ++ map f (seq n (length l - n))) by (rewrite <- so_far_more; replace (n + (length l - n)) with (length l) by lia; auto).
      refine (still_going bh_net bh_controllers bh_world (so_far f n) bh_drain "out.txt" (map f (seq n (length l - n))) _ _ _ 2 (ERecv (CData 2)) eq_refl _ HR eq_refl). rewrite <- E. exact HW.
  - intros (n0 & k & m & cp & HC). destruct (F1 (n0 + length l)) as (w' & ocs & HR). destruct (HC (n0 + length l) w' ocs ltac:(lia) HR) as [_ K]. destruct (F7 (n0 + length l) ltac:(lia)) as (_ & K2 & _). rewrite (K2 _ _ HR) in K.
    destruct K as (b & u & mi & mo & s & Hk & Hb & _ & _ & _ & Hl & _). do 4 (destruct k as [|k]; [cbn in Hk; try discriminate Hk|]); [|destruct k; discriminate Hk]. injection Hk as <- <- <- <-. cbn in Hb, Hl. injection Hb as <-. rewrite HE in Hl. discriminate Hl.
Qed.
End Slow2.
