(** * P_SoftExamples: a file that breaks behind pipes that give way, and an exit status that nobody takes *)
From Coq Require Import Ascii String List Bool Arith Lia Permutation ZArith.
From Verif Require Import M_Prog M_Join M_Launch M_Motion M_Config M_Manip M_Lint M_Waiter M_Regulator M_Drain M_Faucet S_Manip S_Trace S_Lines S_Motion S_World S_Network S_Net S_Junction S_Drain S_Launch M_Start S_Start S_Shape S_Waiter S_Watch S_Delay S_Flow S_Path S_Bytes P_Path P_SpringExamples P_PathExamples P_Text P_Parser P_ManipExamples P_NetExamples P_Crowd P_Whole P_Jam P_Shape P_ShapeExamples P_WatchExamples P_DelayRun P_Act P_DelayExamples P_WaiterExamples P_Bytes P_BytesExamples P_Wreck M_Parser P_LastingExamples S_Grammar S_Soft.
Import ListNotations.
Local Open Scope string_scope.
Local Open Scope list_scope.

Definition soft_inputs (l : list connection) : bool := forallb (fun x => match input_of x with Some i => match ip_breakable i with Terminate => false | _ => true end | None => true end) l.
Lemma soft_by m : Forall (fun kv => exists s l, snd kv = JoinString s /\ load_connection_from_string s = Good (Some l) /\ soft_inputs l = true) m -> giving_way m.
Proof.
  intros HF k l x i (js & Hin & Hj) Hx Hi HT. rewrite Forall_forall in HF. destruct (HF _ Hin) as (s & l' & E & El & Hs). cbn in E. subst js.
  destruct Hj as [K|(s' & K & Ht)]; [discriminate K|]. injection K as <-. apply load_exact in Ht. rewrite El in Ht. injection Ht as <-.
  unfold soft_inputs in Hs. rewrite forallb_forall in Hs. specialize (Hs _ Hx). now rewrite Hi, HT in Hs.
Qed.
Ltac soft_by_vm := apply soft_by; repeat constructor; (eexists _, _; split; [reflexivity|]; split; [vm_compute; reflexivity|reflexivity]).

(** ** bad.txt, one of two files to be written, breaks *)
Definition sf_config : config := Config [("in", "in.txt")] [] [("bad", "bad.txt"); ("good", "good.txt")] [] [("one", JoinString "f:in |F| j:fork |C| d:bad"); ("two", JoinString "j:fork |F| d:good")].
Definition sf_waiter : waiter := Eval vm_compute in match settled_up sf_config with Some (w, _) => w | None => waiter_new end.
Definition sf_net : list S_Net.comp := Eval vm_compute in net_of None [] sf_waiter.
Lemma sf_good : good_connections (cf_connection sf_config).
Proof. good_by. Qed.
Lemma sf_prepares : prepares in_order sf_config sf_waiter [].
Proof. apply settled_prepares. by_vm. Qed.
Lemma sf_passing : passing (cf_connection sf_config).
Proof. eapply computed_passing; [exact sf_good|by_vm|by_vm|by_vm]. Qed.
Lemma sf_no_loop : no_loop (cf_connection sf_config).
Proof. eapply (computed_no_loop sf_config _ _ sf_good) with (rank := find_rank [((CJunction, "fork"), 1); ((CDrain, "bad"), 2); ((CDrain, "good"), 2)]); by_vm. Qed.
Lemma sf_apart : apart (cf_connection sf_config).
Proof. exact (loops_apart _ (no_loop_buffered _ sf_no_loop)). Qed.
Lemma sf_soft : giving_way (cf_connection sf_config).
Proof. soft_by_vm. Qed.
Section Broken.
#[local] Instance broken : outside := fun e => match e with ECreate nm => if string_dec nm "bad.txt" then Some (AFd 7) else kind_world e | EWrite 7 _ => Some ABroken | _ => kind_world e end.
Definition sf_run := crowd 500 (concat (repeat (poll_order sf_net []) 12)) (repeat P_Jam.a_line 20) (seat sf_net []) lw_world.
Lemma sf_ran : whole_run sf_net [] lw_world (fst (fst sf_run)) (snd sf_run) (seat_outcome sf_net (ready (snd (fst sf_run)))).
Proof. apply (played_whole sf_net []); [by_vm|by_vm|by_vm|made_of_eights]. Qed.
Lemma sf_outcomes : map (seat_outcome sf_net (ready (snd (fst sf_run)))) (seq 0 5) =
  [Ended (Ok 20); Ended (Err (OutputClosed (J 1 None 3 Terminate) BrokenPipe P_Jam.a_line)); Ended (Ok 21); Ended (Ok 21); Ended (Ok 21)].
Proof. by_vm. Qed.
Lemma sf_refused : existsb (fun x : nevent => match x with (16, (ESend (CData 2) _, AClosed)) => true | _ => false end) (fst (fst sf_run)) = true.
Proof. by_vm. Qed.
End Broken.
Lemma breaks_alone : good_connections (cf_connection sf_config) /\ prepares in_order sf_config sf_waiter [] /\ passing (cf_connection sf_config) /\ apart (cf_connection sf_config) /\ giving_way (cf_connection sf_config) /\
  exists w0 l w ocs d, whole_run (net_of None [] sf_waiter) [] w0 l w ocs /\
    map ocs (seq 0 5) = [Ended (Ok 20); Ended (Err (OutputClosed (J 1 None 3 Terminate) BrokenPipe d)); Ended (Ok 21); Ended (Ok 21); Ended (Ok 21)] /\
    existsb (fun x : nevent => match x with (16, (ESend (CData 2) _, AClosed)) => true | _ => false end) l = true.
Proof.
  split; [exact sf_good|]. split; [exact sf_prepares|]. split; [exact sf_passing|]. split; [exact sf_apart|]. split; [exact sf_soft|].
  eexists _, _, _, _, _. change (net_of None [] sf_waiter) with sf_net. split; [exact sf_ran|]. split; [exact sf_outcomes|exact sf_refused].
Qed.

(** ** The exit status is to be written where nothing can be written *)
Definition xt_config : config := Config [("in", "in.txt")] [] [("out", "out.txt"); ("code", "bad.txt")] [("prog", runs "sort")] [("one", JoinString "f:in |F| l:prog |F| d:out"); ("two", JoinString "l:prog[X] |C| d:code")].
Definition xt_waiter : waiter := Eval vm_compute in match settled_up xt_config with Some (w, _) => w | None => waiter_new end.
Definition xt_net : list S_Net.comp := Eval vm_compute in net_of None [] xt_waiter.
Lemma xt_good : good_connections (cf_connection xt_config).
Proof. good_by. Qed.
Lemma xt_prepares : prepares in_order xt_config xt_waiter [].
Proof. apply settled_prepares. by_vm. Qed.
Lemma xt_passing : passing (cf_connection xt_config).
Proof. eapply computed_passing; [exact xt_good|by_vm|by_vm|by_vm]. Qed.
Lemma xt_no_loop : no_loop (cf_connection xt_config).
Proof. eapply (computed_no_loop xt_config _ _ xt_good) with (rank := find_rank [((CLaunch, "prog"), 1); ((CDrain, "out"), 2); ((CDrain, "code"), 2)]); by_vm. Qed.
Lemma xt_apart : apart (cf_connection xt_config).
Proof. exact (loops_apart _ (no_loop_buffered _ xt_no_loop)). Qed.
Lemma xt_soft : giving_way (cf_connection xt_config).
Proof. soft_by_vm. Qed.
Definition xt_world : world := fun c => match c with CData (1|2) => fresh_chan (Some 1) | CCtl _ => fresh_chan (Some 1) | _ => fresh_chan (Some 8) end.
Definition xt_launch : launch := Eval vm_compute in match nth 0 xt_net (NJunction (M_Junction.junction_new)) with NLaunch _ _ la => la | _ => dm_launch end.
Definition xt_tasks : tasks := fun t =>
  match t with
  | 0 => TM (Vis (ESpawn (launch_spawning None [] xt_launch)) (fun _ => launch_finish xt_launch None (Ok 2) (Ok 3) (Ok 1)))
  | 1 => TM (relay (rl_in (launch_relays xt_launch 2 3 4)) None)
  | 2 => TM (relay (rl_out (launch_relays xt_launch 2 3 4)) None)
  | 3 => TM (relay (rl_err (launch_relays xt_launch 2 3 4)) None)
  | _ => seat xt_net [] t
  end.
Section Unwanted.
#[local] Existing Instance no_room.
#[local] Instance work : pausing := fun e => match e with ESleep _ | ERead _ | EStatus => true | _ => false end.
Definition xt_reads : list bytes := [P_Jam.a_line; P_Jam.a_line; P_Jam.a_line; []; []; []].
Definition xt_sched : list nat := [0] ++ concat (repeat [1; 2; 3; 4; 8; 12] 14) ++ [0] ++ concat (repeat [1; 2; 3; 4; 8; 12] 6).
Definition xt_run := crowd 500 xt_sched xt_reads xt_tasks xt_world.
Definition xt_events : list nevent := Eval vm_compute in fst (fst xt_run).
Lemma xt_is : fst (fst (crowd 500 xt_sched xt_reads xt_tasks xt_world)) = xt_events.
Proof. by_vm. Qed.
Definition xt_ends (k : nat) : S_Net.outcome :=
  match k with 0 => Ended (Err (SendError (J 1 (Some PExit) 3 Consume) ["0"%char])) | 1 => Ended (Ok 1) | 2 => Ended (Ok 3) | 3 => Ended (Err (OpenIOError (PJ 1 3))) | _ => Going end.
Lemma xt_made : made_world xt_net xt_world.
Proof.
  constructor.
  - intros [n| | | |]; cbn [xt_world]; eauto. destruct n as [|[|[|n]]]; eauto.
  - intros c n Hc Hn. cbn in Hc. repeat destruct Hc as [<-|Hc]; try contradiction; cbn in Hn; repeat destruct Hn as [<-|Hn]; try contradiction; reflexivity.
  - intros b u mi mo Hc. cbn in Hc. repeat destruct Hc as [Hc|Hc]; try discriminate Hc; try contradiction.
  - intros c n Hc Hn. cbn in Hc. repeat destruct Hc as [<-|Hc]; try contradiction; cbn in Hn; repeat destruct Hn as [<-|Hn]; try contradiction; reflexivity.
  - intros c n Hc Hn. cbn in Hc. repeat destruct Hc as [<-|Hc]; try contradiction; cbn in Hn; repeat destruct Hn as [<-|Hn]; try contradiction; reflexivity.
Qed.
Ltac xt_alone k := apply (played_alone 500 _ xt_reads xt_tasks xt_world _ xt_is k); [reflexivity|by_vm|by_vm|by_vm].
Ltac xt_task i := apply (played_m 500 _ xt_reads xt_tasks xt_world _ xt_is 0 i); [lia|reflexivity|by_vm|by_vm].
Lemma xt_ran : free_run xt_net [] xt_world xt_events (snd xt_run) xt_ends.
Proof.
  constructor.
  - intros [|[|[|[|k]]]] c H; cbn in H; try (destruct k; discriminate H); injection H as <-; cbn [comp_runs].
    + exists (After (Done (Err (SendError (J 1 (Some PExit) 3 Consume) ["0"%char])))). split; [|split; [exact Logic.I|reflexivity]].
      eapply (exit_played None [] xt_launch (firstn 31 (tl (seen_by 0 xt_events))) (skipn 31 (tl (seen_by 0 xt_events))) (seen_by 0 xt_events) (Ok 2) (Ok 3) (Ok 1));
        [reflexivity|by_vm|xt_task 0|xt_task 1|xt_task 2|xt_task 3|by_vm|by_vm].
    + eexists. split; [xt_alone 1|reflexivity].
    + eexists. split; [xt_alone 2|reflexivity].
    + eexists. split; [xt_alone 3|reflexivity].
  - intros [|m] c H; discriminate H.
  - exact (proj1 (played_sound 500 _ _ _ _ _ xt_is)).
  - intros t ev Hin. assert (H : forallb (fun x : nevent => existsb (Nat.eqb (fst x)) (poll_order xt_net [])) xt_events = true) by by_vm. rewrite forallb_forall in H. specialize (H _ Hin). apply existsb_exists in H as (u & Hu & E). apply Nat.eqb_eq in E. cbn [fst] in E. now subst.
  - exact xt_made.
Qed.
End Unwanted.
Lemma unhurt_by h : forallb (fun x : event => match snd x with AErr | ABroken => negb (outward (fst x)) | _ => true end) h = true -> ~ hurt h.
Proof. intros H (x & a & Hin & Ho & Ha). rewrite forallb_forall in H. specialize (H _ Hin). cbn in H. destruct Ha as [-> | ->]; rewrite Ho in H; discriminate H. Qed.
Lemma exit_unwanted : exists c w, good_connections (cf_connection c) /\ prepares in_order c w [] /\ passing (cf_connection c) /\ apart (cf_connection c) /\ giving_way (cf_connection c) /\
  exists w0 l wl ocs k la e, free_run (net_of None [] w) [] w0 l wl ocs /\ nth_error (net_of None [] w) k = Some (NLaunch None [] la) /\ ocs k = Ended (Err e) /\ ~ hurt (did k l).
Proof.
  exists xt_config, xt_waiter. split; [exact xt_good|]. split; [exact xt_prepares|]. split; [exact xt_passing|]. split; [exact xt_apart|]. split; [exact xt_soft|].
  eexists xt_world, xt_events, _, xt_ends, 0, xt_launch, _. split; [exact xt_ran|]. split; [reflexivity|]. split; [reflexivity|]. apply unhurt_by. reflexivity.
Qed.

(** ** The same file breaks behind pipes that are not marked *)
Definition hd_config : config := Config [("in", "in.txt")] [] [("bad", "bad.txt"); ("good", "good.txt")] [] [("one", JoinString "f:in | j:fork | d:bad"); ("two", JoinString "j:fork | d:good")].
Definition hd_waiter : waiter := Eval vm_compute in match settled_up hd_config with Some (w, _) => w | None => waiter_new end.
Definition hd_net : list S_Net.comp := Eval vm_compute in net_of None [] hd_waiter.
Lemma hd_good : good_connections (cf_connection hd_config).
Proof. good_by. Qed.
Lemma hd_prepares : prepares in_order hd_config hd_waiter [].
Proof. apply settled_prepares. by_vm. Qed.
Lemma hd_passing : passing (cf_connection hd_config).
Proof. eapply computed_passing; [exact hd_good|by_vm|by_vm|by_vm]. Qed.
Lemma hd_no_loop : no_loop (cf_connection hd_config).
Proof. eapply (computed_no_loop hd_config _ _ hd_good) with (rank := find_rank [((CJunction, "fork"), 1); ((CDrain, "bad"), 2); ((CDrain, "good"), 2)]); by_vm. Qed.
Lemma hd_apart : apart (cf_connection hd_config).
Proof. exact (loops_apart _ (no_loop_buffered _ hd_no_loop)). Qed.
Section Hard.
#[local] Existing Instance broken.
Definition hd_run := crowd 500 (concat (repeat (poll_order hd_net []) 12)) (repeat P_Jam.a_line 20) (seat hd_net []) lw_world.
Lemma hd_ran : whole_run hd_net [] lw_world (fst (fst hd_run)) (snd hd_run) (seat_outcome hd_net (ready (snd (fst hd_run)))).
Proof. apply (played_whole hd_net []); [by_vm|by_vm|by_vm|made_of_eights]. Qed.
Lemma hd_outcome : seat_outcome hd_net (ready (snd (fst hd_run))) 4 = Ended (Err (OutputClosed (J 1 (Some POut) 3 Terminate) ChannelClosed P_Jam.a_line)).
Proof. by_vm. Qed.
Lemma hd_unhurt : forallb (fun x : event => match snd x with AErr | ABroken => negb (outward (fst x)) | _ => true end) (did 4 (fst (fst hd_run))) = true.
Proof. by_vm. Qed.
End Hard.
Lemma spreads : exists c w, good_connections (cf_connection c) /\ prepares in_order c w [] /\ passing (cf_connection c) /\ apart (cf_connection c) /\ no_loop (cf_connection c) /\
  exists w0 l wl ocs k x e, whole_run (net_of None [] w) [] w0 l wl ocs /\ nth_error (net_of None [] w) k = Some x /\ ocs k = Ended (Err e) /\ ~ hurt (did k l).
Proof.
  exists hd_config, hd_waiter. split; [exact hd_good|]. split; [exact hd_prepares|]. split; [exact hd_passing|]. split; [exact hd_apart|]. split; [exact hd_no_loop|].
  eexists lw_world, _, _, _, 4, _, _. split; [exact hd_ran|]. split; [reflexivity|]. split; [exact hd_outcome|]. exact (unhurt_by _ hd_unhurt).
Qed.
