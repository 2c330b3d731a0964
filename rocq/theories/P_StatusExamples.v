(** * P_StatusExamples: a program that fails and does not read all its input *)
From Coq Require Import Ascii String List Bool Arith Lia Permutation ZArith.
From Verif Require Import M_Prog M_Join M_Launch M_Motion M_Config M_Manip M_Lint M_Waiter M_Regulator M_Drain M_Faucet S_Manip S_Trace S_Lines S_Motion S_World S_Network S_Net S_Junction S_Drain S_Launch M_Start S_Start S_Shape S_Waiter S_Watch S_Delay S_Flow S_Path S_Bytes P_Path P_SpringExamples P_PathExamples P_Text P_Parser P_ManipExamples P_NetExamples P_Crowd P_Whole P_Jam P_Shape P_ShapeExamples P_WatchExamples P_DelayRun P_Act P_DelayExamples P_WaiterExamples P_Bytes P_BytesExamples P_Wreck M_Parser P_LastingExamples S_Grammar S_Soft
  M_Setters M_Serde M_Cli M_BufWriter S_Cli S_Lead M_Errors M_Report S_Errors S_Report S_Delivery P_Rounds P_CliExamples P_SoftExamples P_LeadExamples P_Report P_Delivery P_ReportExamples.
Import ListNotations.
Local Open Scope string_scope.
Local Open Scope list_scope.

Definition last_line : bytes := ["e"; "n"; "d"]%char.
Section Run.
#[local] Existing Instance working.
(** It is gone when the last line is offered to it, and its status is 3. *)
#[local] Instance leaving : P_Crowd.outside := fun e => match e with EWrite 2 d => if list_eq_dec Ascii.ascii_dec d last_line then Some ABroken else Some AOk | EStatus => Some (AStatus (Some 3%Z)) | _ => kind_world e end.
Definition gn_tasks : tasks := fun t =>
  match t with
  | 0 => TM (Vis (ESpawn (launch_spawning None [] pg_launch)) (fun _ => launch_finish pg_launch None (Ok 2) (Ok 4) (Ok 3)))
  | 1 => TM (relay (rl_in (launch_relays pg_launch 2 3 4)) None)
  | 2 => TM (relay (rl_out (launch_relays pg_launch 2 3 4)) None)
  | 3 => TM (relay (rl_err (launch_relays pg_launch 2 3 4)) None)
  | _ => seat pg_net [] t
  end.
Definition gn_run := crowd 500 pg_sched pg_reads gn_tasks pg_world.
Definition gn_events : list nevent := Eval vm_compute in fst (fst gn_run).
Lemma gn_is : fst (fst (crowd 500 pg_sched pg_reads gn_tasks pg_world)) = gn_events.
Proof. by_vm. Qed.
Definition gn_ends (k : nat) : S_Net.outcome := match k with 0 => Ended (Ok 2) | _ => pg_fine k end.
Ltac gn_alone k := apply (played_alone 500 _ pg_reads gn_tasks pg_world _ gn_is k); [reflexivity|by_vm|by_vm|by_vm].
Ltac gn_task i := apply (played_m 500 _ pg_reads gn_tasks pg_world _ gn_is 0 i); [lia|reflexivity|by_vm|by_vm].
Lemma gn_ran : free_run pg_net [] pg_world gn_events (snd gn_run) gn_ends.
Proof.
  constructor.
  - intros [|[|[|[|[|k]]]]] c H; cbn in H; try (destruct k; discriminate H); injection H as <-; cbn [comp_runs].
    + exists (After (Done (Ok 2))). split; [|split; [exact Logic.I|reflexivity]].
      eapply (exit_played None [] pg_launch (firstn (List.length (seen_by 0 gn_events) - 10) (tl (seen_by 0 gn_events))) (skipn (List.length (seen_by 0 gn_events) - 10) (tl (seen_by 0 gn_events))) (seen_by 0 gn_events) (Ok 2) (Ok 4) (Ok 3));
        [reflexivity|by_vm|gn_task 0|gn_task 1|gn_task 2|gn_task 3|by_vm|by_vm].
    + eexists. split; [gn_alone 1|reflexivity].
    + eexists. split; [gn_alone 2|reflexivity].
    + eexists. split; [gn_alone 3|reflexivity].
    + eexists. split; [gn_alone 4|reflexivity].
  - intros [|m] c H; discriminate H.
  - exact (proj1 (played_sound 500 _ _ _ _ _ gn_is)).
  - intros t ev Hin. assert (H : forallb (fun x : nevent => existsb (Nat.eqb (fst x)) (poll_order pg_net [])) gn_events = true) by by_vm. rewrite forallb_forall in H. specialize (H _ Hin). apply existsb_exists in H as (u & Hu & E). apply Nat.eqb_eq in E. cbn [fst] in E. now subst.
  - exact pg_made.
Qed.
End Run.
Definition gn_machine : machine := ending_with gn_ends (fun k => k).
Ltac at_k := eexists; split; by_vm.
Lemma gn_zero : good_connections (cf_connection pg_config) /\ prepares in_order pg_config pg_waiter [] /\ passing (cf_connection pg_config) /\ apart (cf_connection pg_config) /\
  asked_to_run (one_file (ser_config pg_config)) to_run pg_config /\ (forall l, mc_settings gn_machine l = l) /\ spelled (cf_connection pg_config) pg_steps /\
  free_run (net_of None [] pg_waiter) [] pg_world gn_events (snd gn_run) gn_ends /\ run_results gn_ends (fun k => k) pg_waiter [] = Some (mc_run gn_machine pg_waiter []) /\
  main gn_machine (one_file (ser_config pg_config)) in_order to_run = Some (Good (Ending [] [] 0)).
Proof.
  split; [exact pg_good|]. split; [exact pg_prepares|]. split; [exact pg_passing|]. split; [exact pg_apart|]. split; [exact pg_asked|]. split; [reflexivity|]. split; [exact pg_spelled|].
  split; [change (net_of None [] pg_waiter) with pg_net; exact gn_ran|]. split; by_vm.
Qed.
Lemma gn_told : program_at pg_waiter None [] "prog" 0 /\ exit_told (own (4 * 0) gn_events) = [Some 3%Z] /\ file_holds pg_config pg_waiter None [] gn_events "code" ["3"%char].
Proof.
  split; [at_k|]. split; [by_vm|]. eapply (FH _ _ _ _ _ _ 4 "code.txt" 1 _ (BufW [] _)); [at_k|by_vm|by_vm|]. eapply (keeps_stored 1 _ [] bw_new); [apply St_new|by_vm].
Qed.
Lemma gn_given : supplied pg_steps (CLaunch, "prog") [of_file] /\ has_given pg_config pg_waiter None [] gn_events of_file [line_of "i" "n"; last_line] /\ has_got pg_config pg_waiter None [] gn_events (CLaunch, "prog") [line_of "i" "n"].
Proof.
  split; [exact (proj1 pg_supplied)|]. split.
  - eapply got_eq; [eapply HG_faucet with (k := 1); at_k|by_vm].
  - eapply got_eq; [eapply HO_program with (k := 0) (fin := 2) (fout := 3) (ferr := 4); [at_k|by_vm]|by_vm].
Qed.
(** The run of [P_BytesExamples], where nothing is refused *)
Lemma all_unhurt l k : forallb (fun y : event => match snd y with AErr | ABroken => false | _ => true end) (map snd l) = true -> ~ hurt (did k l).
Proof.
  intros H (x & a & Hin & Ho & Hbad). rewrite forallb_forall in H.
  assert (Hi : In (x, a) (map snd l)) by (unfold did in Hin; apply in_map_iff in Hin as (y & E & Hy); apply filter_In in Hy as [Hy _]; apply in_map_iff; eauto). specialize (H _ Hi). destruct Hbad as [-> | ->]; discriminate H.
Qed.
Lemma pg_unhurt k : program_at pg_waiter None [] "prog" k -> ~ hurt (did k pg_events).
Proof. intros _. apply all_unhurt. by_vm. Qed.
Lemma pg_given : has_got pg_config pg_waiter None [] pg_events (CLaunch, "prog") [line_of "i" "n"; last_line].
Proof. eapply got_eq; [eapply HO_program with (k := 0) (fin := 2) (fout := 3) (ferr := 4); [at_k|by_vm]|by_vm]. Qed.
