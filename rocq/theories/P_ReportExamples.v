(** * P_ReportExamples: what particular runs report *)
From Coq Require Import Ascii String List Bool Arith Lia Permutation ZArith.
From Verif Require Import M_Prog M_Join M_Launch M_Motion M_Config M_Manip M_Lint M_Waiter M_Regulator M_Drain M_Faucet S_Manip S_Trace S_Lines S_Motion S_World S_Network S_Net S_Junction S_Drain S_Launch M_Start S_Start S_Shape S_Waiter S_Watch S_Delay S_Flow S_Path S_Bytes P_Path P_SpringExamples P_PathExamples P_Text P_Parser P_ManipExamples P_NetExamples P_Crowd P_Whole P_Jam P_Shape P_ShapeExamples P_WatchExamples P_DelayRun P_Act P_DelayExamples P_WaiterExamples P_Bytes P_BytesExamples P_Wreck M_Parser P_LastingExamples S_Grammar S_Soft
  M_Setters M_Serde M_Cli M_BufWriter S_Cli S_Lead M_Errors M_Report S_Errors S_Report S_Delivery P_Rounds P_CliExamples P_SoftExamples P_LeadExamples P_Report P_Delivery.
Import ListNotations.
Local Open Scope string_scope.
Local Open Scope list_scope.

(** The machine on which everybody ends in this way *)
Definition ending_with (ocs : nat -> S_Net.outcome) (time : nat -> nat) : machine := Machine
  (fun w cs => match run_results ocs time w cs with Some x => x | None => ([], [], [], [], [], [], []) end)
  (fun _ => None) (fun _ => "") (fun _ => "no space left") (fun s => "<" ++ s ++ ">")%string (fun l => l) (fun l => l).
Definition to_run : matches := typed_first "process" (Some "c.yaml") None None.

(** ** A program between files: all ends well *)
Lemma pg_prepares : prepares in_order pg_config pg_waiter [].
Proof. apply settled_prepares. by_vm. Qed.
Lemma pg_passing : passing (cf_connection pg_config).
Proof. eapply computed_passing; [exact pg_good|by_vm|by_vm|by_vm]. Qed.
Lemma pg_no_loop : no_loop (cf_connection pg_config).
Proof. eapply (computed_no_loop pg_config _ _ pg_good) with (rank := find_rank [((CLaunch, "prog"), 1); ((CDrain, "out"), 2); ((CDrain, "err"), 2); ((CDrain, "code"), 2)]); by_vm. Qed.
Lemma pg_apart : apart (cf_connection pg_config).
Proof. exact (loops_apart _ (no_loop_buffered _ pg_no_loop)). Qed.
Lemma pg_asked : asked_to_run (one_file (ser_config pg_config)) to_run pg_config.
Proof. eexists _, _. split; by_vm. Qed.
Definition pg_machine : machine := ending_with pg_fine (fun k => k).
Lemma pg_results : run_results pg_fine (fun k => k) pg_waiter [] = Some (mc_run pg_machine pg_waiter []).
Proof. by_vm. Qed.
Lemma pg_main : main pg_machine (one_file (ser_config pg_config)) in_order to_run = Some (Good (Ending [] [] 0)).
Proof. by_vm. Qed.

(** What the writer of [f] holds and has handed over if everything is short and taken at once *)
Fixpoint keeps (f : fd) (tr : trace) (s : bufwriter) : option bufwriter :=
  match tr with
  | [] => Some s
  | (EWrite g d, a) :: r => if Nat.eq_dec g f then match a, d with AOk, _ :: _ => if Nat.ltb (List.length (bw_held s) + List.length d) 100 then keeps f r (BufW (bw_held s ++ d) (bw_file s)) else None | _, _ => None end else keeps f r s
  | (EFlush g, a) :: r => if Nat.eq_dec g f then match a, bw_held s with AOk, _ :: _ => keeps f r (BufW [] (bw_file s ++ bw_held s)) | _, _ => None end else keeps f r s
  | _ :: r => keeps f r s
  end.
Lemma cons_app {A} (p : list A) x r : p ++ x :: r = (p ++ [x]) ++ r.
Proof. now rewrite <- app_assoc. Qed.
Lemma keeps_stored f tr : forall p s s', stored f p s -> keeps f tr s = Some s' -> stored f (p ++ tr) s'.
Proof.
  induction tr as [|[e a] r IH]; cbn [keeps]; intros p s s' Hs E; [injection E as <-; now rewrite app_nil_r|]. rewrite cons_app.
  assert (O : ~ concerns f e -> keeps f r s = Some s' -> stored f ((p ++ [(e, a)]) ++ r) s') by (intros Hc H; exact (IH _ _ _ (St_other f p s e a Hs Hc) H)).
  destruct e as [c|c|c v|c|c|c|f1|g d0|g|f1|ms|nm|nm| | | |sp|]; try (apply O; [cbn; tauto|exact E]).
  - destruct (Nat.eq_dec g f) as [-> |N]; [|apply O; [cbn; tauto|exact E]]. destruct a; try discriminate. destruct d0 as [|x d]; [discriminate|].
    destruct (Nat.ltb _ 100) eqn:L; [|discriminate]. apply Nat.ltb_lt in L. refine (IH _ _ _ (St_write f p s _ AOk _ true Hs (WW_kept _ s s _ (MR_room _ s _) _) _) E); [discriminate| | |tauto]; unfold bw_capacity; lia.
  - destruct (Nat.eq_dec g f) as [-> |N]; [|apply O; [cbn; tauto|exact E]]. destruct a; try discriminate. destruct (bw_held s) as [|x d] eqn:B; [discriminate|].
    refine (IH _ _ _ (St_flush f p s AOk _ true Hs (FA_file s _ true _) _) E); [|tauto].
    refine (FB_some s (List.length (bw_held s)) _ true _ _); [rewrite B; cbn; lia|]. unfold hand_over. rewrite skipn_all, firstn_all, B. apply FB_done. reflexivity.
Qed.
Lemma pg_holds : file_holds pg_config pg_waiter None [] pg_events "out" (line_of "?" "y" ++ ["x"; "010"; "z"]%char) /\ file_holds pg_config pg_waiter None [] pg_events "code" ["0"%char].
Proof.
  split.
  - eapply (FH _ _ _ _ _ _ 3 "out.txt" 1 _ (BufW [] _)); [eexists; split; by_vm|by_vm|by_vm|]. eapply (keeps_stored 1 _ [] bw_new); [apply St_new|by_vm].
  - eapply (FH _ _ _ _ _ _ 4 "code.txt" 1 _ (BufW [] _)); [eexists; split; by_vm|by_vm|by_vm|]. eapply (keeps_stored 1 _ [] bw_new); [apply St_new|by_vm].
Qed.
Theorem program_reported : good_connections (cf_connection pg_config) /\ prepares in_order pg_config pg_waiter [] /\ passing (cf_connection pg_config) /\ apart (cf_connection pg_config) /\
  asked_to_run (one_file (ser_config pg_config)) to_run pg_config /\ (forall l, mc_settings pg_machine l = l) /\
  exists ps w0 l wl ocs time, spelled (cf_connection pg_config) ps /\ free_run (net_of None [] pg_waiter) [] w0 l wl ocs /\ run_results ocs time pg_waiter [] = Some (mc_run pg_machine pg_waiter []) /\
    start_result ocs time pg_waiter [] = Some (Ok 14) /\ main pg_machine (one_file (ser_config pg_config)) in_order to_run = Some (Good (Ending [] [] 0)) /\
    arrivals ps (CDrain, "out") <> [] /\ supplied ps (CDrain, "out") [of_program POut] /\
    has_read pg_config pg_waiter None [] l (of_program POut) [["?"%char]; ["y"; "010"]%char; ["x"; "010"]%char; ["z"%char]; []; []] /\
    file_holds pg_config pg_waiter None [] l "out" ["?"; "y"; "010"; "x"; "010"; "z"]%char /\ file_holds pg_config pg_waiter None [] l "code" ["0"%char].
Proof.
  split; [exact pg_good|]. split; [exact pg_prepares|]. split; [exact pg_passing|]. split; [exact pg_apart|]. split; [exact pg_asked|]. split; [reflexivity|].
  exists pg_steps, pg_world, pg_events, (snd pg_run), pg_fine, (fun k => k). change (net_of None [] pg_waiter) with pg_net. split; [exact pg_spelled|]. split; [exact pg_ran|]. split; [exact pg_results|].
  split; [by_vm|]. split; [exact pg_main|]. split; [discriminate|]. split; [exact (proj1 (proj2 pg_supplied))|]. split; [|exact pg_holds].
  eapply got_eq; [eapply HR_out with (k := 0) (fin := 2) (fout := 3) (ferr := 4); [eexists; split; by_vm|by_vm]|by_vm].
Qed.

(** ** A file that breaks: it is named *)
Section B.
#[local] Existing Instance broken.
Definition sf_ends : nat -> S_Net.outcome := seat_outcome sf_net (ready (snd (fst ld_run))).
Definition sf_machine : machine := ending_with sf_ends (fun k => k + 5).
Definition sf_failure := OutputClosed (J 1 None 3 Terminate) BrokenPipe ["0"; "010"]%char.
Lemma sf_asked : asked_to_run (one_file (ser_config sf_config)) to_run sf_config.
Proof. eexists _, _. split; by_vm. Qed.
Theorem failure_reported : good_connections (cf_connection sf_config) /\ prepares in_order sf_config sf_waiter [] /\ asked_to_run (one_file (ser_config sf_config)) to_run sf_config /\ (forall l, mc_settings sf_machine l = l) /\
  exists w0 l wl ocs time, free_run (net_of None [] sf_waiter) [] w0 l wl ocs /\ run_results ocs time sf_waiter [] = Some (mc_run sf_machine sf_waiter []) /\
    start_result ocs time sf_waiter [] = Some (Err [CausedByError CDrain "bad" (Timed sf_failure 6)]) /\
    main sf_machine (one_file (ser_config sf_config)) in_order to_run =
      Some (Good (Ending [] ["Error(s) have occurred:"; ""; " * Junction:junction_1 | Drain:bad - <MotionError::OutputClosed: BrokenPipe>"; ""] 1)).
Proof.
  split; [exact sf_good|]. split; [exact sf_prepares|]. split; [exact sf_asked|]. split; [reflexivity|].
  exists lw_world, (fst (fst ld_run)), (snd ld_run), sf_ends, (fun k => k + 5). change (net_of None [] sf_waiter) with sf_net. split; [exact (proj1 ld_ran)|]. split; [by_vm|]. split; by_vm.
Qed.
End B.
