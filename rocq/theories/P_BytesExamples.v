(** * P_BytesExamples: a program that has run, and a merge that breaks lines *)
From Coq Require Import Ascii String List Bool Arith Lia Permutation ZArith.
From Verif Require Import M_Prog M_Join M_Launch M_Motion M_Config M_Manip M_Lint M_Waiter M_Regulator M_Drain M_Faucet S_Manip S_Trace S_Lines S_Motion S_World S_Network S_Net S_Junction S_Drain S_Launch M_Start S_Start S_Shape S_Waiter S_Watch S_Delay S_Flow S_Path S_Bytes P_Path P_SpringExamples P_PathExamples P_Text P_Parser P_ManipExamples P_NetExamples P_Crowd P_Whole P_Jam P_Shape P_ShapeExamples P_WatchExamples P_DelayRun P_Act P_DelayExamples P_WaiterExamples P_Bytes.
Import ListNotations.
Local Open Scope string_scope.
Local Open Scope list_scope.

(** ** A program: its input from a file, its outputs to files *)
Definition pg_config : config := Config [("in", "in.txt")] [] [("out", "out.txt"); ("err", "err.txt"); ("code", "code.txt")] [("prog", runs "sort")]
  [("bad", JoinString "l:prog[E] | d:err"); ("good", JoinString "f:in | l:prog[O] | d:out"); ("status", JoinString "l:prog[X] | d:code")].
Definition pg_waiter : waiter := Eval vm_compute in match settled_up pg_config with Some (w, _) => w | None => waiter_new end.
Definition pg_net : list S_Net.comp := Eval vm_compute in net_of None [] pg_waiter.
Lemma pg_good : good_connections (cf_connection pg_config).
Proof. good_by. Qed.
Definition pg_steps : list (connection * connection) :=
  Eval vm_compute in match convert_connections (cf_connection pg_config) with Good (m1, _) => flat_map (fun kv => neighbours (listed (snd kv))) m1 | _ => [] end.
Lemma pg_spelled : spelled (cf_connection pg_config) pg_steps.
Proof.
  destruct (convert_connections (cf_connection pg_config)) as [[m1 o]|e] eqn:E; [|exfalso; vm_compute in E; discriminate]. assert (o = []) by (vm_compute in E; congruence). subst o.
  pose proof (spelled_by _ _ pg_good E) as H. replace pg_steps with (flat_map (fun kv => neighbours (listed (snd kv))) m1); [exact H|]. vm_compute in E. injection E as <-. reflexivity.
Qed.
Definition pg_world : world := fun c => match c with CData (0|2|3) => fresh_chan (Some 1) | CCtl _ => fresh_chan (Some 1) | _ => fresh_chan (Some 8) end.
Definition pg_launch : launch := Eval vm_compute in match nth 0 pg_net (NJunction (M_Junction.junction_new)) with NLaunch _ _ la => la | _ => dm_launch end.
Definition pg_tasks : tasks := fun t =>
  match t with
  | 0 => TM (Vis (ESpawn (launch_spawning None [] pg_launch)) (fun _ => launch_finish pg_launch None (Ok 3) (Ok 4) (Ok 3)))
  | 1 => TM (relay (rl_in (launch_relays pg_launch 2 3 4)) None)
  | 2 => TM (relay (rl_out (launch_relays pg_launch 2 3 4)) None)
  | 3 => TM (relay (rl_err (launch_relays pg_launch 2 3 4)) None)
  | _ => seat pg_net [] t
  end.
Definition two (a b : ascii) : bytes := [a; b].
Lemma exit_played cwd vars la L1 L2 (E : list nevent) r1 r2 r3 st (x := launch_relays la 2 3 4) : la_launched la = false ->
  E = (0, (ESpawn (launch_spawning cwd vars la), AChild 2 3 4)) :: L1 ++ L2 ->
  exec (Vis (ESpawn (launch_spawning cwd vars la)) (fun _ => launch_finish la None r1 r2 r3)) (own 0 E) st ->
  exec (relay (rl_in x) None) (own 1 E) (Done r1) -> exec (relay (rl_out x) None) (own 2 E) (Done r2) -> exec (relay (rl_err x) None) (own 3 E) (Done r3) ->
  forallb (fun x => negb (existsb (Nat.eqb (fst x)) [0])) L1 = true -> forallb (fun x => negb (existsb (Nat.eqb (fst x)) [1; 2; 3])) L2 = true ->
  launch_start cwd vars la None E (After st).
Proof.
  intros Hl EL X0 X1 X2 X3 H1 H2. unfold launch_start. apply idle_by in H1. apply idle_by in H2. rewrite EL in *.
  assert (O0 : own 0 (L1 ++ L2) = own 0 L2) by (rewrite P_World.own_app, (H1 0 (or_introl eq_refl)); reflexivity).
  assert (OI : forall i, In i [1; 2; 3] -> own i (L1 ++ L2) = own i L1) by (intros i Hi; rewrite P_World.own_app, (H2 i Hi), app_nil_r; reflexivity).
  change ((0, (ESpawn (launch_spawning cwd vars la), AChild 2 3 4)) :: L1 ++ L2) with ([(0, (ESpawn (launch_spawning cwd vars la), AChild 2 3 4))] ++ L1 ++ L2).
  assert (S0 : forall i, own i ((0, (ESpawn (launch_spawning cwd vars la), AChild 2 3 4)) :: L1 ++ L2) = if Nat.eqb 0 i then (ESpawn (launch_spawning cwd vars la), AChild 2 3 4) :: own i (L1 ++ L2) else own i (L1 ++ L2)) by (intro i; rewrite P_World.own_one; destruct (Nat.eqb 0 i); reflexivity).
  rewrite S0 in X0, X1, X2, X3. cbn [Nat.eqb] in X0, X1, X2, X3. rewrite OI in X1, X2, X3 by (cbn; tauto). rewrite O0 in X0.
  eapply (J_after _ _ _ _ _ _ L1 L2 x r1 r2 r3 st); [intros i [<-|[<-|[<-|[]]]]; reflexivity|exact H1|exact H2| |exact X1|exact X2|exact X3|].
  - unfold launch_spawn. rewrite Hl. cbn. constructor; [reflexivity|constructor].
  - inversion X0; subst; assumption.
Qed.
Section Run.
#[local] Instance working : pausing := fun e => match e with ESleep _ | ERead _ | EStatus => true | _ => false end.
(** In turn: a piece that the program says on its standard output, one on its standard error, one of the file. *)
Definition pg_reads : list bytes := [["?"%char]; ["!"%char]; two "y" "010"; two "?" "010"; line_of "i" "n" ++ ["e"%char]; two "x" "010"; ["."%char]; two "n" "d"; ["z"%char]; []; []].
Definition pg_sched : list nat := [0] ++ concat (repeat [1; 2; 3; 4; 8; 12; 16] 14) ++ [0] ++ concat (repeat [1; 2; 3; 4; 8; 12; 16] 6).
Definition pg_run := crowd 500 pg_sched pg_reads pg_tasks pg_world.
Definition pg_events : list nevent := Eval vm_compute in fst (fst pg_run).
Lemma pg_is : fst (fst (crowd 500 pg_sched pg_reads pg_tasks pg_world)) = pg_events.
Proof. by_vm. Qed.
Definition pg_fine (k : nat) : S_Net.outcome := match k with 0 => Ended (Ok 3) | 1 => Ended (Ok 2) | 2 => Ended (Ok 3) | 3 => Ended (Ok 4) | 4 => Ended (Ok 2) | _ => Going end.
Lemma pg_made : made_world pg_net pg_world.
Proof.
  constructor.
  - intros [n| | | |]; cbn [pg_world]; eauto. destruct n as [|[|[|[|n]]]]; eauto.
  - intros c n Hc Hn. cbn in Hc. repeat destruct Hc as [<-|Hc]; try contradiction; cbn in Hn; repeat destruct Hn as [<-|Hn]; try contradiction; reflexivity.
  - intros b u mi mo Hc. cbn in Hc. repeat destruct Hc as [Hc|Hc]; try discriminate Hc; try contradiction.
  - intros c n Hc Hn. cbn in Hc. repeat destruct Hc as [<-|Hc]; try contradiction; cbn in Hn; repeat destruct Hn as [<-|Hn]; try contradiction; reflexivity.
  - intros c n Hc Hn. cbn in Hc. repeat destruct Hc as [<-|Hc]; try contradiction; cbn in Hn; repeat destruct Hn as [<-|Hn]; try contradiction; reflexivity.
Qed.
Ltac pg_alone k := apply (played_alone 500 _ pg_reads pg_tasks pg_world _ pg_is k); [reflexivity|by_vm|by_vm|by_vm].
Ltac pg_task i := apply (played_m 500 _ pg_reads pg_tasks pg_world _ pg_is 0 i); [lia|reflexivity|by_vm|by_vm].
Lemma pg_ran : free_run pg_net [] pg_world pg_events (snd pg_run) pg_fine.
Proof.
  constructor.
  - intros [|[|[|[|[|k]]]]] c H; cbn in H; try (destruct k; discriminate H); injection H as <-; cbn [comp_runs].
    + exists (After (Done (Ok 3))). split; [|split; [exact Logic.I|reflexivity]].
      eapply (exit_played None [] pg_launch (firstn (length (seen_by 0 pg_events) - 10) (tl (seen_by 0 pg_events))) (skipn (length (seen_by 0 pg_events) - 10) (tl (seen_by 0 pg_events))) (seen_by 0 pg_events) (Ok 3) (Ok 4) (Ok 3));
        [reflexivity|by_vm|pg_task 0|pg_task 1|pg_task 2|pg_task 3|by_vm|by_vm].
    + eexists. split; [pg_alone 1|reflexivity].
    + eexists. split; [pg_alone 2|reflexivity].
    + eexists. split; [pg_alone 3|reflexivity].
    + eexists. split; [pg_alone 4|reflexivity].
  - intros [|m] c H; discriminate H.
  - exact (proj1 (played_sound 500 _ _ _ _ _ pg_is)).
  - intros t ev Hin. assert (H : forallb (fun x : nevent => existsb (Nat.eqb (fst x)) (poll_order pg_net [])) pg_events = true) by by_vm. rewrite forallb_forall in H. specialize (H _ Hin). apply existsb_exists in H as (u & Hu & E). apply Nat.eqb_eq in E. cbn [fst] in E. now subst.
  - exact pg_made.
Qed.
Lemma pg_willing : willing pg_events.
Proof. apply willing_by; by_vm. Qed.
End Run.
Lemma pg_done : all_succeeded pg_net pg_fine.
Proof. intros k Hk. destruct k as [|[|[|[|[|k]]]]]; try (eexists; reflexivity). exfalso. cbn in Hk. lia. Qed.
Definition of_file : M_Manip.source := ((CFaucet, "in"%string), POut).
Definition of_program (o : oport) : M_Manip.source := ((CLaunch, "prog"%string), o).
Lemma pg_supplied : supplied pg_steps (CLaunch, "prog"%string) [of_file] /\ supplied pg_steps (CDrain, "out"%string) [of_program POut] /\ supplied pg_steps (CDrain, "err"%string) [of_program PErr] /\ supplied pg_steps (CDrain, "code"%string) [of_program PExit].
Proof.
  repeat split; (eexists [[_]]; split; [|reflexivity]);
  [replace (arrivals pg_steps (CLaunch, "prog"%string)) with [of_file] by by_vm|replace (arrivals pg_steps (CDrain, "out"%string)) with [of_program POut] by by_vm|
   replace (arrivals pg_steps (CDrain, "err"%string)) with [of_program PErr] by by_vm|replace (arrivals pg_steps (CDrain, "code"%string)) with [of_program PExit] by by_vm];
  (constructor; [constructor; tauto|constructor]).
Qed.
Lemma got_eq (P : list bytes -> Prop) x y : P x -> x = y -> P y.
Proof. now intros H <-. Qed.
Ltac pg_at := eexists; split; by_vm.
Theorem program_copied : exists ps w0 l wl ocs, spelled (cf_connection pg_config) ps /\ free_run (net_of None [] pg_waiter) [] w0 l wl ocs /\ willing l /\ all_succeeded (net_of None [] pg_waiter) ocs /\
  (supplied ps (CLaunch, "prog"%string) [of_file] /\ supplied ps (CDrain, "out"%string) [of_program POut] /\ supplied ps (CDrain, "err"%string) [of_program PErr] /\ supplied ps (CDrain, "code"%string) [of_program PExit]) /\
  (has_read pg_config pg_waiter None [] l of_file [line_of "i" "n" ++ ["e"%char]; ["n"%char; "d"%char]; []; []] /\ has_got pg_config pg_waiter None [] l (CLaunch, "prog"%string) [line_of "i" "n"; ["e"%char; "n"%char; "d"%char]]) /\
  (has_read pg_config pg_waiter None [] l (of_program POut) [["?"%char]; ["y"%char; "010"%char]; ["x"%char; "010"%char]; ["z"%char]; []; []] /\ has_got pg_config pg_waiter None [] l (CDrain, "out"%string) [line_of "?" "y"; ["x"%char; "010"%char]; ["z"%char]]) /\
  (has_read pg_config pg_waiter None [] l (of_program PErr) [["!"%char]; ["?"%char; "010"%char]; ["."%char]; []; []] /\ has_got pg_config pg_waiter None [] l (CDrain, "err"%string) [line_of "!" "?"; ["."%char]]) /\
  (has_read pg_config pg_waiter None [] l (of_program PExit) [["0"%char]] /\ has_got pg_config pg_waiter None [] l (CDrain, "code"%string) [["0"%char]]).
Proof.
  exists pg_steps, pg_world, pg_events, (snd pg_run), pg_fine. change (net_of None [] pg_waiter) with pg_net. split; [exact pg_spelled|]. split; [exact pg_ran|]. split; [exact pg_willing|]. split; [exact pg_done|]. split; [exact pg_supplied|].
  split; [|split; [|split]]; split.
  - eapply got_eq; [eapply HR_faucet with (k := 1) (d := 1); [pg_at|by_vm]|by_vm].
  - eapply got_eq; [eapply HO_program with (k := 0) (fin := 2) (fout := 3) (ferr := 4); [pg_at|by_vm]|by_vm].
  - eapply got_eq; [eapply HR_out with (k := 0) (fin := 2) (fout := 3) (ferr := 4); [pg_at|by_vm]|by_vm].
  - eapply got_eq; [eapply HO_drain with (k := 3) (f := 1); [pg_at|by_vm|by_vm]|by_vm].
  - eapply got_eq; [eapply HR_err with (k := 0) (fin := 2) (fout := 3) (ferr := 4); [pg_at|by_vm]|by_vm].
  - eapply got_eq; [eapply HO_drain with (k := 2) (f := 1); [pg_at|by_vm|by_vm]|by_vm].
  - eapply HR_exit with (k := 0) (code := Some 0%Z); [pg_at|by_vm|]. cbn [exit_text]. unfold decimal. cbn. repeat split; try discriminate.
  - eapply got_eq; [eapply HO_drain with (k := 4) (f := 1); [pg_at|by_vm|by_vm]|by_vm].
Qed.

(** ** A file whose last line does not end, merged with another *)
Definition br_reads : list bytes := [line_of "b" "1"; line_of "a" "1" ++ ["a"%char]; ["b"%char; "2"%char]; ["2"%char; "010"%char]; []; []].
Section Broken.
#[local] Instance reading2 : pausing := fun e => match e with ESleep _ | ERead _ => true | _ => false end.
Definition br_run := crowd 500 (concat (repeat (poll_order jam jm_controllers) 14)) br_reads (seat jam jm_controllers) jm_world.
Definition br_events : list nevent := fst (fst br_run).
Lemma br_ran : whole_run jam jm_controllers jm_world br_events (snd br_run) (seat_outcome jam (P_Whole.ready (snd (fst br_run)))).
Proof. apply (played_whole jam jm_controllers); [by_vm|by_vm|by_vm|exact jm_made]. Qed.
Lemma br_willing : willing br_events.
Proof. apply willing_by; by_vm. Qed.
Lemma br_done : everybody_succeeded jam jm_controllers (seat_outcome jam (P_Whole.ready (snd (fst br_run)))).
Proof. apply everybody_did_well. by_vm. Qed.
Definition file_read (name : string) (tr : trace) : option (list bytes) := match tr with (EOpenRead p, AFd f) :: _ => if string_dec p name then Some (S_Trace.reads f tr) else None | _ => None end.
Lemma br_b : file_read "b.txt" (own (4 * 1) br_events) = Some [line_of "b" "1"; ["b"%char; "2"%char]; []; []].
Proof. by_vm. Qed.
Lemma br_a : file_read "a.txt" (own (4 * 2) br_events) = Some [line_of "a" "1" ++ ["a"%char]; ["2"%char; "010"%char]; []].
Proof. by_vm. Qed.
Lemma br_out : file_got "out.txt" (own (4 * 3) br_events) = [line_of "b" "1"; line_of "a" "1"; ["b"%char; "2"%char]; line_of "a" "2"].
Proof. by_vm. Qed.
End Broken.
Lemma reading_is tr name rs : file_read name tr = Some rs -> exists d rest, tr = (EOpenRead name, AFd d) :: rest /\ S_Trace.reads d tr = rs.
Proof. unfold file_read. destruct tr as [|[e a] rest]; [discriminate|]. destruct e; try discriminate. destruct a; try discriminate. destruct (string_dec _ _) as [->|]; [|discriminate]. intros [= <-]. eauto. Qed.
Lemma broken_by l b a o os : file_read "b.txt" (own (4 * 1) l) = Some b -> file_read "a.txt" (own (4 * 2) l) = Some a -> file_got "out.txt" (own (4 * 3) l) = o :: os ->
  has_read jm_config jm_waiter None [] l from_b b /\ has_read jm_config jm_waiter None [] l from_a a /\ has_got jm_config jm_waiter None [] l (CDrain, "out"%string) (o :: os).
Proof.
  intros Eb Ea Eo. destruct (head_is _ _ (o :: os) ltac:(discriminate) Eo) as (f & rest & E1 & E2). destruct (reading_is _ _ _ Eb) as (d & r & E3 & <-). destruct (reading_is _ _ _ Ea) as (d' & r' & E4 & <-). split; [|split].
  - eapply HR_faucet; [eexists; split; reflexivity|exact E3].
  - eapply HR_faucet; [eexists; split; reflexivity|exact E4].
  - rewrite <- E2. eapply HO_drain; [eexists; split; reflexivity|reflexivity|exact E1].
Qed.
Theorem glued : exists ps w0 l wl ocs b a ms, spelled (cf_connection jm_config) ps /\ whole_run (net_of None [] jm_waiter) jm_controllers w0 l wl ocs /\ willing l /\ all_succeeded (net_of None [] jm_waiter) ocs /\
  supplied ps (CDrain, "out"%string) [from_b; from_a] /\ has_read jm_config jm_waiter None [] l from_b b /\ has_read jm_config jm_waiter None [] l from_a a /\ eof_final b /\ eof_final a /\ has_got jm_config jm_waiter None [] l (CDrain, "out"%string) ms /\
  In ["b"%char; "2"%char; "a"%char; "2"%char; newline] (lines (concat ms)) /\ ~ interleave [lines (concat b); lines (concat a)] (lines (concat ms)).
Proof.
  change (net_of None [] jm_waiter) with jam. exists jm_steps, jm_world, br_events, (snd br_run), (seat_outcome jam (P_Whole.ready (snd (fst br_run)))), [line_of "b" "1"; ["b"%char; "2"%char]; []; []], [line_of "a" "1" ++ ["a"%char]; ["2"%char; "010"%char]; []], [line_of "b" "1"; line_of "a" "1"; ["b"%char; "2"%char]; line_of "a" "2"].
  split; [exact jm_spelled|]. split; [exact br_ran|]. split; [exact br_willing|]. split; [intros k Hk; apply br_done; apply Nat.lt_lt_add_r; exact Hk|]. split; [exact jm_to_out|].
  destruct (broken_by br_events _ _ _ _ br_b br_a br_out) as (H1 & H2 & H3). split; [exact H1|]. split; [exact H2|]. split; [cbn; repeat constructor|]. split; [cbn; repeat constructor|]. split; [exact H3|].
  assert (HI : In ["b"%char; "2"%char; "a"%char; "2"%char; newline] (lines (concat [line_of "b" "1"; line_of "a" "1"; ["b"%char; "2"%char]; line_of "a" "2"]))) by (vm_compute; tauto).
  split; [exact HI|]. intros H. destruct (mix_in _ _ H _ HI) as (y & [<-|[<-|[]]] & Hy); vm_compute in Hy; intuition discriminate.
Qed.
