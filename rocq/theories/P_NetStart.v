(** * P_NetStart: networks start; a scheduler may favour one task for ever *)
From Coq Require Import Ascii String List Bool Arith Lia.
From Verif Require Import M_Prog P_Prog P_Exec M_Motion M_Regulator M_Faucet M_Drain M_Buffer M_Junction M_Launch M_Join M_Poll S_Trace S_Lines S_Motion S_World S_Launch S_Regulator S_Drain S_Buffer S_Junction S_Network S_Net
  P_Reach P_World P_Buffer P_BufferJoint P_BufferRun P_BufferPoll P_Link P_JStart P_JIdle P_Respond P_NetComp P_NetMoves P_Net P_NetCost P_Calm P_Later P_Turn P_Fair.
From Verif Require P_Network.
Import ListNotations.

Lemma half_a_begins u mi pj i ps : exec (half_a u mi (PlReceiver pj i, ps)) [] (At (ERecv (CData i))).
Proof. unfold half_a. cbn [fst snd]. exact (reach_motion (PlReceiver pj i) (MN None (Some mi)) None (PsSender (J 0 None 0 (push_brk ps)) u) I I [] _ (R_nil _ _ _ _ _)). Qed.
Lemma half_b_begins u mo pl j o : exec (half_b u mo None (pl, PsIoSender j o)) [] (At (ERecv (CData u))).
Proof. unfold half_b. cbn [fst snd]. exact (reach_motion (PlReceiver (PJ 0 0) u) (MN (Some mo) None) None (PsIoSender j o) I I [] _ (R_nil _ _ _ _ _)). Qed.
Lemma counter_begins mi mo : exec (total_in_buffer None mi mo) [] (At (ETryRecv (CMon mi))).
Proof. exact (reach_total None mi mo [] (TIn 0 0 0) (R_nil _ _ _ _ _)). Qed.
Lemma buffer_begins b u mi mo : comp_ready (NBuffer b u mi mo) -> comp_runs (NBuffer b u mi mo) [] Going.
Proof.
  intros (HM & pj & i & j & o & HB). exists (During (At (ERecv (CData i))) (At (ERecv (CData u))) (At (ETryRecv (CMon mi)))). split; [|split; [exact I|reflexivity]].
  unfold buffer_start. apply (J_during _ _ _ _ _ [] [] (PlReceiver pj i, PsIoSender j o)); try (intros x _; reflexivity); cbn [own].
  - rewrite (buffer_ends_eq _ _ _ _ _ _ HB). constructor.
  - apply half_a_begins.
  - apply half_b_begins.
  - rewrite HM. apply counter_begins.
Qed.
Lemma alone_begins p : starts p -> exists st, alone p [] st.
Proof. intros (s & H). exists (Before s). split; [intros i _; reflexivity|]. exists s. split; [reflexivity|exact H]. Qed.
Lemma comp_starts c : comp_ready c -> exists oc, comp_runs c [] oc.
Proof.
  destruct c as [f name|r|b u mi mo|j|cwd vars la|d name]; intro HR.
  - destruct HR as (HC & j & o & HF). destruct (alone_begins _ (proj1 (resp_faucet f name (PsIoSender j o) None HF HC))) as (st & H). exists (outcome_of st), st. auto.
  - destruct HR as (HC & pj & i & j & o & (H1 & H2 & H3 & _)). assert (K : starts (regulator_start r None)) by (unfold regulator_start; rewrite H1, H2, H3, HC; apply resp_gate; exact I).
    destruct (alone_begins _ K) as (st & H). exists (outcome_of st), st. auto.
  - exists Going. now apply buffer_begins.
  - destruct (alone_begins _ (proj1 (resp_junction j None HR))) as (st & H). exists (outcome_of st), st. auto.
  - destruct HR as ((HL & _) & _). exists Going, (Before (At (ESpawn (launch_spawning cwd vars la)))). split; [|split; [exact I|reflexivity]]. apply J_before_at; [intros i _; reflexivity|].
    unfold launch_spawn. rewrite HL. constructor.
  - destruct HR as (pj & i & HF). destruct (alone_begins _ (proj1 (resp_drain d pj i name HF))) as (st & H). exists (outcome_of st), st. auto.
Qed.
Lemma choose_outcomes (P : nat -> outcome -> Prop) n : (forall k, k < n -> exists oc, P k oc) -> exists ocs : nat -> outcome, forall k, k < n -> P k (ocs k).
Proof.
  induction n as [|n IH]; intro H; [exists (fun _ => Going); lia|]. destruct (IH (fun k Hk => H k (Nat.lt_lt_succ_r _ _ Hk))) as (ocs & Ho). destruct (H n (Nat.lt_succ_diag_r n)) as (oc & Hoc).
  exists (fun k => if k =? n then oc else ocs k). intros k Hk. destruct (Nat.eqb_spec k n) as [->|Hne]; [exact Hoc|apply Ho; lia].
Qed.

Section Net.
Variables (net : list comp) (w0 : world).
Hypothesis HN : net_wired net.
Hypothesis HW : new_world net w0.
Theorem net_starts : exists ocs, net_run net w0 [] w0 ocs.
Proof.
  destruct (choose_outcomes (fun k oc => forall c, nth_error net k = Some c -> comp_runs c [] oc) (length net)) as (ocs & Ho).
  { intros k Hk. destruct (nth_error net k) as [c|] eqn:E; [|apply nth_error_None in E; lia]. destruct (comp_starts c (nw_ready _ HN _ (nth_error_In _ _ E))) as (oc & H). exists oc. intros c' Ec. injection Ec as <-. exact H. }
  exists ocs. destruct HW as (H1 & H2 & H3). constructor; auto.
  - intros k c Hk. apply Ho; [|exact Hk]. apply nth_error_Some. congruence.
  - constructor.
  - intros i ev [].
Qed.
Lemma turn_starts : in_turn net w0 [].
Proof. intros k b u mi mo pl ps _ _ _. exists 1, w0. constructor. Qed.
Theorem net_performs : acyclic net -> polite net -> exists l w ocs, net_run net w0 l w ocs /\ in_turn net w0 l /\ forallb friendly (all_of l) = true /\ all_succeeded net ocs.
Proof.
  intros HA HP. destruct net_starts as (ocs & HX). refine (turn_finishes net w0 HN [] w0 ocs HA HP HX _ turn_starts). intros e a [].
Qed.

(** ** One counter, for ever *)
Variables (k : nat) (b : buffer) (u mi mo : nat).
Hypothesis Hk : nth_error net k = Some (NBuffer b u mi mo).
Definition reply (t : tplace) : ans := match t with TIn _ _ _ | TOut _ _ _ _ => AEmpty | TE1 _ _ _ _ => ABool true | TC1 _ _ _ _ => ABool false | _ => AOk end.
Definition asks (t : tplace) : eff := match tstat None mi mo t with At e => e | _ => ESleep 0 end.
Fixpoint spot (n : nat) : tplace := match n with 0 => TIn 0 0 0 | S n => tnext None (spot n) (reply (spot n)) end.
Definition dozing (n : nat) : nevent := (4 * k + 3, (asks (spot n), reply (spot n))).
Lemma spot_is n : exists x, spot n = TIn 0 x 0 \/ spot n = TOut 0 false x 0 \/ spot n = TE1 0 false x 0 \/ spot n = TC1 0 false x 0 \/ spot n = TWait 0 x 0.
Proof.
  induction n as [|n (x & IH)]; [exists 0; now left|]. cbn [spot]. destruct IH as [->|[->|[->|[->| ->]]]]; cbn [tnext reply go_rep go_turn].
  - exists x. auto.
  - exists x. auto.
  - exists x. auto 6.
  - exists x. auto 6.
  - eexists. left. reflexivity.
Qed.
Lemma dozing_step n : wstep w0 (snd (dozing n)) w0.
Proof.
  destruct HW as (_ & _ & H3). destruct (H3 _ _ _ _ (nth_error_In _ _ Hk)) as (_ & E1 & E2). unfold dozing, asks. cbn [snd].
  assert (Q1 : ABool true = ABool (is_nil (cs_queue (w0 (CMon mi))))) by (rewrite E1; reflexivity). assert (Q2 : ABool false = ABool (cs_closed (w0 (CMon mi)))) by (rewrite E1; reflexivity).
  destruct (spot_is n) as (x & [->|[->|[->|[->| ->]]]]); cbn [tstat reply].
  - apply W_try_empty; now rewrite E1.
  - apply W_try_empty; now rewrite E2.
  - rewrite Q1. apply W_is_empty.
  - rewrite Q2. apply W_is_closed.
  - apply W_other; reflexivity.
Qed.
Definition dozed (n : nat) : trace := map (fun n => snd (dozing n)) (seq 0 n).
Lemma dozed_S n : dozed (S n) = dozed n ++ [snd (dozing n)].
Proof. unfold dozed. rewrite seq_S, map_app. reflexivity. Qed.
Lemma dozing_far n : so_far dozing n = by_task (4 * k + 3) (dozed n).
Proof. unfold so_far, dozed, by_task. rewrite map_map. apply map_ext. intro x. reflexivity. Qed.
Lemma dozed_reach n : treach None mi mo (dozed n) (spot n).
Proof.
  induction n as [|n IH]; [constructor|]. rewrite dozed_S. cbn [spot dozing snd]. apply R_snoc; [exact IH| |]; unfold asks; destruct (spot_is n) as (x & [->|[->|[->|[->| ->]]]]); reflexivity.
Qed.
Lemma dozed_run n t : wrun w0 (by_task t (dozed n)) w0.
Proof.
  induction n as [|n IH]; [constructor|]. rewrite dozed_S. unfold by_task. rewrite map_app. apply wrun_app. exists w0. split; [exact IH|]. econstructor; [apply dozing_step|constructor].
Qed.
Lemma dozing_endless : endless net w0 dozing.
Proof.
  intro n. rewrite dozing_far. destruct net_starts as (ocs & HX).
  pose proof (nw_ready _ HN _ (nth_error_In _ _ Hk)) as HR. pose proof HR as (HM & pj & i & j & o & HB).
  destruct (buffer_tasks _ _ _ _ _ _ _ HB I (buffer_begins _ _ _ _ HR)) as (sa & sb & sc & _ & _ & Lc & _). destruct Lc as (_ & _ & _ & HG). rewrite HM in HG.
  destruct (HG (dozed n) _ (reach_total _ _ _ _ _ (dozed_reach n))) as (oc & HC). cbn [app] in HC.
  do 2 eexists. apply (net_extend net w0 [] w0 ocs HX k _ 3 (dozed n) w0 oc Hk); [lia|exact HC|apply dozed_run].
Qed.
Lemma dozing_turn n : in_turn net w0 (so_far dozing n).
Proof.
  rewrite dozing_far. destruct net_starts as (ocs & HX). change (by_task (4 * k + 3) (dozed n)) with ([] ++ by_task (4 * k + 3) (dozed n)).
  eapply (in_turn_more net w0 [] w0 ocs k _ 3 (dozed n) w0 HX turn_starts Hk); [lia|apply dozed_run|]. intros b0 u0 mi0 mo0 pl ps Eb E1 E2. injection Eb as <- <- <- <-.
  pose proof (nw_ready _ HN _ (nth_error_In _ _ Hk)) as HR. pose proof HR as (HM & pj & i & j & o & HB). pose proof HB as (F1 & F2 & _). rewrite F1 in E1. rewrite F2 in E2. injection E1 as <-. injection E2 as <-.
  exists 3, w0. eapply polled_by; [|apply dozed_run]. destruct HW as (H1 & H2 & H3). destruct (H3 _ _ _ _ (nth_error_In _ _ Hk)) as (E3 & _ & _).
  assert (Hn : forall c, exists cap, w0 c = fresh_chan cap) by exact H1.
  assert (HQ : forall c, (exists cap, w0 c = fresh_chan cap) -> forall A, rests (@At A (ERecv c)) w0).
  { intros c (cap & Ec) A. right. assert (Q : cs_queue (w0 c) = [] /\ cs_closed (w0 c) = false) by (rewrite Ec; auto). destruct Q as [Q1 Q2]. intros a w' K. inversion K; subst; congruence || discriminate. }
  eapply PO_pass2; [eapply PO_pass1; [constructor|apply half_a_begins|apply HQ, Hn]|apply half_b_begins|apply HQ, Hn].
Qed.
Theorem dozing_on : endless net w0 dozing /\ (forall n, willing (so_far dozing n)) /\ (forall n, in_turn net w0 (so_far dozing n)) /\ limited dozing /\ statuses_come dozing /\ forall n, useful_count (so_far dozing n) = 0.
Proof.
  assert (HD : forall n, exists e a, snd (dozing n) = (e, a) /\ a <> ABroken /\ a <> AErr /\ useful (e, a) = false /\ forall fd, e <> ERead fd).
  { intro n. unfold dozing, asks. cbn [snd]. do 2 eexists. split; [reflexivity|]. destruct (spot_is n) as (x & [->|[->|[->|[->| ->]]]]); cbn [tstat reply]; repeat split; intros; discriminate. }
  split; [exact dozing_endless|]. split; [|split; [exact dozing_turn|split; [|split]]].
  - intros n e a Hin. unfold all_of, so_far in Hin. rewrite map_map in Hin. apply in_map_iff in Hin. destruct Hin as (x & Ex & _). destruct (HD x) as (e' & a' & E & H1 & H2 & _). rewrite E in Ex. injection Ex as <- <-. split; [exact H1|]. intro K. contradiction.
  - exists 0. intro n. induction n as [|n IH]; [reflexivity|]. change (bytes_of (all_of (so_far dozing (S n))) <= 0). rewrite so_far_S, all_of_app, bytes_app. change (bytes_of (all_of (so_far dozing n)) <= 0) in IH.
    destruct (HD n) as (e & a & E & _ & _ & _ & H). change (all_of [dozing n]) with [snd (dozing n)]. rewrite E. assert (Z : bytes_of [(e, a)] = 0) by (destruct e; try reflexivity; exfalso; eapply H; reflexivity). unfold trace, event in *. setoid_rewrite Z. lia.
  - exists 0. intros n _ K. destruct (HD n) as (e & a & E & _ & H & _). rewrite K in E. injection E as <- <-. contradiction.
  - induction n as [|n IH]; [reflexivity|]. rewrite count_step, IH. destruct (HD n) as (e & a & E & _ & _ & H & _). now rewrite E, H.
Qed.
End Net.
