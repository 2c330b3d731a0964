(** * P_Report: what a run reports *)
From Coq Require Import Ascii String List Bool Arith Lia Permutation.
From Verif Require Import M_Prog M_Motion M_Buffer M_Regulator M_Config M_Manip M_Lint M_Cli M_Waiter S_World S_Net M_Start M_Errors M_Report S_Manip S_Waiter S_Cli S_Errors S_Watch S_Report P_Exec P_Reach P_Soft P_Result P_Errors.
Import ListNotations.
Local Open Scope list_scope.

Lemma placed_app {A} (a b : list A) : forall k, placed k (a ++ b) = placed k a ++ placed (k + length a) b.
Proof. induction a as [|x a IH]; intros k; cbn; [now rewrite Nat.add_0_r|]. rewrite IH. do 3 f_equal. lia. Qed.
Lemma placed_nth {A} (l : list A) : forall k i x, nth_error l i = Some x -> In (k + i, x) (placed k l).
Proof.
  induction l as [|y l IH]; intros k [|i] x H; try discriminate H; cbn in *; [left; injection H as ->; f_equal; lia|]. right. replace (k + S i) with (S k + i) by lia. now apply IH.
Qed.
Lemma errors_app a b : errors_of (a ++ b) = errors_of a ++ errors_of b. Proof. apply flat_map_app. Qed.
Lemma counts_app a b : counts_of (a ++ b) = counts_of a ++ counts_of b. Proof. apply flat_map_app. Qed.

Section Report.
Variables (ocs : nat -> S_Net.outcome) (time : nat -> nat).
Lemma results_exact {A} t (l : list (string * A)) : forall k rs, results_of ocs time t l k = Some rs ->
  errors_of rs = flat_map (blame ocs time) (placed k (map (fun x => (t, fst x)) l)) /\ list_sum (counts_of rs) = list_sum (map (moved ocs) (seq k (length l))) /\
  forall i, k <= i < k + length l -> has_ended ocs i.
Proof.
  induction l as [|[n a] l IH]; intros k rs H; cbn [results_of] in H; [injection H as <-; split; [reflexivity|]; split; [reflexivity|cbn; lia]|].
  destruct (ocs k) as [|r|] eqn:E; try discriminate H. destruct (results_of ocs time t l (S k)) as [rs'|] eqn:E'; [|discriminate H]. injection H as <-. destruct (IH _ _ E') as (H1 & H2 & H3).
  cbn [map placed flat_map length seq list_sum fold_right errors_of counts_of fst snd] in *. unfold blame at 1, moved at 1. cbn [fst snd]. rewrite E. unfold errors_of, counts_of in *.
  destruct r as [m|e]; cbn [in_time component_result flat_map app]; rewrite H1; cbn [list_sum fold_right]; rewrite ?H2.
  all: split; [reflexivity|]; split; [unfold list_sum in *; cbn; lia|]; intros i Hi; destruct (Nat.eq_dec i k) as [->|N]; [eexists; exact E|apply H3; lia].
Qed.
Lemma results_come {A} t (l : list (string * A)) : forall k, (forall i, k <= i < k + length l -> has_ended ocs i) -> exists rs, results_of ocs time t l k = Some rs.
Proof.
  induction l as [|[n a] l IH]; intros k H; [eexists; reflexivity|]. cbn [results_of length] in *. destruct (H k) as [r ->]; [lia|]. destruct (IH (S k)) as [rs ->]; [intros i Hi; apply H; lia|]. eexists. reflexivity.
Qed.
Lemma managed_exact (cs : list capture) : forall k rs, managed_results ocs cs k = Some rs ->
  errors_of rs = [] /\ list_sum (counts_of rs) = list_sum (map (moved ocs) (seq k (length cs))) /\ forall i, k <= i < k + length cs -> exists n, ocs i = Ended (Ok n).
Proof.
  induction cs as [|c cs IH]; intros k rs H; cbn [managed_results] in H; [injection H as <-; split; [reflexivity|]; split; [reflexivity|cbn; lia]|].
  destruct (ocs k) as [|[n|e]|] eqn:E; try discriminate H. destruct (managed_results ocs cs (S k)) as [rs'|] eqn:E'; [|discriminate H]. injection H as <-. destruct (IH _ _ E') as (H1 & H2 & H3).
  cbn [length seq map]. unfold moved at 1. rewrite E. unfold errors_of, counts_of in *. cbn [flat_map app]. split; [exact H1|]. split; [unfold list_sum in *; cbn [fold_right]; lia|].
  intros i Hi. destruct (Nat.eq_dec i k) as [->|N]; [eexists; exact E|apply H3; cbn [length] in Hi; lia].
Qed.
Lemma managed_come (cs : list capture) : forall k, (forall i, k <= i < k + length cs -> exists n, ocs i = Ended (Ok n)) -> exists rs, managed_results ocs cs k = Some rs.
Proof.
  induction cs as [|c cs IH]; intros k H; [eexists; reflexivity|]. cbn [managed_results length] in *. destruct (H k) as [n ->]; [lia|]. destruct (IH (S k)) as [rs ->]; [intros i Hi; apply H; lia|]. eexists. reflexivity.
Qed.

Lemma numbered_length n l : length (number_buffers n l) = length l.
Proof. revert n. induction l as [|[s b] l IH]; intros n; [reflexivity|]. cbn [number_buffers length]. now rewrite IH. Qed.
Lemma net_length cwd vars w : length (net_of cwd vars w) = length (roster w).
Proof. unfold net_of, roster. now rewrite !app_length, !map_length, numbered_length. Qed.
Lemma roster_length w : length (roster w) = length (w_launch w) + length (w_regulator w) + length (w_faucet w) + length (w_drain w) + length (w_buffer w) + length (w_junction w).
Proof. unfold roster. rewrite !app_length, !map_length. lia. Qed.

Lemma run_exact w cs x : run_results ocs time w cs = Some x ->
  errors_of (all_results x) = flat_map (blame ocs time) (placed 0 (roster w)) /\ list_sum (counts_of (all_results x)) = list_sum (map (moved ocs) (seq 0 (length (roster w) + length cs))) /\
  (forall k, k < length (roster w) -> has_ended ocs k) /\ forall k, length (roster w) <= k < length (roster w) + length cs -> exists n, ocs k = Ended (Ok n).
Proof.
  unfold run_results. intros H.
  destruct (results_of ocs time CLaunch _ _) as [l|] eqn:El; [|discriminate H]. destruct (results_of ocs time CRegulator _ _) as [r|] eqn:Er; [|discriminate H]. destruct (results_of ocs time CFaucet _ _) as [f|] eqn:Ef; [|discriminate H].
  destruct (managed_results _ _ _) as [m|] eqn:Em; [|discriminate H]. destruct (results_of ocs time CDrain _ _) as [d|] eqn:Ed; [|discriminate H]. destruct (results_of ocs time CBuffer _ _) as [b|] eqn:Eb; [|discriminate H].
  destruct (results_of ocs time CJunction _ _) as [j|] eqn:Ej; [|discriminate H]. injection H as <-.
  apply results_exact in El as (L1 & L2 & L3). apply results_exact in Er as (R1 & R2 & R3). apply results_exact in Ef as (F1 & F2 & F3). apply managed_exact in Em as (M1 & M2 & M3).
  apply results_exact in Ed as (D1 & D2 & D3). apply results_exact in Eb as (B1 & B2 & B3). apply results_exact in Ej as (J1 & J2 & J3).
  pose proof (roster_length w) as RL. cbn [all_results]. split; [|split; [|split]].
  - rewrite !errors_app, L1, R1, F1, M1, D1, B1, J1. unfold roster. rewrite !placed_app, !flat_map_app, !map_length. reflexivity.
  - rewrite !counts_app, !list_sum_app, L2, R2, F2, M2, D2, B2, J2, RL, !seq_app, !map_app, !list_sum_app. cbn [Nat.add]. lia.
  - intros k Hk. rewrite RL in Hk. destruct (le_lt_dec (length (w_launch w)) k); [|apply L3; lia]. destruct (le_lt_dec (length (w_launch w) + length (w_regulator w)) k); [|apply R3; lia].
    destruct (le_lt_dec (length (w_launch w) + length (w_regulator w) + length (w_faucet w)) k); [|apply F3; lia]. destruct (le_lt_dec (length (w_launch w) + length (w_regulator w) + length (w_faucet w) + length (w_drain w)) k); [|apply D3; lia].
    destruct (le_lt_dec (length (w_launch w) + length (w_regulator w) + length (w_faucet w) + length (w_drain w) + length (w_buffer w)) k); [|apply B3; lia]. apply J3. lia.
  - intros k Hk. apply M3. lia.
Qed.
Lemma run_come w cs : (forall k, k < length (roster w) -> has_ended ocs k) -> (forall k, length (roster w) <= k < length (roster w) + length cs -> exists n, ocs k = Ended (Ok n)) -> exists x, run_results ocs time w cs = Some x.
Proof.
  intros H1 H2. pose proof (roster_length w) as RL. unfold run_results.
  destruct (results_come CLaunch (w_launch w) 0) as [l ->]; [intros i Hi; apply H1; lia|]. destruct (results_come CRegulator (w_regulator w) (length (w_launch w))) as [r ->]; [intros i Hi; apply H1; lia|].
  destruct (results_come CFaucet (w_faucet w) (length (w_launch w) + length (w_regulator w))) as [f ->]; [intros i Hi; apply H1; lia|].
  destruct (managed_come cs (length (w_launch w) + length (w_regulator w) + length (w_faucet w) + length (w_drain w) + length (w_buffer w) + length (w_junction w))) as [m ->]; [intros i Hi; apply H2; lia|].
  destruct (results_come CDrain (w_drain w) (length (w_launch w) + length (w_regulator w) + length (w_faucet w))) as [d ->]; [intros i Hi; apply H1; lia|].
  destruct (results_come CBuffer (w_buffer w) (length (w_launch w) + length (w_regulator w) + length (w_faucet w) + length (w_drain w))) as [b ->]; [intros i Hi; apply H1; lia|].
  destruct (results_come CJunction (w_junction w) (length (w_launch w) + length (w_regulator w) + length (w_faucet w) + length (w_drain w) + length (w_buffer w))) as [j ->]; [intros i Hi; apply H1; lia|]. eexists. reflexivity.
Qed.
Lemma no_blame w : flat_map (blame ocs time) (placed 0 (roster w)) = [] -> (forall k, k < length (roster w) -> has_ended ocs k) -> forall k, k < length (roster w) -> exists n, ocs k = Ended (Ok n).
Proof.
  intros H HE k Hk. destruct (HE k Hk) as [[n|e] E]; [eauto|exfalso]. destruct (nth_error (roster w) k) as [x|] eqn:En; [|apply nth_error_None in En; lia]. pose proof (placed_nth _ 0 _ _ En) as Hin.
  assert (K : In (CausedByError (fst x) (snd x) (Timed e (time k))) (flat_map (blame ocs time) (placed 0 (roster w)))); [|rewrite H in K; destruct K].
  apply in_flat_map. exists (0 + k, x). split; [exact Hin|]. unfold blame. cbn [fst snd Nat.add]. rewrite E. now left.
Qed.

Section Run.
Variables (cwd : option string) (vars : list (string * string)) (w : waiter) (cs : list capture) (w0 : world) (l : list nevent) (wl : world).
Hypothesis HR : free_run (net_of cwd vars w) cs w0 l wl ocs.
Lemma controllers_fine k : length (roster w) <= k < length (roster w) + length cs -> has_ended ocs k -> exists n, ocs k = Ended (Ok n).
Proof.
  intros Hk [r Hr]. rewrite <- (net_length cwd vars w) in Hk. destruct (nth_error cs (k - length (net_of cwd vars w))) as [c|] eqn:E; [|apply nth_error_None in E; lia].
  destruct (fr_controllers _ _ _ _ _ _ HR _ _ E) as (st & HX & Ho). replace (length (net_of cwd vars w) + (k - length (net_of cwd vars w))) with k in Ho by lia. rewrite Hr in Ho. destruct st as [e|x|m]; try discriminate Ho. injection Ho as ->.
  unfold controller in HX. apply done_bind in HX. destruct HX as (t1 & t2 & n & _ & _ & HX). apply exec_ret_inv in HX. destruct HX as [_ K]. injection K as ->. eauto.
Qed.
Theorem start_comes : (exists r, start_result ocs time w cs = Some r) <-> forall k, k < length (roster w) + length cs -> has_ended ocs k.
Proof.
  unfold start_result. split.
  - intros [r H] k Hk. destruct (run_results ocs time w cs) as [x|] eqn:E; [|discriminate H]. destruct (run_exact _ _ _ E) as (_ & _ & H3 & H4). destruct (le_lt_dec (length (roster w)) k); [|now apply H3]. destruct (H4 k) as [n Hn]; [lia|]. eexists. exact Hn.
  - intros H. destruct (run_come w cs) as [x ->]; [intros k Hk; apply H; lia|intros k Hk; apply controllers_fine; [lia|apply H; lia]|]. destruct x as [[[[[[? ?] ?] ?] ?] ?] ?]. eexists. reflexivity.
Qed.
Theorem start_reports r : start_result ocs time w cs = Some r ->
  match r with
  | Ok n => (forall k, k < length (roster w) + length cs -> exists m, ocs k = Ended (Ok m)) /\ n = list_sum (map (moved ocs) (seq 0 (length (roster w) + length cs)))
  | Err es => es <> [] /\ Permutation es (flat_map (blame ocs time) (placed 0 (roster w)))
  end.
Proof.
  unfold start_result. destruct (run_results ocs time w cs) as [x|] eqn:E; [|discriminate]. destruct (run_exact _ _ _ E) as (H1 & H2 & H3 & H4). destruct x as [[[[[[la re] fa] ma] dr] bu] ju]. intros H. injection H as <-.
  pose proof (overall_exact la re fa ma dr bu ju) as O. cbv zeta in O. cbn [all_results] in *. destruct (overall la re fa ma dr bu ju) as [n|es]; destruct O as [O1 O2].
  - split; [|rewrite O2; exact H2]. intros k Hk. destruct (le_lt_dec (length (roster w)) k); [apply H4; lia|]. apply (no_blame w); [rewrite <- H1; exact O1|exact H3|lia].
  - split; [exact O1|]. now rewrite <- H1.
Qed.
End Run.
End Report.

Lemma buffers_nth l : forall n k (x : string * buffer), nth_error l k = Some x -> exists u mi mo, nth_error (number_buffers n l) k = Some (NBuffer (snd x) u mi mo).
Proof.
  induction l as [|[s b] l IH]; intros n [|k] x H; try discriminate H; cbn in *; [injection H as <-; eauto|]. exact (IH _ _ _ H).
Qed.
Theorem roster_net cwd vars w k x : nth_error (roster w) k = Some x -> exists y, nth_error (net_of cwd vars w) k = Some y /\ known_as w x y.
Proof.
  assert (HS : forall (a : list component) (b : list comp) ra rb, length a = length b -> (forall i, nth_error a i = Some x -> exists y, nth_error b i = Some y /\ known_as w x y) ->
    (forall i, nth_error ra i = Some x -> exists y, nth_error rb i = Some y /\ known_as w x y) -> forall i, nth_error (a ++ ra) i = Some x -> exists y, nth_error (b ++ rb) i = Some y /\ known_as w x y).
  { intros a b ra rb Hl H1 H2 i Hi. destruct (le_lt_dec (length a) i).
    - rewrite nth_error_app2 in Hi |- * by lia. rewrite <- Hl. now apply H2.
    - rewrite nth_error_app1 in Hi |- * by lia. now apply H1. }
  assert (HM : forall {A} t (l : list (string * A)) (g : string * A -> comp), (forall p, In p l -> known_as w (t, fst p) (g p)) -> forall i, nth_error (map (fun p => (t, fst p)) l) i = Some x -> exists y, nth_error (map g l) i = Some y /\ known_as w x y).
  { intros A t l g H i Hi. rewrite nth_error_map in Hi |- *. destruct (nth_error l i) as [p|] eqn:E; [|discriminate Hi]. injection Hi as <-. exists (g p). split; [reflexivity|]. apply H. exact (nth_error_In _ _ E). }
  revert k. unfold roster, net_of. apply HS; [now rewrite !map_length|apply HM; intros [? ?] H; exact H|]. apply HS; [now rewrite !map_length|apply HM; intros [? ?] H; exact H|].
  apply HS; [now rewrite !map_length|apply HM; intros [? ?] H; exact H|]. apply HS; [now rewrite !map_length|apply HM; intros [? ?] H; exact H|].
  apply HS; [now rewrite map_length, numbered_length| |apply HM; intros [? ?] H; exact H].
  intros i Hi. rewrite nth_error_map in Hi. destruct (nth_error (w_buffer w) i) as [p|] eqn:E; [|discriminate Hi]. injection Hi as <-. destruct (buffers_nth _ (w_channels w) _ _ E) as (u & mi & mo & Hn). eexists. split; [exact Hn|]. unfold known_as. cbn [fst snd]. destruct p. exact (nth_error_In _ _ E).
Qed.

(** ** The end of the program *)
Lemma monitors_names w reg l : forall w' ms, size_monitors w reg l = Good (Ok (w', ms)) -> w_names w' = w_names w.
Proof.
  revert w. induction l as [|x l IH]; intros w w' ms H; cbn [size_monitors] in H; [injection H as -> _; reflexivity|]. destruct (lookup x (w_buffer w)) as [bu|]; [|discriminate H]. destruct (buffer_add_size_monitor bu (w_channels w)) as [bu'|]; [|discriminate H].
  destruct (size_monitors _ reg l) as [[[w1 m1]|e]|s] eqn:E; cbn [obind] in H; try discriminate H. injection H as -> _. rewrite (IH _ _ _ E). reflexivity.
Qed.
Lemma settings_names l : forall w w' cs, regulator_settings w l = Good (Ok (w', cs)) -> w_names w' = w_names w.
Proof.
  induction l as [|[name s] l IH]; intros w w' cs H; cbn [regulator_settings] in H; [injection H as -> _; reflexivity|]. destruct (lookup name (w_regulator w)) as [re|]; [|discriminate H]. destruct (regulator_get_control re (w_channels w)) as [[re' ctl]|]; [|discriminate H].
  destruct (size_monitors _ name (st_buffers s)) as [[[w1 m1]|e]|m] eqn:E; cbn [obind] in H; try discriminate H. destruct (regulator_settings w1 l) as [[[w2 c2]|e]|m] eqn:E2; cbn [obind] in H; try discriminate H. injection H as -> _.
  rewrite (IH _ _ _ E2), (monitors_names _ _ _ _ _ E). reflexivity.
Qed.
Theorem exit_reports mc os sh typed c w cs : fair sh -> good_connections (cf_connection c) -> asked_to_run os typed c -> prepares sh c w cs -> (forall l, mc_settings mc l = l) ->
  forall cwd vars w0 l wl ocs time, free_run (net_of cwd vars w) cs w0 l wl ocs -> run_results ocs time w cs = Some (mc_run mc w cs) ->
  exists names, w_names w = Some names /\
  ((main mc os sh typed = Some (Good (Ending [] [] 0)) /\ forall k, k < length (roster w) -> exists n, ocs k = Ended (Ok n)) \/
   exists es, es <> [] /\ Permutation es (flat_map (blame ocs time) (placed 0 (roster w))) /\
     main mc os sh typed = Some (Good (Ending [] (listed (map (waiter_error_to_string (mc_lib mc) (mc_debug mc) names) es)) 1))).
Proof.
  intros Hf Hg (path & f & Ha & Hrd) (c2 & out & w1 & Hp & Eg & Es) Hs cwd vars w0 l wl ocs time HR Hr.
  assert (Em : main mc os sh typed = Some (obind (main_result mc (Ok (RProcess c2))) (fun y => Good (main_end y)))) by (unfold main, pa2; rewrite Ha; cbn [process_request]; rewrite Hrd, Hp; reflexivity).
  destruct (names_some c2 w1 (process_written _ _ _ _ Hf Hg Hp) Eg) as [names Hn]. exists names. split; [rewrite (settings_names _ _ _ _ Es); exact Hn|].
  rewrite Em. cbn [main_result]. rewrite Eg. cbn [obind]. rewrite Hn. unfold waiter_start. rewrite Hs, Es. cbn [obind].
  assert (HS : start_result ocs time w cs = Some (let '(l, r, f, m, d, b, j) := mc_run mc w cs in overall l r f m d b j)) by (unfold start_result; rewrite Hr; destruct (mc_run mc w cs) as [[[[[[? ?] ?] ?] ?] ?] ?]; reflexivity).
  pose proof (start_reports ocs time w cs _ HS) as H. destruct (mc_run mc w cs) as [[[[[[la re] fa] ma] dr] bu] ju]. destruct (overall la re fa ma dr bu ju) as [n|es].
  - left. split; [reflexivity|]. intros k Hk. apply (proj1 H). lia.
  - right. exists es. destruct H as [H1 H2]. split; [exact H1|]. split; [exact H2|reflexivity].
Qed.
