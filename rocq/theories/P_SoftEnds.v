(** * P_SoftEnds: over pipes that give way a pipeline comes to its end whatever breaks *)
From Coq Require Import Ascii String List Bool Arith Lia.
From Verif Require Import M_Prog M_Motion M_Config M_Manip M_Faucet M_Launch M_Junction M_Buffer M_Drain M_Regulator M_Waiter M_Start S_Trace S_World S_Network S_Net S_Start S_Grammar S_Manip S_Shape S_Watch S_Soft P_BufferPoll P_Net P_Turn P_Fair P_Rounds P_Shape P_SoftConfig.
Import ListNotations.
Local Open Scope list_scope.

Section Ends.
Variables (sh : shuffles) (cwd : option string) (vars : list (string * string)) (c : config) (w : waiter).
Hypothesis Hf : S_Manip.fair sh.
Hypothesis Hgc : good_connections (cf_connection c).
Hypothesis Hpr : prepares sh c w [].
Hypothesis Hso : giving_way (cf_connection c).
Hypothesis Hpa : passing (cf_connection c).
Hypothesis Hnl : no_loop (cf_connection c).
Notation net := (net_of cwd vars w).

Lemma soft_makes : makes cwd vars sh c net [].
Proof. destruct Hpr as (c2 & out & w1 & E1 & E2 & E3). exists c2, out, w1, w. auto. Qed.
Lemma soft_sound w0 l wl ocs : whole_run net [] w0 l wl ocs -> sound_so_far net ocs.
Proof.
  intros HX k x Hk HF. pose proof (loops_apart _ (no_loop_buffered _ Hnl)) as Hap. destruct (shape_wired sh cwd vars c net Hf Hgc soft_makes Hpa Hap) as (HN & HR & _).
  destruct x as [f s|r|b u mi mo|j|cw va la|d s]; try contradiction; cbn [failed] in HF.
  - destruct (whole_net _ _ _ _ _ HN HR HX) as [X1 X2]. apply (in_turn_sound net w0 HN _ _ _ X1 X2). exists k, b, u, mi, mo. auto.
  - destruct HF as (e & He). exact (soft_own sh cwd vars c w [] Hf Hgc Hpr Hso Hpa Hap _ _ _ _ (proj1 HX) _ _ _ Hk He).
Qed.
Theorem soft_stands w0 l wl ocs : whole_run net [] w0 l wl ocs -> granted l -> whole_locked net [] w0 l -> all_ended net ocs.
Proof.
  intros HX HG HL. pose proof (soft_sound _ _ _ _ HX) as HS. destruct (shape_wired sh cwd vars c net Hf Hgc soft_makes Hpa (loops_apart _ (no_loop_buffered _ Hnl))) as (HN & HR & _).
  destruct (whole_net _ _ _ _ _ HN HR HX) as [X1 X2]. intros k Hk. destruct (nth_error net k) as [x|] eqn:Ek; [|apply nth_error_None in Ek; lia].
  destruct (not_broken net w0 HN _ _ _ X1 HG HS _ _ Ek) as [Ho|H]; [exfalso|exact H].
  destruct (turn_moves net w0 HN _ _ _ X1 X2 (somebody_moves net w0 HN _ _ _ (shape_one_way sh cwd vars c net Hf Hgc soft_makes Hpa Hnl) X1 HG HS _ Hk Ho)) as (l' & w' & ocs' & H & _ & HU & _).
  rewrite (whole_locks _ _ _ (fr_made _ _ _ _ _ _ (proj1 HX)) HL _ _ _ H) in HU. discriminate HU.
Qed.
Theorem soft_no_endless w0 f : S_Net.fair net w0 f -> limited f -> statuses_come f -> (forall n, granted (so_far f n)) -> ~ (forall n, exists wl ocs, whole_run net [] w0 (so_far f n) wl ocs).
Proof.
  intros HF HL (N & HSt) HG HX. destruct (shape_wired sh cwd vars c net Hf Hgc soft_makes Hpa (loops_apart _ (no_loop_buffered _ Hnl))) as (HN & HR & _).
  refine (fair_ends net w0 HN (shape_one_way sh cwd vars c net Hf Hgc soft_makes Hpa Hnl) f _ HF HG _ N HSt HL).
  - intro n. destruct (HX n) as (w1 & ocs & H). exists w1, ocs. exact (proj1 (whole_net _ _ _ _ _ HN HR H)).
  - intros n w1 ocs H. destruct (HX n) as (w2 & ocs2 & H2). apply (soft_sound w0 (so_far f n) w1 ocs). split; [exact (net_free _ _ _ _ _ (fr_made _ _ _ _ _ _ (proj1 H2)) H)|].
    rewrite <- (wrun_det _ _ _ (fr_world _ _ _ _ _ _ (proj1 H2)) _ (nr_world _ _ _ _ _ H)). exact (proj2 H2).
Qed.
End Ends.
