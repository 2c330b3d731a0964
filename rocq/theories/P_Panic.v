(** * P_Panic: a run panics if a program cannot be started, and otherwise never *)
From Coq Require Import Ascii String List Bool Arith Lia Permutation.
From Verif Require Import M_Prog P_Prog P_Exec M_Motion M_Config M_Regulator M_Faucet M_Drain M_Buffer M_Junction M_Launch M_Manager M_Manip M_Waiter M_Join S_Trace S_Lines S_Motion S_World S_Launch S_Regulator S_Drain S_Buffer S_Junction S_Network S_Net M_Start S_Start S_Manip S_Waiter S_Shape S_Watch S_Delay S_Soft S_Panic
  P_World P_Ask P_Control P_Manager P_Launch P_Phase P_Motion P_Network P_NetComp P_NetEnd P_Calm P_Turn P_Rounds P_Whole P_Shape P_Watch P_WatchRun P_WatchMarks P_Delay P_DelayRun P_Act P_SoftRun P_SoftConfig.
Import ListNotations.

Lemma spawning_asked cwd vars la : asked_for cwd vars la (launch_spawning cwd vars la).
Proof. unfold asked_for, launch_spawning. cbn. repeat split; intros; now repeat match goal with H : _ = _ |- _ => rewrite H end. Qed.
(** Of a component, only the first part has done anything. *)
Lemma did_first k l : idle [1; 2; 3] (seen_by k l) -> did k l = own 0 (seen_by k l).
Proof.
  intro HI. assert (H : forall x, In x l -> fst x / 4 = k -> fst x mod 4 = 0).
  { intros [t e] Hin Hk. cbn [fst] in *. pose proof (Nat.mod_upper_bound t 4 ltac:(lia)) as Hm. destruct (t mod 4) as [|m] eqn:E; [reflexivity|exfalso].
    assert (K : In e (own (S m) (seen_by k l))).
    { unfold own, seen_by. apply in_map_iff. exists (S m, e). split; [reflexivity|]. apply filter_In. split; [|cbn; apply Nat.eqb_refl]. apply in_map_iff. exists (t, e). cbn [fst snd]. rewrite Hk, Nat.eqb_refl, E. auto. }
    rewrite (HI (S m)) in K; [exact K|]. cbn. lia. }
  clear HI. unfold did, own, seen_by. induction l as [|[t e] l IH]; [reflexivity|]. cbn [map filter fst snd]. assert (IH' := IH (fun x Hx => H x (or_intror Hx))). destruct (t / 4 =? k) eqn:Ek.
  - apply Nat.eqb_eq in Ek. pose proof (H (t, e) (or_introl eq_refl) Ek) as Hm. cbn [fst] in Hm. rewrite Hm. cbn. f_equal. exact IH'.
  - cbn. exact IH'.
Qed.
Lemma in_did k l x : In x (did k l) -> exists t, t < 4 /\ In x (own t (seen_by k l)).
Proof.
  unfold did. intro H. apply in_map_iff in H. destruct H as ([t e] & <- & H). apply filter_In in H. destruct H as [H1 H2]. cbn [fst snd] in *. apply Nat.eqb_eq in H2.
  exists (t mod 4). split; [apply Nat.mod_upper_bound; lia|]. unfold own, seen_by. apply in_map_iff. exists (t mod 4, e). split; [reflexivity|]. apply filter_In. split; [|cbn; apply Nat.eqb_refl].
  apply in_map_iff. exists (t, e). cbn [fst snd]. now rewrite H2, Nat.eqb_refl.
Qed.
Lemma spawns_in tr sp a : In (ESpawn sp, a) tr -> In sp (spawns tr).
Proof. intro H. unfold spawns. apply in_flat_map. exists (ESpawn sp, a). split; [exact H|now left]. Qed.

Section Run.
Variables (net : list comp) (cs : list capture) (w0 : world) (l : list nevent) (w : world) (ocs : nat -> S_Net.outcome).
Hypothesis HN : net_wired (map plain_comp net).
Hypothesis HO : overseen net cs.
Hypothesis HR : roomy net.
Hypothesis HX : whole_run net cs w0 l w ocs.

Lemma start_failed k cwd vars la sp : nth_error net k = Some (NLaunch cwd vars la) -> In (ESpawn sp, AErr) (did k l) -> ocs k = Broken.
Proof.
  intros Hk Hin. pose proof (fr_comps _ _ _ _ _ _ (proj1 HX) _ _ Hk) as (st & HC & _ & Ho). destruct (ready_of _ HN _ (nth_error_In _ _ Hk)) as (HL & _).
  destruct (in_did _ _ _ Hin) as (t & Ht & Hin'). destruct (spawned_as _ _ _ _ _ _ HL HC) as (H123 & s & _ & _ & _ & _ & _ & _ & _ & H0).
  destruct t as [|t].
  - destruct H0 as [[H0 _]|(a & tr & H0 & Htr)]; rewrite H0 in Hin'; [contradiction|]. destruct Hin' as [E|Hin']; [|apply spawns_in in Hin'; rewrite Htr in Hin'; contradiction].
    injection E as -> ->. destruct (spawn_failure _ _ _ _ _ _ _ _ HL HC H0) as (m & ->). exact Ho.
  - apply spawns_in in Hin'. rewrite H123 in Hin'; [contradiction|lia].
Qed.
Lemma broken_start k : k < length net + length cs -> ocs k = Broken -> exists x, nth_error net k = Some x /\ not_started x (did k l) /\ exists ev, did k l = [ev].
Proof.
  intros Hk Hb. pose proof (proj1 HX) as HF. destruct (Nat.lt_ge_cases k (length net)) as [Hlt|Hge].
  - destruct (nth_error net k) as [x|] eqn:E; [|apply nth_error_None in E; lia]. exists x. split; [reflexivity|].
    destruct (delays net cs w0 l w ocs HN HO HR HF) as (w' & ocs' & HX' & Hs & _). specialize (Hs k Hlt). rewrite Hb in Hs. specialize (Hs ltac:(discriminate)).
    pose proof (nr_comps _ _ _ _ _ HX' k (plain_comp x) ltac:(now rewrite nth_error_map, E)) as HC. rewrite Hs in HC. pose proof (ready_of _ HN _ (nth_error_In _ _ E)) as HRd.
    pose proof (comp_breaks _ _ HRd HC) as HB. destruct x as [f name|g|b u mi mo|j|cwd vars la|d name]; cbn [plain_comp] in HB; try contradiction HB.
    + exfalso. apply (free_unbroken net cs w0 l w ocs HN HO HF); [|exists k, b, u, mi, mo; auto]. exact (turn_whole _ _ _ _ _ _ (buffers_joined net HN) HX).
    + clear HC HB. pose proof (fr_comps _ _ _ _ _ _ HF _ _ E) as HC. pose proof HC as (st & HL & HM & Ho). rewrite Hb in Ho, HC. destruct (comp_breaks _ _ HRd HC) as (sp & Hsp).
      destruct HRd as (HRd & _). pose proof (launch_parts _ _ _ _ _ _ (proj1 HRd) HL) as HP. destruct st as [s|x y z|s].
      * destruct HP as (HI & [(K & _)|(K & _)]); [rewrite K in Hsp; contradiction|]. rewrite (did_first _ _ HI), K. split; [|eauto]. eexists. split; [apply spawning_asked|now left].
      * exfalso. destruct HP as (fin & fout & ferr & K & _). rewrite K in Hsp. destruct Hsp as [Hsp|[]]. discriminate Hsp.
      * exfalso. destruct HP as (fin & fout & ferr & x & y & z & tr & K & _ & _ & _ & HFi). rewrite K in Hsp. destruct Hsp as [Hsp|Hsp]; [discriminate Hsp|].
        change (In (ESpawn sp, AErr) tr) in Hsp. apply spawns_in in Hsp. rewrite (finish_no_spawn _ _ _ _ _ _ _ HFi) in Hsp. contradiction.
  - exfalso. destruct (nth_error cs (k - length net)) as [cp|] eqn:E; [|apply nth_error_None in E; lia]. destruct (fr_controllers _ _ _ _ _ _ HF _ _ E) as (st & HC & Ho).
    replace (length net + (k - length net)) with k in Ho by lia. rewrite Hb in Ho. pose proof (nth_error_In _ _ E) as Hin. unfold controller in HC. apply exec_bind_inv in HC.
    destruct HC as [(t1 & t2 & n & _ & _ & H2)|[(e' & -> & _)|(s & -> & HC)]]; [|discriminate Ho|].
    + apply exec_ret_inv in H2. destruct H2 as [_ ->]. discriminate Ho.
    + rewrite (unpaused cp (ov_running _ _ HO _ Hin)) in HC. exact (manager_no_panic _ _ _ _ (monitors_once _ _ HO _ Hin) _ _ HC).
Qed.
End Run.

(** ** Of every configuration *)
Theorem only_starts sh cwd vars c w cs : S_Manip.fair sh -> good_connections (cf_connection c) -> prepares sh c w cs -> passing (cf_connection c) -> apart (cf_connection c) ->
  forall w0 l wl ocs, whole_run (net_of cwd vars w) cs w0 l wl ocs -> forall k, k < length (net_of cwd vars w) + length cs ->
  (ocs k = Broken <-> exists x, nth_error (net_of cwd vars w) k = Some x /\ not_started x (did k l)) /\ (ocs k = Broken -> exists ev, did k l = [ev]).
Proof.
  intros Hf Hgc Hpr Hpa Hap w0 l wl ocs HX k Hk. destruct (prepared_shape _ cwd vars _ _ _ Hf Hgc Hpr Hpa Hap) as (HN & HR & _). pose proof (prepared_overseen sh cwd vars c w cs Hf Hgc Hpr) as HO.
  split; [split|].
  - intro Hb. destruct (broken_start _ _ _ _ _ _ HN HO HR HX k Hk Hb) as (x & Hx & Hn & _). eauto.
  - intros (x & Hx & Hn). destruct x as [f name|g|b u mi mo|j|cwd' vars' la|d name]; cbn in Hn; try contradiction. destruct Hn as (sp & _ & Hin). exact (start_failed _ _ _ _ _ _ HN HX _ _ _ _ _ Hx Hin).
  - intro Hb. destruct (broken_start _ _ _ _ _ _ HN HO HR HX k Hk Hb) as (x & _ & _ & He). exact He.
Qed.
