(** * P_LeadRun: what is unhurt gets everything, by the connections as written *)
From Coq Require Import Ascii String List Bool Arith ZArith Lia Permutation Relations.
From Verif Require Import M_Prog M_Motion M_Connectable M_Faucet M_Launch M_Junction M_Buffer M_Drain M_Regulator M_Join S_Trace S_Lines S_Motion S_World S_Launch S_Regulator S_Drain S_Junction S_Network S_Net M_Start S_Start S_Flow S_Path M_Config M_Manip M_Lint M_Waiter S_Grammar S_Manip S_Waiter S_Shape S_Watch P_Text P_Map P_Pair P_Parser P_Junctions P_Junctions2 P_Manip P_Cell P_Wire P_Build P_Ready P_WaiterExamples P_Errors P_Top P_Made P_Whole P_Rounds P_Shape P_Watch P_Stream P_Path P_SpringRun P_PathRun S_Soft S_Lead P_Soft P_SoftRun P_SoftConfig P_Lead P_DelayRun.
From Verif Require P_JStart P_NetCost P_Delay.
Import ListNotations.
Local Open Scope list_scope.

(** ** Of every network *)
Section Run.
Variables (net : list S_Net.comp) (cs : list capture) (w0 : world) (l : list nevent) (w : world) (ocs : nat -> S_Net.outcome).
Hypothesis HN : net_wired (map plain_comp net).
Hypothesis HO : overseen net cs.
Hypothesis HR : roomy net.
Hypothesis HX : free_run net cs w0 l w ocs.
Theorem run_led x c n os : polite net -> ~ hurt (did x l) -> nth_error net x = Some c -> match c with NLaunch _ _ _ | NDrain _ _ => True | _ => False end -> In n (comp_ins c) ->
  fed_by net n os -> all_ended net ocs -> went_well ocs x -> (forall k c n, nth_error net k = Some c -> In n (comp_outs c) -> In n os -> went_well ocs k) ->
  Forall (source_spent net l) os /\ target_served net l n /\
  exists mss ms, Forall2 (source_gave net l) os mss /\ interleave mss ms /\ forall ms', target_got net l n ms' -> ms' = ms.
Proof.
  intros HP HH Hx HT Hn HF HA HK HS. destruct (P_Delay.delays net cs w0 l w ocs HN HO HR HX) as (w' & ocs' & HX' & HE & _).
  assert (HW : forall k c, nth_error net k = Some c -> went_well ocs k -> exists m, ocs' k = S_Net.Ended (Ok m)).
  { intros k c' Hk (m & E). exists m. rewrite HE; [exact E|apply nth_error_Some; congruence|rewrite E; discriminate]. }
  destruct (flow_led (map plain_comp net) w0 HN (polite_plain _ HP)) with (l := S_Delay.data_part net l) (w := w') (ocs := ocs') (x := x) (c := plain_comp c) (n := n) (os := os) as (H1 & H2 & mss & ms & H3 & H4 & H5).
  - exact HX'.
  - intros k Hk. rewrite map_length in Hk. destruct (HA k Hk) as (r & E). exists r. rewrite HE; [exact E|exact Hk|rewrite E; discriminate].
  - intros (e & a & Hin & Ho). apply HH. exists e, a. split; [exact (did_data _ _ _ _ Hin)|exact Ho].
  - intros c' E. rewrite (at_plain _ _ _ Hx) in E. injection E as <-. destruct c; cbn; auto.
  - exact (at_plain _ _ _ Hx).
  - now rewrite plain_ins.
  - exact (plain_fed _ _ _ HF).
  - exact (HW _ _ Hx HK).
  - intros k c' o Hk Ho Hin. rewrite nth_error_map in Hk. destruct (nth_error net k) as [y|] eqn:E; [|discriminate Hk]. injection Hk as <-. rewrite plain_outs in Ho. exact (HW _ _ E (HS _ _ _ E Ho Hin)).
  - split; [exact (Forall_impl _ (spent_back _ _ _ _ _ _ HN HX) H1)|]. split; [exact (served_back _ _ _ _ _ _ HN HX _ H2)|]. exists mss, ms. split; [exact (forall2_impl _ _ _ _ (gave_back _ _ _ _ _ _ HN HX) H3)|]. split; [exact H4|].
    intros ms' Hg. apply H5. exact (got_there _ _ _ _ _ _ HN HX _ _ Hg).
Qed.
End Run.

(** ** Of every configuration *)
Section Prepared.
Variables (sh : shuffles) (cwd : option string) (vars : list (string * string)) (c : config) (w : waiter) (cs : list capture).
Hypothesis Hf : S_Manip.fair sh.
Hypothesis Hgc : good_connections (cf_connection c).
Hypothesis Hpr : prepares sh c w cs.
Hypothesis Hpa : passing (cf_connection c).
Hypothesis Hap : apart (cf_connection c).
Notation net := (net_of cwd vars w).
Variable ps : list (connection * connection).
Hypothesis Hsp : spelled (cf_connection c) ps.
Variables (w0 : world) (l : list nevent) (wl : world) (ocs : nat -> S_Net.outcome) (x : component) (ss : list M_Manip.source).
Hypothesis Ht : fst x = CDrain \/ fst x = CLaunch.
Hypothesis Ha : arrivals ps x <> [].
Hypothesis Hs : supplied ps x ss.
Hypothesis HR : free_run net cs w0 l wl ocs.
Hypothesis HA : all_ended net ocs.
Hypothesis HK : forall k, stands_at c w cwd vars x k -> went_well ocs k /\ ~ hurt (did k l).
Hypothesis HW : forall s k, In s ss -> stands_at c w cwd vars (fst s) k -> went_well ocs k.

Lemma from_stands c2 w1 p r js je ks id : laid sh cwd vars c w c2 w1 p r js je ks id -> forall s o k y, fst (fst s) = CFaucet \/ fst (fst s) = CLaunch -> P_Path.from_chan c2 s o -> nth_error net k = Some y -> In o (comp_outs y) -> stands_at c w cwd vars (fst s) k.
Proof.
  intros D s o k y Hm Hs' Hk Ho. destruct (prepared_shape _ cwd vars _ _ _ Hf Hgc Hpr Hpa Hap) as (HN & _).
  assert (HU : forall k' y', nth_error net k' = Some y' -> In o (comp_outs y') -> k' = k).
  { intros k' y' Hk' Ho'. pose proof (P_JStart.nodup_app_l _ _ (nw_outs _ HN)) as HD. refine (P_NetCost.nth_unique comp_outs (map plain_comp net) k' k (plain_comp y') (plain_comp y) o HD _ _ _ _); [now rewrite nth_error_map, Hk'|now rewrite nth_error_map, Hk|now rewrite plain_outs|now rewrite plain_outs]. }
  destruct (chan_seat c2 cwd vars _ (ld_written _ _ _ _ _ _ _ _ _ _ _ _ _ D) (fab _ _ _ _ _ _ _ _ _ _ _ _ _ D) _ _ Hs') as (z & Hz & Hoz). destruct s as [[t n] q]. cbn [fst] in *. pose proof (seat_kind _ _ _ _ _ _ _ _ _ _ _ _ _ D _ _ Hz) as Hkd. destruct Hm as [-> | ->]; destruct z; cbn in Hkd; try discriminate Hkd.
  - destruct (faucet_place _ _ _ _ _ _ _ _ _ _ _ _ _ D _ _ _ Hz) as (k' & Hk'). pose proof (HU _ _ Hk' Hoz) as ->. destruct (faucet_seat _ _ _ _ _ _ _ _ _ _ _ _ _ D _ _ _ Hz) as [H1 ->]. exists f. auto.
  - destruct (seat_place _ _ _ _ _ _ _ _ _ _ _ _ _ D _ _ Hz eq_refl) as (k' & Hk'); [intros [] _; cbn; congruence|]. pose proof (HU _ _ Hk' Hoz) as ->. destruct (launch_seat _ _ _ _ _ _ _ _ _ _ _ _ _ D _ _ _ _ Hz) as (H1 & -> & ->). exists la. auto.
Qed.

Theorem path_led : Forall (at_end c w cwd vars l) ss /\ served c w cwd vars l x /\
  exists mss ms, Forall2 (has_given c w cwd vars l) ss mss /\ interleave mss ms /\ forall ms', has_got c w cwd vars l x ms' -> ms' = ms.
Proof.
  destruct (lays _ cwd vars _ _ _ Hf Hgc Hpr) as (c2 & w1 & p & r & js & je & ks & id & D). pose proof (laid_arrivals _ _ _ _ _ Hgc _ Hsp _ _ _ _ _ _ _ _ D) as Hps.
  destruct (supply _ _ _ _ _ _ _ _ _ _ _ _ _ D ps Hps x ss Ht Ha Hs) as (y & n & os & Hy & Hoc & Hn & Hfed & HM).
  destruct (prepared_shape _ cwd vars _ _ _ Hf Hgc Hpr Hpa Hap) as (HN & HRo & HP & _).
  assert (HY : exists k, nth_error net k = Some y /\ stands_at c w cwd vars x k /\ match y with NLaunch _ _ _ | NDrain _ _ => True | _ => False end).
  { pose proof (seat_kind _ _ _ _ _ _ _ _ _ _ _ _ _ D _ _ Hy) as Hk. destruct x as [t nm]. cbn [fst] in *. destruct y; subst t; try (destruct Ht; discriminate).
    - destruct (launch_seat _ _ _ _ _ _ _ _ _ _ _ _ _ D _ _ _ _ Hy) as (Hl & -> & ->). destruct (seat_place _ _ _ _ _ _ _ _ _ _ _ _ _ D _ _ Hy eq_refl) as (k & Hk); [intros [] _; cbn; congruence|]. exists k. split; [exact Hk|]. split; [exists la; auto|exact Logic.I].
    - destruct (drain_seat _ _ _ _ _ _ _ _ _ _ _ _ _ D _ _ _ Hoc Hy) as [Hl ->]. destruct (seat_place _ _ _ _ _ _ _ _ _ _ _ _ _ D _ _ Hy eq_refl) as (k & Hk); [intros [] _; cbn; congruence|]. exists k. split; [exact Hk|]. split; [eexists; split; [exact Hl|exact Hk]|exact Logic.I]. }
  destruct HY as (k & Hk & Hst & HT). destruct (HK _ Hst) as [Hok Hun]. destruct HM as (ss' & HPm & HF).
  destruct (run_led net cs w0 l wl ocs HN (prepared_overseen _ cwd vars _ _ _ Hf Hgc Hpr) HRo HR k y n os HP) as (H1 & H2 & mss & ms & H3 & H4 & H5); [exact Hun|exact Hk|exact HT|rewrite Hn; now left|exact Hfed|exact HA|exact Hok| |].
  { intros k' y' o Hk' Ho Hin. destruct (forall2_in_r _ _ _ HF _ Hin) as (s & Hs' & Hfc). apply (Permutation_in _ (Permutation_sym HPm)) in Hs'. apply (HW s k' Hs').
    exact (from_stands _ _ _ _ _ _ _ _ D s o k' y' (proj1 (Forall_forall _ _) (supplied_made _ _ _ Hs) _ Hs') Hfc Hk' Ho). }
  split; [|split; [exact (target_end _ _ _ _ _ _ _ _ _ _ _ _ _ D l x y n Ht Hy Hoc Hn H2)|]].
  - apply Forall_forall. intros s Hin. pose proof (proj1 (Forall_forall _ _) (supplied_made _ _ _ Hs) _ Hin) as Hm. apply (Permutation_in _ HPm) in Hin. destruct (forall2_in_l _ _ _ HF _ Hin) as (o & Ho & Hfc).
    apply (spent_end _ _ _ _ _ _ _ _ _ _ _ _ _ D l s o Hm Hfc). exact (proj1 (Forall_forall _ _) H1 _ Ho).
  - destruct (given_all _ _ _ _ _ _ _ _ _ _ _ _ _ D l ss os mss (ex_intro _ ss' (conj HPm HF)) H3) as (mss' & P & H6). exists mss', ms. split; [exact H6|]. split; [exact (mix_perm _ _ H4 _ P)|]. intros ms' Hg. apply H5. exact (got_target _ _ _ _ _ _ _ _ _ _ _ _ _ D l x y n ms' Hy Hoc Hn Hg).
Qed.
End Prepared.
