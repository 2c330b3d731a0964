(** * P_Status: what an exit code of 0 says about programs *)
From Coq Require Import Ascii String List Bool Arith Lia Permutation ZArith.
From Verif Require Import M_Prog M_Motion M_Launch M_Drain M_BufWriter M_Config M_Manip M_Lint M_Cli M_Waiter M_Start S_Trace S_World S_Net S_Launch S_Drain S_Junction S_Manip S_Waiter S_Shape S_Watch S_Flow S_Path S_Bytes S_Soft S_Lead M_Errors M_Report S_Errors S_Report S_Delivery
  P_Launch P_PathRun P_LeadRun P_Bytes P_Report P_Delivery.
Import ListNotations.
Local Open Scope list_scope.

Section Zero.
Variables (mc : machine) (os : outside) (sh : shuffles) (typed : matches) (c : config) (w : waiter) (cs : list capture).
Hypothesis Hf : S_Manip.fair sh.
Hypothesis Hg : good_connections (cf_connection c).
Hypothesis Ha : asked_to_run os typed c.
Hypothesis Hp : prepares sh c w cs.
Hypothesis Hs : forall l, mc_settings mc l = l.
Hypothesis Hpa : passing (cf_connection c).
Hypothesis Hap : apart (cf_connection c).
Variables (ps : list (connection * connection)).
Hypothesis Hsp : spelled (cf_connection c) ps.
Variables (cwd : option string) (vars : list (string * string)) (w0 : world) (l : list nevent) (wl : world) (ocs : nat -> S_Net.outcome) (time : nat -> nat).
Hypothesis HR : free_run (net_of cwd vars w) cs w0 l wl ocs.
Hypothesis Hr : run_results ocs time w cs = Some (mc_run mc w cs).
Variables (en : ending).
Hypothesis Em : main mc os sh typed = Some (Good en).
Hypothesis Ec : en_code en = 0.

Lemma zero_all : all_succeeded (net_of cwd vars w) ocs.
Proof.
  destruct (exit_reports mc os sh typed c w cs Hf Hg Ha Hp Hs cwd vars w0 l wl ocs time HR Hr) as (names & _ & [[_ H]|(es & _ & _ & E)]); [intros k Hk; apply H; now rewrite <- (net_length cwd vars w)|].
  rewrite Em in E. injection E as ->. discriminate Ec.
Qed.
Theorem status_told n p : arrivals ps (CDrain, n) <> [] -> supplied ps (CDrain, n) [((CLaunch, p), PExit)] ->
  exists k code, program_at w cwd vars p k /\ exit_told (own (4 * k) l) = [code] /\ forall data, file_holds c w cwd vars l n data -> exit_text code data.
Proof.
  intros H1 H2. destruct (exit_delivers mc os sh typed c w cs Hf Hg Ha Hp Hs Hpa Hap ps Hsp cwd vars w0 l wl ocs time HR Hr en Em Ec n _ H1 H2) as (HE & rss & H3 & _ & H4).
  apply Forall_inv in HE. destruct HE as (k & fin & fout & ferr & Hk & _ & code & Ht). exists k, code. split; [exact Hk|]. split; [exact Ht|]. intros data Hd. destruct (H4 _ Hd) as [_ H5].
  inversion H3 as [|? rs ? ? Hrs H6]; subst. inversion H6; subst. rewrite (H5 _ eq_refl).
  assert (exists m, exit_message (AStatus code) = Some m) as (m & Em') by (destruct code; cbn; eauto). pose proof (exit_text_ok _ _ Em') as Hm.
  pose proof (HG_exit c w cwd vars l p k code m Hk Ht Hm) as G1.
  assert (G2 : has_given c w cwd vars l ((CLaunch, p), PExit) rs) by (inversion Hrs; subst; [eapply HG_exit; eassumption|match goal with H : _ \/ _ |- _ => destruct H; discriminate end|eapply HG_running; eassumption]).
  rewrite (given_once sh cwd vars c w cs Hf Hg Hp ps Hsp Hpa Hap l (CDrain, n) _ _ (or_introl eq_refl) H1 H2 (or_introl eq_refl) _ _ G1 G2). cbn [concat]. now rewrite app_nil_r.
Qed.
Theorem input_given n ss : arrivals ps (CLaunch, n) <> [] -> supplied ps (CLaunch, n) ss -> (forall k, program_at w cwd vars n k -> ~ hurt (did k l)) ->
  Forall (at_end c w cwd vars l) ss /\ served c w cwd vars l (CLaunch, n) /\
  exists rss ms, Forall2 (has_read c w cwd vars l) ss rss /\ interleave (map S_Lines.messages_of_reads rss) ms /\ forall ms', has_got c w cwd vars l (CLaunch, n) ms' -> ms' = ms.
Proof.
  intros H1 H2 Hu. pose proof zero_all as HA.
  destruct (path_led sh cwd vars c w cs Hf Hg Hp Hpa Hap ps Hsp w0 l wl ocs (CLaunch, n) ss (or_intror eq_refl) H1 H2 HR) as (H3 & H4 & mss & ms & H5 & H6 & H7).
  - intros k Hk. destruct (HA _ Hk) as [m Hm]. eexists. exact Hm.
  - intros k Hk. split; [|exact (Hu k Hk)]. destruct Hk as (la & _ & Hn). apply HA. apply nth_error_Some. congruence.
  - intros s k Hin Hk. assert (Hl : exists y, nth_error (net_of cwd vars w) k = Some y) by (destruct s as [[[] nm] o]; try contradiction Hk; destruct Hk as (d & _ & Hk); eauto). destruct Hl as [y Hy]. apply HA. apply nth_error_Some. congruence.
  - split; [exact H3|]. split; [exact H4|]. destruct (given_reads sh cwd vars c w cs Hf Hg Hp Hpa w0 l wl ocs Hap HR _ _ H5) as (rss & H8 & ->). exists rss, ms. auto.
Qed.
End Zero.
