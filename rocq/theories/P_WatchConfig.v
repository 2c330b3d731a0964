(** * P_WatchConfig: from the configuration to the regulators and their controllers *)
From Coq Require Import Ascii String List Bool Arith Lia Permutation.
From Verif Require Import M_Prog M_Motion M_Config M_Regulator M_Faucet M_Drain M_Buffer M_Junction M_Launch M_Manager M_Manip M_Lint M_Waiter M_Join S_Trace S_Motion S_World S_Manip S_Lint S_Waiter S_Regulator S_Network S_Net M_Start S_Shape S_Watch
  P_Map P_Manip P_Lint P_Ready P_Checked P_Build P_Errors P_WaiterExamples P_Cell P_Made P_Shape P_Watch P_WatchRun P_WatchMarks.
Import ListNotations.

Lemma process_keeps sh c c2 out : S_Manip.fair sh -> good_connections (cf_connection c) -> process_config sh c = Good (Ok c2, out) ->
  cf_regulator c2 = cf_regulator c /\ (forall x, is_mentioned (cf_connection c) x -> is_mentioned (cf_connection c2) x) /\
  (forall n, is_mentioned (cf_connection c2) (CRegulator, n) -> is_mentioned (cf_connection c) (CRegulator, n)) /\
  (forall r rc b, In (r, rc) (cf_regulator c) -> In b (rc_monitored rc) -> is_mentioned (cf_connection c) (CBuffer, b)).
Proof.
  intros Hf Hgc Ep. pose proof Hgc as [Hoc Hg]. destruct (process_decides sh c Hf Hgc) as (c2' & x & E & _ & Hr & _ & _ & [[-> [_ HW]]|[(t & ts & ->) _]]); rewrite Ep in E; [injection E as <- _|discriminate].
  destruct (prepare sh c Hf Hg) as (c' & p & r & Ec & P). destruct (paired _ Hg) as (m1 & p' & added & E1 & E2 & Ho & Hp & Hpo & Hi & Hrd & Hc).
  destruct (pr_paired _ _ _ _ _ P) as (m1' & E1' & E2'). rewrite E1 in E1'. injection E1' as <-. rewrite E2 in E2'. injection E2' as <-.
  assert (Hm : forall x, is_mentioned (cf_connection c) x <-> occurs p' x).
  { intros x. split; [exact (mentioned_occurs _ _ _ _ Hg Hpo Ho Hi Hrd Hc x)|exact (occurs_mentioned c p' m1 added Hpo Ho Hi Hrd x)]. }
  assert (c2 = c') as ->.
  { unfold process_config in Ep. rewrite Ec in Ep. cbn [obind] in Ep. destruct (lint_exact c') as (c3 & ws & El & _). pose proof (lint_pairs _ _ _ (pr_pairs _ _ _ _ _ P) El) as ->. rewrite El in Ep. cbn [obind] in Ep. destruct (filter serious ws); congruence. }
  split; [exact Hr|]. split; [exact (mentioned_kept sh c c' p' r Hf Ho Hp P Hm)|]. split; [|exact HW].
  intros n H. destruct (mentioned_old sh c c' p' r Hf Ho Hp P Hm _ H) as [H'|[[=]|[[=] _]]]; exact H'.
Qed.
Lemma forall2_nth {A B} (R : A -> B -> Prop) xs ys i x : Forall2 R xs ys -> nth_error xs i = Some x -> exists y, nth_error ys i = Some y /\ R x y.
Proof. intro H. revert i. induction H as [|a b xs ys Hab H IH]; intros [|i] E; try discriminate E; [injection E as <-; exists b; auto|exact (IH i E)]. Qed.
Lemma forall2_nth_r {A B} (R : A -> B -> Prop) xs ys i y : Forall2 R xs ys -> nth_error ys i = Some y -> exists x, nth_error xs i = Some x /\ R x y.
Proof. intro H. revert i. induction H as [|a b xs ys Hab H IH]; intros [|i] E; try discriminate E; [injection E as <-; exists a; auto|exact (IH i E)]. Qed.
Lemma buffers_numbered l : forall n b bf, In (b, bf) l -> exists u mi mo, In (NBuffer bf u mi mo) (number_buffers n l).
Proof.
  induction l as [|[a x] l IH]; intros n b bf H; [destruct H|]. cbn [number_buffers]. destruct H as [E|H]; [injection E as -> ->; eexists _, _, _; now left|]. destruct (IH (2 + n) b bf H) as (u & mi & mo & Hin). exists u, mi, mo. now right.
Qed.

Section Watched.
Variables (sh : shuffles) (cwd : option string) (vars : list (string * string)) (c : config) (w : waiter) (cs : list capture).
Hypothesis Hf : S_Manip.fair sh.
Hypothesis Hgc : good_connections (cf_connection c).
Hypothesis Hnd : NoDup (keys (cf_regulator c)).
Hypothesis Hp : prepares sh c w cs.
Notation net := (net_of cwd vars w).

Lemma settled_facts : exists l, NoDup (keys l) /\ Forall2 (controls w) l cs /\ forall n s, lookup n l = Some s <-> set_to_watch c n (st_low s) (st_high s) (st_buffers s).
Proof.
  destruct Hp as (c2 & out & w1 & E1 & E2 & E3). pose proof (process_written _ _ _ _ Hf Hgc E1) as Hw. destruct (process_keeps _ _ _ _ Hf Hgc E1) as (Er & Hk & Ho & HW).
  destruct (built_exactly _ _ Hw E2) as [id B]. pose proof (ba_settings _ _ _ B) as HS. rewrite Er in HS. specialize (HS Hnd).
  exists (w_settings w1). split; [exact (ba_settings_once _ _ _ B)|]. split.
  - destruct (watch_exact c2 w1 (w_settings w1) Hw ltac:(now rewrite Er) E2 (Permutation_refl _)) as [W1 W2]. destruct (ListDec.NoDup_dec string_dec (watched (w_settings w1))) as [N|N].
    + destruct (W1 N) as (w' & cs' & E & HF & _). rewrite E3 in E. injection E as -> ->. exact HF.
    + destruct (W2 N) as (msg & E). rewrite E3 in E. discriminate E.
  - intros n s. rewrite HS. split.
    + intros (rc & low & high & Hin & Eb & -> & Hm & _). split; [now apply Ho|]. exists rc. auto.
    + intros (Hm & rc & Hin & Eb & Em). exists rc, (st_low s), (st_high s). split; [exact Hin|]. split; [exact Eb|]. split; [destruct s; cbn in *; now rewrite Em|]. split; [now apply Hk|].
      apply Forall_forall. intros b Hb. apply Hk. exact (HW n rc b Hin Hb).
Qed.
Lemma lookup_nth {V} n (l : list (string * V)) s : lookup n l = Some s -> exists i, nth_error l i = Some (n, s).
Proof. intro H. apply lookup_in in H. now apply In_nth_error. Qed.
Lemma regulator_in n r : lookup n (w_regulator w) = Some r -> In (NRegulator r) net.
Proof. intro H. apply lookup_in in H. unfold net_of. rewrite !in_app_iff, !in_map_iff. right. left. exists (n, r). auto. Qed.
Lemma buffer_in b bf : lookup b (w_buffer w) = Some bf -> exists u mi mo, In (NBuffer bf u mi mo) net.
Proof.
  intro H. apply lookup_in in H. destruct (buffers_numbered _ (w_channels w) _ _ H) as (u & mi & mo & Hin). exists u, mi, mo. unfold net_of. rewrite !in_app_iff. auto 10.
Qed.
Lemma tellers_of bs chans : Forall2 (fun b ch => exists bf, lookup b (w_buffer w) = Some bf /\ bf_monitor bf = Some ch) bs chans -> exists ks, Forall2 (buffer_at cwd vars w) bs ks /\ tellers net chans ks.
Proof.
  induction 1 as [|b ch bs chans (bf & Eb & Em) H (ks & H1 & H2)]; [exists []; split; constructor|]. destruct (buffer_in _ _ Eb) as (u & mi & mo & Hin). destruct (In_nth_error _ _ Hin) as (k & Hk). exists (k :: ks). split; constructor; auto.
  - exists bf, u, mi, mo. auto.
  - exists (NBuffer bf u mi mo). split; [exact Hk|]. cbn. rewrite Em. now left.
Qed.
Theorem watch_set n low high bs : set_to_watch c n low high bs -> exists k x m cp ks, regulator_at cwd vars w n k x /\ nth_error cs m = Some cp /\
  cp_low cp = low /\ cp_high cp = high /\ rc_control (cp_control cp) = x /\ Forall2 (buffer_at cwd vars w) bs ks /\ tellers net (cp_monitors cp) ks.
Proof.
  intro HS. destruct settled_facts as (l & _ & HF & HL). assert (E : lookup n l = Some (Settings low high bs)) by (apply HL; exact HS). destruct (lookup_nth _ _ _ E) as (m & Em).
  destruct (forall2_nth _ _ _ _ _ HF Em) as (cp & Hm & (E1 & E2 & (r & Er & Ec & _) & HB)). cbn [fst snd st_low st_high st_buffers] in *.
  destruct (tellers_of _ _ HB) as (ks & HK & HT). destruct (In_nth_error _ _ (regulator_in _ _ Er)) as (k & Hk). exists k, (rc_control (cp_control cp)), m, cp, ks. split; [exists r; auto|]. auto 10.
Qed.
(** Nobody else is told anything. *)
Theorem watch_only k x cm : nth_error net k = Some cm -> In x (comp_control cm) -> exists n low high bs, set_to_watch c n low high bs /\ regulator_at cwd vars w n k x.
Proof.
  intros Hk Hx. pose proof (prepared_overseen sh cwd vars c w cs Hf Hgc Hp) as HO. destruct (told_by net cs HO k cm x Hk Hx) as (m & cp & Hm & Ex). destruct settled_facts as (l & Hn & HF & HL).
  destruct (forall2_nth_r _ _ _ _ _ HF Hm) as ([n s] & El & (_ & _ & (r & Er & Ec & _) & _)). cbn [fst snd] in *. exists n, (st_low s), (st_high s), (st_buffers s). split.
  - apply HL. apply in_lookup; [exact Hn|exact (nth_error_In _ _ El)].
  - rewrite Ex in Ec. exists r. split; [exact Er|]. split; [|exact Ec]. destruct (In_nth_error _ _ (regulator_in _ _ Er)) as (k' & Hk').
    assert (k = k') as -> by (eapply (P_NetCost.nth_unique comp_control net _ _ _ _ x (one_control _ _ HO) Hk Hk' Hx); cbn; rewrite Ec; now left). exact Hk'.
Qed.
Hypothesis Hpa : passing (cf_connection c).
Hypothesis Hap : apart (cf_connection c).
Theorem watch_runs n low high bs : set_to_watch c n low high bs -> exists k x m cp ks, regulator_at cwd vars w n k x /\ nth_error cs m = Some cp /\
  cp_low cp = low /\ cp_high cp = high /\ rc_control (cp_control cp) = x /\ Forall2 (buffer_at cwd vars w) bs ks /\ tellers net (cp_monitors cp) ks /\
  forall w0 l wl ocs, free_run net cs w0 l wl ocs ->
    led net cp m k x l /\
    (0 < heard k x l -> high <= list_sum (map (fun k => S (received net k l)) ks)) /\
    (forall a b, l = a ++ b -> Nat.Odd (given x a) -> given x b = 0 -> length (attempts (own (4 * k) b)) <= 1) /\
    (forall t, exec (controller cp) (controller_of net m l) (At (ESleep t)) -> S_Regulator.settled low high x (cp_monitors cp) (controller_of net m l)).
Proof.
  intro HS. destruct (watch_set n low high bs HS) as (k & x & m & cp & ks & HR & Hm & E1 & E2 & E3 & HB & HT). exists k, x, m, cp, ks. do 7 (split; [assumption|]).
  intros w0 l wl ocs HX. pose proof (prepared_overseen sh cwd vars c w cs Hf Hgc Hp) as HO. destruct (prepared_shape sh cwd vars c w cs Hf Hgc Hp Hpa Hap) as [HN _].
  destruct HR as (r & _ & Hk & Ec). assert (Hx : In x (comp_control (NRegulator r))) by (cbn; rewrite Ec; now left). subst x low high.
  split; [exact (led_run _ _ _ _ _ _ HN HO HX m cp k _ Hm Hk Hx)|]. split; [exact (not_early _ _ _ _ _ _ m cp k _ ks HN HO HX Hm Hk Hx HT)|]. split.
  - intros a b El Ha Hb. exact (passes_one _ _ _ _ _ _ HN HO HX m cp k _ a b Hm Hk Hx El Ha Hb).
  - intros t X. exact (settled_run _ _ _ HO m cp t Hm X).
Qed.
End Watched.
