(** * P_SpringRun: regulation changes nothing about what comes out *)
From Coq Require Import Ascii String List Bool Arith Lia ZArith.
From Verif Require Import M_Prog P_Prog P_Exec M_Motion M_Config M_Regulator M_Faucet M_Drain M_Buffer M_Launch M_Junction M_Manip M_Waiter M_Join S_Trace S_Lines S_Motion S_World S_Launch S_Regulator S_Drain S_Buffer S_Junction S_Network S_Net M_Start S_Start S_Manip S_Waiter S_Shape S_Watch S_Delay S_Flow
  P_World P_Control P_NetComp P_Net P_Shape P_Watch P_WatchRun P_Skim P_Delay P_DelayRun P_Stream P_Spring.
From Verif Require P_Network.
Import ListNotations.

Lemma forall2_impl {A B} (P Q : A -> B -> Prop) l l' : (forall a b, P a b -> Q a b) -> Forall2 P l l' -> Forall2 Q l l'.
Proof. intros H. induction 1; constructor; auto. Qed.
Lemma plain_makes c : makes_messages (plain_comp c) <-> makes_messages c.
Proof. now destruct c. Qed.
Lemma plain_passes c : passes_on (plain_comp c) <-> passes_on c.
Proof. now destruct c. Qed.
Lemma plain_fed net : forall n os, fed_by net n os -> fed_by (map plain_comp net) n os.
Proof.
  apply (fed_induct net (fun n os => fed_by (map plain_comp net) n os)).
  - intros c n Hc HM Hn. apply (F_made _ (plain_comp c)); [now apply in_map|now apply plain_makes|now rewrite plain_outs].
  - intros c n oss Hc HP Hn IH. apply (F_passed _ (plain_comp c)); [now apply in_map|now apply plain_passes|now rewrite plain_outs|now rewrite plain_ins].
Qed.
Lemma fed_plain net : forall n os, fed_by (map plain_comp net) n os -> fed_by net n os.
Proof.
  apply (fed_induct (map plain_comp net) (fun n os => fed_by net n os)).
  - intros c n Hc HM Hn. apply in_map_iff in Hc as (c0 & <- & Hc). apply (F_made _ c0); [exact Hc|now apply plain_makes|now rewrite plain_outs in Hn].
  - intros c n oss Hc HP Hn IH. apply in_map_iff in Hc as (c0 & <- & Hc). apply (F_passed _ c0); [exact Hc|now apply plain_passes|now rewrite plain_outs in Hn|now rewrite plain_ins in IH].
Qed.

(** ** Leaving out what is done with the channels of control *)
Lemma skim_reads d tr : S_Trace.reads d (skim tr) = S_Trace.reads d tr.
Proof.
  unfold skim, S_Trace.reads. induction tr as [|[e a] tr IH]; [reflexivity|]. cbn [filter fst]. destruct (control_eff e) eqn:E; cbn [negb flat_map]; rewrite IH; [|reflexivity]. destruct e; try discriminate E; reflexivity.
Qed.
Lemma read_head tr e a rest : tr = (e, a) :: rest -> read_from tr = match a with AFd d => messages_of_reads (S_Trace.reads d tr) | _ => [] end.
Proof. intros ->. now destruct a. Qed.
Lemma skim_in e a tr : control_eff e = false -> In (e, a) (skim tr) <-> In (e, a) tr.
Proof. intro E. unfold skim. rewrite filter_In. cbn. rewrite E. cbn. tauto. Qed.

Section Run.
Variables (net : list comp) (cs : list capture) (w0 : world) (l : list nevent) (w : world) (ocs : nat -> S_Net.outcome).
Hypothesis HN : net_wired (map plain_comp net).
Hypothesis HO : overseen net cs.
Hypothesis HR : roomy net.
Hypothesis HX : free_run net cs w0 l w ocs.
Notation l' := (data_part net l).

Lemma own_data k t : k < length net -> t < 4 -> own (4 * k + t) l' = skim (own (4 * k + t) l).
Proof. intros Hk Ht. rewrite <- !P_Network.own_seen by exact Ht. exact (thin_own _ _ t (thin_seen net l k Hk) Ht). Qed.
Lemma own_first k : k < length net -> own (4 * k) l' = skim (own (4 * k) l).
Proof. intro Hk. pose proof (own_data k 0 Hk ltac:(lia)) as H. now rewrite Nat.add_0_r in H. Qed.
Lemma own_same k c t : nth_error net k = Some c -> plain_comp c = c -> t < 4 -> own (4 * k + t) l' = own (4 * k + t) l.
Proof.
  intros Hk Hp Ht. assert (Hlt : k < length net) by (apply nth_error_Some; congruence). rewrite <- !P_Network.own_seen by exact Ht. apply same_own; [now apply thin_seen|exact Ht|].
  intros i e a [<-|[]] Hin. pose proof (ready_of _ HN _ (nth_error_In _ _ Hk)) as Hr. rewrite Hp in Hr. apply (may_loud c t). exact (comp_within _ _ _ Hr (fr_comps _ _ _ _ _ _ HX _ _ Hk) _ _ _ Ht Hin).
Qed.
Lemma own_same0 k c : nth_error net k = Some c -> plain_comp c = c -> own (4 * k) l' = own (4 * k) l.
Proof. intros Hk Hp. pose proof (own_same k c 0 Hk Hp ltac:(lia)) as H. now rewrite Nat.add_0_r in H. Qed.
(** A faucet opens its source first. *)
Lemma faucet_first k f name : nth_error net k = Some (NFaucet f name) -> own (4 * k) l = [] \/ exists a rest, own (4 * k) l = (source_eff name, a) :: rest /\ own (4 * k) l' = (source_eff name, a) :: skim rest.
Proof.
  intro Hk. assert (Hlt : k < length net) by (apply nth_error_Some; congruence). destruct (ready_of _ HN _ (nth_error_In _ _ Hk)) as (_ & j & o & Hr). assert (Hr' : faucet_ready f name (PsIoSender j o)) by exact Hr.
  destruct (fr_comps _ _ _ _ _ _ HX _ _ Hk) as (st & (_ & s & _ & HC) & _). rewrite P_Network.own_seen in HC by lia. rewrite Nat.add_0_r in HC.
  assert (He : control_eff (source_eff name) = false) by (unfold source_eff; now destruct (string_dec name "-")).
  rewrite (own_first _ Hlt).
  destruct (faucet_run _ _ _ _ _ _ Hr' HC) as [[-> _]|[(j' & _ & E & _)|(d & rest & q & j' & E & _)]]; [now left|right..]; rewrite E; [exists AErr|exists (AFd d)]; eexists; (split; [reflexivity|]); unfold skim; cbn [filter fst]; rewrite He; reflexivity.
Qed.
Lemma plain_at k c : nth_error (map plain_comp net) k = Some c -> exists c0, nth_error net k = Some c0 /\ c = plain_comp c0.
Proof. rewrite nth_error_map. destruct (nth_error net k) as [c0|]; [|discriminate]. intros [= <-]. eauto. Qed.
Lemma at_plain k c : nth_error net k = Some c -> nth_error (map plain_comp net) k = Some (plain_comp c).
Proof. intro H. now rewrite nth_error_map, H. Qed.

Lemma gave_back n ms : source_gave (map plain_comp net) l' n ms -> source_gave net l n ms.
Proof.
  intros [k f name n' Hk Hn|k cwd vars la n' fin fout ferr Hk Hn HC|k cwd vars la n' fin fout ferr Hk Hn HC|k cwd vars la n' code m Hk Hn HC HE|k cwd vars la n' Hk Hn HC|k cwd vars la n' Hk Hn HC];
    destruct (plain_at _ _ Hk) as (c0 & Hk0 & E); destruct c0 as [f0 name0|r0|b0 u0 mi0 mo0|j0|cwd0 vars0 la0|d0 name0]; try discriminate E; cbn in E; injection E; intros; subst; clear E.
  - assert (ER : read_from (own (4 * k) l') = read_from (own (4 * k) l)).
    { assert (Hlt : k < length net) by (apply nth_error_Some; congruence). destruct (faucet_first _ _ _ Hk0) as [E|(a & rest & E1 & E2)]; [rewrite (own_first _ Hlt), E; reflexivity|].
      rewrite (read_head _ _ _ _ E1), (read_head _ _ _ _ E2). destruct a; try reflexivity. now rewrite (own_first _ Hlt), skim_reads. }
    rewrite ER. exact (SG_faucet net l k f0 name0 n' Hk0 Hn).
  - rewrite (own_same0 _ _ Hk0 eq_refl) in HC. rewrite (own_same _ _ 2 Hk0 eq_refl) by lia. eapply SG_stdout; eassumption.
  - rewrite (own_same0 _ _ Hk0 eq_refl) in HC. rewrite (own_same _ _ 3 Hk0 eq_refl) by lia. eapply SG_stderr; eassumption.
  - rewrite (own_same0 _ _ Hk0 eq_refl) in HC. eapply SG_exit; eassumption.
  - rewrite (own_same0 _ _ Hk0 eq_refl) in HC. eapply SG_none; eassumption.
  - rewrite (own_same0 _ _ Hk0 eq_refl) in HC. eapply SG_running; eassumption.
Qed.
Lemma got_there n ms : target_got net l n ms -> target_got (map plain_comp net) l' n ms.
Proof.
  intros [k d name n' e f rest Hk Hn HE HC|k cwd vars la n' fin fout ferr Hk Hn HC]; pose proof (at_plain _ _ Hk) as Hk'; cbn [plain_comp] in Hk'.
  - rewrite <- (own_same0 _ _ Hk eq_refl) in HC |- *. eapply TG_drain; eassumption.
  - rewrite <- (own_same0 _ _ Hk eq_refl) in HC. rewrite <- (own_same _ _ 1 Hk eq_refl) by lia. eapply TG_stdin; eassumption.
Qed.
Lemma spent_back n : source_spent (map plain_comp net) l' n -> source_spent net l n.
Proof.
  intros H k c Hk Hn. pose proof (H k _ (at_plain _ _ Hk)) as K. rewrite plain_outs in K. specialize (K Hn). destruct c as [f name|r|b u mi mo|j|cwd vars la|d name]; cbn [plain_comp] in K; try exact K.
  - assert (Hlt : k < length net) by (apply nth_error_Some; congruence). destruct K as (d & rest & E & Hin). destruct (faucet_first _ _ _ Hk) as [E0|(a & rest' & E1 & E2)]; [rewrite (own_first _ Hlt), E0 in E; discriminate E|].
    rewrite E2 in E. injection E as -> <-. exists d, rest'. split; [exact E1|]. rewrite (own_first _ Hlt) in Hin. exact (proj1 (skim_in (ERead d) (AData []) (own (4 * k) l) eq_refl) Hin).
  - rewrite (own_same0 _ _ Hk eq_refl), (own_same _ _ 2 Hk eq_refl), (own_same _ _ 3 Hk eq_refl) in K by lia. exact K.
Qed.
Lemma served_back n : target_served (map plain_comp net) l' n -> target_served net l n.
Proof.
  intros H k c Hk Hn. pose proof (H k _ (at_plain _ _ Hk)) as K. rewrite plain_ins in K. specialize (K Hn). destruct c as [f name|r|b u mi mo|j|cwd vars la|d name]; cbn [plain_comp] in K; try exact K.
  - rewrite (own_same0 _ _ Hk eq_refl), (own_same _ _ 1 Hk eq_refl) in K by lia. exact K.
  - rewrite (own_same0 _ _ Hk eq_refl) in K. exact K.
Qed.

Theorem run_begins n os ms : fed_by net n os -> target_got net l n ms ->
  exists mss ps, Forall2 (source_gave net l) os mss /\ beginnings ps mss /\ interleave ps ms.
Proof.
  intros HF HG. destruct (delays net cs w0 l w ocs HN HO HR HX) as (w' & ocs' & HX' & _).
  destruct (flow_begins _ w0 HN _ _ _ HX' n os ms (plain_fed _ _ _ HF) (got_there _ _ HG)) as (mss & ps & H1 & H2 & H3). exists mss, ps. split; [|auto].
  exact (forall2_impl _ _ _ _ gave_back H1).
Qed.
Theorem run_all n os : polite net -> willing l -> all_succeeded net ocs -> fed_by net n os ->
  Forall (source_spent net l) os /\ target_served net l n /\
  exists mss ms, Forall2 (source_gave net l) os mss /\ interleave mss ms /\ forall ms', target_got net l n ms' -> ms' = ms.
Proof.
  intros HP HW HS HF. destruct (delays net cs w0 l w ocs HN HO HR HX) as (w' & ocs' & HX' & HE & _).
  assert (HS' : all_succeeded (map plain_comp net) ocs').
  { intros k Hk. rewrite map_length in Hk. destruct (HS k Hk) as (m & E). exists m. rewrite HE; [exact E|exact Hk|rewrite E; discriminate]. }
  destruct (flow_all _ w0 HN _ _ _ HX' n os (polite_plain _ HP) (willing_data _ _ HW) HS' (plain_fed _ _ _ HF)) as (H1 & H2 & mss & ms & H3 & H4 & H5).
  split; [exact (Forall_impl _ spent_back H1)|]. split; [now apply served_back|]. exists mss, ms. split; [exact (forall2_impl _ _ _ _ gave_back H3)|]. split; [exact H4|].
  intros ms' Hg. apply H5. now apply got_there.
Qed.
End Run.

(** ** Of every configuration *)
Section Prepared.
Variables (sh : shuffles) (cwd : option string) (vars : list (string * string)) (c : config) (w : waiter) (cs : list capture).
Hypothesis Hf : S_Manip.fair sh.
Hypothesis Hgc : good_connections (cf_connection c).
Hypothesis Hpr : prepares sh c w cs.
Hypothesis Hpa : passing (cf_connection c).
Notation net := (net_of cwd vars w).
Theorem prepared_begins w0 l wl ocs n os ms : apart (cf_connection c) -> free_run net cs w0 l wl ocs -> fed_by net n os -> target_got net l n ms ->
  exists mss ps, Forall2 (source_gave net l) os mss /\ beginnings ps mss /\ interleave ps ms.
Proof.
  intros Hap. destruct (prepared_shape _ cwd vars _ _ _ Hf Hgc Hpr Hpa Hap) as (H1 & H2 & _). intro HX. exact (run_begins _ _ _ _ _ _ H1 (prepared_overseen _ cwd vars _ _ _ Hf Hgc Hpr) H2 HX n os ms).
Qed.
Theorem prepared_all w0 l wl ocs n os : apart (cf_connection c) -> free_run net cs w0 l wl ocs -> willing l -> all_succeeded net ocs -> fed_by net n os ->
  Forall (source_spent net l) os /\ target_served net l n /\
  exists mss ms, Forall2 (source_gave net l) os mss /\ interleave mss ms /\ forall ms', target_got net l n ms' -> ms' = ms.
Proof.
  intros Hap HX. destruct (prepared_shape _ cwd vars _ _ _ Hf Hgc Hpr Hpa Hap) as (H1 & H2 & H3 & _). exact (run_all _ _ _ _ _ _ H1 (prepared_overseen _ cwd vars _ _ _ Hf Hgc Hpr) H2 HX n os H3).
Qed.
Theorem prepared_somehow n : no_loop (cf_connection c) -> In n (flat_map comp_outs net) -> exists os, fed_by net n os.
Proof.
  intros Hl Hn. destruct (prepared_shape _ cwd vars _ _ _ Hf Hgc Hpr Hpa (P_Shape.loops_apart _ (P_Shape.no_loop_buffered _ Hl))) as (H1 & _ & _ & H4 & _).
  destruct (fed_somehow (map plain_comp net) H1) with (n := n) as (os & H).
  - pose proof (H4 Hl) as (rank & H). exists rank. intros k a k' b i Hk Hk' Ha Hb. rewrite nth_error_map in Hk, Hk'. destruct (nth_error net k) as [a0|] eqn:E; [|discriminate Hk]. destruct (nth_error net k') as [b0|] eqn:E'; [|discriminate Hk'].
    injection Hk as <-. injection Hk' as <-. rewrite plain_outs in Ha. rewrite plain_ins in Hb. exact (H _ _ _ _ _ E E' Ha Hb).
  - apply in_flat_map in Hn as (x & Hx & Hn). apply in_flat_map. exists (plain_comp x). split; [now apply in_map|now rewrite plain_outs].
  - exists os. now apply fed_plain.
Qed.
End Prepared.
