(** * P_Spring: where the messages of a network come from and where they go *)
From Coq Require Import Ascii String List Bool Arith Lia ZArith.
From Verif Require Import M_Prog P_Prog P_Exec M_Motion M_Regulator M_Faucet M_Drain M_Buffer M_Launch M_Junction M_Join S_Trace S_Lines S_Motion S_World S_Launch S_Regulator S_Drain S_Buffer S_Junction S_Network S_Net S_Flow
  P_Read P_Motion P_World P_Ask P_Pass P_Copy P_Launch P_Regulator P_Control P_Drain P_Buffer P_BufferJoint P_BufferRun P_Link P_Phase P_Junction P_JStart P_JPass P_Conduit P_NetComp P_NetCost P_NetDone P_Net P_Calm P_Turn P_Stream.
From Verif Require P_Network.
Import ListNotations.

Lemma told_app a b : exit_told (a ++ b) = exit_told a ++ exit_told b.
Proof. unfold exit_told. now rewrite statuses_app, flat_map_app. Qed.
Lemma told_retries k : exit_told (retries k) = [].
Proof. unfold exit_told. rewrite statuses_retries. induction k; [reflexivity|exact IHk]. Qed.
Lemma told_none t : statuses t = [] -> exit_told t = [].
Proof. unfold exit_told. now intros ->. Qed.
Lemma now_told j n h e : exit_now None j n h e -> (exit_told h = [] /\ offered (CData n) h = []) \/ exists code m, exit_told h = [code] /\ exit_text code m /\ prefix (datas (offered (CData n) h)) [m].
Proof.
  intros (k & [(-> & _)|[(-> & _)|(code & m & rest & Hm & -> & H)]]).
  - left. split; [apply told_retries|apply offered_retries].
  - left. rewrite told_app, told_retries, offered_app, offered_retries. auto.
  - right. exists code, m. rewrite !told_app, told_retries, !offered_app, offered_retries. cbn [app]. split; [|split; [now apply exit_text_ok|]].
    + destruct H as [(-> & _)|[(-> & _)|(t & -> & Ht & Hs & _)]]; [reflexivity..|].
      change (exit_told [(EStatus, AStatus code)] ++ exit_told ((ESend (CData n) (VData m), AOk) :: t)) with (code :: exit_told ((ESend (CData n) (VData m), AOk) :: t)).
      f_equal. apply told_none. exact Hs.
    + destruct H as [(-> & _)|[(-> & _)|(t & -> & Ht & Hs & _)]].
      * exists [m]. reflexivity.
      * cbn. rewrite Nat.eqb_refl. exists []. reflexivity.
      * assert (HE : offered (CData n) ((ESend (CData n) (VData m), AOk) :: t) = [VData m]) by (etransitivity; [exact (offered_app (CData n) [(ESend (CData n) (VData m), AOk)] t)|]; rewrite Ht; cbn; now rewrite Nat.eqb_refl).
        rewrite HE. exists []. reflexivity.
Qed.
Lemma post_told j n h r : exit_post None j n h r -> exists code m, exit_told h = [code] /\ exit_text code m /\ datas (offered (CData n) h) = [m].
Proof.
  intro H. destruct (exit_post_offers None j n _ _ H) as (k & code & m & H1 & H2 & H3 & _). exists code, m. split; [|split; [exact H3|now rewrite H2]].
  unfold exit_told. rewrite H1, flat_map_app. cbn. rewrite <- app_nil_l. f_equal. clear. induction k; [reflexivity|exact IHk].
Qed.

Section Net.
Variables (net : list comp) (w0 : world).
Hypothesis HN : net_wired net.
Variables (l : list nevent) (w : world) (ocs : nat -> outcome).
Hypothesis HX : net_run net w0 l w ocs.

(** What a launch does on its exit port. *)
Lemma exit_gave k cwd vars la n : nth_error net k = Some (NLaunch cwd vars la) -> In n (exit_of (la_exit_status la)) ->
  (exit_told (own (4 * k) l) = [] /\ offered (CData n) (own (4 * k + 0) l) = [] /\ forall m, ocs k <> Ended (Ok m)) \/
  exists code m, exit_told (own (4 * k) l) = [code] /\ exit_text code m /\ prefix (datas (offered (CData n) (own (4 * k + 0) l))) [m] /\
    (forall x, ocs k = Ended (Ok x) -> datas (offered (CData n) (own (4 * k + 0) l)) = [m]).
Proof.
  intros Hk Hn. pose proof (nw_ready _ HN _ (nth_error_In _ _ Hk)) as (HR & _). pose proof (nr_comps _ _ _ _ _ HX _ _ Hk) as (st & HC & _ & Ho). rewrite Nat.add_0_r.
  destruct (la_exit_status la) as [[j n']|] eqn:EE; [|destruct Hn]. destruct Hn as [<-|[]]. cbn [snd].
  pose proof (launch_parts _ _ _ _ _ _ (proj1 HR) HC) as HQ. assert (E0 : own 0 (seen_by k l) = own (4 * k) l) by (rewrite seen by lia; now rewrite Nat.add_0_r). rewrite E0 in HQ.
  destruct st as [s|a b c|s].
  - left. destruct HQ as (_ & [(-> & ->)|(-> & m & ->)]); cbn in Ho; rewrite Ho; repeat split; intros; discriminate.
  - left. destruct HQ as (fin & fout & ferr & -> & _). repeat split. intros m K. rewrite K in Ho. cbn in Ho. destruct (_ || _); discriminate Ho.
  - destruct HQ as (fin & fout & ferr & a & b & c & tr & -> & _ & _ & _ & HF). pose proof (finish_inv la None j n' EE a b c _ _ HF) as H.
    rewrite told_app, offered_app. cbn [app]. change (exit_told [(ESpawn (launch_spawning cwd vars la), AChild fin fout ferr)] ++ exit_told tr) with (exit_told tr).
    change (offered (CData n') [(ESpawn (launch_spawning cwd vars la), AChild fin fout ferr)] ++ offered (CData n') tr) with (offered (CData n') tr).
    destruct s as [e|r|m]; [| |contradiction H].
    + destruct (now_told _ _ _ _ H) as [(H1 & H2)|(code & m & H1 & H2 & H3)]; [left|right].
      * repeat split; try assumption. intros m K. rewrite K in Ho. discriminate Ho.
      * exists code, m. repeat split; try assumption. intros x K. rewrite K in Ho. discriminate Ho.
    + destruct H as (x & H & _). destruct (post_told _ _ _ _ H) as (code & m & H1 & H2 & H3). right. exists code, m. rewrite H3. repeat split; try assumption. apply prefix_refl.
Qed.
Lemma finish_ok la a b c tr m : exec (launch_finish la None a b c) tr (Done (Ok m)) -> exists x y z, a = Ok x /\ b = Ok y /\ c = Ok z.
Proof.
  intro HF. assert (K : launch_result a b c = Ok m).
  { unfold launch_finish in HF. destruct (la_exit_status la) as [[je ne]|].
    - destruct (exec_bind_inv _ _ _ _ HF) as [(t1 & t2 & x & _ & _ & K5)|[(e & K5 & _)|(s & K5 & _)]]; try discriminate K5. destruct x; apply exec_ret_inv in K5; destruct K5 as [_ K5]; congruence.
    - apply exec_ret_inv in HF. destruct HF as [_ HF]. congruence. }
  unfold launch_result in K. destruct a, b, c; try discriminate K. eauto 6.
Qed.
(** The parts of a launch: not started, or running with its three relays. *)
Lemma launch_at k cwd vars la : nth_error net k = Some (NLaunch cwd vars la) ->
  (child_of (own (4 * k) l) = None /\ own (4 * k + 1) l = [] /\ own (4 * k + 2) l = [] /\ own (4 * k + 3) l = [] /\ forall m, ocs k <> Ended (Ok m)) \/
  exists fin fout ferr a b c, let x := launch_relays la fin fout ferr in child_of (own (4 * k) l) = Some (fin, fout, ferr) /\
    exec (relay (rl_in x) None) (own (4 * k + 1) l) a /\ exec (relay (rl_out x) None) (own (4 * k + 2) l) b /\ exec (relay (rl_err x) None) (own (4 * k + 3) l) c /\
    forall m, ocs k = Ended (Ok m) -> exists p q r, a = Done (Ok p) /\ b = Done (Ok q) /\ c = Done (Ok r).
Proof.
  intro Hk. pose proof (nw_ready _ HN _ (nth_error_In _ _ Hk)) as (HR & _). pose proof (nr_comps _ _ _ _ _ HX _ _ Hk) as (st & HC & _ & Ho).
  pose proof (launch_parts _ _ _ _ _ _ (proj1 HR) HC) as HQ. assert (E0 : own 0 (seen_by k l) = own (4 * k) l) by (rewrite seen by lia; now rewrite Nat.add_0_r). rewrite E0 in HQ. clear E0.
  destruct st as [s|a b c|s].
  - left. destruct HQ as (HI & HQ). rewrite <- !seen by lia. rewrite (HI 1), (HI 2), (HI 3) by (cbn; auto). destruct HQ as [(-> & ->)|(-> & m & ->)]; cbn in Ho; rewrite Ho; repeat split; intros; discriminate.
  - right. rewrite !seen in HQ by lia. destruct HQ as (fin & fout & ferr & -> & H1 & H2 & H3). exists fin, fout, ferr, a, b, c. split; [reflexivity|]. repeat split; try assumption.
    intros m K. rewrite K in Ho. cbn in Ho. destruct (_ || _); discriminate Ho.
  - right. rewrite !seen in HQ by lia. destruct HQ as (fin & fout & ferr & a & b & c & tr & -> & H1 & H2 & H3 & HF). exists fin, fout, ferr, (Done a), (Done b), (Done c). split; [reflexivity|]. repeat split; try assumption.
    intros m K. rewrite K in Ho. destruct s as [e|r|e]; try discriminate Ho. cbn in Ho. injection Ho as <-. destruct (finish_ok _ _ _ _ _ _ HF) as (p & q & r & -> & -> & ->). eauto 6.
Qed.
Lemma source_begins k c n : nth_error net k = Some c -> makes_messages c -> In n (comp_outs c) -> exists ms, source_gave net l n ms /\ prefix (gone_in n l) ms.
Proof.
  intros Hk HM Hn. pose proof (nw_ready _ HN _ (nth_error_In _ _ Hk)) as HR. destruct c as [f name|r|b u mi mo|j|cwd vars la|d name]; try contradiction HM.
  - destruct HR as (Hc & j & o & HR). pose proof (nr_comps _ _ _ _ _ HX _ _ Hk) as (st & (_ & s & _ & HC) & _). pose proof HR as (_ & _ & E & _).
    exists (read_from (own (4 * k) l)). split; [apply (SG_faucet net l k f name n Hk Hn)|]. cbn in Hn. rewrite E in Hn. destruct Hn as [<-|[]].
    eapply prefix_trans; [apply (gone_first net w0 HN l w ocs HX k _ 0 o Hk); [lia|]; cbn; rewrite E; now left|]. rewrite Nat.add_0_r.
    assert (E0 : own 0 (seen_by k l) = own (4 * k) l) by (rewrite seen by lia; now rewrite Nat.add_0_r). rewrite E0 in HC.
    destruct (faucet_forwards _ _ _ _ _ _ HR HC) as [H|(d & rest & E1 & H & _)]; cbn [offered_to] in H; [rewrite H; now exists (read_from (own (4 * k) l))|]. unfold read_from. rewrite E1 in *. exact H.
  - cbn in Hn. rewrite !in_app_iff in Hn. destruct HR as (HR & _ & Hout).
    assert (HO : In n (out_of (la_stdout la)) \/ In n (out_of (la_stderr la)) -> exists ms, source_gave net l n ms /\ prefix (gone_in n l) ms).
    { intro Ho. destruct (launch_at _ _ _ _ Hk) as [(E & E1 & E2 & E3 & _)|(fin & fout & ferr & a & b & c & E & H1 & H2 & H3 & _)].
      - exists []. split; [apply (SG_none net l k cwd vars la n Hk); [apply in_or_app; exact Ho|exact E]|].
        destruct Ho as [Ho|Ho]; [pose proof (gone_first net w0 HN l w ocs HX k _ 2 n Hk ltac:(lia) ltac:(cbn; now apply in_map)) as K; rewrite E2 in K|pose proof (gone_first net w0 HN l w ocs HX k _ 3 n Hk ltac:(lia) ltac:(cbn; now apply in_map)) as K; rewrite E3 in K]; exact K.
      - destruct Ho as [Ho|Ho].
        + exists (messages_of_reads (reads fout (own (4 * k + 2) l))). split; [eapply SG_stdout; eassumption|].
          eapply prefix_trans; [apply (gone_first net w0 HN l w ocs HX k _ 2 n Hk); [lia|]; cbn; now apply in_map|].
          destruct (la_stdout la) as [ps|] eqn:Es; [|destruct Ho]. destruct (Hout ps (or_introl eq_refl)) as (j & o & ->). destruct Ho as [<-|[]].
          destruct (stdout_relay la _ fin fout ferr Es) as (j' & Ex). rewrite Ex in H2. exact (proj1 (relay_bytes None _ _ _ (PsIoSender j o) _ _ I H2)).
        + exists (messages_of_reads (reads ferr (own (4 * k + 3) l))). split; [eapply SG_stderr; eassumption|].
          eapply prefix_trans; [apply (gone_first net w0 HN l w ocs HX k _ 3 n Hk); [lia|]; cbn; now apply in_map|].
          destruct (la_stderr la) as [ps|] eqn:Es; [|destruct Ho]. destruct (Hout ps (or_intror eq_refl)) as (j & o & ->). destruct Ho as [<-|[]].
          destruct (stderr_relay la _ fin fout ferr Es) as (j' & Ex). rewrite Ex in H3. exact (proj1 (relay_bytes None _ _ _ (PsIoSender j o) _ _ I H3)). }
    destruct Hn as [Hn|[Hn|Hn]]; [auto..|].
    pose proof (gone_first net w0 HN l w ocs HX k _ 0 n Hk ltac:(lia) ltac:(cbn; now apply in_map)) as HG.
    destruct (exit_gave _ _ _ _ _ Hk Hn) as [(E & E1 & _)|(code & m & E & E1 & E2 & _)].
    + exists []. split; [eapply SG_running; eassumption|]. rewrite E1 in HG. exact HG.
    + exists [m]. split; [eapply SG_exit; eassumption|]. eapply prefix_trans; eassumption.
Qed.
Lemma source_all k c n : nth_error net k = Some c -> makes_messages c -> In n (comp_outs c) -> (forall v, ~ In (ESend (CData n) v, AClosed) (all_of l)) -> (exists m, ocs k = Ended (Ok m)) ->
  exists ms, source_gave net l n ms /\ gone_in n l = ms /\ source_spent net l n.
Proof.
  intros Hk HM Hn HQ (m & Hm). pose proof (nw_ready _ HN _ (nth_error_In _ _ Hk)) as HR.
  assert (HU : forall k' c', nth_error net k' = Some c' -> In n (comp_outs c') -> k' = k /\ c' = c).
  { intros k' c' Hk' Hn'. assert (E : k' = k) by exact (P_NetCost.nth_unique comp_outs _ _ _ _ _ n (nodup_app_l _ _ (nw_outs _ HN)) Hk' Hk Hn' Hn). subst k'. rewrite Hk in Hk'. injection Hk' as <-. auto. }
  assert (HS : match c with
      | NFaucet _ name => exists d rest, own (4 * k) l = (source_eff name, AFd d) :: rest /\ In (ERead d, AData []) (own (4 * k) l)
      | NLaunch _ _ la => exists fin fout ferr, child_of (own (4 * k) l) = Some (fin, fout, ferr) /\
          (In n (out_of (la_stdout la)) -> In (ERead fout, AData []) (own (4 * k + 2) l)) /\
          (In n (out_of (la_stderr la)) -> In (ERead ferr, AData []) (own (4 * k + 3) l)) /\
          (In n (exit_of (la_exit_status la)) -> exists code, exit_told (own (4 * k) l) = [code])
      | _ => True end -> source_spent net l n).
  { intros HP k' c' Hk' Hn'. destruct (HU k' c' Hk' Hn') as [-> ->]. exact HP. }
  destruct c as [f name|r|b u mi mo|j|cwd vars la|d name]; try contradiction HM.
  - destruct HR as (Hc & j & o & HR). pose proof (nr_comps _ _ _ _ _ HX _ _ Hk) as (st & (_ & s & -> & HC) & Ho). rewrite Hm in Ho. destruct s as [e|r|e]; try discriminate Ho. cbn in Ho. injection Ho as <-. pose proof HR as (_ & _ & E & _).
    assert (E0 : own 0 (seen_by k l) = own (4 * k) l) by (rewrite seen by lia; now rewrite Nat.add_0_r). rewrite E0 in HC.
    pose proof Hn as Hn0. cbn in Hn. rewrite E in Hn. destruct Hn as [<-|[]].
    destruct (faucet_ends _ _ _ _ _ _ HR HC) as (d & rest & E1 & [[H1 H2]|(_ & m' & H)]); [|exfalso; apply found_refused in H; destruct H as [v H]; exact (calm_own l _ _ _ HQ H)].
    exists (read_from (own (4 * k) l)). split; [apply (SG_faucet net l k f name o Hk Hn0)|]. split.
    + rewrite (gone_all net w0 HN l w ocs HX k _ 0 o Hk ltac:(lia) ltac:(cbn; rewrite E; now left) HQ), Nat.add_0_r. unfold read_from. rewrite E1 in *. exact H1.
    + apply HS. eauto.
  - destruct HR as (HR & _ & Hout). pose proof Hn as Hn0. cbn in Hn. rewrite !in_app_iff in Hn.
    destruct (launch_at _ _ _ _ Hk) as [(_ & _ & _ & _ & K)|(fin & fout & ferr & a & b & c & E & H1 & H2 & H3 & HE)]; [now destruct (K m)|]. destruct (HE m Hm) as (p & q & r & -> & -> & ->). clear HE.
    assert (HO : forall o j, o = n -> la_stdout la = Some (PsIoSender j o) -> gone_in o l = messages_of_reads (reads fout (own (4 * k + 2) l)) /\ In (ERead fout, AData []) (own (4 * k + 2) l)).
    { intros o j -> Es. destruct (stdout_relay la _ fin fout ferr Es) as (j' & Ex). rewrite Ex in H2. destruct (relay_bytes None _ _ _ (PsIoSender j n) _ _ I H2) as (_ & [[K1 K2]|(_ & d & K)] & _); [|exfalso; apply found_refused in K; destruct K as [v K]; exact (calm_own l _ _ _ HQ K)].
      split; [|exact K2]. rewrite (gone_all net w0 HN l w ocs HX k _ 2 n Hk ltac:(lia) ltac:(cbn; rewrite Es; now left) HQ). exact K1. }
    assert (HE : forall o j, o = n -> la_stderr la = Some (PsIoSender j o) -> gone_in o l = messages_of_reads (reads ferr (own (4 * k + 3) l)) /\ In (ERead ferr, AData []) (own (4 * k + 3) l)).
    { intros o j -> Es. destruct (stderr_relay la _ fin fout ferr Es) as (j' & Ex). rewrite Ex in H3. destruct (relay_bytes None _ _ _ (PsIoSender j n) _ _ I H3) as (_ & [[K1 K2]|(_ & d & K)] & _); [|exfalso; apply found_refused in K; destruct K as [v K]; exact (calm_own l _ _ _ HQ K)].
      split; [|exact K2]. rewrite (gone_all net w0 HN l w ocs HX k _ 3 n Hk ltac:(lia) ltac:(cbn; rewrite Es; now left) HQ). exact K1. }
    assert (HT : forall o, o = n -> In o (exit_of (la_exit_status la)) -> exists code msg, exit_told (own (4 * k) l) = [code] /\ exit_text code msg /\ gone_in o l = [msg]).
    { intros o -> Ho. destruct (exit_gave _ _ _ _ _ Hk Ho) as [(_ & _ & K)|(code & msg & K1 & K2 & _ & K3)]; [now destruct (K m)|]. exists code, msg. split; [exact K1|]. split; [exact K2|].
      rewrite (gone_all net w0 HN l w ocs HX k _ 0 n Hk ltac:(lia) ltac:(cbn; now apply in_map) HQ). exact (K3 m Hm). }
    assert (HD : source_spent net l n).
    { apply HS. exists fin, fout, ferr. split; [exact E|]. split; [|split]; intro K.
      - destruct (la_stdout la) as [ps|] eqn:Es; [|destruct K]. destruct (Hout ps (or_introl eq_refl)) as (j & o & ->). destruct K as [<-|[]]; exact (proj2 (HO _ j eq_refl eq_refl)).
      - destruct (la_stderr la) as [ps|] eqn:Es; [|destruct K]. destruct (Hout ps (or_intror eq_refl)) as (j & o & ->). destruct K as [<-|[]]; exact (proj2 (HE _ j eq_refl eq_refl)).
      - destruct (HT _ eq_refl K) as (code & msg & K1 & _). eauto. }
    destruct Hn as [Hn|[Hn|Hn]].
    + exists (messages_of_reads (reads fout (own (4 * k + 2) l))). split; [eapply SG_stdout; eassumption|]. split; [|exact HD].
      destruct (la_stdout la) as [ps|] eqn:Es; [|destruct Hn]. destruct (Hout ps (or_introl eq_refl)) as (j & o & ->). destruct Hn as [<-|[]]. exact (proj1 (HO _ j eq_refl eq_refl)).
    + exists (messages_of_reads (reads ferr (own (4 * k + 3) l))). split; [eapply SG_stderr; eassumption|]. split; [|exact HD].
      destruct (la_stderr la) as [ps|] eqn:Es; [|destruct Hn]. destruct (Hout ps (or_intror eq_refl)) as (j & o & ->). destruct Hn as [<-|[]]. exact (proj1 (HE _ j eq_refl eq_refl)).
    + destruct (HT _ eq_refl Hn) as (code & msg & K1 & K2 & K3). exists [msg]. split; [eapply SG_exit; eassumption|]. auto.
Qed.

(** ** Where the messages go *)
Lemma target_begins n ms : target_got net l n ms -> prefix ms (come_out n l).
Proof.
  intros [k d name n' e f rest Hk Hn He E|k cwd vars la n' fin fout ferr Hk Hn Hc].
  - rewrite (come_own net w0 HN l w ocs HX k _ n' Hk Hn). cbn [taker]. rewrite Nat.add_0_r. pose proof (nw_ready _ HN _ (nth_error_In _ _ Hk)) as (pj & i & HR). pose proof (nr_comps _ _ _ _ _ HX _ _ Hk) as (st & (_ & s & _ & HC) & _).
    assert (E0 : own 0 (seen_by k l) = own (4 * k) l) by (rewrite seen by lia; now rewrite Nat.add_0_r). rewrite E0 in HC.
    pose proof (drain_writes _ _ _ _ _ _ HR He HC) as H. rewrite E in H |- *. destruct H as (_ & H & _). destruct HR as (E1 & _). rewrite E1 in Hn. destruct Hn as [<-|[]]. exact H.
  - rewrite (come_own net w0 HN l w ocs HX k _ n' Hk Hn). cbn [taker]. pose proof (nw_ready _ HN _ (nth_error_In _ _ Hk)) as (HR & Hin & _). pose proof (nr_comps _ _ _ _ _ HX _ _ Hk) as (st & HC & _).
    destruct (la_stdin la) as [pl|] eqn:Es; [|destruct Hn]. destruct (Hin pl eq_refl) as (pj & i & ->). destruct Hn as [<-|[]].
    assert (E0 : own 0 (seen_by k l) = own (4 * k) l) by (rewrite seen by lia; now rewrite Nat.add_0_r).
    pose proof (relay_in cwd vars la None HR _ _ _ fin fout ferr HC Es ltac:(rewrite E0; exact Hc)) as (H & _). rewrite seen in H by lia. exact H.
Qed.
Lemma target_all k c n : nth_error net k = Some c -> In n (comp_ins c) -> (forall f d, ~ In (EWrite f d, ABroken) (own (4 * k + 1) l)) -> (exists m, ocs k = Ended (Ok m)) ->
  (forall ms, target_got net l n ms -> ms = gone_in n l) /\ target_served net l n.
Proof.
  intros Hk Hn HW (m & Hm).
  assert (HU : forall k' c', nth_error net k' = Some c' -> In n (comp_ins c') -> k' = k /\ c' = c).
  { intros k' c' Hk' Hn'. assert (E : k' = k) by exact (P_NetCost.nth_unique comp_ins _ _ _ _ _ n (nw_ins _ HN) Hk' Hk Hn' Hn). subst k'. rewrite Hk in Hk'. injection Hk' as <-. auto. }
  pose proof (nw_ready _ HN _ (nth_error_In _ _ Hk)) as HR. pose proof (nr_comps _ _ _ _ _ HX _ _ Hk) as HC. rewrite Hm in HC.
  assert (E0 : own 0 (seen_by k l) = own (4 * k) l) by (rewrite seen by lia; now rewrite Nat.add_0_r).
  destruct c as [f name|r|b u mi mo|j|cwd vars la|d name].
  - destruct Hn.
  - split; [|intros k' c' Hk' Hn'; destruct (HU _ _ Hk' Hn') as [-> ->]; exact I]. intros ms HT. exfalso. destruct HT as [k' d name n' e f rest Hk' Hn' He E|k' cwd vars la n' fin fout ferr Hk' Hn' Hc]; destruct (HU _ _ Hk' Hn') as [_ K]; discriminate K.
  - split; [|intros k' c' Hk' Hn'; destruct (HU _ _ Hk' Hn') as [-> ->]; exact I]. intros ms HT. exfalso. destruct HT as [k' d name n' e f rest Hk' Hn' He E|k' cwd vars la n' fin fout ferr Hk' Hn' Hc]; destruct (HU _ _ Hk' Hn') as [_ K]; discriminate K.
  - split; [|intros k' c' Hk' Hn'; destruct (HU _ _ Hk' Hn') as [-> ->]; exact I]. intros ms HT. exfalso. destruct HT as [k' d name n' e f rest Hk' Hn' He E|k' cwd vars la n' fin fout ferr Hk' Hn' Hc]; destruct (HU _ _ Hk' Hn') as [_ K]; discriminate K.
  - destruct HR as (HR & Hin & _). destruct HC as (st & HC & _ & Ho). destruct (la_stdin la) as [pl|] eqn:Es; [|cbn in Hn; rewrite Es in Hn; destruct Hn]. destruct (Hin pl eq_refl) as (pj & i & ->).
    pose proof Hn as Hn0. cbn in Hn. rewrite Es in Hn. destruct Hn as [<-|[]].
    destruct (launch_at _ _ _ _ Hk) as [(_ & _ & _ & _ & K)|(fin & fout & ferr & a & b & c & E & _)]; [now destruct (K m)|].
    destruct (relay_in cwd vars la None HR _ _ _ fin fout ferr HC Es ltac:(rewrite E0; exact E)) as (_ & _ & H).
    assert (K : match st with During (Done (Ok x)) _ _ | After (Done (Ok x)) => x = m | _ => False end).
    { destruct st as [s|sa sb sc|s].
      - exfalso. pose proof (launch_parts _ _ _ _ _ _ (proj1 HR) HC) as (_ & [(_ & ->)|(_ & x & ->)]); discriminate Ho.
      - cbn in Ho. destruct (_ || _); discriminate Ho.
      - destruct s as [e|r|e]; try discriminate Ho. cbn in Ho. injection Ho as <-. reflexivity. }
    specialize (H m K). clear K. rewrite !seen in H by lia. destruct H as (H1 & [(H2 & H3 & H4 & _)|(d & H2)]); [|exfalso; exact (HW _ _ H2)].
    cbn [got ended] in H2, H3. split.
    + intros ms HT. destruct HT as [k' d name n' e f rest Hk' Hn' He E'|k' cwd' vars' la' n' fin' fout' ferr' Hk' Hn' Hc]; destruct (HU _ _ Hk' Hn') as [-> K]; [discriminate K|]. rewrite E in Hc. injection Hc as <- <- <-.
      rewrite H2. rewrite <- (come_all net w0 l w ocs HX _ _ H3). symmetry. exact (come_own net w0 HN l w ocs HX k _ _ Hk Hn0).
    + intros k' c' Hk' Hn'. destruct (HU _ _ Hk' Hn') as [-> ->]. exists fin, fout, ferr. auto.
  - destruct HR as (pj & i & HR). destruct HC as (st & (_ & s & -> & HC) & Ho). destruct s as [e|r|e]; try discriminate Ho. cbn in Ho. injection Ho as <-. rewrite E0 in HC.
    pose proof HR as (E1 & _). pose proof Hn as Hn0. cbn in Hn. rewrite E1 in Hn. destruct Hn as [<-|[]]. split.
    + intros ms HT. destruct HT as [k' d' name' n' e f rest Hk' Hn' He E'|k' cwd' vars' la' n' fin' fout' ferr' Hk' Hn' Hc]; destruct (HU _ _ Hk' Hn') as [-> K]; [|discriminate K]. injection K as -> ->.
      pose proof (drain_writes _ _ _ _ _ _ HR He HC) as H. rewrite E' in H. destruct H as (_ & _ & _ & H1 & H2 & _). rewrite <- E' in H1, H2. cbn [got ended] in H1, H2. rewrite H1.
      rewrite <- (come_all net w0 l w ocs HX _ _ H2). symmetry. rewrite (come_own net w0 HN l w ocs HX k _ _ Hk Hn0). cbn [taker]. now rewrite Nat.add_0_r.
    + intros k' c' Hk' Hn'. destruct (HU _ _ Hk' Hn') as [-> ->]. intros e He. pose proof (drain_writes _ _ _ _ _ _ HR He HC) as H.
      destruct (own (4 * k) l) as [|[e' a'] rest] eqn:E'; [destruct H as [_ []]|]. destruct a'; try (destruct H as [_ H]; contradiction H). destruct H as (-> & _ & _ & _ & _ & H2 & _). eauto.
Qed.

(** ** From the sources to any channel *)
Lemma fed_induct (P : nat -> list nat -> Prop) :
  (forall c n, In c net -> makes_messages c -> In n (comp_outs c) -> P n [n]) ->
  (forall c n oss, In c net -> passes_on c -> In n (comp_outs c) -> Forall2 P (comp_ins c) oss -> P n (concat oss)) ->
  forall n os, fed_by net n os -> P n os.
Proof.
  intros H1 H2. fix IH 3. intros n os [c n' Hc Hm Hn|c n' oss Hc Hp Hn HF]; [exact (H1 c n' Hc Hm Hn)|]. apply (H2 c n' oss Hc Hp Hn).
  clear Hc Hp Hn H1 H2 n'. revert HF. generalize (comp_ins c). clear c. intros ins HF. induction HF as [|i o ins oss Hi HF IHF]; constructor; [exact (IH _ _ Hi)|exact IHF].
Qed.
Definition given_by (os : list nat) (mss : list (list bytes)) : Prop := Forall2 (source_gave net l) os mss.
Lemma fed_begins n os : fed_by net n os -> exists mss ps, given_by os mss /\ beginnings ps mss /\ interleave ps (gone_in n l).
Proof.
  revert n os. apply (fed_induct (fun n os => exists mss ps, given_by os mss /\ beginnings ps mss /\ interleave ps (gone_in n l))).
  - intros c n' Hc Hm Hn. apply In_nth_error in Hc. destruct Hc as (k & Hk). destruct (source_begins k c n' Hk Hm Hn) as (ms & H1 & H2).
    exists [ms], [gone_in n' l]. split; [repeat constructor; assumption|]. split; [repeat constructor; assumption|now apply interleave_one].
  - intros c n' oss Hc Hp Hn HF. apply In_nth_error in Hc. destruct Hc as (k & Hk). destruct (passes_mix net w0 HN l w ocs HX k c n' Hk Hp Hn) as (s & H1 & H2).
    assert (HA : exists msss pss, Forall2 given_by oss msss /\ Forall2 beginnings pss msss /\ Forall2 interleave pss (map (fun i => come_out i l) (comp_ins c))).
    { clear -HF HX. induction HF as [|i os ins oss (mss & ps & H1 & H2 & H3) _ (msss & pss & I1 & I2 & I3)]; [exists [], []; repeat constructor|].
      destruct (interleave_prefix _ _ _ H3 (come_gone net w0 l w ocs HX i)) as (ps' & H4 & H5). exists (mss :: msss), (ps' :: pss). repeat split; constructor; try assumption. eapply beginnings_trans; eassumption. }
    destruct HA as (msss & pss & I1 & I2 & I3). destruct (interleave_prefix _ _ _ (interleave_flat _ _ _ I3 H1) H2) as (ps & H3 & H4).
    exists (concat msss), ps. split; [apply forall2_concat; exact I1|]. split; [|exact H4]. eapply beginnings_trans; [exact H3|]. now apply beginnings_concat.
Qed.
(** The channels [P] that are never refused, with the ways that lead into them. *)
Lemma fed_led (P : nat -> Prop) n os : fed_by net n os -> P n -> (forall n, P n -> forall v, ~ In (ESend (CData n) v, AClosed) (all_of l)) ->
  (forall k c n, nth_error net k = Some c -> passes_on c -> In n (comp_outs c) -> P n -> (exists m, ocs k = Ended (Ok m)) /\ forall i, In i (comp_ins c) -> P i) ->
  (forall k c n, nth_error net k = Some c -> In n (comp_outs c) -> In n os -> exists m, ocs k = Ended (Ok m)) ->
  exists mss, given_by os mss /\ interleave mss (gone_in n l) /\ Forall (source_spent net l) os.
Proof.
  intros HF Pn HQ HS HD. revert n os HF Pn HD. apply (fed_induct (fun n os => P n -> (forall k c n, nth_error net k = Some c -> In n (comp_outs c) -> In n os -> exists m, ocs k = Ended (Ok m)) ->
    exists mss, given_by os mss /\ interleave mss (gone_in n l) /\ Forall (source_spent net l) os)).
  - intros c n' Hc Hm Hn Pn HD. apply In_nth_error in Hc. destruct Hc as (k & Hk). destruct (source_all k c n' Hk Hm Hn (HQ _ Pn) (HD _ _ _ Hk Hn (or_introl eq_refl))) as (ms & H1 & H2 & H3).
    exists [ms]. split; [repeat constructor; assumption|]. split; [now apply interleave_one|repeat constructor; assumption].
  - intros c n' oss Hc Hp Hn HF Pn HD. apply In_nth_error in Hc. destruct Hc as (k & Hk). destruct (HS _ _ _ Hk Hp Hn Pn) as [Hok Hin]. destruct (passes_all net w0 HN l w ocs HX k c n' Hk Hp Hn (HQ _ Pn) Hok) as (H1 & H2).
    assert (HA : exists msss, Forall2 given_by oss msss /\ Forall2 interleave msss (map (fun i => come_out i l) (comp_ins c)) /\ Forall (source_spent net l) (concat oss)).
    { clear -HF H2 Hin HD. induction HF as [|i os ins oss HI _ IH]; [exists []; repeat constructor|]. destruct HI as (mss & I1 & I2 & I3); [apply Hin; now left|intros k1 c1 n1 H K L; apply (HD k1 c1 n1 H K); cbn; apply in_or_app; now left|].
      destruct IH as (msss & J1 & J2 & J3); [intros k1 c1 n1 H K L; apply (HD k1 c1 n1 H K); cbn; apply in_or_app; now right|intros x Hx; apply Hin; now right|intros x Hx; apply H2; now right|]. exists (mss :: msss). split; [constructor; assumption|]. split; [|cbn; apply Forall_app; auto].
      cbn. constructor; [|exact J2]. rewrite H2 by now left. exact I2. }
    destruct HA as (msss & J1 & J2 & J3). exists (concat msss). split; [apply forall2_concat; exact J1|]. split; [|exact J3]. exact (interleave_flat _ _ _ J2 H1).
Qed.
Lemma fed_all n os : fed_by net n os -> (forall n v, ~ In (ESend (CData n) v, AClosed) (all_of l)) -> all_succeeded net ocs ->
  exists mss, given_by os mss /\ interleave mss (gone_in n l) /\ Forall (source_spent net l) os.
Proof.
  intros HF HQ HS. assert (HS' : forall k c, nth_error net k = Some c -> exists m, ocs k = Ended (Ok m)) by (intros k c Hk; apply HS, nth_error_Some; congruence).
  apply (fed_led (fun _ => True) n os HF Logic.I); eauto.
Qed.

(** At any time. *)
Theorem flow_begins n os ms : fed_by net n os -> target_got net l n ms -> exists mss ps, Forall2 (source_gave net l) os mss /\ beginnings ps mss /\ interleave ps ms.
Proof.
  intros HF HT. destruct (fed_begins _ _ HF) as (mss & ps & H1 & H2 & H3).
  destruct (interleave_prefix _ _ _ H3 (prefix_trans _ _ _ (target_begins _ _ HT) (come_gone net w0 l w ocs HX n))) as (ps' & H4 & H5).
  exists mss, ps'. split; [exact H1|]. split; [eapply beginnings_trans; eassumption|exact H5].
Qed.
(** In the end. *)
Theorem flow_all n os : polite net -> willing l -> all_succeeded net ocs -> fed_by net n os ->
  Forall (source_spent net l) os /\ target_served net l n /\
  exists mss ms, Forall2 (source_gave net l) os mss /\ interleave mss ms /\ forall ms', target_got net l n ms' -> ms' = ms.
Proof.
  intros HP HW HS HF. pose proof (nobody_refused net w0 HN HP l w ocs HX HW) as HQ. destruct (fed_all _ _ HF (fun n v => HQ (CData n) v) HS) as (mss & H1 & H2 & H3). split; [exact H3|].
  assert (Ho : In n (flat_map comp_outs net)) by (destruct HF as [c n Hc _ Hn|c n oss Hc _ Hn _]; apply in_flat_map; eauto). apply (nw_ends _ HN) in Ho. apply in_flat_map in Ho. destruct Ho as (c & Hc & Hn). apply In_nth_error in Hc. destruct Hc as (k & Hk).
  destruct (target_all k c n Hk Hn) as [H4 H5]; [intros f d K; apply own_all in K; now destruct (HW _ _ K)|apply HS, nth_error_Some; congruence|]. split; [exact H5|]. exists mss, (gone_in n l). auto.
Qed.
End Net.

(** ** Without loops every channel is fed by some sources *)
Theorem fed_somehow net : net_wired net -> acyclic net -> forall n, In n (flat_map comp_outs net) -> exists os, fed_by net n os.
Proof.
  intros HN (rank & HA) n Hn. apply in_flat_map in Hn. destruct Hn as (c & Hc & Hn). apply In_nth_error in Hc. destruct Hc as (k & Hk).
  remember (rank k) as r eqn:Er. revert k c n Hk Hn Er. induction r as [r IH] using lt_wf_ind. intros k c n Hk Hn ->.
  assert (HC : makes_messages c \/ passes_on c) by (destruct c; cbn in *; auto). destruct HC as [HC|HC]; [exists [n]; exact (F_made net c n (nth_error_In _ _ Hk) HC Hn)|].
  assert (HI : forall i, In i (comp_ins c) -> exists os, fed_by net i os).
  { intros i Hi. assert (Ho : In i (flat_map comp_outs net)) by (apply (nw_ends _ HN); apply in_flat_map; exists c; split; [exact (nth_error_In _ _ Hk)|exact Hi]).
    apply in_flat_map in Ho. destruct Ho as (c' & Hc' & Ho). apply In_nth_error in Hc'. destruct Hc' as (k' & Hk'). exact (IH (rank k') (HA _ _ _ _ _ Hk' Hk Ho Hi) k' c' i Hk' Ho eq_refl). }
  assert (HL : exists oss, Forall2 (fed_by net) (comp_ins c) oss).
  { clear -HI. induction (comp_ins c) as [|i ins IHi]; [exists []; constructor|]. destruct (HI i (or_introl eq_refl)) as (os & H1). destruct IHi as (oss & H2); [intros x Hx; apply HI; now right|]. exists (os :: oss). now constructor. }
  destruct HL as (oss & HL). exists (concat oss). exact (F_passed net c n oss (nth_error_In _ _ Hk) HC Hn HL).
Qed.
