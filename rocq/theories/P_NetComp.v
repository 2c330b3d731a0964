(** * P_NetComp: what a component of a network may do, and how its runs go on *)
From Coq Require Import Ascii String List Bool Arith Lia.
From Verif Require Import M_Prog P_Prog P_Exec M_Motion M_Regulator M_Faucet M_Drain M_Buffer M_Junction M_Launch M_Join S_Trace S_Lines S_Motion S_World S_Launch S_Regulator S_Drain S_Buffer S_Junction S_Network S_Net
  P_Split P_Read P_Motion P_Worker P_Flow P_World P_Utils P_Ask P_Pass P_Control P_Drain P_Launch P_Buffer P_BufferJoint P_BufferRun P_BufferEnd P_Link P_Junction P_JStart P_Phase P_Conduit P_Network P_JPass P_Respond P_JIdle.
Import ListNotations.

(** ** Junctions that nobody watches use data channels only *)
Definition tame (e : eff) : Prop := match e with ERecv _ | EIsEmpty _ | EIsClosed _ => False | ETryRecv c | EClose c => exists n, c = CData n | ESend c v => exists n d, c = CData n /\ v = VData d | _ => True end.

Lemma works_iter {I R} (P : eff -> Prop) (body : I -> prog (I + R)) : (forall i, works P (fun _ => True) (body i)) -> forall i, works P (fun _ => True) (iter body i).
Proof.
  intros HB i.
  assert (K : tsat [] (iter body i) (fun h e => within_eff P h /\ P e) (fun h _ => within_eff P h)).
  { apply (tsat_iter body (fun h _ => within_eff P h)); [|constructor]. intros h i' Hi tr st HX. destruct (HB i' _ _ HX) as [H1 H2].
    assert (HA : within_eff P (h ++ tr)) by (apply Forall_app; auto). destruct st as [e|[x|x]|]; auto. }
  intros tr st HX. pose proof (K _ _ HX) as K1. cbn in K1. destruct st as [e|a|s]; [exact K1|auto|]. split; [|exact Logic.I].
  destruct (snoc_cases tr) as [->|(m & [e a] & ->)]; [constructor|].
  pose proof (K _ _ (exec_prefix _ _ _ HX m e a [] eq_refl)) as H. cbn in H. apply Forall_app. split; [apply H|]. constructor; [apply H|constructor].
Qed.
Lemma tame_worker p pushs : works tame (fun _ => True) (motion_worker p mn_empty pushs None true).
Proof.
  eapply works_weak; [apply works_worker with (pl0 := p) (ps0 := pushs)|intros e H; exact H|auto].
  - intros e [H|[(q & d & _ & H)|[(c & H & _)|[(c & H & _)|(s & v & H & _)]]]]; try discriminate H.
    + destruct p; try discriminate H; injection H as <-; cbn; eauto.
    + destruct q; try discriminate H; injection H as <-; cbn; eauto.
  - apply like_refl.
  - induction pushs; constructor; [apply likep_refl|assumption].
Qed.
Lemma tame_drop p : works tame (fun _ => True) (drop_pull p).
Proof. destruct p; cbn; try (now apply works_ret); [apply works_drop_fd|apply works_close]; cbn; eauto. Qed.
Lemma tame_drops l : works tame (fun _ => True) (drop_pulls l).
Proof. induction l as [|p l IH]; [now apply works_ret|]. cbn. eapply works_bind; [apply tame_drop|]. auto. Qed.
Lemma tame_mclose p : works tame (fun _ => True) (motion_close p).
Proof.
  destruct p; cbn [motion_close]; try (now apply works_ret); (eapply works_bind; [first [apply works_close|apply works_flush]; cbn; eauto|intros [] _; now apply works_ret]).
Qed.
Lemma tame_close_all l : works tame (fun _ => True) (close_all l).
Proof. induction l as [|p l IH]; [now apply works_ret|]. cbn. eapply works_bind; [apply tame_mclose|]. intros [x|x] _; [exact IH|now apply works_ret]. Qed.
Lemma tame_jmw : forall pulls i pushs fin rf sk, works tame (fun _ => True) (jmw_loop pulls i pushs None fin rf sk).
Proof.
  induction pulls as [|p pulls IH]; intros; cbn [jmw_loop]; [now apply works_ret|]. destruct (existsb _ _).
  - eapply works_bind; [apply IH|]. intros [[r rest'] pushs'] _. now apply works_ret.
  - eapply works_bind; [apply tame_worker|]. intros [[[w|e] p'] pushs'] _; [|now apply works_ret]. eapply works_bind; [apply IH|]. intros [[r rest'] pushs''] _. now apply works_ret.
Qed.
Lemma tame_groups : forall groups gi pushs fin count, works tame (fun _ => True) (groups_loop groups gi pushs None fin count).
Proof.
  induction groups as [|g groups IH]; intros; cbn [groups_loop]; [now apply works_ret|]. eapply works_bind; [apply tame_jmw|]. intros [[[o|e] g'] pushs'] _; [|now apply works_ret].
  destruct (_ <? _); [now apply works_ret|]. eapply works_bind; [apply IH|]. intros [[r rest'] pushs''] _. now apply works_ret.
Qed.
Lemma tame_remove : forall fins stdin, works tame (fun _ => True) (remove_all fins stdin).
Proof.
  induction fins as [|[a b] fins IH]; intros; cbn [remove_all]; [now apply works_ret|]. destruct (M_Utils.remove_vec_vec_index stdin a b) as [[p|] s']; [|apply IH].
  eapply works_bind; [apply tame_drop|]. intros. apply IH.
Qed.
Lemma tame_body s : works tame (fun _ => True) (junction_body None s).
Proof.
  destruct s as [[[groups outs] bo] count]. unfold junction_body. eapply works_bind with (Q := fun _ => True).
  - unfold junction_iteration. eapply works_bind; [apply tame_groups|]. intros [[[ps|e] g1] p1] _; [|now apply works_ret]. eapply works_bind; [apply tame_remove|]. intros st2 _.
    destruct (M_Utils.remove_vec_vec st2).
    + eapply works_bind; [apply tame_close_all|]. intros [u|e] _; now apply works_ret.
    + eapply works_bind with (Q := fun _ => True); [|intros [u b] _; now apply works_ret]. destruct (ps_any_read ps); [now apply works_ret|].
      unfold M_BackOff.back_off_wait. eapply works_bind with (Q := fun _ => True); [|intros; now apply works_ret]. apply works_vis; [exact I|]. intros [] Hw; try discriminate Hw; now apply works_ret.
  - intros [[[[|] n]|e] st'] _; try now apply works_ret. eapply works_bind; [apply tame_drops|]. intros; now apply works_ret.
Qed.
Lemma junction_tame j : junction_ready j -> works tame (fun _ => True) (junction_start j None).
Proof. intros (E & _). unfold junction_start. rewrite E. apply works_iter. intro. apply tame_body. Qed.

(** ** What component [c]'s task [t] may do *)
Definition is_junction (c : comp) : Prop := match c with NJunction _ => True | _ => False end.
Definition polls (c : comp) (t : nat) : Prop :=
  match c with NJunction _ => t = 0 | NLaunch _ _ _ => t = 0 | NBuffer _ _ _ _ => t = 3 | _ => False end.
Definition comp_may (c : comp) (t : nat) (e : eff) : Prop :=
  match e with
  | ERecv (CData n) => In n (comp_ins c ++ comp_stores c) /\ ~ is_junction c
  | ETryRecv (CData n) => In n (comp_ins c) /\ is_junction c
  | ESend (CData n) (VData _) => In n (comp_outs c ++ comp_stores c)
  | EClose (CData n) => In n (comp_ins c ++ comp_outs c ++ comp_stores c)
  | ETryRecv (CMon m) | EIsEmpty (CMon m) | EIsClosed (CMon m) => In m (comp_counts c) /\ polls c t
  | ESend (CMon m) (VRead | VWrote) => In m (comp_counts c)
  | EClose (CMon m) => In m (comp_counts c)
  | ERecv _ | ETryRecv _ | ESend _ _ | EClose _ | EIsEmpty _ | EIsClosed _ => False
  | ESleep _ => polls c t
  | _ => True
  end.

(** The ends of a motion within a component. *)
Definition pull_chan_in (pl : pull) (l : list nat) : Prop := match pl with PlReceiver _ n => In n l | _ => True end.
Definition push_chan_in (ps : push) (l : list nat) : Prop := match ps with PsSender _ n | PsIoSender _ n => In n l | _ => True end.
Lemma motion_may c t pl mon ps e : ~ is_junction c -> pull_chan_in pl (comp_ins c ++ comp_stores c) -> push_chan_in ps (comp_outs c ++ comp_stores c) ->
  (forall m, mon_read mon = Some m \/ mon_written mon = Some m -> In m (comp_counts c)) -> motion_eff pl mon None ps e -> comp_may c t e.
Proof.
  intros HJ Hpl Hps Hm [[H|[(q & d & [<-|[]] & H)|[(m & H & ->)|[(m & H & ->)|(s & v & H & _)]]]]|[H|[(q & [<-|[]] & H)|(m & H & ->)]]]; try discriminate H.
  - destruct pl; try discriminate H; injection H as <-; cbn; auto.
  - destruct ps; try discriminate H; injection H as <-; exact Hps.
  - cbn. apply Hm. auto.
  - cbn. apply Hm. auto.
  - destruct pl; try contradiction H; subst e; [exact I|]. cbn in *. apply in_app_iff in Hpl. rewrite !in_app_iff. tauto.
  - destruct ps; try contradiction H; [destruct H as [->| ->]; exact I|subst e..]; cbn in *; apply in_app_iff in Hps; rewrite !in_app_iff; tauto.
  - cbn. now apply Hm.
Qed.
Lemma gate_may c t pl ps e : ~ is_junction c -> pull_chan_in pl (comp_ins c ++ comp_stores c) -> push_chan_in ps (comp_outs c ++ comp_stores c) -> gate_eff pl None None ps e -> comp_may c t e.
Proof.
  intros HJ Hpl Hps H. apply (motion_may c t pl mn_empty ps); auto; [intros m [K|K]; discriminate K|].
  destruct H as [H|[H|[(x & H & _)|(x & H & _)]]]; try discriminate H; [now left|now right].
Qed.
Lemma all_motion pl mon ps tr st e a : exec (motion pl mon None ps) tr st -> In (e, a) tr -> motion_eff pl mon None ps e.
Proof. intros HX Hin. destruct (orderly_all _ _ _ (motion_orderly _ _ _ _) _ _ HX) as [HW _]. unfold within_eff in HW. rewrite Forall_forall in HW. exact (HW _ Hin). Qed.
Lemma all_gate pl ps tr st e a : exec (start_secret false (Some pl) (Some ps) None None) tr st -> In (e, a) tr -> gate_eff pl None None ps e.
Proof. intros HX Hin. destruct (orderly_all _ _ _ (gate_orderly _ _ _ _) _ _ HX) as [HW _]. unfold within_eff in HW. rewrite Forall_forall in HW. exact (HW _ Hin). Qed.
Lemma off_may c t e : on_chan e = None -> (forall n, e <> ESleep n) -> comp_may c t e.
Proof. intros H1 H2. destruct e; try discriminate H1; try exact I. now destruct (H2 ms). Qed.

Lemma alone_may c p L st : alone p L st -> (forall tr s e a, exec p tr s -> In (e, a) tr -> comp_may c 0 e) -> forall t e a, t < 4 -> In (t, (e, a)) L -> comp_may c t e.
Proof.
  intros (HI & s & _ & HX) H t e a Ht Hin. apply in_own in Hin. destruct t as [|t]; [eapply H; eassumption|].
  rewrite (HI (S t)) in Hin by (cbn; lia). destruct Hin.
Qed.

Lemma comp_within c L oc : comp_ready c -> comp_runs c L oc -> forall t e a, t < 4 -> In (t, (e, a)) L -> comp_may c t e.
Proof.
  destruct c as [f name|r|b u mi mo|j|cwd vars la|d name]; intros HR HX.
  - destruct HR as (HC & j & o & HR). destruct HX as (st & HX & _). eapply alone_may; [exact HX|]. intros tr s e a HY Hin.
    assert (EO : comp_outs (NFaucet f name) = [o]) by (destruct HR as (_ & _ & E & _); cbn; now rewrite E).
    assert (Hs : comp_may (NFaucet f name) 0 (source_eff name)) by (unfold source_eff; destruct (string_dec _ _); exact I).
    destruct (faucet_run _ _ _ _ _ _ HR HY) as [[-> _]|[(j' & _ & -> & _)|(d & rest & k & j' & -> & HZ)]].
    + destruct Hin.
    + destruct Hin as [E|[]]. now injection E as <- <-.
    + destruct Hin as [E|Hin]; [now injection E as <- <-|]. rewrite HC in HZ. eapply gate_may; [..|eapply all_gate; eassumption]; try exact I; [intros []|]. cbn [push_chan_in]. rewrite EO. now left.
  - destruct HR as (HC & pj & i & j & o & HR). destruct HX as (st & HX & _). eapply alone_may; [exact HX|]. intros tr s e a HY Hin.
    rewrite (regulator_gate _ _ _ _ HR), HC in HY. destruct HR as (_ & E1 & E2 & _).
    eapply gate_may; [..|eapply all_gate; eassumption]; [intros []|..]; cbn; [rewrite E1|rewrite E2]; now left.
  - destruct HR as (HC & pj & i & j & o & HR). destruct HX as (st & HX & _ & _). pose proof (buffer_parts _ _ _ _ _ _ _ _ _ HR HX) as (sa & sb & sc & Ha & Hb & Hc & _).
    assert (H0 : own 0 L = []).
    { assert (EE : buffer_ends b = Ret (inr (PlReceiver pj i, PsIoSender j o))) by (destruct HR as (E1 & E2 & _); unfold buffer_ends; now rewrite E1, E2).
      unfold buffer_start in HX. rewrite EE in HX. destruct HX as [L e Hi HX|L s Hi HX|L r Hi HX|L0 L x a b' c K0 K1 HX HA HB HZ|L0 L L1 x a b' c st K0 K1 K2 HX HA HB HZ HF];
        apply exec_ret_inv in HX; destruct HX as [HX E]; try discriminate E.
      - now rewrite own_app, HX, (K1 0) by now left.
      - apply exec_ret_inv in HF. destruct HF as [HF _]. now rewrite !own_app, HX, HF, (K1 0) by now left. }
    destruct HR as (E1 & E2 & _). rewrite HC in Hc. intros t e a Ht Hin. apply in_own in Hin.
    assert (Ei : comp_ins (NBuffer b u mi mo) = [i]) by (cbn; now rewrite E1). assert (Eo : comp_outs (NBuffer b u mi mo) = [o]) by (cbn; now rewrite E2).
    destruct t as [|[|[|[|t]]]]; [rewrite H0 in Hin; destruct Hin| | | |lia].
    + eapply motion_may; [..|exact (all_motion _ _ _ _ _ _ _ Ha Hin)]; [intros []|cbn [fst pull_chan_in]; rewrite Ei; now left|cbn [push_chan_in]; apply in_or_app; right; now left|].
      intros m [K|K]; [discriminate K|]. injection K as <-. now left.
    + eapply motion_may; [..|exact (all_motion _ _ _ _ _ _ _ Hb Hin)]; [intros []|cbn [fst pull_chan_in]; apply in_or_app; right; now left|cbn [push_chan_in snd]; rewrite Eo; now left|].
      intros m [K|K]; [|discriminate K]. injection K as <-. right; now left.
    + destruct (total_reach _ _ _ _ _ Hc) as (tp & HT & _). apply t_traces in HT. rewrite Forall_forall in HT. specialize (HT _ Hin). cbn [fst] in HT.
      destruct e as [[]|[]|[] v|[]|[]|[]| | | | | | | | | | | |]; try contradiction HT; try discriminate HT; cbn in HT |- *; intuition.
  - destruct HX as (st & HX & _). eapply alone_may; [exact HX|]. intros tr s e a HY Hin.
    destruct (junction_tame _ HR _ _ HY) as [HT _]. unfold within_eff in HT. rewrite Forall_forall in HT. specialize (HT _ Hin). cbn [fst] in HT.
    pose proof (junction_effects _ _ _ _ _ _ HR HY Hin) as HD. unfold does in HD.
    destruct e as [c|c|c v|c|c|c| | | | | | | | | | | |]; try contradiction HT; try exact I.
    + destruct HT as (n & ->). destruct (HD n eq_refl) as [[]|[(_ & K & _)|(_ & _ & [(v & K)|K])]]; try discriminate K. cbn. auto.
    + destruct HT as (n & d & -> & ->). destruct (HD n eq_refl) as [[]|[(_ & _ & [[K|K]|K])|(_ & K & _)]]; try discriminate K. cbn. now rewrite app_nil_r.
    + destruct HT as (n & ->). cbn. rewrite app_nil_r. apply in_or_app. destruct (HD n eq_refl) as [[]|[(_ & K & _)|(_ & K & _)]]; auto.
    + reflexivity.
  - destruct HR as (HR & Hin1 & Hout1). destruct HX as (st & HX & _ & _). destruct HR as (HL & HR).
    pose proof (launch_parts _ _ _ _ _ _ HL HX) as HP.
    assert (HI : forall fin fout ferr, let x := launch_relays la fin fout ferr in
      (forall tr s t e a, exec (relay (rl_in x) None) tr s -> In (e, a) tr -> comp_may (NLaunch cwd vars la) t e) /\
      (forall tr s t e a, exec (relay (rl_out x) None) tr s -> In (e, a) tr -> comp_may (NLaunch cwd vars la) t e) /\
      (forall tr s t e a, exec (relay (rl_err x) None) tr s -> In (e, a) tr -> comp_may (NLaunch cwd vars la) t e)).
    { intros fin fout ferr x. subst x. repeat split; intros tr s t e a HY Hin; (eapply motion_may; [..|exact (all_motion _ _ _ _ _ _ _ HY Hin)]; [intros []| | |intros m [K|K]; discriminate K]); cbn.
      - destruct (la_stdin la) as [pl|] eqn:E; [|exact I]. destruct (Hin1 _ eq_refl) as (pj & i & ->). cbn. now left.
      - destruct (la_stdin la); exact I.
      - destruct (la_stdout la); exact I.
      - destruct (la_stdout la) as [ps|] eqn:E; [|exact I]. destruct (Hout1 ps (or_introl eq_refl)) as (j & o & ->). cbn. now left.
      - destruct (la_stderr la); exact I.
      - destruct (la_stderr la) as [ps|] eqn:E; [|exact I]. destruct (Hout1 ps (or_intror eq_refl)) as (j & o & ->). apply in_or_app. left. apply in_or_app. right. now left. }
    assert (HFin : forall a0 b0 c0 tr s e a, exec (launch_finish la None a0 b0 c0) tr s -> In (e, a) tr -> comp_may (NLaunch cwd vars la) 0 e).
    { intros a0 b0 c0 tr s e a HY Hin. unfold launch_finish in HY. destruct (la_exit_status la) as [[j n]|] eqn:Ex; [|apply exec_ret_inv in HY; destruct HY as [-> _]; destruct Hin].
      assert (HW : works (comp_may (NLaunch cwd vars la) 0) (fun _ => True) (r <- iter (exit_body None j n) tt ;; match r with Err e => Ret (Err e) | Ok _ => Ret (launch_result a0 b0 c0) end)).
      { assert (Hn : In n (comp_outs (NLaunch cwd vars la) ++ comp_stores (NLaunch cwd vars la))) by (cbn; rewrite Ex; rewrite !in_app_iff; left; right; right; now left).
        eapply works_bind; [apply works_iter|intros [x|x] _; now apply works_ret]. intros []. unfold exit_body. apply works_vis; [exact I|]. intros x Hx. destruct (exit_message x).
        - eapply works_bind; [apply works_send; exact Hn|]. intros [] _; [|now apply works_ret]. cbn. eapply works_bind; [apply works_close|intros; now apply works_ret].
          cbn [comp_may]. apply in_or_app. now right.
        - eapply works_bind with (Q := fun _ => True); [|intros; now apply works_ret]. apply works_vis; [reflexivity|]. intros [] Hw; try discriminate Hw; now apply works_ret. }
      destruct (HW _ _ HY) as [H1 _]. unfold within_eff in H1. rewrite Forall_forall in H1. exact (H1 _ Hin). }
    intros t e a Ht Hin. apply in_own in Hin. destruct st as [s|a1 b1 c1|s].
    + destruct HP as (HID & HP). destruct t as [|t]; [|rewrite (HID (S t)) in Hin by (cbn; lia); destruct Hin]. destruct HP as [[E _]|[E _]]; rewrite E in Hin; [destruct Hin|]. destruct Hin as [K|[]]. injection K as <- <-. exact I.
    + destruct HP as (fin & fout & ferr & E & H1 & H2 & H3). destruct (HI fin fout ferr) as (I1 & I2 & I3). destruct t as [|[|[|[|t]]]]; [|eapply I1|eapply I2|eapply I3|lia]; try eassumption.
      rewrite E in Hin. destruct Hin as [K|[]]. injection K as <- <-. exact I.
    + destruct HP as (fin & fout & ferr & a1 & b1 & c1 & tr & E & H1 & H2 & H3 & H4). destruct (HI fin fout ferr) as (I1 & I2 & I3). destruct t as [|[|[|[|t]]]]; [|eapply I1|eapply I2|eapply I3|lia]; try eassumption.
      rewrite E in Hin. cbn in Hin. destruct Hin as [K|Hin]; [|eapply HFin; eassumption]. injection K as <- <-. exact I.
  - destruct HR as (pj & i & HR). destruct HX as (st & HX & _). eapply alone_may; [exact HX|]. intros tr s e a HY Hin.
    assert (Ei : comp_ins (NDrain d name) = [i]) by (destruct HR as (E & _); cbn; now rewrite E).
    assert (Ho : forall e', opened_for (actual_destination name) = Some e' -> comp_may (NDrain d name) 0 e') by (intros e' E; destruct (actual_destination name); cbn in E; try discriminate E; injection E as <-; exact I).
    assert (Hm : forall ps tr s, push_chans ps = [] -> exec (motion (PlReceiver pj i) mn_empty None ps) tr s -> In (e, a) tr -> comp_may (NDrain d name) 0 e).
    { intros ps tr0 s0 Hps HZ HI0. eapply motion_may; [..|eapply all_motion; eassumption]; [intros []|cbn [pull_chan_in]; rewrite Ei; now left|destruct ps; try discriminate Hps; exact I|intros m [K|K]; discriminate K]. }
    destruct (drain_run _ _ _ _ _ HR HY) as [(_ & H)|(e' & E & H)]; [eapply (Hm PsNone); [reflexivity|exact H|exact Hin]|].
    destruct H as [(-> & _)|[(f & rest & k & pj' & -> & Ej & H)|(rest & pj' & -> & Ej & H)]]; [destruct Hin| |].
    + destruct Hin as [K|Hin]; [injection K as <- <-; now apply Ho|]. eapply Hm; [|exact H|exact Hin]. reflexivity.
    + destruct Hin as [K|Hin]; [injection K as <- <-; now apply Ho|].
      assert (W : works (comp_may (NDrain d name) 0) (fun _ : mres nat => True) (drop_pull (PlReceiver pj i) ;;; Ret (Err (OpenIOError pj')))).
      { eapply works_bind; [apply works_close|intros; now apply works_ret]. cbn [comp_may]. rewrite Ei. now left. }
      destruct (W _ _ H) as [H1 _]. unfold within_eff in H1. rewrite Forall_forall in H1. exact (H1 _ Hin).
Qed.
