(** * P_Stream: interleavings, and what the channels of a network carry *)
From Coq Require Import Ascii String List Bool Arith Lia ZArith.
From Verif Require Import M_Prog P_Prog P_Exec M_Motion M_Regulator M_Faucet M_Drain M_Buffer M_Launch M_Junction M_Join S_Trace S_Lines S_Motion S_World S_Launch S_Regulator S_Drain S_Buffer S_Junction S_Network S_Net S_Flow
  P_Read P_Motion P_World P_Ask P_Pass P_Copy P_Launch P_Regulator P_Control P_Drain P_Buffer P_BufferJoint P_BufferRun P_Link P_Phase P_Junction P_JStart P_JPass P_Conduit P_NetComp P_NetCost P_NetDone P_Net P_Calm P_Turn.
From Verif Require P_Network.
Import ListNotations.

(** ** Interleavings *)
Lemma interleave_none {A} (ls : list (list A)) s : Forall (fun l => l = []) ls -> interleave ls s -> s = [].
Proof.
  intros H HI. destruct HI as [|pre x l post s HI]; [reflexivity|]. exfalso. rewrite Forall_forall in H. discriminate (H (x :: l) ltac:(apply in_or_app; right; now left)).
Qed.
Lemma interleave_one {A} (a : list A) s : interleave [a] s <-> s = a.
Proof.
  split.
  - revert a. induction s as [|x s IH]; intros a H; inversion H as [ls HF|pre y l post s' HI E1 E2]; subst.
    + inversion HF; subst. congruence.
    + destruct pre as [|p pre]; [|destruct pre; discriminate E1]. injection E1 as <- ->. cbn in HI. f_equal. now apply IH.
  - intros ->. induction a as [|x a IH]; [constructor; repeat constructor|]. exact (IL_cons [] x a [] a IH).
Qed.
Lemma forall2_app_l {A B} (R : A -> B -> Prop) l1 l2 m : Forall2 R (l1 ++ l2) m -> exists m1 m2, m = m1 ++ m2 /\ Forall2 R l1 m1 /\ Forall2 R l2 m2.
Proof. intro H. apply Forall2_app_inv_l in H. destruct H as (m1 & m2 & H1 & H2 & ->). eauto. Qed.
Lemma prefix_refl {A} (a : list A) : prefix a a.
Proof. exists []. now rewrite app_nil_r. Qed.
Lemma beginnings_refl {A} (ls : list (list A)) : beginnings ls ls.
Proof. induction ls; constructor; [apply prefix_refl|assumption]. Qed.
Lemma beginnings_trans {A} (a b c : list (list A)) : beginnings a b -> beginnings b c -> beginnings a c.
Proof. intro H. revert c. induction H as [|x y a b H1 H2 IH]; intros c H; inversion H; subst; constructor; [eapply prefix_trans; eassumption|now apply IH]. Qed.
Lemma interleave_prefix {A} (ls : list (list A)) s p : interleave ls s -> prefix p s -> exists ps, beginnings ps ls /\ interleave ps p.
Proof.
  intro H. revert p. induction H as [ls HF|pre x l post s HI IH]; intros p (r & E).
  - destruct p; [|discriminate E]. exists ls. split; [apply beginnings_refl|now constructor].
  - destruct p as [|y p].
    + exists (map (fun _ => []) (pre ++ (x :: l) :: post)). split; [|constructor; apply Forall_map, Forall_forall; auto].
      induction (pre ++ (x :: l) :: post) as [|z zs IHz]; constructor; [eexists; reflexivity|exact IHz].
    + injection E as <- E. destruct (IH p ltac:(now exists r)) as (ps & HB & HI'). unfold beginnings in *. apply Forall2_app_inv_r in HB. destruct HB as (p1 & p2 & H1 & H2 & ->).
      inversion H2 as [|q l' p3 post' H3 H4]; subst. exists (p1 ++ (x :: q) :: p3). split; [|now constructor].
      apply Forall2_app; [exact H1|]. constructor; [|exact H4]. destruct H3 as [t ->]. now exists t.
Qed.
Lemma interleave_flat {A} : forall (lss : list (list (list A))) ss s, Forall2 interleave lss ss -> interleave ss s -> interleave (concat lss) s.
Proof.
  intros lss ss s HF HI. revert lss HF. induction HI as [ls HN|pre x l post s HI IH]; intros lss HF.
  - constructor. induction HF as [|a b lss ls H1 H2 IH]; [constructor|]. inversion HN as [|? ? E HN']; subst. cbn. apply Forall_app. split; [|now apply IH]. inversion H1; assumption.
  - apply Forall2_app_inv_r in HF. destruct HF as (l1 & l2 & H1 & H2 & ->). inversion H2 as [|g ? l3 ? H3 H4]; subst. inversion H3 as [|p1 y m p2 s' H5 E1 E2]; subst.
    assert (K : interleave (concat (l1 ++ (p1 ++ m :: p2) :: l3)) s) by (apply IH; apply Forall2_app; [exact H1|constructor; assumption]).
    rewrite concat_app in *. cbn [concat] in *. rewrite <- app_assoc in *. cbn [app] in *. rewrite app_assoc in *. now constructor.
Qed.
Lemma beginnings_concat {A} (lss mss : list (list (list A))) : Forall2 beginnings lss mss -> beginnings (concat lss) (concat mss).
Proof. induction 1; cbn; [constructor|]. now apply Forall2_app. Qed.
Lemma forall2_concat {A B} (R : A -> B -> Prop) lss mss : Forall2 (Forall2 R) lss mss -> Forall2 R (concat lss) (concat mss).
Proof. induction 1; cbn; [constructor|]. now apply Forall2_app. Qed.

(** ** A channel that has been found at its end is empty for ever *)
Lemma empty_closed c l : forall w w', wrun w l w' -> cs_closed (w c) = true -> cs_queue (w c) = [] -> cs_queue (w' c) = [].
Proof.
  induction l as [|[i ev] l IH]; intros w w' H Hc Hq; inversion H as [|? ? w1 ? ? H1 H2]; subst; [exact Hq|].
  assert (K : cs_closed (w1 c) = true /\ cs_queue (w1 c) = []).
  { split; [eapply (stays_closed c w [(i, ev)]); [econstructor; [exact H1|constructor]|exact Hc]|].
    inversion H1; subst; try exact Hq; unfold upd; destruct (chan_eqb c0 c) eqn:E; try exact Hq; apply chan_eqb_eq in E; subst c0; cbn; congruence. }
  eapply IH; [exact H2|apply K|apply K].
Qed.
Lemma ended_empty c w l w' i : wrun w l w' -> saw_end c (own i l) -> cs_queue (w' c) = [].
Proof.
  intros HW HS. assert (K : exists e, In (i, (e, AClosed)) l /\ (e = ERecv c \/ e = ETryRecv c)) by (destruct HS as [H|H]; apply in_own in H; eauto).
  destruct K as (e & Hin & He). apply in_split in Hin. destruct Hin as (a & b & ->). destruct (wrun_mid _ _ _ _ _ _ HW) as (w1 & w2 & _ & HS1 & HB).
  destruct He as [->| ->]; inversion HS1; subst; try discriminate; eapply empty_closed; eauto.
Qed.

(** ** Who takes, who sends *)
Definition taker (c : comp) : nat := match c with NBuffer _ _ _ _ | NLaunch _ _ _ => 1 | _ => 0 end.
Lemma does_take ins outs inner r w e n : does ins outs inner r w e -> is_take (CData n) e -> In n inner \/ (r = true /\ In n ins).
Proof.
  intros H HT. assert (Ho : on_chan e = Some (CData n)) by (destruct HT as [->| ->]; reflexivity).
  destruct (H n Ho) as [K|[(K1 & K2 & _)|(_ & _ & [(v & K)|K])]]; [now left|now right|subst e; destruct HT as [E|E]; discriminate E..].
Qed.
Lemma comp_takes c L oc : comp_ready c -> comp_runs c L oc -> forall t e a n, t < 4 -> In (t, (e, a)) L -> is_take (CData n) e -> In n (comp_ins c) -> t = taker c.
Proof.
  assert (HA : forall p st t e a, alone p L st -> t < 4 -> In (t, (e, a)) L -> t = 0).
  { intros p st t e a (HI & _) Ht Hin. destruct t as [|t]; [reflexivity|]. apply in_own in Hin. rewrite (HI (S t)) in Hin by (cbn; lia). destruct Hin. }
  destruct c as [f name|r|b u mi mo|j|cwd vars la|d name]; intros HR HX t e a n Ht Hin HT Hn; cbn [taker].
  - destruct Hn.
  - destruct HX as (st & HX & _). eapply HA; eassumption.
  - destruct HR as (HC & pj & i & j & o & HR). destruct HX as (st & HX & _ & _). pose proof (buffer_parts _ _ _ _ _ _ _ _ _ HR HX) as (sa & sb & sc & Ha & Hb & Hc & _).
    pose proof (buffer_zero _ _ _ _ _ _ _ _ HR ltac:(discriminate) HX) as H0. pose proof (wired_pl _ _ _ _ _ _ HR) as Hiu. cbn in Hiu. destruct HR as (E1 & E2 & _). cbn in Hn. rewrite E1 in Hn. destruct Hn as [<-|[]].
    apply in_own in Hin. destruct t as [|[|[|[|t]]]]; [rewrite H0 in Hin; destruct Hin|reflexivity| | |lia]; exfalso.
    + destruct (does_take _ _ _ _ _ _ _ (motion_does _ _ _ _ _ (all_motion _ _ _ _ _ _ _ Hb Hin)) HT) as [[]|(_ & [K|[]])]. congruence.
    + apply total_reach in Hc. destruct Hc as (t & Hc & _). apply t_traces in Hc. rewrite Forall_forall in Hc. specialize (Hc _ Hin). cbn in Hc. destruct HT as [->| ->]; cbn in Hc; [contradiction|destruct Hc; discriminate].
  - destruct HX as (st & HX & _). eapply HA; eassumption.
  - destruct HR as (HR & Hin1 & Hout1). destruct HX as (st & HX & _ & _). pose proof (launch_parts _ _ _ _ _ _ (proj1 HR) HX) as HQ. apply in_own in Hin.
    assert (HI : forall fin fout ferr, let x := launch_relays la fin fout ferr in
      (forall tr s, exec (relay (rl_out x) None) tr s -> ~ In (e, a) tr) /\ (forall tr s, exec (relay (rl_err x) None) tr s -> ~ In (e, a) tr)).
    { intros fin fout ferr x. subst x. split; intros tr s HY Hi; unfold relay in HY; pose proof (all_motion _ _ _ _ _ _ _ HY Hi) as HM; apply motion_does in HM; destruct (does_take _ _ _ _ _ _ _ HM HT) as [[]|(_ & K)]; cbn [launch_relays rl_out rl_err fst snd] in K; [destruct (la_stdout la)|destruct (la_stderr la)]; exact K. }
    assert (HS : forall x y, In (e, a) [(ESpawn x, y)] -> False) by (intros x y [K|[]]; injection K as <- _; destruct HT as [K|K]; discriminate K).
    destruct st as [s|a1 b1 c1|s].
    + destruct HQ as (HID & HQ). exfalso. destruct t as [|t]; [|rewrite (HID (S t)) in Hin by (cbn; lia); destruct Hin]. destruct HQ as [[E _]|[E _]]; rewrite E in Hin; [destruct Hin|eapply HS; exact Hin].
    + destruct HQ as (fin & fout & ferr & E & H1 & H2 & H3). destruct (HI fin fout ferr) as (I2 & I3). destruct t as [|[|[|[|t]]]]; [|reflexivity| | |lia]; exfalso; [rewrite E in Hin; eapply HS; exact Hin|eapply I2; eassumption|eapply I3; eassumption].
    + destruct HQ as (fin & fout & ferr & a1 & b1 & c1 & tr & E & H1 & H2 & H3 & H4). destruct (HI fin fout ferr) as (I2 & I3). destruct t as [|[|[|[|t]]]]; [|reflexivity| | |lia]; exfalso; [|eapply I2; eassumption|eapply I3; eassumption].
      rewrite E in Hin. apply in_app_or in Hin. destruct Hin as [Hin|Hin]; [eapply HS; exact Hin|].
      apply in_split in Hin. destruct Hin as (t1 & t2 & ->). pose proof (exec_prefix _ _ _ H4 _ _ _ _ eq_refl) as HP. unfold launch_finish in HP.
      destruct (la_exit_status la) as [[j m]|] eqn:EE; [|apply exec_ret_inv in HP; destruct HP as [_ HP]; discriminate HP].
      pose proof (finish_inv la None j m EE a1 b1 c1 t1 (At e) ltac:(unfold launch_finish; rewrite EE; exact HP)) as (k & HF).
      destruct HF as [(_ & K)|[(_ & K)|(code & m' & rest & _ & _ & HF)]].
      1,2: destruct HT as [HT|HT]; congruence.
      destruct HF as [(_ & K)|[(_ & s' & port & K & _)|(t & _ & _ & _ & _ & K)]]; [|discriminate K|]; destruct HT as [HT|HT]; congruence.
  - destruct HX as (st & HX & _). eapply HA; eassumption.
Qed.

Lemma comp_sends c L oc : comp_ready c -> comp_runs c L oc -> forall t n v a, t < 4 -> In (t, (ESend (CData n) v, a)) L -> In (CData n) (pens c t).
Proof.
  intros HR HX t n v a Ht Hin. destruct c as [f name|r|b u mi mo|j|cwd vars la|d name];
    try (apply in_own in Hin; apply in_split in Hin; destruct Hin as (t1 & t2 & E); exact (proj1 (comp_proper _ _ _ HR I HX t Ht _ _ _ _ E))).
  destruct HX as (st & (HI & s & _ & HX) & _). apply in_own in Hin. destruct t as [|t]; [|rewrite (HI (S t)) in Hin by (cbn; lia); destruct Hin].
  destruct (junction_effects _ _ _ _ _ _ HR HX Hin n eq_refl) as [[]|[(_ & _ & [[K|K]|K])|(_ & K & _)]]; try discriminate K. cbn. now apply in_map.
Qed.

Section Net.
Variables (net : list comp) (w0 : world).
Hypothesis HN : net_wired net.
Variables (l : list nevent) (w : world) (ocs : nat -> outcome).
Hypothesis HX : net_run net w0 l w ocs.

Lemma sender_is k c t n : nth_error net k = Some c -> t < 4 -> In (CData n) (pens c t) -> forall i e a, In (i, (e, a)) l -> is_send (CData n) e -> i = 4 * k + t.
Proof.
  intros Hk Ht Hp i e a Hin (v & ->). pose proof (nr_only _ _ _ _ _ HX _ _ Hin) as Hlt. destruct (nth_error net (i / 4)) as [c'|] eqn:E; [|apply nth_error_None in E; lia].
  assert (Hm : i mod 4 < 4) by (apply Nat.mod_upper_bound; lia).
  assert (Hi : In (CData n) (pens c' (i mod 4))).
  { eapply comp_sends; [apply (nw_ready _ HN), (nth_error_In _ _ E)|apply (nr_comps _ _ _ _ _ HX _ _ E)|exact Hm|]. apply in_seen'. exact Hin. }
  apply (writes_once net HN i (4 * k + t) (CData n)); [exists c'; auto|]. exists c. rewrite Nat.mul_comm, Nat.div_add_l by lia. rewrite Nat.div_small, Nat.add_0_r by exact Ht. split; [exact Hk|].
  rewrite Nat.add_comm, Nat.mod_add, Nat.mod_small by lia. exact Hp.
Qed.
Lemma taker_is k c n : nth_error net k = Some c -> In n (comp_ins c) -> forall i e a, In (i, (e, a)) l -> is_take (CData n) e -> i = 4 * k + taker c.
Proof.
  intros Hk Hn i e a Hin HT. destruct (event_may _ _ HN _ _ _ HX _ _ _ Hin) as (c' & E & HM).
  assert (Hm : i mod 4 < 4) by (apply Nat.mod_upper_bound; lia).
  assert (Hi : In n (comp_ins c')).
  { destruct HT as [->| ->]; cbn in HM; destruct HM as [HM _]; [|exact HM]. apply in_app_or in HM. destruct HM as [HM|HM]; [exact HM|]. exfalso.
    assert (Ho : In n (flat_map comp_outs net)) by (apply (nw_ends _ HN); apply in_flat_map; exists c; split; [exact (nth_error_In _ _ Hk)|exact Hn]).
    apply (nodup_app_disj _ _ n (nw_outs _ HN) Ho). apply in_flat_map. exists c'. split; [exact (nth_error_In _ _ E)|exact HM]. }
  assert (Ek : i / 4 = k) by exact (P_NetCost.nth_unique comp_ins _ _ _ _ _ n (nw_ins _ HN) E Hk Hi Hn). rewrite Ek, Hk in E. injection E as <-.
  assert (Et : i mod 4 = taker c).
  { eapply comp_takes; [apply (nw_ready _ HN), (nth_error_In _ _ Hk)|apply (nr_comps _ _ _ _ _ HX _ _ Hk)|exact Hm| |exact HT|exact Hn]. rewrite <- Ek. apply in_seen'. exact Hin. }
  rewrite (task_of i), Ek, Et. reflexivity.
Qed.
Lemma gone_first k c t n : nth_error net k = Some c -> t < 4 -> In (CData n) (pens c t) -> prefix (gone_in n l) (datas (offered (CData n) (own (4 * k + t) l))).
Proof.
  intros Hk Ht Hp. unfold gone_in. apply prefix_datas. rewrite <- (offered_all _ _ _ (sender_is k c t n Hk Ht Hp)). eapply accepted_first. exact (nr_world _ _ _ _ _ HX).
Qed.
Lemma gone_all k c t n : nth_error net k = Some c -> t < 4 -> In (CData n) (pens c t) -> (forall v, ~ In (ESend (CData n) v, AClosed) (all_of l)) -> gone_in n l = datas (offered (CData n) (own (4 * k + t) l)).
Proof.
  intros Hk Ht Hp HC. unfold gone_in. f_equal. rewrite <- (offered_all _ _ _ (sender_is k c t n Hk Ht Hp)). eapply sent_offered_run; [exact (nr_world _ _ _ _ _ HX)|].
  intros i v Hin. apply (HC v). unfold all_of. apply in_map_iff. exists (i, (ESend (CData n) v, AClosed)). auto.
Qed.
Lemma come_own k c n : nth_error net k = Some c -> In n (comp_ins c) -> come_out n l = datas (taken (CData n) (own (4 * k + taker c) l)).
Proof. intros Hk Hn. unfold come_out. f_equal. exact (taken_all _ _ _ (taker_is k c n Hk Hn)). Qed.
Lemma come_gone n : prefix (come_out n l) (gone_in n l).
Proof.
  unfold come_out, gone_in. apply prefix_datas. pose proof (fifo (CData n) _ _ _ (nr_world _ _ _ _ _ HX)) as H. destruct (nr_new _ _ _ _ _ HX (CData n)) as (cap & E). rewrite E in H. cbn in H. rewrite <- H. eexists. reflexivity.
Qed.
Lemma come_all n i : saw_end (CData n) (own i l) -> come_out n l = gone_in n l.
Proof.
  intro HE. unfold come_out, gone_in. f_equal. pose proof (fifo (CData n) _ _ _ (nr_world _ _ _ _ _ HX)) as H. destruct (nr_new _ _ _ _ _ HX (CData n)) as (cap & E). rewrite E in H. cbn in H.
  rewrite (ended_empty _ _ _ _ _ (nr_world _ _ _ _ _ HX) HE), app_nil_r in H. exact H.
Qed.

Lemma seen k t : t < 4 -> own t (seen_by k l) = own (4 * k + t) l.
Proof. apply P_Network.own_seen. Qed.
Lemma calm_own i n v : (forall v, ~ In (ESend (CData n) v, AClosed) (all_of l)) -> ~ In (ESend (CData n) v, AClosed) (own i l).
Proof. intros H K. apply own_all in K. exact (H _ K). Qed.

(** Who passes on: what goes out is the beginning of an interleaving of what came in, all of it in the end. *)
Lemma passes_mix k c n : nth_error net k = Some c -> passes_on c -> In n (comp_outs c) ->
  exists s, interleave (map (fun i => come_out i l) (comp_ins c)) s /\ prefix (gone_in n l) s.
Proof.
  intros Hk HP Hn. pose proof (nw_ready _ HN _ (nth_error_In _ _ Hk)) as HR. pose proof (nr_comps _ _ _ _ _ HX _ _ Hk) as HC.
  assert (HI : map (fun i => come_out i l) (comp_ins c) = map (fun i => datas (taken (CData i) (own (4 * k + taker c) l))) (comp_ins c)) by (apply map_ext_in; intros i Hi; now apply come_own).
  rewrite HI. clear HI. destruct c as [f name|r|b u mi mo|j|cwd vars la|d name]; try contradiction HP; cbn [taker].
  - destruct HR as (Hc & pj & i & j & o & HR). pose proof HR as (_ & E1 & E2 & _). cbn [comp_ins comp_outs] in *. rewrite E1. rewrite E2 in Hn. destruct Hn as [<-|[]]. cbn [in_of map].
    exists (datas (taken (CData i) (own (4 * k + 0) l))). split; [now apply interleave_one|].
    eapply prefix_trans; [apply (gone_first k _ 0 o Hk); [lia|]; cbn; rewrite E2; now left|].
    destruct HC as (st & (_ & s & _ & HC) & _). rewrite <- seen by lia. exact (proj1 (regulator_forwards _ _ _ _ _ _ HR HC)).
  - destruct HR as (Hc & pj & i & j & o & HR). pose proof HR as (E1 & E2 & _). cbn [comp_ins comp_outs] in *. rewrite E1. rewrite E2 in Hn. destruct Hn as [<-|[]]. cbn [in_of map].
    exists (datas (taken (CData i) (own (4 * k + 1) l))). split; [now apply interleave_one|].
    eapply prefix_trans; [apply (gone_first k _ 2 o Hk); [lia|]; cbn; rewrite E2; now left|].
    destruct HC as (st & HC & _). rewrite <- !seen by lia.
    exact (proj1 (buffer_fifo _ _ _ _ _ _ _ HR _ _ _ _ HC (nr_inside _ _ _ _ _ HX _ _ _ _ (nth_error_In _ _ Hk)) (P_Network.wrun_seen k _ _ _ (nr_world _ _ _ _ _ HX)) (net_sealed net w0 HN _ _ _ HX _ _ _ _ _ Hk))).
  - destruct HC as (st & (_ & s & _ & HC) & _). rewrite <- seen by lia. destruct (outputs_same _ _ HR _ _ HC) as (x & H1 & H2 & _). exists x. split; [exact H1|].
    eapply prefix_trans; [apply (gone_first k _ 0 n Hk); [lia|]; cbn; now apply in_map|]. rewrite <- seen by lia.
    cbn [comp_outs] in Hn. unfold out_chans in Hn. apply in_map_iff in Hn. destruct Hn as (p & <- & Hp). destruct (H2 p Hp) as [H3 _]. pose proof (io_in j HR p Hp) as Hio. destruct p; try contradiction Hio. exact H3.
Qed.
Lemma passes_all k c n : nth_error net k = Some c -> passes_on c -> In n (comp_outs c) -> (forall v, ~ In (ESend (CData n) v, AClosed) (all_of l)) -> (exists m, ocs k = Ended (Ok m)) ->
  interleave (map (fun i => come_out i l) (comp_ins c)) (gone_in n l) /\ forall i, In i (comp_ins c) -> come_out i l = gone_in i l.
Proof.
  intros Hk HP Hn HQ (m & Hm). pose proof (nw_ready _ HN _ (nth_error_In _ _ Hk)) as HR. pose proof (nr_comps _ _ _ _ _ HX _ _ Hk) as HC. rewrite Hm in HC.
  assert (HI : map (fun i => come_out i l) (comp_ins c) = map (fun i => datas (taken (CData i) (own (4 * k + taker c) l))) (comp_ins c)) by (apply map_ext_in; intros i Hi; now apply come_own).
  rewrite HI. clear HI. destruct c as [f name|r|b u mi mo|j|cwd vars la|d name]; try contradiction HP; cbn [taker].
  - destruct HR as (Hc & pj & i & j & o & HR). pose proof HR as (_ & E1 & E2 & _). cbn [comp_ins comp_outs] in *. rewrite E1. rewrite E2 in Hn. destruct Hn as [<-|[]]. cbn [in_of map].
    destruct HC as (st & (_ & s & -> & HC) & Ho). destruct s as [e|r'|e]; try discriminate Ho. cbn in Ho. injection Ho as <-.
    destruct (regulator_ends _ _ _ _ _ _ HR HC) as [[H1 H2]|(_ & d & H)]; [|exfalso; apply found_refused in H; destruct H as [v H]; rewrite seen in H by lia; exact (calm_own _ _ _ HQ H)].
    rewrite (gone_all k _ 0 o Hk ltac:(lia) ltac:(cbn; rewrite E2; now left) HQ). rewrite seen in H1, H2 by lia. split; [apply interleave_one; exact H1|].
    intros i' [<-|[]]. exact (come_all _ _ H2).
  - destruct HR as (Hc & pj & i & j & o & HR). pose proof HR as (E1 & E2 & _). cbn [comp_ins comp_outs] in *. rewrite E1. rewrite E2 in Hn. destruct Hn as [<-|[]]. cbn [in_of map].
    destruct HC as (st & HC & _ & Ho).
    destruct (buffer_fifo _ _ _ _ _ _ _ HR _ _ _ _ HC (nr_inside _ _ _ _ _ HX _ _ _ _ (nth_error_In _ _ Hk)) (P_Network.wrun_seen k _ _ _ (nr_world _ _ _ _ _ HX)) (net_sealed net w0 HN _ _ _ HX _ _ _ _ _ Hk)) as [_ HF].
    assert (Es : st = After (Done (Ok m))).
    { pose proof (buffer_parts _ _ _ _ _ _ _ _ _ HR HC) as (sa & sb & sc & _ & _ & _ & HB). destruct st as [s|x y z|s]; [contradiction HB|cbn in Ho; destruct (_ || _); discriminate Ho|]. destruct HB as (ra & rb & rc & _ & _ & _ & ->). cbn in Ho. injection Ho as <-. reflexivity. }
    destruct (HF _ Es) as [(H1 & H2 & _)|(_ & d & H)]; [|exfalso; apply found_refused in H; destruct H as [v H]; rewrite seen in H by lia; exact (calm_own _ _ _ HQ H)].
    rewrite (gone_all k _ 2 o Hk ltac:(lia) ltac:(cbn; rewrite E2; now left) HQ). rewrite !seen in H1 by lia. rewrite seen in H2 by lia. split; [apply interleave_one; exact H1|].
    intros i' [<-|[]]. exact (come_all _ _ H2).
  - destruct HC as (st & (_ & s & -> & HC) & Ho). destruct s as [e|r'|e]; try discriminate Ho. cbn in Ho. injection Ho as <-.
    destruct (outputs_same _ _ HR _ _ HC) as (x & H1 & _ & H2 & _). cbn [comp_outs] in Hn. unfold out_chans in Hn. apply in_map_iff in Hn. destruct Hn as (p & <- & Hp).
    specialize (H2 p Hp (ex_intro _ m (or_introl eq_refl))). pose proof (io_in j HR p Hp) as Hio. destruct p as [| | |pj o|]; try contradiction Hio.
    rewrite seen in H1, H2 by lia. split.
    + cbn [ps_chan]. rewrite (gone_all k _ 0 o Hk ltac:(lia) ltac:(cbn; unfold out_chans; apply in_map, in_map_iff; eexists; split; [|exact Hp]; reflexivity) HQ). cbn [offered_to] in H2. rewrite H2. exact H1.
    + intros i Hi. destruct (ends_properly _ _ HR _ _ HC) as [[H|H] _]; [rewrite seen in H by lia; exact (come_all _ _ (H i Hi))|].
      exfalso. destruct (H _ Hp) as (_ & d & K). apply found_refused in K. destruct K as [v K]. rewrite seen in K by lia. exact (calm_own _ _ _ HQ K).
Qed.
End Net.
