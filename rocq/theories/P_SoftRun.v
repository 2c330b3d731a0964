(** * P_SoftRun: behind pipes that give way, a component fails only of its own *)
From Coq Require Import Ascii String List Bool Arith Lia ZArith.
From Verif Require Import M_Prog P_Prog P_Exec M_Motion M_BackOff M_Regulator M_Faucet M_Drain M_Buffer M_Launch M_Junction M_Join M_Manager M_Waiter S_Trace S_Lines S_Motion S_World S_Launch S_Regulator S_Drain S_Buffer S_Junction S_Network S_Net M_Start S_Start S_Watch S_Delay S_Soft
  P_Reach P_Split P_Read P_Motion P_Worker P_Flow P_Utils P_Ask P_Pass P_Copy P_World P_Launch P_Regulator P_Control P_Drain P_Buffer P_BufferJoint P_BufferRun P_Link P_Phase P_Junction P_JStart P_NetComp P_Calm P_Turn P_Network P_WatchMarks P_Delay P_Act P_Soft.
Import ListNotations.

Lemma motion_why pl mon ps tr e : exec (motion pl mon None ps) tr (Done (Err e)) -> unmocked ps -> cause pl mon ps tr e.
Proof. intros HX HU. exact (motion_cause _ _ _ _ _ HU HX). Qed.
Lemma gate_why pl ps ctl tr e : exec (start_secret false (Some pl) (Some ps) ctl None) tr (Done (Err e)) -> unmocked ps -> cause pl mn_empty ps tr e.
Proof. intros HX HU. exact (gate_cause _ _ _ _ _ HU HX). Qed.

(** ** The monitors of a buffer *)
Section Monitors.
Variables (b : buffer) (u mi mo : nat) (pl : pull) (ps : push) (w0 w : world) (L : list nevent) (sa sb : status (mres nat)) (sc : status (option nat)).
Hypothesis HB : buffer_wired b pl ps u mi mo.
Hypothesis HI : new_inside u mi mo w0.
Hypothesis HW : wrun w0 L w.
Hypothesis HS : sealed u mi mo L.
Hypothesis Ha : exec (half_a u mi (pl, ps)) (own 1 L) sa.
Hypothesis Hb : exec (half_b u mo None (pl, ps)) (own 2 L) sb.
Hypothesis Hc : exec (total_in_buffer None mi mo) (own 3 L) sc.

Lemma closes_mon pl1 mon ps1 tr st m a : exec (motion pl1 mon None ps1) tr st -> In (EClose (CMon m), a) tr -> mon_read mon = Some m \/ mon_written mon = Some m.
Proof.
  intros HX Hin. pose proof (all_motion _ _ _ _ _ _ _ HX Hin) as HE.
  destruct HE as [[H|[(q & d & [<-|[]] & H)|[(m' & H & K)|[(m' & H & K)|(s & v' & H & _)]]]]|[H|[(q & [<-|[]] & H)|(m' & H & K)]]]; try discriminate H; try discriminate K.
  - destruct pl1; discriminate H.
  - destruct ps1; discriminate H.
  - destruct pl1; try contradiction H; discriminate H.
  - destruct ps1; try contradiction H; try (destruct H as [H|H]); discriminate H.
  - injection K as <-. exact H.
Qed.
Lemma heard m i v : (m = mi /\ i = 1) \/ (m = mo /\ i = 2) -> ~ In (ESend (CMon m) v, AClosed) (own i L).
Proof.
  intros Hm Hin. assert (Hnew : cs_closed (w0 (CMon m)) = false) by (destruct HI as (_ & H1 & H2); destruct Hm as [[-> _]|[-> _]]; [rewrite H1|rewrite H2]; reflexivity).
  assert (Hin' : inside u mi mo (CMon m)) by (unfold inside; destruct Hm as [[-> _]|[-> _]]; auto).
  apply in_own, in_split in Hin. destruct Hin as (A & B & E). rewrite E in HW. destruct (wrun_mid _ _ _ _ _ _ HW) as (w1 & w2 & W1 & W2 & _).
  assert (HC : cs_closed (w1 (CMon m)) = true) by (inversion W2; subst; auto; discriminate).
  destruct (first_closing (CMon m) A) as [HF|(A1 & j & a & A2 & EA & HF)].
  { rewrite (closed_run _ _ _ _ W1), Hnew in HC. cbn in HC. apply closedb_in in HC. apply all_in in HC. destruct HC as (k & HC). exact (HF _ _ HC). }
  assert (Hj : In (j, (EClose (CMon m), a)) L) by (rewrite E, EA; rewrite !in_app_iff; cbn; auto).
  destruct (HS _ _ _ _ Hj eq_refl Hin') as [->|[->| ->]].
  - pose proof (proj1 (in_own _ _ _ _) Hj) as Hj'. pose proof (closes_mon _ _ _ _ _ _ _ Ha Hj') as K. cbn in K. destruct K as [K|K]; [discriminate K|]. injection K as K.
    destruct Hm as [[Em ->]|[Em ->]]; [|destruct HB as (_ & _ & _ & _ & _ & Hne & _); congruence].
    rewrite E, own_app, own_cons_same in Ha. pose proof (motion_proper _ _ _ _ _ Ha _ _ _ _ eq_refl) as [_ P]. apply (P a). apply in_own. rewrite EA. apply in_or_app. right. now left.
  - pose proof (proj1 (in_own _ _ _ _) Hj) as Hj'. pose proof (closes_mon _ _ _ _ _ _ _ Hb Hj') as K. cbn in K. destruct K as [K|K]; [|discriminate K]. injection K as K.
    destruct Hm as [[Em ->]|[Em ->]]; [destruct HB as (_ & _ & _ & _ & _ & Hne & _); congruence|].
    rewrite E, own_app, own_cons_same in Hb. pose proof (motion_proper _ _ _ _ _ Hb _ _ _ _ eq_refl) as [_ P]. apply (P a). apply in_own. rewrite EA. apply in_or_app. right. now left.
  - assert (E3 : own 3 L = own 3 A1 ++ (EClose (CMon m), a) :: own 3 (A2 ++ (i, (ESend (CMon m) v, AClosed)) :: B)) by (rewrite E, EA, <- app_assoc, own_app; cbn [app]; now rewrite own_cons_same).
    pose proof (counter_proper _ _ _ _ Hc _ _ _ _ E3) as [K|[K|K]]; [destruct K| |].
    + rewrite EA in W1. destruct (wrun_mid _ _ _ _ _ _ W1) as (w3 & w4 & W3 & _ & _). pose proof (shut_closed _ _ _ _ _ W3 K) as HC'.
      rewrite (closed_run _ _ _ _ W3), Hnew in HC'. cbn in HC'. apply closedb_in in HC'. apply all_in in HC'. destruct HC' as (k & HC'). exact (HF _ _ HC').
    + rewrite E3 in Hc. pose proof (exec_prefix _ _ _ Hc _ _ _ _ eq_refl) as HP. destruct (total_reach _ _ _ _ _ HP) as (t & HT & HSt & _). pose proof (counter_looks _ _ _ _ HT) as HL.
      assert (K' : seen_shut (CMon m) (own 3 A1)).
      { right. destruct t; cbn in HSt; try discriminate HSt; injection HSt as HSt; rewrite <- HSt; apply HL. }
      rewrite EA in W1. destruct (wrun_mid _ _ _ _ _ _ W1) as (w3 & w4 & W3 & _ & _). pose proof (shut_closed _ _ _ _ _ W3 K') as HC'.
      rewrite (closed_run _ _ _ _ W3), Hnew in HC'. cbn in HC'. apply closedb_in in HC'. apply all_in in HC'. destruct HC' as (k & HC'). exact (HF _ _ HC').
Qed.
End Monitors.

(** ** Components *)
Definition gives_way (ps : push) : Prop := push_brk ps <> Terminate.
Definition comp_gives_way (c : comp) : Prop :=
  match c with
  | NFaucet f _ => forall ps, fc_stdout f = Some ps -> gives_way ps
  | NRegulator r => forall ps, rg_stdout r = Some ps -> gives_way ps
  | NBuffer b _ _ _ => forall ps, bf_stdout b = Some ps -> gives_way ps
  | NJunction j => forall ps, In ps (jn_stdout j) -> gives_way ps
  | NLaunch _ _ la => forall ps, la_stdout la = Some ps \/ la_stderr la = Some ps -> gives_way ps
  | NDrain _ _ => True
  end.
Lemma cause_soft pl mon ps h e : gives_way ps -> cause pl mon ps h e -> (forall m v, (mon_read mon = Some m \/ mon_written mon = Some m) -> ~ In (ESend (CMon m) v, AClosed) h) ->
  hurt h /\ ((exists k j f sc, pl = PlBytes k j f sc /\ e = ReadIOError j) \/ (exists k j f, ps = PsBytes k j f /\ (e = CloseIOError j \/ exists d, e = WriteIOError j d))).
Proof.
  intros HG [(k & j & f & sc & E1 & E2 & E3)|[(k & j & f & E1 & E2 & E3)|[(j & d & H1 & H2 & _)|(m & v & H1 & H2)]]] HM; [split; [exact E3|left; eauto 6]|split; [exact E3|right; eauto 6]| |destruct (HM _ _ H1 H2)].
  exfalso. apply HG. unfold push_brk. now rewrite H1.
Qed.
Lemma no_monitors h : forall m v, (mon_read mn_empty = Some m \/ mon_written mn_empty = Some m) -> ~ In (ESend (CMon m) v, AClosed) h.
Proof. intros m v [K|K]; discriminate K. Qed.

Section Net.
Variables (net : list comp) (w0 : world).
Hypothesis HN : net_wired net.
Variables (l : list nevent) (w : world) (ocs : nat -> outcome).
Hypothesis HX : net_run net w0 l w ocs.

Lemma own_did k t x : t < 4 -> In x (own t (seen_by k l)) -> In x (did k l).
Proof.
  intros Ht H. rewrite own_seen in H by exact Ht. unfold own, did in *. apply in_map_iff in H. destruct H as (y & <- & H). apply filter_In in H. destruct H as [H1 H2]. apply Nat.eqb_eq in H2.
  apply in_map_iff. exists y. split; [reflexivity|]. apply filter_In. split; [exact H1|]. rewrite H2. apply Nat.eqb_eq. symmetry. apply (Nat.div_unique _ _ _ t); [exact Ht|reflexivity].
Qed.
Lemma hurt_did k t : t < 4 -> hurt (own t (seen_by k l)) -> hurt (did k l).
Proof. intros Ht. apply hurt_in. intros x. exact (own_did k t x Ht). Qed.
Theorem own_only k c e : nth_error net k = Some c -> comp_gives_way c -> ocs k = Ended (Err e) -> own_failure c (did k l) e.
Proof.
  intros Hk HG HE. pose proof (nw_ready _ HN _ (nth_error_In _ _ Hk)) as HR. pose proof (nr_comps _ _ _ _ _ HX _ _ Hk) as HC. rewrite HE in HC.
  pose proof (wrun_seen k _ _ _ (nr_world _ _ _ _ _ HX)) as HW.
  destruct c as [f name|r|b u mi mo|j|cwd vars la|d name].
  - destruct HR as (HCt & j & o & HR). destruct HC as (st & (_ & s & -> & HY) & HO). destruct s as [e'|r'|m]; try discriminate HO. injection HO as <-.
    destruct (faucet_run _ _ _ _ _ _ HR HY) as [[_ E]|[(j' & _ & Et & E & Hn)|(dd & rest & kk & j' & Et & HZ)]]; [discriminate E| |].
    { injection E as ->. cbn. apply (hurt_did k 0); [lia|]. rewrite Et. exists (source_eff name), AErr. split; [now left|]. unfold source_eff. destruct (string_dec name "-"); [contradiction|auto]. }
    pose proof HR as (_ & _ & ES & _). pose proof (gate_why _ _ _ _ _ HZ Logic.I) as HCa.
    destruct (cause_soft _ _ _ _ _ (HG _ ES) HCa (no_monitors _)) as [HH [(k1 & j1 & f1 & s1 & _ & ->)|(k1 & j1 & f1 & K & _)]]; [|discriminate K].
    cbn. apply (hurt_did k 0); [lia|]. rewrite Et. revert HH. apply hurt_in. intros x Hx. now right.
  - destruct HR as (HCt & pj & i & j & o & HR). destruct HC as (st & (_ & s & -> & HY) & HO). destruct s as [e'|r'|m]; try discriminate HO. injection HO as <-.
    rewrite (regulator_gate _ _ _ _ HR) in HY. pose proof HR as (_ & _ & ES & _). pose proof (gate_why _ _ _ _ _ HY Logic.I) as HCa.
    destruct (cause_soft _ _ _ _ _ (HG _ ES) HCa (no_monitors _)) as [_ [(k1 & j1 & f1 & s1 & K & _)|(k1 & j1 & f1 & K & _)]]; discriminate K.
  - destruct HR as (HCt & pj & i & j & o & HR). destruct HC as (st & HY & HM & HO). pose proof (buffer_parts _ _ _ _ _ _ _ _ _ HR HY) as (sa & sb & sc & Ha & Hb & Hc & HP).
    destruct st as [s|x y z|s]; [contradiction|cbn in HO; destruct (_ || _); discriminate HO|]. destruct HP as (ra & rb & rc & -> & -> & -> & ->). injection HO as HO.
    pose proof HR as (_ & ES & _). rewrite HCt in Hc.
    pose proof (heard _ _ _ _ _ _ _ _ _ _ _ _ HR (nr_inside _ _ _ _ _ HX _ _ _ _ (nth_error_In _ _ Hk)) HW (net_sealed _ _ HN _ _ _ HX _ _ _ _ _ Hk) Ha Hb Hc) as HH.
    destruct ra as [n|e1].
    + destruct rb as [n'|e1]; [discriminate HO|]. unfold half_b in Hb. cbn [snd] in Hb. pose proof (motion_why _ _ _ _ _ Hb Logic.I) as HCa.
      destruct (cause_soft _ _ _ _ _ (HG _ ES) HCa) as [_ [(k1 & j1 & f1 & s1 & K & _)|(k1 & j1 & f1 & K & _)]]; try discriminate K.
      intros m v [K|K]; [|discriminate K]. injection K as <-. apply HH. auto.
    + unfold half_a in Ha. cbn [fst snd] in Ha. pose proof (motion_why _ _ _ _ _ Ha Logic.I) as HCa.
      assert (HG' : gives_way (PsSender (J 0 None 0 (push_brk (PsIoSender j o))) u)) by exact (HG _ ES).
      destruct (cause_soft _ _ _ _ _ HG' HCa) as [_ [(k1 & j1 & f1 & s1 & K & _)|(k1 & j1 & f1 & K & _)]]; try discriminate K.
      intros m v [K|K]; [discriminate K|]. injection K as <-. apply HH. auto.
  - destruct HC as (st & (_ & s & -> & HY) & HO). destruct s as [e'|r'|m]; try discriminate HO. injection HO as <-.
    destruct (fails_how j None HR _ _ HY) as ([(p & jp & d & H1 & H2 & H3 & _)|[K _]] & _); [|now destruct K]. exfalso. apply (HG _ H1). unfold push_brk. now rewrite H2.
  - destruct HR as (HR & Hin & Hout). destruct HC as (st & HY & HM & HO). pose proof (launch_parts _ _ _ _ _ _ (proj1 HR) HY) as HP. destruct st as [[e'|r'|m]|x y z|[e'|r'|m]]; try discriminate HO.
    + cbn beta iota in HP. destruct HP as (_ & [(_ & E)|(_ & m & E)]); discriminate E.
    + cbn in HO. destruct (_ || _); discriminate HO.
    + injection HO as <-. cbn beta iota in HP. destruct HP as (fin & fout & ferr & a & b & c & tr & E & H1 & H2 & H3 & HF).
      assert (HQ : forall x t1 e1, exec (relay x None) (own t1 (seen_by k l)) (Done (Err e1)) -> t1 < 4 -> gives_way (snd x) -> unmocked (snd x) -> own_failure (NLaunch cwd vars la) (did k l) e1).
      { intros [p1 p2] t1 e1 HZ Ht G1 G2. unfold relay in HZ. cbn [fst snd] in *. pose proof (motion_why _ _ _ _ _ HZ G2) as HCa.
        destruct (cause_soft _ _ _ _ _ G1 HCa (no_monitors _)) as [HH [(k1 & j1 & f1 & s1 & _ & ->)|(k1 & j1 & f1 & _ & [->|(d1 & ->)])]]; exact (hurt_did k t1 Ht HH). }
      assert (HN0 : forall p1 tr1 e1, ~ exec (relay (p1, PsNone) None) tr1 (Done (Err e1)) \/ p1 <> PlNone).
      { intros p1 tr1 e1. destruct p1 as [k1 j1 f1 s1|j1 n1|j1 q1|]; [right; discriminate|right; discriminate|right; discriminate|left]. intro HZ. unfold relay in HZ. cbn [fst snd] in HZ. pose proof (motion_why _ _ _ _ _ HZ Logic.I) as HCa.
        destruct HCa as [(k1 & j1 & f1 & sc1 & K & _)|[(k1 & j1 & f1 & K & _)|[(j1 & d1 & K & _)|(m & v & [K|K] & _)]]]; discriminate K. }
      assert (HL : launch_result a b c = Err e -> own_failure (NLaunch cwd vars la) (did k l) e).
      { intro K. destruct a as [n|e1].
        - destruct b as [n2|e1].
          + destruct c as [n3|e1]; [discriminate K|]. injection K as ->. cbn [launch_relays rl_err] in H3. destruct (la_stderr la) as [ps|] eqn:ES; [|exfalso; destruct (HN0 PlNone (own 3 (seen_by k l)) e) as [Z|Z]; [exact (Z H3)|now apply Z]].
            destruct (Hout ps (or_intror eq_refl)) as (jo & oo & ->). exact (HQ _ 3 _ H3 ltac:(lia) (HG _ (or_intror ES)) Logic.I).
          + injection K as ->. cbn [launch_relays rl_out] in H2. destruct (la_stdout la) as [ps|] eqn:ES; [|exfalso; destruct (HN0 PlNone (own 2 (seen_by k l)) e) as [Z|Z]; [exact (Z H2)|now apply Z]].
            destruct (Hout ps (or_introl eq_refl)) as (jo & oo & ->). exact (HQ _ 2 _ H2 ltac:(lia) (HG _ (or_introl ES)) Logic.I).
        - injection K as ->. cbn [launch_relays rl_in] in H1. destruct (la_stdin la) as [pl|] eqn:ES; [|exfalso; destruct (HN0 PlNone (own 1 (seen_by k l)) e) as [Z|Z]; [exact (Z H1)|now apply Z]].
          refine (HQ _ 1 _ H1 ltac:(lia) _ _); [intro K; discriminate K|exact Logic.I]. }
      destruct (la_exit_status la) as [[j m]|] eqn:HEx.
      2:{ unfold launch_finish in HF. rewrite HEx in HF. apply exec_ret_inv in HF. destruct HF as [_ HF]. injection HF as HF. now apply HL. }
      destruct (finish_inv la None j m HEx _ _ _ _ _ HF) as (x & (kk & code & msg & rest & _ & E' & [(-> & ->)|[(s & port & _ & K & _)|(t & -> & Hx)]]) & HK).
      * injection HK as ->. exists m, (VData msg). split; [exact HEx|]. apply (own_did k 0); [lia|]. rewrite E, E'. rewrite ?in_app_iff. cbn. auto.
      * discriminate K.
      * apply HL. destruct Hx as (_ & _ & _ & ->). exact (eq_sym HK).
  - destruct HR as (pj & i & HR). destruct HC as (st & (_ & s & -> & HY) & HO). destruct s as [e'|r'|m]; try discriminate HO. injection HO as <-.
    destruct (drain_run _ _ _ _ _ HR HY) as [(_ & H)|(e' & E & H)].
    { exfalso. pose proof (motion_why _ _ _ _ _ H Logic.I) as HCa. destruct HCa as [(k1 & j1 & f1 & sc1 & K & _)|[(k1 & j1 & f1 & K & _)|[(j1 & d1 & K & _)|(m & v & [K|K] & _)]]]; discriminate K. }
    destruct H as [(_ & K)|[(f & rest & kk & pj' & Et & Ej & H)|(rest & pj' & Et & Ej & H)]]; [discriminate K| |].
    + pose proof (motion_why _ _ _ _ _ H Logic.I) as HCa. destruct HCa as [(k1 & j1 & f1 & sc1 & K & _)|[(k1 & j1 & f1 & K & [->|(d1 & ->)] & HH)|[(j1 & d1 & _ & _ & -> & HH)|(m & v & [K|K] & _)]]]; try discriminate K; (cbn; apply (hurt_did k 0); [lia|]; rewrite Et; match goal with HH : hurt rest |- _ => revert HH; apply hurt_in; intros z Hz; now right end).
    + apply done_bind in H. destruct H as (t1 & t2 & x & _ & _ & H). apply exec_ret_inv in H. destruct H as [_ H]. injection H as ->. cbn. apply (hurt_did k 0); [lia|]. rewrite Et. exists e', AErr. split; [now left|]. split; [|now left].
      assert (HWt : wt e' AErr = true) by (apply (exec_wt _ _ _ HY); rewrite Et; now left).
      destruct (actual_destination name); cbn in E; try discriminate E; injection E as <-; try reflexivity; discriminate HWt.
Qed.
End Net.

Lemma did_data net k l x : In x (did k (data_part net l)) -> In x (did k l).
Proof.
  unfold did, data_part. intro H. apply in_map_iff in H. destruct H as (y & <- & H). apply filter_In in H. destruct H as [H1 H2]. apply filter_In in H1. destruct H1 as [H1 _].
  apply in_map_iff. exists y. split; [reflexivity|]. apply filter_In. auto.
Qed.
Lemma own_failure_in c h h' e : (forall x, In x h -> In x h') -> own_failure c h e -> own_failure c h' e.
Proof.
  intros HI. destruct c, e; cbn; try (intros []; fail); try (exact (hurt_in _ _ HI)); try (match goal with r : closed_reason |- _ => destruct r; [exact (hurt_in _ _ HI)|intros []] end).
  intros (n & v & E1 & E2). eauto.
Qed.
Theorem free_own net cs w0 l w ocs : net_wired (map plain_comp net) -> overseen net cs -> roomy net -> free_run net cs w0 l w ocs ->
  forall k c e, nth_error net k = Some c -> comp_gives_way c -> ocs k = Ended (Err e) -> own_failure c (did k l) e.
Proof.
  intros HN HO HR HX k c e Hk HG HE. destruct (delays net cs w0 l w ocs HN HO HR HX) as (w' & ocs' & HX' & Hs & _).
  assert (Hlt : k < length net) by (apply nth_error_Some; congruence). specialize (Hs k Hlt). rewrite HE in Hs. specialize (Hs ltac:(discriminate)).
  pose proof (own_only _ _ HN _ _ _ HX' k (plain_comp c) e) as H. rewrite nth_error_map, Hk in H. specialize (H eq_refl).
  apply (own_failure_in _ _ _ _ (did_data net k l)). destruct c as [f name|r|b u mi mo|j|cwd vars la|d name]; exact (H HG Hs).
Qed.
