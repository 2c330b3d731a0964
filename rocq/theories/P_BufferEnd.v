(** * P_BufferEnd: theorems on buffers *)
From Coq Require Import Ascii String List Bool Arith Lia.
From Verif Require Import M_Prog P_Prog P_Exec M_Motion M_BackOff M_Connectable S_Trace S_Lines S_Motion S_World P_Fan P_Read P_World P_Copy P_Machine P_Reach M_Join M_Buffer M_Poll S_Launch S_Buffer P_Buffer P_Counter P_BufferJoint P_BufferRun P_BufferPoll.
Import ListNotations.

Lemma done_ok pl mon spy ps s n : mstat pl mon spy ps s = Done (Ok n) -> s = LDone (Ok n).
Proof.
  unfold mstat, view. intro H. destruct s; try discriminate H; try (injection H as ->; reflexivity); exfalso;
  destruct mon as [[] []]; destruct ps as [[? []]|? [? []]|[? []]|[? []]|]; destruct spy; discriminate H.
Qed.

Section Wired.
Variables (b : buffer) (pl : pull) (ps : push) (spy : option nat) (u mi mo : nat).
Hypothesis HB : buffer_wired b pl ps u mi mo.
Notation p1 := (half_a u mi (pl, ps)).
Notation p2 := (half_b u mo spy (pl, ps)).
Notation p3 := (total_in_buffer (bf_monitor b) mi mo).
Notation tog := (together pl ps spy (bf_monitor b) u mi mo).

(** ** C27 *)
Lemma not_read_failed tr : (forall f, ~ In (ERead f, AErr) tr) -> read_failed pl tr = false.
Proof.
  intro H. unfold read_failed. destruct pl; try reflexivity. destruct (existsb _ tr) eqn:E; [|reflexivity]. exfalso.
  apply existsb_exists in E. destruct E as ([e a] & HI & HE). destruct e; try discriminate HE. destruct a; try discriminate HE. exact (H _ HI).
Qed.

Theorem buffer_counts L st w0 i w : buffer_start b spy u mi mo L st -> new_inside u mi mo w0 -> sealed u mi mo L ->
  buffer_polled b pl ps spy u mi mo w0 L i w -> (forall f, ~ In (ERead f, AErr) (own 1 L)) -> ~ in_panic st.
Proof.
  intros HX Hn Hs HP HF. destruct (buffer_parts _ _ _ _ _ _ _ _ _ HB HX) as (a & b' & c & H1 & H2 & H3 & HM).
  destruct (polled_run _ _ _ _ _ _ _ HP) as [HR _].
  destruct (parts_together _ _ _ spy _ _ _ HB _ _ _ _ _ _ Hn HR Hs H1 H2 H3) as (sa & sb & t & HT & Ea & Eb & Et & HV).
  destruct (counter_counts _ _ _ spy _ _ _ HB _ _ _ _ HP _ _ _ HT (not_read_failed _ HF)) as (K1 & _).
  destruct st as [s|x y z|s]; [contradiction| |destruct HM as (ra & rb & rc & _ & _ & _ & ->); intro H; exact H].
  destruct HM as (-> & -> & ->). intros [H|[H|H]].
  - destruct x as [|n|m]; try contradiction. exact (motion_no_panic _ _ _ _ (wired_fresh _ _ _ _ _ _ HB) (wired_mon _ _ _ _ _ _ HB) _ _ H1).
  - destruct y as [|n|m]; try contradiction. refine (motion_no_panic (plb u) (mnb mo) spy ps I _ _ _ H2). left. discriminate.
  - destruct z as [|n|m]; try contradiction. destruct t; cbn in Et; try discriminate Et.
    + cbn in HV. destruct (bf_monitor b); [discriminate Et|]. now apply HV.
    + cbn in HV. destruct (bf_monitor b); [discriminate Et|]. now apply HV.
    + exact (K1 _ eq_refl).
Qed.

(** ** C28 *)
Theorem buffer_changes L st w0 w s : buffer_start b spy u mi mo L st -> new_inside u mi mo w0 -> wrun w0 L w -> sealed u mi mo L ->
  bf_monitor b = Some s -> changing 0 (reports s (own 3 L)).
Proof.
  intros HX Hn HR Hs Es. destruct (buffer_parts _ _ _ _ _ _ _ _ _ HB HX) as (a & b' & c & H1 & H2 & H3 & HM).
  destruct (parts_together _ _ _ spy _ _ _ HB _ _ _ _ _ _ Hn HR Hs H1 H2 H3) as (sa & sb & t & HT & _).
  pose proof (is_t _ _ _ spy _ _ _ HB _ _ _ _ _ _ HT) as [HC _]. rewrite Es in HC. exact HC.
Qed.

Theorem buffer_ends_empty L n w0 i w s : buffer_start b spy u mi mo L (After (Done (Ok n))) -> new_inside u mi mo w0 -> sealed u mi mo L ->
  buffer_polled b pl ps spy u mi mo w0 L i w -> bf_monitor b = Some s ->
  last (reports s (own 3 L)) 0 = 0 \/ unread s (own 3 L) \/ (push_brk ps = Finish /\ exists d, found_closed ps d (own 2 L)).
Proof.
  intros HX Hn Hs HP Es. destruct (buffer_parts _ _ _ _ _ _ _ _ _ HB HX) as (a & b' & c & H1 & H2 & H3 & HM).
  destruct (polled_run _ _ _ _ _ _ _ HP) as [HR _]. destruct HM as (ra & rb & rc & -> & -> & -> & EM). unfold buffer_result in EM. destruct ra as [na|]; [|discriminate EM]. destruct rb as [nb|]; [|discriminate EM]. clear EM.
  destruct (parts_end _ _ _ spy _ _ _ HB _ _ _ Hn HR Hs _ _ _ H1 H2 H3) as [(_ & _ & _ & EE)|HF]; [|right; right; exact HF].
  apply sawb_spec in EE.
  destruct (parts_together _ _ _ spy _ _ _ HB _ _ _ _ _ _ Hn HR Hs H1 H2 H3) as (sa & sb & t & HT & Ea & Eb & Et & HV).
  destruct (counter_settles _ _ _ spy _ _ _ HB _ _ _ _ HP _ _ _ HT) as [_ K].
  pose proof (is_a _ _ _ spy _ _ _ HB _ _ _ _ _ _ HT) as HA. pose proof (is_b _ _ _ spy _ _ _ HB _ _ _ _ _ _ HT) as HBb. pose proof (is_t _ _ _ spy _ _ _ HB _ _ _ _ _ _ HT) as HC.
  pose proof (agree' _ _ _ spy _ _ _ HB _ _ _ _ _ _ HT) as [G1 G2 G3 G4].
  pose proof (num_mi _ _ _ spy _ _ _ HB _ _ _ _ _ _ HT) as N1. pose proof (num_mo _ _ _ spy _ _ _ HB _ _ _ _ _ _ HT) as N2. pose proof (num_u _ _ _ spy _ _ _ HB _ _ _ _ _ _ HT) as N3.
  destruct t; cbn in Et; try discriminate Et; try (rewrite Es in Et; discriminate Et).
  destruct r as [size|]; cbn in K; unfold inv_t in HC; cbv zeta in HC; destruct HC as [_ HC].
  - left. destruct HC as (C1 & C2 & C3 & C4). rewrite Es in C4. cbn in C4. unfold told in C4. cbn in C4. rewrite C4 by discriminate.
    destruct K as [[K1 _] [K2 _]]. rewrite K1 in N1. rewrite K2 in N2. cbn in N1, N2.
    destruct (G1 EE) as [E1 E2]. assert (HU : refusedb (CData u) (own 1 L) = false) by (destruct (refusedb (CData u) (own 1 L)); [destruct (G2 eq_refl); congruence|reflexivity]).
    assert (sa = LDone (Ok na)) by (eapply done_ok; exact Ea). subst sa.
    assert (sb = LDone (Ok nb)) by (eapply done_ok; exact Eb). subst sb.
    unfold inv_a in HA. unfold inv_b in HBb. cbv zeta in HA, HBb. rewrite EE in HBb. rewrite HU in HA. destruct HA as (A1 & A2 & A3 & [A4|[_ A4]] & _); [|discriminate A4]. specialize (A3 eq_refl). destruct HBb as (B1 & _). lia.
  - right. left. destruct HC as (C1 & _). rewrite Es in C1. cbn in C1. apply refusedb_spec in C1. exact C1.
Qed.

(** ** C26 *)
Lemma other_goes w e : on_chan e = None -> exists a w', wstep w (e, a) w'.
Proof.
  intro H. destruct e; try discriminate H.
  - exists AErr, w. now apply W_other.
  - exists AOk, w. now apply W_other.
  - exists AOk, w. now apply W_other.
  - exists AOk, w. now apply W_other.
  - exists AOk, w. now apply W_other.
  - exists AErr, w. now apply W_other.
  - exists AErr, w. now apply W_other.
  - exists (AFd 0), w. now apply W_other.
  - exists (AFd 0), w. now apply W_other.
  - exists (AFd 0), w. now apply W_other.
  - exists AErr, w. now apply W_other.
  - exists AErr, w. now apply W_other.
Qed.

Lemma send_stuck w c v n : (forall a w', ~ wstep w (ESend c v, a) w') -> cs_cap (w c) = Some n -> cs_closed (w c) = false /\ n <= length (cs_queue (w c)).
Proof.
  intros H HC. destruct (cs_closed (w c)) eqn:E.
  - exfalso. eapply H. eapply W_send_closed. exact E.
  - split; [reflexivity|]. destruct (le_lt_dec n (length (cs_queue (w c)))) as [Hl|Hl]; [exact Hl|]. exfalso. eapply H. eapply W_send; [exact E|]. unfold room. now rewrite HC.
Qed.
Lemma a_waits w0 L w sa sb t : tog w0 L w sa sb t -> waits (mstat pl (mna mi) None (psa ps u) sa) w ->
  (exists e, read_eff pl false = Some e /\ mstat pl (mna mi) None (psa ps u) sa = At e) \/
  (mstat pl (mna mi) None (psa ps u) sa = At (ESend (CMon mi) VWrote) /\ length (cs_queue (w (CMon mi))) = 8 /\ cs_closed (w (CMon mi)) = false).
Proof.
  intros HT HW. destruct (caps _ _ _ _ _ _ _ _ _ _ _ _ _ HT) as (E1 & E2 & _).
  assert (WM : length (cs_queue (w (CMon mi))) <= 8) by (eapply within_mi; [exact (wired_mm _ _ _ _ _ _ HB)|exact HT]).
  pose proof (wired_pl _ _ _ _ _ _ HB) as HP.
  destruct sa; unfold mstat, view in *; cbn [mna psa mon_read mon_written write_eff push_journey] in *; cbn [waits] in HW; try contradiction.
  - left. destruct pl; try contradiction; cbn; eauto.
  - exfalso. destruct (cs_closed (w (CData u))) eqn:E; [eapply HW, W_send_closed; exact E|]. eapply HW, W_send; [exact E|]. unfold room. now rewrite E1.
  - right. destruct (send_stuck _ _ _ _ HW E2) as [H1 H2]. split; [reflexivity|]. split; [lia|exact H1].
  - exfalso. eapply HW, W_close.
  - exfalso. eapply HW, W_close.
  - exfalso. destruct pl; try contradiction; [destruct (other_goes w (EDropFd f) eq_refl) as (x & y & H); exact (HW _ _ H)|eapply HW, W_close].
  - exfalso. eapply HW, W_close.
  - exfalso. eapply HW, W_close.
Qed.
Lemma t_stands w t : stands (tstat (bf_monitor b) mi mo t) w -> reports_read (bf_monitor b) w ->
  match t with TDone _ | TBad _ => True | TDropS _ => bf_monitor b = None | TRep _ _ _ _ => bf_monitor b = None | _ => False end.
Proof.
  intros HS HR. destruct t; cbn [tstat] in HS; try exact I; try (specialize (HS _ eq_refl)); cbn [waits] in HS.
  - destruct (try_goes w (CMon mi)) as (a & w' & H). exact (HS _ _ H).
  - destruct (try_goes w (CMon mo)) as (a & w' & H). exact (HS _ _ H).
  - destruct (bf_monitor b) as [s|]; [|reflexivity]. exfalso. specialize (HS _ eq_refl). cbn [waits] in HS. destruct (cs_closed (w (CSize s))) eqn:E; [eapply HS, W_send_closed; exact E|].
    destruct (HR _ eq_refl) as [H|H]; [congruence|]. eapply HS, W_send; [exact E|exact H].
  - eapply HS, W_is_empty.
  - eapply HS, W_is_closed.
  - eapply HS, W_is_empty.
  - eapply HS, W_is_closed.
  - destruct (other_goes w (ESleep (back * back)) eq_refl) as (x & y & H). exact (HS _ _ H).
  - eapply HS, W_close.
  - eapply HS, W_close.
  - destruct (bf_monitor b) as [s|]; [|reflexivity]. exfalso. specialize (HS _ eq_refl). eapply HS, W_close.
Qed.

Theorem buffer_waits L a b' c w0 w : buffer_start b spy u mi mo L (During a b' c) -> new_inside u mi mo w0 -> wrun w0 L w -> sealed u mi mo L ->
  stands a w -> stands c w -> reports_read (bf_monitor b) w -> ~ panicked c ->
  (exists r, a = Done r) \/ (exists e, read_eff pl false = Some e /\ a = At e).
Proof.
  intros HX Hn HR Hs Ha Hc Hr Hp. destruct (buffer_parts _ _ _ _ _ _ _ _ _ HB HX) as (a1 & b1 & c1 & H1 & H2 & H3 & E1 & E2 & E3). subst a1 b1 c1.
  destruct (parts_together _ _ _ spy _ _ _ HB _ _ _ _ _ _ Hn HR Hs H1 H2 H3) as (sa & sb & t & HT & Ea & Eb & Et & HV).
  destruct a as [r|r|m]; [|left; eauto|exfalso; unfold mstat in Ea; destruct (view _ _ _ _ _); discriminate Ea].
  specialize (Ha _ eq_refl). rewrite <- Ea in Ha. destruct (a_waits _ _ _ _ _ _ HT Ha) as [(e & He & Hs1)|(E & Hf & Ho)].
  - right. exists e. split; [exact He|]. now rewrite <- Ea.
  - exfalso. rewrite <- Et in Hc, Hp. pose proof (t_stands _ _ Hc Hr) as HS. pose proof (is_t _ _ _ spy _ _ _ HB _ _ _ _ _ _ HT) as [_ HI].
    destruct t; try contradiction.
    + exact (proj1 HV HS).
    + assert (HC : closedb (CMon mi) (own 3 L) = true) by (destruct r0; tauto). pose proof (is_closed_by _ _ _ _ _ _ _ _ _ _ _ _ _ HT _ _ HC) as HC1. congruence.
Qed.

(** How many steps of the counter until it takes a note or lets go. *)
Definition dist (t : tplace) : nat :=
  match t with
  | TIn _ _ _ => 1 | TWait _ _ _ => 2 | TE1 _ _ _ _ => 3 | TRep _ _ _ _ => 4 | TOut _ _ _ _ => 5
  | TC1 _ _ _ _ => 3 | TE2 _ _ _ _ => 4 | TC2 _ _ _ _ => 3 | TDropO _ => 2 | TDropI _ => 1
  | _ => 0
  end.
Lemma dist_5 t : dist t <= 5.
Proof. destruct t; cbn; lia. Qed.
Lemma dist_step w e x w' t : tstat (bf_monitor b) mi mo t = At e -> wstep w (e, x) w' -> length (cs_queue (w (CMon mi))) = 8 -> length (cs_queue (w' (CMon mi))) = 8 ->
  cs_closed (w (CMon mi)) = false -> cs_closed (w' (CMon mi)) = false ->
  (forall m, tnext (bf_monitor b) t x <> TBad m) -> match t with TDropS _ | TDone _ => False | _ => True end -> S (dist (tnext (bf_monitor b) t x)) <= dist t.
Proof.
  intros HA HW Hf Hf' Ho Ho' Hb Hd. destruct t; cbn [tstat] in HA; try discriminate HA; try contradiction; cbn [tnext dist].
  - injection HA as <-. exfalso. inversion HW as [| |c v q HQ|c HQ _|c HQ _| | | | | |]; subst; try discriminate; try (rewrite HQ in Hf; discriminate Hf).
    unfold upd in Hf'. rewrite chan_eqb_refl in Hf'. cbn in Hf'. rewrite HQ in Hf. cbn in Hf. lia.
  - assert (HG : forall sz mv, S (dist (go_rep (bf_monitor b) sz mv back last)) <= 5) by (intros; unfold go_rep; destruct (bf_monitor b); [destruct (_ =? _)|]; cbn; lia).
    destruct x as [[]| | | | | | | | | | ]; try apply HG; try (cbn; lia). destruct size; [cbn; lia|apply HG].
  - destruct x; cbn; lia.
  - injection HA as <-. inversion HW; subst; [|discriminate]. destruct (cs_queue (w' (CMon mi))); [discriminate Hf|]. cbn. unfold go_turn. destruct moved; cbn; lia.
  - injection HA as <-. inversion HW; subst; [|discriminate]. rewrite Ho. unfold go_turn. destruct moved; cbn; lia.
  - injection HA as <-. inversion HW; subst; [|discriminate]. destruct (is_nil _); unfold go_turn; [|destruct moved]; cbn; lia.
  - injection HA as <-. inversion HW; subst; [|discriminate]. destruct (cs_closed (w' (CMon mo))); unfold go_turn; [|destruct moved]; cbn; lia.
  - cbn. lia.
  - cbn. lia.
  - exfalso. injection HA as <-. inversion HW; subst; [|discriminate]. unfold upd in Ho'. rewrite chan_eqb_refl in Ho'. discriminate Ho'.
Qed.

Theorem buffer_soon L L' a b' c w0 w w' : buffer_start b spy u mi mo (L ++ L') (During a b' c) -> new_inside u mi mo w0 -> wrun w0 L w -> wrun w L' w' -> sealed u mi mo (L ++ L') ->
  own 1 L' = [] -> (forall x y w1, L' = x ++ y -> wrun w x w1 -> waits a w1) -> (forall e, read_eff pl false = Some e -> a <> At e) -> ~ panicked c ->
  length (own 3 L') <= 4.
Proof.
  intros HX Hn HR HR' Hs H0 Hw Hne Hp. destruct (buffer_parts _ _ _ _ _ _ _ _ _ HB HX) as (a1 & b1 & c1 & H1 & H2 & H3 & E1 & E2 & E3). subst a1 b1 c1.
  assert (HRR : wrun w0 (L ++ L') w') by (apply wrun_app; eauto).
  destruct (parts_together _ _ _ spy _ _ _ HB _ _ _ _ _ _ Hn HRR Hs H1 H2 H3) as (sa & sb & t & HT & Ea & Eb & Et & HV).
  assert (HNB : forall m, t <> TBad m) by (intros m ->; apply Hp; rewrite <- Et; exact I). clear Et HV Eb HX Hp H1 H2 H3 Hs.
  assert (HG : forall sa' sb' t' w'', mstat pl (mna mi) None (psa ps u) sa' = a -> tog w0 (L ++ L') w'' sa' sb' t' -> waits a w'' -> length (cs_queue (w'' (CMon mi))) = 8 /\ cs_closed (w'' (CMon mi)) = false /\ match t' with TDropS _ | TDone _ => False | _ => True end).
  { intros sa' sb' t' w'' Ea' HT' Hw'. rewrite <- Ea' in Hw'. destruct (a_waits _ _ _ _ _ _ HT' Hw') as [(e & He & Hs1)|(E & Hf & Ho)]; [exfalso; apply (Hne _ He); congruence|].
    split; [exact Hf|]. split; [exact Ho|]. pose proof (is_t _ _ _ spy _ _ _ HB _ _ _ _ _ _ HT') as [_ HI]. pose proof (is_closed_by _ _ _ _ _ _ _ _ _ _ _ _ _ HT' (CMon mi) 3) as HC.
    destruct t'; try exact I; destruct r; destruct HI as (? & HI & ?); try (specialize (HC HI); congruence); cbn in *; try tauto; intuition congruence. }
  assert (HD : length (own 3 L') + dist t <= 5 /\ 1 <= dist t).
  { clear HRR. revert w' HR' sa sb t HT Ea HNB H0 Hw HG. induction L' as [|[k [e x]] L' IH] using rev_ind; intros w' HR' sa sb t HT Ea HNB H0 Hw HG.
    - rewrite app_nil_r in HT, HG. inversion HR'; subst w'. destruct (HG _ _ _ _ Ea HT (Hw [] [] w eq_refl (WR_nil _))) as (_ & _ & Hd). split; [apply dist_5|]. destruct t; cbn; try lia; try contradiction. exfalso. eapply HNB. reflexivity.
    - rewrite app_assoc in HT. destruct (together_snoc _ _ _ _ _ _ _ _ _ _ _ _ _ _ _ _ HT) as (w1 & sa1 & sb1 & t1 & HT1 & HW1 & HC).
      apply wrun_app in HR'. destruct HR' as (w2 & HR1 & HR2). inversion HR2 as [|? ? w3 ? ? HS3 HN3]; subst. inversion HN3; subst.
      assert (w1 = w2). { eapply wrun_det; [exact (tg_run _ _ _ _ _ _ _ _ _ _ _ _ _ HT1)|]. apply wrun_app. exists w. split; [exact HR|exact HR1]. } subst w2.
      rewrite own_snoc in H0. apply app_eq_nil in H0. destruct H0 as [H0 Hk1].
      assert (Hsa : sa = sa1) by (destruct HC as [(-> & _)|[(_ & _ & _ & _ & -> & _)|[(_ & _ & _ & _ & -> & _)|(_ & _ & _ & _ & -> & _)]]]; [discriminate Hk1|reflexivity|reflexivity|reflexivity]). subst sa1.
      assert (HNB1 : forall m, t1 <> TBad m).
      { intros m ->. destruct HC as [(_ & _ & _ & _ & _ & ->)|[(_ & _ & _ & _ & _ & ->)|[(_ & HA & _)|(_ & _ & _ & _ & _ & _ & ->)]]]; try (eapply HNB; reflexivity). discriminate HA. }
      assert (Hw1 : forall x0 y w1, L' = x0 ++ y -> wrun w x0 w1 -> waits (mstat pl (mna mi) None (psa ps u) sa) w1).
      { intros x0 y w2 Ex HX0. eapply (Hw x0 (y ++ [(k, (e, x))])); [rewrite Ex, app_assoc; reflexivity|exact HX0]. }
      assert (HG1 : forall sa' sb' t' w'', mstat pl (mna mi) None (psa ps u) sa' = mstat pl (mna mi) None (psa ps u) sa -> tog w0 (L ++ L') w'' sa' sb' t' -> waits (mstat pl (mna mi) None (psa ps u) sa) w'' -> length (cs_queue (w'' (CMon mi))) = 8 /\ cs_closed (w'' (CMon mi)) = false /\ match t' with TDropS _ | TDone _ => False | _ => True end).
      { intros sa' sb' t' w'' Ea' HT' Hw'. rewrite <- Ea' in Hw'. destruct (a_waits _ _ _ _ _ _ HT' Hw') as [(e0 & He & Hs1)|(E & Hf & Ho)]; [exfalso; apply (Hne _ He); congruence|].
        split; [exact Hf|]. split; [exact Ho|]. pose proof (is_t _ _ _ spy _ _ _ HB _ _ _ _ _ _ HT') as [_ HI]. pose proof (is_closed_by _ _ _ _ _ _ _ _ _ _ _ _ _ HT' (CMon mi) 3) as HC'.
        destruct t'; try exact I; destruct r; destruct HI as (? & HI & ?); try (specialize (HC' HI); congruence); cbn in *; try tauto; intuition congruence. }
      destruct (IH _ HR1 _ _ _ HT1 eq_refl HNB1 H0 Hw1 HG1) as [D1 D2].
      destruct (HG1 _ _ _ _ eq_refl HT1 (Hw1 L' [] _ (eq_sym (app_nil_r _)) HR1)) as (F1 & F2 & F3).
      assert (HWE : waits (mstat pl (mna mi) None (psa ps u) sa) w').
      { eapply (Hw (L' ++ [(k, (e, x))]) []); [symmetry; apply app_nil_r|]. apply wrun_app. exists w1. split; [exact HR1|exact HR2]. }
      rewrite <- app_assoc in HT. destruct (HG _ _ _ _ eq_refl HT HWE) as (F4 & F5 & F6).
      rewrite own_snoc, app_length.
      destruct HC as [(-> & HC)|[(-> & HA & _ & _ & _ & ->)|[(-> & HA & Hwt & -> & _ & _)|(N1 & N2 & N3 & _ & _ & _ & ->)]]].
      + discriminate Hk1.
      + cbn. lia.
      + pose proof (dist_step _ _ _ _ _ HA HW1 F1 F4 F2 F5 HNB F3) as DS. cbn [Nat.eqb length]. split; [lia|]. destruct (tnext (bf_monitor b) t1 x); cbn; try lia; try contradiction. exfalso. eapply HNB. reflexivity.
      + replace (k =? 3) with false by (symmetry; now apply Nat.eqb_neq). cbn. lia. }
  lia.
Qed.

(** ** Reports are bounded *)
Lemma reports_snoc s tr ev : reports s (tr ++ [ev]) = reports s tr ++ reports s [ev].
Proof. apply reports_app. Qed.
Lemma reports_one s e a n : In n (reports s [(e, a)]) -> e = ESend (CSize s) (VSize n) /\ a = AOk.
Proof.
  unfold reports. destruct e; try contradiction. destruct a; try contradiction. cbn. destruct c; cbn; try contradiction. destruct (s =? n0) eqn:E; [|contradiction]. apply Nat.eqb_eq in E. subst n0.
  destruct v; cbn; try contradiction. intros [<-|[]]. auto.
Qed.
Lemma report_small w0 L w sa sb t s : tog w0 L w sa sb t -> bf_monitor b = Some s -> Forall (fun n => n <= S (noff (CData u) (own 1 L))) (reports s (own 3 L)).
Proof.
  intros HT Es. revert w sa sb t HT. induction L as [|[k [e a]] L IH] using rev_ind; intros w sa sb t HT; [constructor|].
  destruct (together_snoc _ _ _ _ _ _ _ _ _ _ _ _ _ _ _ _ HT) as (w1 & sa1 & sb1 & t1 & HT1 & HW1 & HC). specialize (IH _ _ _ _ HT1).
  assert (HM : noff (CData u) (own 1 L) <= noff (CData u) (own 1 (L ++ [(k, (e, a))]))) by (rewrite own_snoc; destruct (k =? 1); [rewrite noff_snoc; lia|rewrite app_nil_r; lia]).
  assert (IH' : Forall (fun n => n <= S (noff (CData u) (own 1 (L ++ [(k, (e, a))])))) (reports s (own 3 L))) by (eapply Forall_impl; [|exact IH]; cbn; intros; lia).
  rewrite (own_snoc 3). destruct (k =? 3) eqn:Ek; [|rewrite app_nil_r; exact IH']. apply Nat.eqb_eq in Ek. subst k. rewrite reports_snoc. apply Forall_app. split; [exact IH'|].
  apply Forall_forall. intros n HI. destruct (reports_one _ _ _ _ HI) as [-> ->].
  destruct HC as [(? & _)|[(? & _)|[(_ & HA & _)|(_ & _ & N & _)]]]; try discriminate; try contradiction.
  destruct t1; cbn in HA; try discriminate HA; rewrite Es in HA; try discriminate HA. injection HA as ->.
  pose proof (is_a _ _ _ spy _ _ _ HB _ _ _ _ _ _ HT1) as HI1. pose proof (is_t _ _ _ spy _ _ _ HB _ _ _ _ _ _ HT1) as [_ (C1 & C2 & _)].
  pose proof (agree' _ _ _ spy _ _ _ HB _ _ _ _ _ _ HT1) as [_ _ G3 _]. pose proof (num_mi _ _ _ spy _ _ _ HB _ _ _ _ _ _ HT1) as N1.
  assert (HR : refusedb (CMon mi) (own 1 L) = false) by (destruct (refusedb (CMon mi) (own 1 L)); [rewrite G3 in C2 by reflexivity; discriminate|reflexivity]).
  unfold inv_a in HI1. cbv zeta in HI1. rewrite HR in HI1. destruct HI1 as (_ & _ & _ & HI1).
  assert (HW : nsent (CMon mi) (own 1 L) <= S (noff (CData u) (own 1 L))) by (destruct sa1; try destruct r as [r|r]; try contradiction; try destruct (is_finished x); intuition (try discriminate); lia).
  etransitivity; [|apply le_n_S, HM]. lia.
Qed.
Lemma a_data tr s : areach pl ps u mi tr s -> length (datas (offered (CData u) tr)) = noff (CData u) tr.
Proof.
  revert tr s. apply (reach_inv _ _ _ _ (fun tr s => length (datas (offered (CData u) tr)) = noff (CData u) tr)); [reflexivity|].
  intros tr s e a IH HA Hw. rewrite noff_snoc, offered_app. unfold datas in *. rewrite flat_map_app, app_length, IH. f_equal. unfold noff.
  destruct e; try reflexivity. unfold offered. cbn [flat_map]. destruct (chan_eqb (CData u) c) eqn:E; [|reflexivity]. apply chan_eqb_eq in E. subst c.
  assert (HV : exists d, v = VData d); [|destruct HV as (d & ->); reflexivity].
  unfold mstat, view in HA. destruct s; cbn in HA; try discriminate HA; try (injection HA as <-; eauto); destruct pl; discriminate HA.
Qed.
Theorem buffer_reports_bound L st w0 w s : buffer_start b spy u mi mo L st -> new_inside u mi mo w0 -> wrun w0 L w -> sealed u mi mo L ->
  bf_monitor b = Some s -> forall n, In n (reports s (own 3 L)) -> n <= S (length (got pl (own 1 L))).
Proof.
  intros HX Hn HR Hs Es n HI. destruct (buffer_parts _ _ _ _ _ _ _ _ _ HB HX) as (a & b' & c & H1 & H2 & H3 & HM).
  destruct (parts_together _ _ _ spy _ _ _ HB _ _ _ _ _ _ Hn HR Hs H1 H2 H3) as (sa & sb & t & HT & _).
  pose proof (report_small _ _ _ _ _ _ _ HT Es) as HF. rewrite Forall_forall in HF. specialize (HF _ HI).
  destruct (offered_inside _ _ _ spy _ _ _ HB _ _ _ Hn HR Hs _ _ _ H1 H2 H3) as (_ & _ & _ & (y & P)).
  assert (HO : noff (CData u) (own 1 L) = length (offered_to (plain_ps ps u) (own 1 L))).
  { symmetry. exact (a_data _ _ (tg_a _ _ _ _ _ _ _ _ _ _ _ _ _ HT)). }
  rewrite P, app_length. lia.
Qed.

(** ** C29 *)
Theorem buffer_fails L r : buffer_start b spy u mi mo L (After (Done r)) ->
  (forall e, r = Err e -> e = NoneError) /\
  (push_brk ps = Terminate -> (exists d, found_closed ps d (own 2 L)) -> r = Err NoneError).
Proof.
  intros HX. destruct (buffer_parts _ _ _ _ _ _ _ _ _ HB HX) as (a & b' & c & H1 & H2 & H3 & ra & rb & rc & -> & -> & -> & E). injection E as ->. split.
  - unfold buffer_result. intros e E. destruct ra; [destruct rb|]; congruence.
  - intros Hb (d & Hd). destruct (terminate_stops' (plb u) (mnb mo) spy ps I ltac:(left; discriminate) (wired_real _ _ _ _ _ _ HB) _ _ _ H2 Hb Hd) as (_ & j & reason & _ & ->). unfold buffer_result. now destruct ra.
Qed.

(** ** C10 *)
Lemma size_let_go s tr t : treach (bf_monitor b) mi mo tr t -> bf_monitor b = Some s -> match t with TDone _ => closed_by (CSize s) tr | _ => True end.
Proof.
  intros HR Es. revert tr t HR. apply (reach_inv _ _ _ _ (fun tr t => match t with TDone _ => closed_by (CSize s) tr | _ => True end)).
  - exact I.
  - intros tr t e a IH HA Hw. destruct t; cbn in HA; try discriminate HA; cbn [tnext]; try exact I.
    all: try (destruct a as [[]| | | | | | |[]| | | ]; try exact I; unfold go_rep, go_turn; try destruct size; try (destruct (bf_monitor b); [destruct (_ =? _)|]); try destruct moved; exact I).
    + unfold go_dropS. rewrite Es. exact I.
    + rewrite Es in HA. injection HA as <-. destruct a; try discriminate Hw. apply in_or_app. right. now left.
Qed.
Theorem buffer_releases L r : buffer_start b spy u mi mo L (After (Done r)) ->
  pull_released pl (own 1 L) /\ push_released ps (own 2 L) /\ (forall s, bf_monitor b = Some s -> closed_by (CSize s) (own 3 L)).
Proof.
  intros HX. destruct (buffer_parts _ _ _ _ _ _ _ _ _ HB HX) as (a & b' & c & H1 & H2 & H3 & ra & rb & rc & -> & -> & -> & E). split; [|split].
  - exact (proj1 (copy_released _ _ _ _ (wired_fresh _ _ _ _ _ _ HB) (wired_mon _ _ _ _ _ _ HB) _ _ H1)).
  - exact (proj1 (proj2 (copy_released (plb u) (mnb mo) spy ps I ltac:(left; discriminate) _ _ H2))).
  - intros s Es. apply total_reach in H3. destruct H3 as (t & H3 & Et & HV). pose proof (size_let_go _ _ _ H3 Es) as HS. destruct t; cbn in Et; try discriminate Et; try (rewrite Es in Et; discriminate Et). exact HS.
Qed.
End Wired.

(** ** Runs from their parts, for examples *)
Lemma from_parts b pl ps spy u mi mo L a b' c : buffer_wired b pl ps u mi mo -> own 0 L = [] ->
  exec (half_a u mi (pl, ps)) (own 1 L) a -> exec (half_b u mo spy (pl, ps)) (own 2 L) b' -> exec (total_in_buffer (bf_monitor b) mi mo) (own 3 L) c ->
  buffer_start b spy u mi mo L (During a b' c) /\
  (forall ra rb rc, a = Done ra -> b' = Done rb -> c = Done rc -> buffer_start b spy u mi mo L (After (Done (buffer_result ra rb rc)))).
Proof.
  intros (E1 & E2 & _ & _ & Hreal & _) H0 H1 H2 H3.
  assert (EE : buffer_ends b = Ret (inr (pl, ps))).
  { unfold buffer_ends. rewrite E1, E2. destruct ps; cbn in Hreal; try contradiction; reflexivity. }
  split.
  - apply (J_during _ _ _ _ _ [] L (pl, ps)); try assumption; [intros i Hi; reflexivity|intros i [<-|[]]; exact H0|rewrite EE; constructor].
  - intros ra rb rc -> -> ->. rewrite <- (app_nil_r L). apply (J_after _ _ _ _ _ [] L [] (pl, ps) ra rb rc); try assumption; [intros i Hi; reflexivity|intros i [<-|[]]; exact H0|intros i Hi; reflexivity|rewrite EE; constructor|constructor].
Qed.
Lemma sealed_check u mi mo L : forallb (fun x => match on_chan (fst (snd x)) with Some c => negb (chan_eqb c (CData u) || chan_eqb c (CMon mi) || chan_eqb c (CMon mo)) || (fst x =? 1) || (fst x =? 2) || (fst x =? 3) | None => true end) L = true -> sealed u mi mo L.
Proof.
  intros H i e a c HI Hc Hin. rewrite forallb_forall in H. specialize (H _ HI). cbn in H. rewrite Hc in H.
  apply orb_prop in H. destruct H as [H|H]; [|right; right; now apply Nat.eqb_eq]. apply orb_prop in H. destruct H as [H|H]; [|right; left; now apply Nat.eqb_eq].
  apply orb_prop in H. destruct H as [H|H]; [|left; now apply Nat.eqb_eq]. exfalso. destruct Hin as [->|[-> | ->]]; rewrite chan_eqb_refl, ?orb_true_r in H; discriminate H.
Qed.
