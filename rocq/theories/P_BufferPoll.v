(** * P_BufferPoll: buffers whose parts are polled in turn *)
From Coq Require Import Ascii String List Bool Arith Lia.
From Verif Require Import M_Prog P_Prog P_Exec M_Motion M_BackOff M_Connectable S_Trace S_Lines S_Motion S_World P_Fan P_Read P_World P_Copy P_Machine P_Reach M_Join M_Buffer M_Poll S_Launch S_Buffer P_Buffer P_Counter P_BufferJoint P_BufferRun.
Import ListNotations.

Lemma wstep_det w ev w1 : wstep w ev w1 -> forall w2, wstep w ev w2 -> w1 = w2.
Proof.
  intros H w2 H'. inversion H; subst; inversion H'; subst; try reflexivity; try discriminate; try congruence.
Qed.
Lemma wrun_det w l w1 : wrun w l w1 -> forall w2, wrun w l w2 -> w1 = w2.
Proof.
  induction 1 as [|w i ev w1 l w2 HS HR IH]; intros w3 H'; inversion H'; subst; [reflexivity|]. apply IH. rewrite (wstep_det _ _ _ HS _ H3). exact H4.
Qed.

Section Poll.
Context {A B C : Type}.
Variables (p1 : prog A) (p2 : prog B) (p3 : prog C) (w0 : world).
Lemma polled_run L i w : polled p1 p2 p3 w0 L i w -> wrun w0 L w /\ (i = 1 \/ i = 2 \/ i = 3).
Proof.
  induction 1 as [|l i w ev w' H [IH IH2] HS|l i w k ev w' H [IH IH2] HS|l w st H [IH IH2] _ _|l w st H [IH IH2] _ _|l w st H [IH IH2] _ _]; auto.
  - split; [constructor|auto].
  - split; [|exact IH2]. apply wrun_app. exists w. split; [exact IH|]. econstructor; [exact HS|constructor].
  - split; [|exact IH2]. apply wrun_app. exists w. split; [exact IH|]. econstructor; [exact HS|constructor].
Qed.
End Poll.

Section Polled.
Variables (b : buffer) (pl : pull) (ps : push) (spy : option nat) (u mi mo : nat).
Hypothesis HB : buffer_wired b pl ps u mi mo.
Notation p1 := (half_a u mi (pl, ps)).
Notation p2 := (half_b u mo spy (pl, ps)).
Notation p3 := (total_in_buffer (bf_monitor b) mi mo).
Notation tog := (together pl ps spy (bf_monitor b) u mi mo).
Notation pol := (polled p1 p2 p3).
Notation sta := (mstat pl (mna mi) None (psa ps u)).
Notation stb := (mstat (plb u) (mnb mo) spy ps).
Notation stt := (tstat (bf_monitor b) mi mo).

Lemma same_a w0 L w sa sb t st : tog w0 L w sa sb t -> exec p1 (own 1 L) st -> st = sta sa.
Proof.
  intros HT H1. apply motion_reach in H1; [|pose proof (wired_pl _ _ _ _ _ _ HB) as HP; cbn [fst]; destruct pl; auto|exact I]. destruct H1 as (s & H1 & E & _).
  rewrite (reach_det _ _ _ _ _ _ _ (tg_a _ _ _ _ _ _ _ _ _ _ _ _ _ HT) _ H1). now symmetry.
Qed.
Lemma same_b w0 L w sa sb t st : tog w0 L w sa sb t -> exec p2 (own 2 L) st -> st = stb sb.
Proof.
  intros HT H1. apply motion_reach in H1; [|exact I|exact (wired_real _ _ _ _ _ _ HB)]. destruct H1 as (s & H1 & E & _).
  rewrite (reach_det _ _ _ _ _ _ _ (tg_b _ _ _ _ _ _ _ _ _ _ _ _ _ HT) _ H1). now symmetry.
Qed.
Lemma same_t w0 L w sa sb t st : tog w0 L w sa sb t -> exec p3 (own 3 L) st -> st = stt t.
Proof.
  intros HT H1. apply total_reach in H1. destruct H1 as (s & H1 & E & _).
  rewrite (reach_det _ _ _ _ _ _ _ (tg_t _ _ _ _ _ _ _ _ _ _ _ _ _ HT) _ H1). now symmetry.
Qed.

(** To show something of every polled run. *)
Lemma polled_inv (I : list nevent -> nat -> world -> place -> place -> tplace -> Prop) w0 :
  (forall sa sb t, tog w0 [] w0 sa sb t -> I [] 1 w0 sa sb t) ->
  (forall L i w sa sb t k e a w' sa' sb' t', (i = 1 \/ i = 2 \/ i = 3) -> tog w0 L w sa sb t -> I L i w sa sb t -> wstep w (e, a) w' -> tog w0 (L ++ [(k, (e, a))]) w' sa' sb' t' ->
    (i = 1 /\ k = 1 /\ sta sa = At e /\ wt e a = true /\ sa' = next pl (mna mi) None (psa ps u) sa a /\ sb' = sb /\ t' = t) \/
    (i = 2 /\ k = 2 /\ stb sb = At e /\ wt e a = true /\ sb' = next (plb u) (mnb mo) spy ps sb a /\ sa' = sa /\ t' = t) \/
    (i = 3 /\ k = 3 /\ stt t = At e /\ wt e a = true /\ t' = tnext (bf_monitor b) t a /\ sa' = sa /\ sb' = sb) \/
    (k <> 1 /\ k <> 2 /\ k <> 3 /\ (forall c, inside u mi mo c -> on_chan e <> Some c) /\ sa' = sa /\ sb' = sb /\ t' = t) ->
    I (L ++ [(k, (e, a))]) i w' sa' sb' t') ->
  (forall L w sa sb t, tog w0 L w sa sb t -> I L 1 w sa sb t -> rests (sta sa) w -> I L 2 w sa sb t) ->
  (forall L w sa sb t, tog w0 L w sa sb t -> I L 2 w sa sb t -> rests (stb sb) w -> I L 3 w sa sb t) ->
  (forall L w sa sb t, tog w0 L w sa sb t -> I L 3 w sa sb t -> rests (stt t) w -> I L 1 w sa sb t) ->
  forall L i w, pol w0 L i w -> forall sa sb t, tog w0 L w sa sb t -> I L i w sa sb t.
Proof.
  intros H0 HS Q1 Q2 Q3 L i w HP. induction HP as [|l i w [e a] w' H IH HW|l i w k [e a] w' H IH HW N1 N2 N3|l w st H IH HX HR|l w st H IH HX HR|l w st H IH HX HR]; intros sa sb t HT.
  - exact (H0 _ _ _ HT).
  - destruct (together_snoc _ _ _ _ _ _ _ _ _ _ _ _ _ _ _ _ HT) as (w1 & sa1 & sb1 & t1 & HT1 & HW1 & HC).
    destruct (polled_run _ _ _ _ _ _ _ H) as [HR Hi]. pose proof (wrun_det _ _ _ HR _ (tg_run _ _ _ _ _ _ _ _ _ _ _ _ _ HT1)). subst w1.
    refine (HS _ _ _ _ _ _ _ _ _ _ _ _ _ Hi HT1 (IH _ _ _ HT1) HW HT _).
    destruct HC as [(-> & HC)|[(-> & HC)|[(-> & HC)|(N1 & N2 & N3 & HC)]]]; auto 10.
  - destruct (together_snoc _ _ _ _ _ _ _ _ _ _ _ _ _ _ _ _ HT) as (w1 & sa1 & sb1 & t1 & HT1 & HW1 & HC).
    destruct (polled_run _ _ _ _ _ _ _ H) as [HR Hi]. pose proof (wrun_det _ _ _ HR _ (tg_run _ _ _ _ _ _ _ _ _ _ _ _ _ HT1)). subst w1.
    refine (HS _ _ _ _ _ _ _ _ _ _ _ _ _ Hi HT1 (IH _ _ _ HT1) HW HT _).
    destruct HC as [(-> & HC)|[(-> & HC)|[(-> & HC)|(_ & _ & _ & HC)]]]; try tauto; auto 10.
  - rewrite (same_a _ _ _ _ _ _ _ HT HX) in HR. exact (Q1 _ _ _ _ _ HT (IH _ _ _ HT) HR).
  - rewrite (same_b _ _ _ _ _ _ _ HT HX) in HR. exact (Q2 _ _ _ _ _ HT (IH _ _ _ HT) HR).
  - rewrite (same_t _ _ _ _ _ _ _ HT HX) in HR. exact (Q3 _ _ _ _ _ HT (IH _ _ _ HT) HR).
Qed.

(** ** What the monitor channels hold *)
Lemma led_mi w0 L w sa sb t : tog w0 L w sa sb t -> taken (CMon mi) (own 3 L) ++ cs_queue (w (CMon mi)) = sent (CMon mi) (own 1 L).
Proof. intro HT. eapply ledger_mi; [exact (wired_pl _ _ _ _ _ _ HB)|exact (wired_real _ _ _ _ _ _ HB)|exact (wired_ps _ _ _ _ _ _ HB)|exact (wired_mm _ _ _ _ _ _ HB)|exact HT]. Qed.
Lemma led_mo w0 L w sa sb t : tog w0 L w sa sb t -> taken (CMon mo) (own 3 L) ++ cs_queue (w (CMon mo)) = sent (CMon mo) (own 2 L).
Proof. intro HT. eapply ledger_mo; [exact (wired_pl _ _ _ _ _ _ HB)|exact (wired_real _ _ _ _ _ _ HB)|exact (wired_ps _ _ _ _ _ _ HB)|exact (wired_mm _ _ _ _ _ _ HB)|exact HT]. Qed.
Lemma led_u w0 L w sa sb t : tog w0 L w sa sb t -> taken (CData u) (own 2 L) ++ cs_queue (w (CData u)) = sent (CData u) (own 1 L).
Proof. intro HT. eapply ledger_u; [exact (wired_pl _ _ _ _ _ _ HB)|exact (wired_real _ _ _ _ _ _ HB)|exact (wired_ps _ _ _ _ _ _ HB)|exact HT]. Qed.
Lemma num_mi w0 L w sa sb t : tog w0 L w sa sb t -> ntak (CMon mi) (own 3 L) + length (cs_queue (w (CMon mi))) = nsent (CMon mi) (own 1 L).
Proof. intro HT. apply led_mi in HT. unfold ntak, nsent. now rewrite <- HT, app_length. Qed.
Lemma num_mo w0 L w sa sb t : tog w0 L w sa sb t -> ntak (CMon mo) (own 3 L) + length (cs_queue (w (CMon mo))) = nsent (CMon mo) (own 2 L).
Proof. intro HT. apply led_mo in HT. unfold ntak, nsent. now rewrite <- HT, app_length. Qed.
Lemma num_u w0 L w sa sb t : tog w0 L w sa sb t -> ntak (CData u) (own 2 L) + length (cs_queue (w (CData u))) = nsent (CData u) (own 1 L).
Proof. intro HT. apply led_u in HT. unfold ntak, nsent. now rewrite <- HT, app_length. Qed.

Lemma only_mi w0 L w sa sb t v : tog w0 L w sa sb t -> In v (cs_queue (w (CMon mi))) -> v = VWrote.
Proof.
  intros HT HI. pose proof (led_mi _ _ _ _ _ _ HT) as E. assert (HS : In v (sent (CMon mi) (own 1 L))) by (rewrite <- E; apply in_or_app; now right).
  pose proof (a_traces _ _ _ _ (wired_pl _ _ _ _ _ _ HB) _ _ (tg_a _ _ _ _ _ _ _ _ _ _ _ _ _ HT)) as HF. rewrite Forall_forall in HF.
  unfold sent in HS. apply in_flat_map in HS. destruct HS as ([e a] & H1 & H2). specialize (HF _ H1). cbn in HF.
  destruct e; try contradiction; destruct a; try contradiction. cbn in H2. destruct c; cbn in H2; try contradiction. destruct (mi =? n); [|contradiction]. destruct H2 as [<-|[]]. now destruct HF.
Qed.
Lemma only_mo w0 L w sa sb t v : tog w0 L w sa sb t -> In v (cs_queue (w (CMon mo))) -> v = VRead.
Proof.
  intros HT HI. pose proof (led_mo _ _ _ _ _ _ HT) as E. assert (HS : In v (sent (CMon mo) (own 2 L))) by (rewrite <- E; apply in_or_app; now right).
  pose proof (b_traces _ _ _ _ (wired_real _ _ _ _ _ _ HB) (wired_ps _ _ _ _ _ _ HB) _ _ (tg_b _ _ _ _ _ _ _ _ _ _ _ _ _ HT)) as HF. rewrite Forall_forall in HF.
  unfold sent in HS. apply in_flat_map in HS. destruct HS as ([e a] & H1 & H2). specialize (HF _ H1). cbn in HF.
  destruct e; try contradiction; destruct a; try contradiction. cbn in H2. destruct c; cbn in H2; try contradiction. destruct (mo =? n); [|contradiction]. destruct H2 as [<-|[]]. now destruct HF.
Qed.

Lemma is_a w0 L w sa sb t : tog w0 L w sa sb t -> inv_a pl u mi (own 1 L) sa.
Proof. intro HT. eapply a_does; [exact (wired_pl _ _ _ _ _ _ HB)|exact (tg_a _ _ _ _ _ _ _ _ _ _ _ _ _ HT)]. Qed.
Lemma is_b w0 L w sa sb t : tog w0 L w sa sb t -> inv_b u mo (own 2 L) sb.
Proof. intro HT. eapply b_does; [exact (wired_real _ _ _ _ _ _ HB)|exact (wired_ps _ _ _ _ _ _ HB)|exact (tg_b _ _ _ _ _ _ _ _ _ _ _ _ _ HT)]. Qed.
Lemma is_t w0 L w sa sb t : tog w0 L w sa sb t -> inv_t (bf_monitor b) mi mo (own 3 L) t.
Proof. intro HT. eapply counter_inv; [exact (wired_mm _ _ _ _ _ _ HB)|exact (tg_t _ _ _ _ _ _ _ _ _ _ _ _ _ HT)]. Qed.

(** ** C27 *)
Definition looping (t : tplace) : Prop :=
  match t with TDropO _ | TDropI _ | TDropS _ | TDone _ | TBad _ => False | _ => True end.
Definition halfway (t : tplace) : Prop := match t with TOut _ _ _ _ | TC1 _ _ _ _ | TE2 _ _ _ _ | TC2 _ _ _ _ => True | _ => False end.

Definition counted (L : list nevent) (i : nat) (w : world) (sa sb : place) (t : tplace) : Prop :=
  (forall m, t <> TBad m) /\ (i <> 3 -> ~ halfway t) /\
  (i = 2 -> forall x dec n c, sa = LNoteW x dec n c -> length (cs_queue (w (CMon mi))) = 8) /\
  (i = 3 -> looping t -> nsent (CMon mo) (own 2 L) <= nsent (CMon mi) (own 1 L)) /\
  match t with TOut size _ _ _ => 0 < size \/ ntak (CMon mi) (own 3 L) = nsent (CMon mi) (own 1 L) | _ => True end.

Lemma behind L w0 w sa sb t : tog w0 L w sa sb t -> read_failed pl (own 1 L) = false -> looping t ->
  (forall x dec n c, sa = LNoteW x dec n c -> length (cs_queue (w (CMon mi))) = 8) ->
  nsent (CMon mo) (own 2 L) <= nsent (CMon mi) (own 1 L).
Proof.
  intros HT HF Hl HW. pose proof (is_a _ _ _ _ _ _ HT) as HA. pose proof (is_b _ _ _ _ _ _ HT) as HBb. pose proof (is_t _ _ _ _ _ _ HT) as HC.
  pose proof (agree' _ _ _ spy _ _ _ HB _ _ _ _ _ _ HT) as [G1 G2 G3 G4].
  pose proof (num_mi _ _ _ _ _ _ HT) as N1. pose proof (num_mo _ _ _ _ _ _ HT) as N2. pose proof (num_u _ _ _ _ _ _ HT) as N3.
  assert (WM : length (cs_queue (w (CMon mo))) <= 8) by (eapply within_mo; [exact (wired_mm _ _ _ _ _ _ HB)|exact HT]).
  assert (HS : closedb (CMon mi) (own 3 L) = false /\ ntak (CMon mo) (own 3 L) <= ntak (CMon mi) (own 3 L)).
  { unfold inv_t in HC. cbv zeta in HC. destruct HC as [_ HC]. destruct t; try contradiction; destruct HC as (E1 & E2 & _); split; try exact E2; lia. }
  destruct HS as [HS1 HS2].
  assert (HSB : nsent (CMon mo) (own 2 L) <= ntak (CData u) (own 2 L) + (if sawb (CData u) (own 2 L) then 1 else 0)).
  { unfold inv_b in HBb. cbv zeta in HBb. destruct sb; try destruct r as [r|r]; try contradiction; try destruct (is_finished x); destruct (sawb (CData u) (own 2 L)); intuition lia || intuition congruence. }
  unfold inv_a in HA. cbv zeta in HA. destruct HA as (A1 & A2 & A3 & HA).
  generalize dependent (nsent (CMon mo) (own 2 L)). generalize dependent (nsent (CMon mi) (own 1 L)). generalize dependent (nsent (CData u) (own 1 L)). generalize dependent (noff (CData u) (own 1 L)).
  intros. destruct (sawb (CData u) (own 2 L)).
  - destruct (G1 eq_refl) as [E1 E2]. assert (HU : refusedb (CData u) (own 1 L) = false) by (destruct (refusedb (CData u) (own 1 L)); [destruct (G2 eq_refl); discriminate|reflexivity]).
    rewrite HU, E1, HF in *. destruct sa; try destruct r as [r|r]; try contradiction; try (rewrite (HW _ _ _ _ eq_refl) in *); intuition (try discriminate); try lia.
    all: destruct (refusedb (CMon mi) (own 1 L)); try discriminate; try (rewrite G3 in HS1 by reflexivity; discriminate); try congruence; try lia.
  - rewrite HF in *. destruct sa; try destruct r as [r|r]; try contradiction; try (rewrite (HW _ _ _ _ eq_refl) in *); intuition (try discriminate); try lia.
    all: destruct (refusedb (CMon mi) (own 1 L)); try discriminate; try (rewrite G3 in HS1 by reflexivity; discriminate); try congruence; try lia.
Qed.

Lemma rests_not {X} (st : status X) w e : st = At e -> rests st w -> on_chan e <> None -> (exists a w', wstep w (e, a) w') -> False.
Proof. intros -> [H|H] Hc (a & w' & HW); [contradiction|]. exact (H a w' HW). Qed.
Lemma try_cases w c a w' : wstep w (ETryRecv c, a) w' -> (exists v q, a = AMsg v /\ cs_queue (w c) = v :: q) \/ (cs_queue (w c) = [] /\ (a = AClosed \/ a = AEmpty)).
Proof. intro H. inversion H; subst; eauto. discriminate. Qed.
Lemma try_goes w c : exists a w', wstep w (ETryRecv c, a) w'.
Proof.
  destruct (cs_queue (w c)) eqn:E; [destruct (cs_closed (w c)) eqn:E'|].
  - do 2 eexists. eapply W_try_end; assumption.
  - do 2 eexists. eapply W_try_empty; assumption.
  - do 2 eexists. eapply W_try; eassumption.
Qed.
Lemma halfway_goes t w : rests (stt t) w -> ~ halfway t.
Proof.
  intros HR HH. destruct t; try contradiction; eapply (rests_not _ _ _ eq_refl HR); try discriminate.
  - apply try_goes.
  - do 2 eexists. apply W_is_closed.
  - do 2 eexists. apply W_is_empty.
  - do 2 eexists. apply W_is_closed.
Qed.
Lemma go_rep_not sender size moved back last m : go_rep sender size moved back last <> TBad m.
Proof. unfold go_rep. destruct sender; [destruct (last =? size)|]; discriminate. Qed.
Lemma go_turn_not size moved back last m : go_turn size moved back last <> TBad m.
Proof. unfold go_turn. destruct moved; discriminate. Qed.
Lemma looping_back t a : looping (tnext (bf_monitor b) t a) -> looping t.
Proof. destruct t; cbn; try tauto. unfold go_dropS. destruct (bf_monitor b); tauto. Qed.

Lemma frame1 w e a w' : wstep w (e, a) w' -> on_chan e <> Some (CMon mi) -> cs_queue (w' (CMon mi)) = cs_queue (w (CMon mi)).
Proof. intros HW HN. now rewrite (wstep_frame _ _ _ _ _ HW HN). Qed.

Lemma counter_counts w0 L i w : pol w0 L i w ->
  forall sa sb t, tog w0 L w sa sb t -> read_failed pl (own 1 L) = false -> counted L i w sa sb t.
Proof.
  revert L i w. apply (polled_inv (fun L i w sa sb t => read_failed pl (own 1 L) = false -> counted L i w sa sb t)).
  - intros sa sb t HT _. pose proof (tg_t _ _ _ _ _ _ _ _ _ _ _ _ _ HT) as E. apply reach_nil_inv in E. rewrite E. clear E. repeat split; try discriminate. intros _ HH; exact HH.
  - intros L i w sa sb t k e a w' sa' sb' t' Hi HT HK HW HT' HC HF.
    assert (HF1 : read_failed pl (own 1 L) = false) by (rewrite own_snoc in HF; destruct (k =? 1); [rewrite read_failed_snoc in HF; now apply orb_false_elim in HF|now rewrite app_nil_r in HF]).
    destruct (HK HF1) as (K1 & K2 & K3 & K4 & K5).
    destruct HC as [(-> & -> & HA & Hw & -> & -> & ->)|[(-> & -> & HA & Hw & -> & -> & ->)|[(-> & -> & HA & Hw & -> & -> & ->)|(N1 & N2 & N3 & HN & -> & -> & ->)]]].
    + unfold counted. split; [exact K1|]. split; [exact K2|]. split; [discriminate|]. split; [discriminate|]. specialize (K2 ltac:(discriminate)). destruct t; try exact I. exfalso. apply K2. exact I.
    + unfold counted. split; [exact K1|]. split; [exact K2|]. split; [|split; [discriminate|]].
      * intros _ x dec n c Hx. rewrite (frame1 _ _ _ _ HW); [exact (K3 eq_refl _ _ _ _ Hx)|].
        pose proof (proj2 (b_does _ _ _ _ (wired_real _ _ _ _ _ _ HB) (wired_ps _ _ _ _ _ _ HB) _ _ (tg_b _ _ _ _ _ _ _ _ _ _ _ _ _ HT)) _ HA) as HD.
        pose proof (wired_mm _ _ _ _ _ _ HB). destruct e; cbn in HD |- *; try discriminate; destruct c0; try discriminate; try contradiction; intro E; injection E as ->; intuition congruence.
      * specialize (K2 ltac:(discriminate)). destruct t; try exact I. exfalso. apply K2. exact I.
    + unfold counted. rewrite !own_snoc. cbn [Nat.eqb]. rewrite !app_nil_r.
      pose proof (is_t _ _ _ _ _ _ HT) as HI. pose proof (num_mi _ _ _ _ _ _ HT) as M1. pose proof (num_mo _ _ _ _ _ _ HT) as M2. specialize (K4 eq_refl).
      assert (HO : forall m, tnext (bf_monitor b) t a <> TBad m).
      { intros m. destruct t; cbn [tnext] in *; try discriminate.
        - injection HA as <-. destruct (try_cases _ _ _ _ HW) as [(v & q & -> & H0)|(_ & [-> | ->])]; try discriminate.
          assert (v = VWrote) by (eapply only_mi; [exact HT|rewrite H0; now left]). subst v. discriminate.
        - injection HA as <-. destruct (try_cases _ _ _ _ HW) as [(v & q & -> & H0)|(_ & [-> | ->])]; try apply go_rep_not.
          assert (v = VRead) by (eapply only_mo; [exact HT|rewrite H0; now left]). subst v. destruct size; [|apply go_rep_not]. exfalso.
          specialize (K4 I). unfold inv_t in HI. cbv zeta in HI. destruct HI as (_ & HI & _). rewrite H0 in M2. cbn in M2. lia.
        - destruct a; discriminate.
        - destruct a as [| | | | | | |[]| | | ]; try apply go_turn_not; discriminate.
        - destruct a as [| | | | | | |[]| | | ]; try apply go_turn_not; discriminate.
        - destruct a as [| | | | | | |[]| | | ]; try apply go_turn_not; discriminate.
        - destruct a as [| | | | | | |[]| | | ]; try apply go_turn_not; discriminate.
        - unfold go_dropS. destruct (bf_monitor b); discriminate. }
      split; [exact HO|]. split; [tauto|]. split; [discriminate|]. split.
      * intros _ Hl. apply K4. exact (looping_back _ _ Hl).
      * destruct t; cbn [tnext] in *; try exact I.
        -- injection HA as <-. destruct (try_cases _ _ _ _ HW) as [(v & q & -> & H0)|(H0 & [-> | ->])]; try (right; rewrite ntak_snoc, H0 in *; cbn in M1 |- *; lia).
           assert (v = VWrote) by (eapply only_mi; [exact HT|rewrite H0; now left]). subst v. left. lia.
        -- destruct a as [[]| | | | | | | | | | ]; try exact I; try destruct size; try exact I; unfold go_rep; (destruct (bf_monitor b); [destruct (_ =? _)|]); exact I.
        -- destruct a; exact I.
        -- destruct a as [| | | | | | |[]| | | ]; unfold go_turn; destruct moved; exact I.
        -- destruct a as [| | | | | | |[]| | | ]; unfold go_turn; destruct moved; exact I.
        -- destruct a as [| | | | | | |[]| | | ]; unfold go_turn; destruct moved; exact I.
        -- destruct a as [| | | | | | |[]| | | ]; unfold go_turn; destruct moved; exact I.
        -- unfold go_dropS. destruct (bf_monitor b); exact I.
    + unfold counted. rewrite !own_snoc. replace (k =? 1) with false by (symmetry; now apply Nat.eqb_neq). replace (k =? 2) with false by (symmetry; now apply Nat.eqb_neq). replace (k =? 3) with false by (symmetry; now apply Nat.eqb_neq). rewrite !app_nil_r.
      split; [exact K1|]. split; [exact K2|]. split; [|split; [exact K4|exact K5]].
      intros Ei x dec n c Hx. rewrite (frame1 _ _ _ _ HW); [exact (K3 Ei _ _ _ _ Hx)|]. apply HN. right. now left.
  - intros L w sa sb t HT HK HR HF. destruct (HK HF) as (K1 & K2 & K3 & K4 & K5). split; [exact K1|]. split; [intros _; apply K2; discriminate|]. split; [|split; [discriminate|exact K5]].
    intros _ x dec n c ->. cbn in HR. destruct HR as [HR|HR]; [discriminate HR|].
    assert (WM : length (cs_queue (w (CMon mi))) <= 8) by (eapply within_mi; [exact (wired_mm _ _ _ _ _ _ HB)|exact HT]).
    destruct (caps _ _ _ _ _ _ _ _ _ _ _ _ _ HT) as (_ & EC & _).
    destruct (cs_closed (w (CMon mi))) eqn:Ecl.
    { exfalso. eapply HR. eapply W_send_closed. exact Ecl. }
    destruct (Nat.eq_dec (length (cs_queue (w (CMon mi)))) 8) as [E|E]; [exact E|]. exfalso. eapply HR. eapply W_send; [exact Ecl|]. unfold room. rewrite EC. lia.
  - intros L w sa sb t HT HK HR HF. destruct (HK HF) as (K1 & K2 & K3 & K4 & K5). split; [exact K1|]. split; [tauto|]. split; [discriminate|]. split; [|exact K5].
    intros _ Hl. eapply behind; [exact HT|exact HF|exact Hl|exact (K3 eq_refl)].
  - intros L w sa sb t HT HK HR HF. destruct (HK HF) as (K1 & K2 & K3 & K4 & K5). split; [exact K1|]. split; [intros _; exact (halfway_goes _ _ HR)|]. split; [discriminate|]. split; [discriminate|exact K5].
Qed.

(** ** C28 *)
Definition over (w : world) (c : chan) : Prop := cs_queue (w c) = [] /\ cs_closed (w c) = true.
Lemma over_stays w ev w' c : wstep w ev w' -> over w c -> over w' c.
Proof.
  intros HS [H1 H2]. split.
  - destruct ev as [e a]. destruct (chan_eqb c (match on_chan e with Some x => x | None => c end)) eqn:E.
    + apply chan_eqb_eq in E. inversion HS; subst; cbn in E; subst; unfold upd; rewrite ?chan_eqb_refl; cbn; try assumption; try congruence.
    + rewrite (wstep_frame _ _ _ _ c HS); [exact H1|]. intro Ec. rewrite Ec, chan_eqb_refl in E. discriminate E.
  - rewrite (closed_step c _ _ _ HS), H2. reflexivity.
Qed.
Definition settled (w : world) (t : tplace) : Prop :=
  match t with
  | TC1 _ _ _ _ => cs_queue (w (CMon mi)) = []
  | TE2 _ _ _ _ => over w (CMon mi)
  | TC2 _ _ _ _ => over w (CMon mi) /\ cs_queue (w (CMon mo)) = []
  | TDropO (Some _) | TDropI (Some _) | TDropS (Some _) | TDone (Some _) => over w (CMon mi) /\ over w (CMon mo)
  | _ => True
  end.
Lemma settled_calm w t : ~ halfway t -> (match t with TDropO (Some _) | TDropI (Some _) | TDropS (Some _) | TDone (Some _) => over w (CMon mi) /\ over w (CMon mo) | _ => True end) -> settled w t.
Proof. intros H K. destruct t; try exact I; try exact K; exfalso; apply H; exact I. Qed.
Lemma settled_moves w ev w' t : wstep w ev w' -> ~ halfway t -> settled w t -> settled w' t.
Proof.
  intros HW HH K. apply settled_calm; [exact HH|]. destruct t; try exact I; destruct r; try exact I; destruct K; split; eapply over_stays; eassumption.
Qed.

Lemma counter_settles w0 L i w : pol w0 L i w -> forall sa sb t, tog w0 L w sa sb t -> (i <> 3 -> ~ halfway t) /\ settled w t.
Proof.
  revert L i w. apply (polled_inv (fun L i w sa sb t => (i <> 3 -> ~ halfway t) /\ settled w t)).
  - intros sa sb t HT. pose proof (tg_t _ _ _ _ _ _ _ _ _ _ _ _ _ HT) as E. apply reach_nil_inv in E. rewrite E. split; [intros _ HH; exact HH|exact I].
  - intros L i w sa sb t k e a w' sa' sb' t' Hi HT [K1 K2] HW HT' HC.
    destruct HC as [(-> & -> & HA & Hw & -> & -> & ->)|[(-> & -> & HA & Hw & -> & -> & ->)|[(-> & -> & HA & Hw & -> & -> & ->)|(N1 & N2 & N3 & HN & -> & -> & ->)]]].
    + split; [exact K1|]. apply (settled_moves _ _ _ _ HW (K1 ltac:(discriminate)) K2).
    + split; [exact K1|]. apply (settled_moves _ _ _ _ HW (K1 ltac:(discriminate)) K2).
    + split; [tauto|]. destruct t; cbn [tstat] in HA; try discriminate HA; cbn [tnext].
      * destruct a as [[]| | | | | | | | | | ]; exact I.
      * destruct a as [[]| | | | | | | | | | ]; try destruct size; try exact I; unfold go_rep; (destruct (bf_monitor b); [destruct (_ =? _)|]); exact I.
      * destruct a; exact I.
      * injection HA as <-. inversion HW; subst; [|discriminate]. destruct (cs_queue (w' (CMon mi))) eqn:E; cbn; [exact E|unfold go_turn; destruct moved; exact I].
      * injection HA as <-. inversion HW; subst; [|discriminate]. destruct (cs_closed (w' (CMon mi))) eqn:E; cbn; [split; [exact K2|exact E]|unfold go_turn; destruct moved; exact I].
      * injection HA as <-. inversion HW; subst; [|discriminate]. destruct (cs_queue (w' (CMon mo))) eqn:E; cbn; [split; [exact K2|exact E]|unfold go_turn; destruct moved; exact I].
      * injection HA as <-. inversion HW; subst; [|discriminate]. destruct K2 as [K2 K3]. destruct (cs_closed (w' (CMon mo))) eqn:E; cbn; [split; [exact K2|split; [exact K3|exact E]]|unfold go_turn; destruct moved; exact I].
      * exact I.
      * destruct r; [|exact I]. destruct K2. split; eapply over_stays; eassumption.
      * unfold go_dropS. destruct (bf_monitor b); cbn; (destruct r; [|exact I]); destruct K2; split; eapply over_stays; eassumption.
      * destruct r; [|exact I]. destruct K2. split; eapply over_stays; eassumption.
    + split; [exact K1|]. assert (E1 : w' (CMon mi) = w (CMon mi)) by (apply (wstep_frame _ _ _ _ _ HW), HN; right; now left).
      assert (E2 : w' (CMon mo) = w (CMon mo)) by (apply (wstep_frame _ _ _ _ _ HW), HN; right; now right).
      unfold settled, over in *. rewrite E1, E2. exact K2.
  - intros L w sa sb t HT [K1 K2] HR. split; [intros _; apply K1; discriminate|exact K2].
  - intros L w sa sb t HT [K1 K2] HR. split; [tauto|exact K2].
  - intros L w sa sb t HT [K1 K2] HR. split; [intros _; exact (halfway_goes _ _ HR)|exact K2].
Qed.
End Polled.
