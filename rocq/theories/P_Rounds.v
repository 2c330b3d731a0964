(** * P_Rounds: pipelines polled as the program does it *)
From Coq Require Import Ascii String List Bool Arith Lia.
From Verif Require Import M_Prog P_Prog P_Exec M_Motion M_Config M_Regulator M_Faucet M_Drain M_Buffer M_Junction M_Launch M_Manager M_Waiter M_Join M_Poll S_Trace S_Motion S_World S_Buffer S_Network S_Net M_Start S_Start P_World P_Link P_Net P_NetCost P_Turn P_Fair P_Dam P_Whole.
From Verif Require P_Network.
Import ListNotations.

(** ** The order *)
Section Order.
Variable k : nat.
Definition after_it (x : list nat) : Prop := forall i t, nth_error x i = Some t ->
  (t = 4 * k + 1 -> nth_error x (S i) = Some (4 * k + 2)) /\
  (t = 4 * k + 2 -> nth_error x (S i) = Some (4 * k + 3) /\ exists i', i = S i' /\ nth_error x i' = Some (4 * k + 1)) /\
  (t = 4 * k + 3 -> nth_error x (S i) = Some (4 * k) /\ exists i', i = S i' /\ nth_error x i' = Some (4 * k + 2)).
Lemma after_app x y : after_it x -> after_it y -> after_it (x ++ y).
Proof.
  intros HX HY i t H. destruct (Nat.lt_ge_cases i (length x)) as [L|L].
  - rewrite nth_error_app1 in H by exact L. destruct (HX _ _ H) as (A & B & C).
    assert (K : forall j v, nth_error x j = Some v -> nth_error (x ++ y) j = Some v) by (intros j v Hj; rewrite nth_error_app1; [exact Hj|apply nth_error_Some; congruence]).
    split; [|split]; intro E; [|split|split].
    + apply K. now apply A.
    + apply K. now apply B.
    + destruct (B E) as (_ & i' & -> & Hi). exists i'. split; [reflexivity|now apply K].
    + apply K. now apply C.
    + destruct (C E) as (_ & i' & -> & Hi). exists i'. split; [reflexivity|now apply K].
  - rewrite nth_error_app2 in H by exact L. destruct (HY _ _ H) as (A & B & C).
    assert (K : forall j v, nth_error y (j - length x) = Some v -> length x <= j -> nth_error (x ++ y) j = Some v) by (intros j v Hj Hl; rewrite nth_error_app2; [exact Hj|exact Hl]).
    assert (S1 : S (i - length x) = S i - length x) by lia.
    split; [|split]; intro E; [|split|split].
    + apply K; [|lia]. rewrite <- S1. now apply A.
    + apply K; [|lia]. rewrite <- S1. now apply B.
    + destruct (B E) as (_ & i' & Hi & Hn). exists (i' + length x). split; [lia|]. apply K; [|lia]. now rewrite Nat.add_sub.
    + apply K; [|lia]. rewrite <- S1. now apply C.
    + destruct (C E) as (_ & i' & Hi & Hn). exists (i' + length x). split; [lia|]. apply K; [|lia]. now rewrite Nat.add_sub.
Qed.
Lemma after_nil : after_it [].
Proof. intros [|i] t H; discriminate H. Qed.
Lemma after_heads x : (forall t, In t x -> exists m, t = 4 * m) -> after_it x.
Proof. intros HX i t H. apply nth_error_In in H. destruct (HX t H) as (m & ->). split; [|split]; intro E; exfalso; lia. Qed.
Lemma after_comp m c : after_it (comp_tasks m c).
Proof.
  assert (A : after_it [4 * m; 4 * m + 1; 4 * m + 2; 4 * m + 3; 4 * m]).
  { intros i t H. destruct (Nat.eq_dec m k) as [->|Hn].
    - destruct i as [|[|[|[|[|i]]]]]; cbn [nth_error] in H; try (destruct i; discriminate H); injection H as <-; (split; [|split]; intro E; try (exfalso; lia); try reflexivity); (split; [reflexivity|]); eexists; split; reflexivity.
    - assert (K : t / 4 = m) by (destruct i as [|[|[|[|[|i]]]]]; cbn [nth_error] in H; try (destruct i; discriminate H); injection H as <-; rewrite <- ?(Nat.add_0_r (4 * m)); symmetry; [apply (Nat.div_unique _ _ _ 0)|apply (Nat.div_unique _ _ _ 1)|apply (Nat.div_unique _ _ _ 2)|apply (Nat.div_unique _ _ _ 3)|apply (Nat.div_unique _ _ _ 0)]; lia).
      split; [|split]; intro E; exfalso; apply Hn; rewrite <- K, E; symmetry; apply Nat.div_unique with (r := t - 4 * k); lia. }
  assert (B : after_it [4 * m]) by (apply after_heads; intros t [<-|[]]; eauto).
  destruct c; cbn [comp_tasks]; assumption.
Qed.
Lemma after_place p : forall net m, after_it (place_tasks p m net).
Proof. induction net as [|c net IH]; intro m; [exact after_nil|]. cbn [place_tasks]. apply after_app; [|apply IH]. destruct (kind_place c =? p); [apply after_comp|exact after_nil]. Qed.
Lemma after_order net cs : after_it (poll_order net cs).
Proof.
  unfold poll_order. repeat (apply after_app; [apply after_place|]). apply after_app; [|repeat (apply after_app; [apply after_place|]); apply after_place].
  apply after_heads. intros t H. apply in_map_iff in H. destruct H as (m & <- & _). eauto.
Qed.
End Order.

(** ** The parts of a buffer are polled in turn *)
Section Turn.
Variables (net : list comp) (cs : list capture) (w0 : world).
Notation ord := (poll_order net cs).
Variables (k : nat) (b : buffer) (u mi mo : nat) (pl : pull) (ps : push).
Hypothesis (Hk : nth_error net k = Some (NBuffer b u mi mo)) (He : buffer_ends b = Ret (inr (pl, ps))).
Notation bp := (buffer_polled b pl ps None u mi mo w0).
Definition turn_of (t : nat) : nat := if t / 4 =? k then match t mod 4 with 2 => 2 | 3 => 3 | _ => 1 end else 1.
Definition turn_at (p : nat) : nat := match nth_error ord p with Some t => turn_of t | None => 1 end.
Lemma turn_of_part i : i < 4 -> turn_of (4 * k + i) = match i with 2 => 2 | 3 => 3 | _ => 1 end.
Proof. intro H. unfold turn_of. rewrite div4i, mod4i, Nat.eqb_refl by exact H. reflexivity. Qed.
Lemma turn_cases t : (t = 4 * k + 1 /\ turn_of t = 1) \/ (t = 4 * k + 2 /\ turn_of t = 2) \/ (t = 4 * k + 3 /\ turn_of t = 3) \/ (t <> 4 * k + 1 /\ t <> 4 * k + 2 /\ t <> 4 * k + 3 /\ turn_of t = 1).
Proof.
  destruct (Nat.eq_dec t (4 * k + 1)) as [->|N1]; [left; split; [reflexivity|]; now rewrite turn_of_part by lia|].
  destruct (Nat.eq_dec t (4 * k + 2)) as [->|N2]; [right; left; split; [reflexivity|]; now rewrite turn_of_part by lia|].
  destruct (Nat.eq_dec t (4 * k + 3)) as [->|N3]; [right; right; left; split; [reflexivity|]; now rewrite turn_of_part by lia|].
  right. right. right. repeat split; auto. unfold turn_of. destruct (Nat.eqb_spec (t / 4) k) as [E|]; [|reflexivity]. pose proof (Nat.div_mod t 4 ltac:(lia)) as D. rewrite E in D.
  assert (M : t mod 4 < 4) by (apply Nat.mod_upper_bound; lia). remember (t mod 4) as i. clear Heqi. destruct i as [|[|[|[|i]]]]; try reflexivity; exfalso; lia.
Qed.
Lemma next_turn p t : nth_error ord p = Some t ->
  (t = 4 * k + 1 -> turn_at (next_place ord p) = 2) /\ (t = 4 * k + 2 -> turn_at (next_place ord p) = 3) /\ (t <> 4 * k + 1 -> t <> 4 * k + 2 -> turn_at (next_place ord p) = 1).
Proof.
  intro H. pose proof (after_order k net cs) as HA. destruct (HA _ _ H) as (A & B & _). unfold turn_at, next_place.
  assert (HS : forall v, nth_error ord (S p) = Some v -> (S p <? length ord) = true) by (intros v Hv; apply Nat.ltb_lt; apply nth_error_Some; congruence).
  split; [|split].
  - intro E. specialize (A E). rewrite (HS _ A), A. now rewrite turn_of_part by lia.
  - intro E. destruct (B E) as [B1 _]. rewrite (HS _ B1), B1. now rewrite turn_of_part by lia.
  - intros N1 N2. set (q := if S p <? length ord then S p else 0). destruct (nth_error ord q) as [t'|] eqn:E; [|reflexivity]. destruct (HA _ _ E) as (_ & B' & C').
    assert (K : forall i', q = S i' -> i' = p) by (intros i'; subst q; destruct (S p <? length ord); intros [= ->]; reflexivity).
    destruct (turn_cases t') as [[-> ->]|[[-> _]|[[-> _]|(_ & _ & _ & ->)]]]; [reflexivity| | |reflexivity]; exfalso.
    + destruct (B' eq_refl) as (_ & i' & Ei & Hi). apply K in Ei. subst i'. congruence.
    + destruct (C' eq_refl) as (_ & i' & Ei & Hi). apply K in Ei. subst i'. congruence.
Qed.
Lemma part_at L st i w : buffer_start b None u mi mo L st -> part_rests st i w -> i = 1 \/ i = 2 \/ i = 3 ->
  (i = 1 -> exists s, exec (half_a u mi (pl, ps)) (own 1 L) s /\ rests s w) /\ (i = 2 -> exists s, exec (half_b u mo None (pl, ps)) (own 2 L) s /\ rests s w) /\
  (i = 3 -> exists s, exec (total_in_buffer (bf_monitor b) mi mo) (own 3 L) s /\ rests s w).
Proof.
  intros HC HR Hi. unfold buffer_start in HC. rewrite He in HC.
  destruct HC as [L e0 K HX|L s K HX|L r K HX|L0 L x a b0 c K0 K1 HX HA HB HZ|L0 L L1 x a b0 c st K0 K1 K2 HX HA HB HZ HF]; try (exfalso; inversion HX; fail).
  - assert (x = (pl, ps)) by (inversion HX; reflexivity). subst x. rewrite !own_app, (K0 1), (K0 2), (K0 3) by (cbn; auto). cbn [app]. split; [|split]; intros ->; cbn [part_rests] in HR; eauto.
  - assert (x = (pl, ps)) by (inversion HX; reflexivity). subst x. rewrite !own_app, (K0 1), (K0 2), (K0 3), (K2 1), (K2 2), (K2 3), !app_nil_r by (cbn; auto). cbn [app].
    split; [|split]; intros ->; eexists; (split; [eassumption|exact Logic.I]).
Qed.
Lemma rounds_turn l p w : in_rounds net cs w0 l p w -> bp (seen_by k l) (turn_at p) w.
Proof.
  induction 1 as [|l p w t ev w' HR IH Hp HS|l p w t HR IH Hp HT].
  - assert (E : turn_at 0 = 1). { unfold turn_at. destruct (nth_error ord 0) as [t|] eqn:E; [|reflexivity]. destruct (after_order k net cs _ _ E) as (_ & B & C).
      destruct (turn_cases t) as [[-> ->]|[[-> _]|[[-> _]|(_ & _ & _ & ->)]]]; [reflexivity| | |reflexivity]; [destruct (B eq_refl) as (_ & i' & X & _)|destruct (C eq_refl) as (_ & i' & X & _)]; discriminate X. }
    rewrite E. constructor.
  - assert (Es : seen_by k (l ++ [(t, ev)]) = seen_by k l ++ seen_by k [(t, ev)]) by (unfold seen_by; apply map_app). rewrite Es. unfold seen_by at 2. cbn [map fst snd].
    assert (Et : turn_at p = turn_of t) by (unfold turn_at; now rewrite Hp). rewrite Et in *. unfold turn_of in *. destruct (Nat.eqb_spec (t / 4) k) as [Ek|Ek].
    + assert (M : t mod 4 < 4) by (apply Nat.mod_upper_bound; lia). remember (t mod 4) as i. clear Heqi. destruct i as [|[|[|[|i]]]]; [|eapply PO_own; eassumption|eapply PO_own; eassumption|eapply PO_own; eassumption|lia].
      eapply PO_other; try eassumption; lia.
    + eapply PO_other; try eassumption; lia.
  - assert (Et : turn_at p = turn_of t) by (unfold turn_at; now rewrite Hp). rewrite Et in IH. destruct (next_turn p t Hp) as (N1 & N2 & N3).
    assert (HQ : forall i, i = 1 \/ i = 2 \/ i = 3 -> t = 4 * k + i -> exists st, buffer_start b None u mi mo (seen_by k l) st /\ part_rests st i w).
    { intros i Hi E. destruct HT as [HT _]. specialize (HT (NBuffer b u mi mo)). rewrite E, div4i, mod4i in HT by lia. exact (HT Hk). }
    destruct (turn_cases t) as [[E Ec]|[[E Ec]|[[E Ec]|(M1 & M2 & M3 & Ec)]]]; rewrite Ec in IH.
    + rewrite (N1 E). destruct (HQ 1 ltac:(auto) E) as (st & B1 & B2). destruct (part_at _ _ _ _ B1 B2 ltac:(auto)) as (X & _ & _). destruct (X eq_refl) as (s & X1 & X2). eapply PO_pass1; eassumption.
    + rewrite (N2 E). destruct (HQ 2 ltac:(auto) E) as (st & B1 & B2). destruct (part_at _ _ _ _ B1 B2 ltac:(auto)) as (_ & X & _). destruct (X eq_refl) as (s & X1 & X2). eapply PO_pass2; eassumption.
    + rewrite N3 by lia. destruct (HQ 3 ltac:(auto) E) as (st & B1 & B2). destruct (part_at _ _ _ _ B1 B2 ltac:(auto)) as (_ & _ & X). destruct (X eq_refl) as (s & X1 & X2). eapply PO_pass3; eassumption.
    + rewrite N3 by assumption. exact IH.
Qed.
End Turn.
Lemma wired_ends b u mi mo : comp_ready (NBuffer b u mi mo) -> forall pl ps, bf_stdin b = Some pl -> bf_stdout b = Some ps -> buffer_ends b = Ret (inr (pl, ps)).
Proof.
  intros (_ & pj & i & j & o & H) pl ps Hi Ho. destruct H as (Hi' & Ho' & _). rewrite Hi in Hi'. rewrite Ho in Ho'. injection Hi' as ->. injection Ho' as ->. unfold buffer_ends. rewrite Hi, Ho. reflexivity.
Qed.
Theorem whole_in_turn net cs w0 l w ocs : net_wired net -> whole_run net cs w0 l w ocs -> in_turn net w0 l.
Proof.
  intros HN [_ (p & HR)] k b u mi mo pl ps Hk Hi Ho. exists (turn_at net cs k p), w.
  refine (rounds_turn net cs w0 k b u mi mo pl ps Hk _ l p w HR). apply (wired_ends b u mi mo); auto. apply (nw_ready _ HN). eapply nth_error_In. exact Hk.
Qed.

(** ** Without controllers *)
Lemma free_net net w0 l w ocs : roomy net -> free_run net [] w0 l w ocs -> net_run net w0 l w ocs.
Proof.
  intros HR HX. destruct HX as [H1 _ H3 H4 H5]. constructor; auto.
  - intros i ev Hin. specialize (H4 _ _ Hin). destruct (order_in net [] i H4) as [(p & Hp)|(m & _ & Hm)]; [apply place_bound in Hp; lia|cbn in Hm; lia].
  - apply (mw_new _ _ H5).
  - intros n Hn. apply in_flat_map in Hn. destruct Hn as (c & Hc & Hn). rewrite (mw_outs _ _ H5 c n Hc Hn). assert (Hz : 0 < comp_size c) by (apply (HR c Hc); intro E; rewrite E in Hn; destruct Hn).
    exists (comp_size c - 1). f_equal. f_equal. lia.
  - apply (mw_inside _ _ H5).
Qed.
Lemma in_place net : forall k0 k c, nth_error net k = Some c -> forall t, In t (comp_tasks (k0 + k) c) -> In t (place_tasks (kind_place c) k0 net).
Proof.
  induction net as [|d net IH]; intros k0 k c Hk t Ht; [destruct k; discriminate Hk|]. cbn [place_tasks]. apply in_or_app. destruct k as [|k].
  - injection Hk as ->. left. rewrite Nat.eqb_refl. now rewrite Nat.add_0_r in Ht.
  - right. apply (IH (S k0) k c Hk). now replace (S k0 + k) with (k0 + S k) by lia.
Qed.
Lemma in_order_comp net cs k c t : nth_error net k = Some c -> In t (comp_tasks k c) -> In t (poll_order net cs).
Proof.
  intros Hk Ht. pose proof (in_place net 0 k c Hk t Ht) as H. unfold poll_order. rewrite !in_app_iff. destruct c; cbn [kind_place] in H; auto 10.
Qed.
Lemma net_free net w0 l w ocs : made_world net w0 -> net_run net w0 l w ocs -> free_run net [] w0 l w ocs.
Proof.
  intros HM HX. destruct HX as [H1 H2 H3 H4 H5 H6]. constructor; auto.
  - intros m c Hm. destruct m; discriminate Hm.
  - intros t ev Hin. specialize (H3 _ _ Hin). destruct (nth_error net (t / 4)) as [c|] eqn:Hk; [|apply nth_error_None in Hk; lia]. apply (in_order_comp net [] (t / 4) c t Hk).
    pose proof (Nat.div_mod t 4 ltac:(lia)) as D. assert (M : t mod 4 < 4) by (apply Nat.mod_upper_bound; lia). remember (t / 4) as k. remember (t mod 4) as i. clear Heqi.
    assert (HA : match c with NBuffer _ _ _ _ | NLaunch _ _ _ => True | _ => i = 0 end).
    { assert (HI : forall p st, alone p (seen_by k l) st -> i = 0).
      { intros p st [HI _]. destruct (Nat.eq_dec i 0) as [|Hn]; [assumption|exfalso]. assert (Hi : In i [1; 2; 3]) by (cbn; lia). specialize (HI i Hi). rewrite P_Network.own_seen in HI by lia.
        destruct ev as [e a]. assert (K : In (e, a) (own (4 * k + i) l)) by (apply in_own; now rewrite <- D). rewrite HI in K. destruct K. }
      specialize (H1 k c Hk). destruct c; cbn [comp_runs] in H1; auto; destruct H1 as (st & H1 & _); exact (HI _ _ H1). }
    destruct c; cbn [comp_tasks]; cbn [In]; lia.
Qed.
Theorem whole_net net w0 l w ocs : net_wired net -> roomy net -> whole_run net [] w0 l w ocs -> net_run net w0 l w ocs /\ in_turn net w0 l.
Proof. intros HN HR HX. split; [apply free_net; [exact HR|exact (proj1 HX)]|exact (whole_in_turn _ _ _ _ _ _ HN HX)]. Qed.
Lemma whole_locks net w0 l : made_world net w0 -> whole_locked net [] w0 l -> locked net w0 l.
Proof. intros HM HL l' w ocs HX. exact (HL l' w ocs (net_free _ _ _ _ _ HM HX)). Qed.
Theorem turn_whole net cs w0 l w ocs : (forall b u mi mo, In (NBuffer b u mi mo) net -> exists pj i j o, bf_stdin b = Some (PlReceiver pj i) /\ bf_stdout b = Some (PsIoSender j o)) ->
  whole_run net cs w0 l w ocs -> in_turn net w0 l.
Proof.
  intros HB [_ (p & HR)] k b u mi mo pl ps Hk Hi Ho. exists (turn_at net cs k p), w.
  refine (rounds_turn net cs w0 k b u mi mo pl ps Hk _ l p w HR). destruct (HB b u mi mo (nth_error_In _ _ Hk)) as (pj & i & j & o & Ei & Eo).
  unfold buffer_ends. rewrite Hi, Ho. rewrite Ho in Eo. injection Eo as ->. reflexivity.
Qed.
Theorem whole_fine net w0 l w ocs : net_wired net -> roomy net -> polite net -> whole_run net [] w0 l w ocs -> willing l ->
  forall k, k < length net -> ocs k = Going \/ exists n, ocs k = Ended (Ok n).
Proof. intros HN HR HP HX HW. destruct (whole_net _ _ _ _ _ HN HR HX) as [X1 X2]. exact (in_turn_fine net w0 HN l w ocs HP X1 HW X2). Qed.
Theorem whole_ends net w0 l w ocs : net_wired net -> roomy net -> polite net -> acyclic net -> whole_run net [] w0 l w ocs -> willing l ->
  whole_locked net [] w0 l -> all_succeeded net ocs.
Proof.
  intros HN HR HP HA HX HW HL. destruct (whole_net _ _ _ _ _ HN HR HX) as [X1 X2]. destruct (turn_goes net w0 HN l w ocs HA HP X1 HW X2) as [H|(l' & w' & ocs' & H & _ & HU & _)]; [exact H|exfalso].
  rewrite (whole_locks _ _ _ (fr_made _ _ _ _ _ _ (proj1 HX)) HL _ _ _ H) in HU. discriminate HU.
Qed.
Theorem whole_dammed net w0 l w ocs : net_wired net -> roomy net -> polite net -> dammed net -> whole_run net [] w0 l w ocs -> willing l ->
  whole_locked net [] w0 l -> at_rest net w /\ forall k c, nth_error net k = Some c -> comp_ins c = [] -> ocs k <> Going.
Proof.
  intros HN HR HP HD HX HW HL. destruct (whole_net _ _ _ _ _ HN HR HX) as [X1 X2].
  exact (dam_locked net w0 l w ocs HN HD HP X1 HW X2 (whole_locks _ _ _ (fr_made _ _ _ _ _ _ (proj1 HX)) HL)).
Qed.
Theorem whole_no_endless net w0 f : net_wired net -> roomy net -> polite net -> acyclic net -> fair net w0 f -> limited f -> statuses_come f ->
  (forall n, willing (so_far f n)) -> ~ (forall n, exists w ocs, whole_run net [] w0 (so_far f n) w ocs).
Proof.
  intros HN HR HP HA HF HL HS HW HX. refine (no_endless_run net w0 f HN HA HP _ HF HL HS HW _).
  - intro n. destruct (HX n) as (w & ocs & H). exists w, ocs. exact (proj1 (whole_net _ _ _ _ _ HN HR H)).
  - intro n. destruct (HX n) as (w & ocs & H). exact (proj2 (whole_net _ _ _ _ _ HN HR H)).
Qed.
