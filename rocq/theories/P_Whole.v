(** * P_Whole: playing out runs of whole pipelines, for examples *)
From Coq Require Import Ascii String List Bool Arith Lia.
From Verif Require Import M_Prog P_Prog P_Exec M_Motion M_Config M_Regulator M_Faucet M_Drain M_Buffer M_Junction M_Launch M_Manager M_Waiter M_Join M_Poll S_Trace S_Motion S_World S_Buffer S_Network S_Net M_Start S_Start P_World P_Play P_Crowd P_Ask P_Later P_Link P_JStart P_Net P_NetCost P_BufferPoll P_NetExamples P_Order.
From Verif Require P_Network.
Import ListNotations.

(** What task [t] is to do. *)
Definition nobody : task := TM (Ret (Ok 0)).
Definition seat (net : list comp) (cs : list capture) (t : nat) : task :=
  match nth_error net (t / 4) with
  | Some c =>
    match c, t mod 4 with
    | NFaucet f _, 0 => TM (faucet_start f None)
    | NRegulator r, 0 => TM (regulator_start r None)
    | NJunction j, 0 => TM (junction_start j None)
    | NDrain d _, 0 => TM (drain_start d None)
    | NBuffer b u mi mo, i =>
      match bf_stdin b, bf_stdout b, i with
      | Some pl, Some ps, 1 => TM (half_a u mi (pl, ps))
      | Some pl, Some ps, 2 => TM (half_b u mo None (pl, ps))
      | Some pl, Some ps, 3 => TC (total_in_buffer (bf_monitor b) mi mo)
      | _, _, _ => nobody
      end
    | _, _ => nobody
    end
  | None => match nth_error cs (t / 4 - length net), t mod 4 with Some c, 0 => TM (controller c) | _, _ => nobody end
  end.
(** No programs, and buffers that are connected. *)
Definition playable (c : comp) : bool :=
  match c with
  | NLaunch _ _ _ => false
  | NBuffer b _ _ _ => match bf_stdin b, bf_stdout b with Some _, Some ps => match push_journey ps with Some _ => true | None => false end | _, _ => false end
  | _ => true
  end.

Definition seat_exec (t : task) (tr : trace) (e : eff) : Prop := match t with TM p => exec p tr (At e) | TC p => exec p tr (At e) end.

Lemma ret_nil {A} (a : A) tr st : exec (Ret a) tr st -> tr = [].
Proof. intro H. now inversion H. Qed.

Section Whole.
Variables (net : list comp) (cs : list capture).
Hypothesis HP : forallb playable net = true.
Notation ord := (poll_order net cs).

Lemma place_in p : forall k0 n k c, nth_error n k = Some c -> forall t, t / 4 = k0 + k -> In t (place_tasks p k0 n) -> In t (comp_tasks (k0 + k) c).
Proof.
  intros k0 n. revert k0. induction n as [|c n IH]; intros k0 k c' Hk t Ht Hin; [destruct k; discriminate Hk|]. cbn [place_tasks] in Hin. apply in_app_or in Hin.
  assert (HT : forall q d r, In r (comp_tasks q d) -> r / 4 = q).
  { intros q d r H. assert (K : r = 4 * q + 0 \/ r = 4 * q + 1 \/ r = 4 * q + 2 \/ r = 4 * q + 3) by (destruct d; cbn in H; lia).
    symmetry. destruct K as [->|[->|[->| ->]]]; (eapply Nat.div_unique; [|reflexivity]; lia). }
  assert (HG : forall m k1 r, In r (place_tasks p k1 m) -> k1 <= r / 4).
  { induction m as [|d m IHm]; intros k1 r H; [destruct H|]. cbn [place_tasks] in H. apply in_app_or in H. destruct H as [H|H]; [|specialize (IHm _ _ H); lia].
    destruct (kind_place d =? p); [|destruct H]. rewrite (HT _ _ _ H). lia. }
  destruct k as [|k].
  - injection Hk as ->. destruct Hin as [Hin|Hin]; [|specialize (HG _ _ _ Hin); lia]. rewrite Nat.add_0_r. destruct (kind_place c' =? p); [exact Hin|destruct Hin].
  - destruct Hin as [Hin|Hin].
    + destruct (kind_place c =? p); [|destruct Hin]. rewrite (HT _ _ _ Hin) in Ht. lia.
    + replace (k0 + S k) with (S k0 + k) by lia. apply (IH (S k0) k _ Hk); [lia|exact Hin].
Qed.
Lemma place_bound p : forall n k0 r, In r (place_tasks p k0 n) -> r / 4 < k0 + length n.
Proof.
  induction n as [|c n IH]; intros k0 r H; [destruct H|]. cbn [place_tasks] in H. apply in_app_or in H. cbn [length]. destruct H as [H|H]; [|specialize (IH _ _ H); lia].
  destruct (kind_place c =? p); [|destruct H]. assert (K : r = 4 * k0 + 0 \/ r = 4 * k0 + 1 \/ r = 4 * k0 + 2 \/ r = 4 * k0 + 3) by (destruct c; cbn in H; lia).
  assert (E : r / 4 = k0) by (symmetry; destruct K as [->|[->|[->| ->]]]; (eapply Nat.div_unique; [|reflexivity]; lia)). lia.
Qed.
Lemma div4 k : 4 * k / 4 = k.
Proof. symmetry. apply (Nat.div_unique (4 * k) 4 k 0); lia. Qed.
Lemma mod4 k : (4 * k) mod 4 = 0.
Proof. symmetry. apply (Nat.mod_unique (4 * k) 4 k 0); lia. Qed.
Lemma order_in t : In t ord -> (exists p, In t (place_tasks p 0 net)) \/ exists m, t = 4 * (length net + m) /\ m < length cs.
Proof.
  unfold poll_order, controller_tasks. intro H. repeat (apply in_app_or in H; destruct H as [H|H]); eauto. right. apply in_map_iff in H. destruct H as (m & <- & H). apply in_seq in H. exists (m - length net). split; lia.
Qed.
Lemma order_comp t k c : In t ord -> t / 4 = k -> nth_error net k = Some c -> In t (comp_tasks k c).
Proof.
  intros H Ht Hk. destruct (order_in t H) as [(p & Hp)|(m & -> & Hm)]; [exact (place_in p 0 net k c Hk t Ht Hp)|]. rewrite div4 in Ht. pose proof (nth_error_None net k) as [_ K]. rewrite K in Hk by lia. discriminate Hk.
Qed.
Lemma order_rest t : In t ord -> nth_error net (t / 4) = None -> exists m, t = 4 * (length net + m) /\ m < length cs.
Proof. intros H Hn. destruct (order_in t H) as [(p & Hp)|H']; [|exact H']. apply place_bound in Hp. apply nth_error_None in Hn. exfalso. lia. Qed.

(** *** From what the tasks did to what the components did *)
Lemma ords_idle k c l : (forall t ev, In (t, ev) l -> In t ord) -> nth_error net k = Some c -> match c with NBuffer _ _ _ _ | NLaunch _ _ _ => False | _ => True end -> idle [1; 2; 3] (seen_by k l).
Proof.
  intros HO Hk Hc i Hi. rewrite P_Network.own_seen by (cbn in Hi; lia). destruct (own (4 * k + i) l) as [|ev r] eqn:E; [reflexivity|exfalso].
  assert (H : In (4 * k + i, ev) l) by (destruct ev; apply in_own; rewrite E; now left). remember (4 * k + i) as t eqn:Ht.
  assert (Hd : t / 4 = k) by (subst t; symmetry; apply (Nat.div_unique _ _ _ i); [cbn in Hi; lia|lia]).
  pose proof (order_comp t k c (HO _ _ H) Hd Hk) as K. destruct c; try contradiction Hc; cbn in K; cbn in Hi; lia.
Qed.
Lemma playable_nth k c : nth_error net k = Some c -> playable c = true.
Proof. intro H. rewrite forallb_forall in HP. apply HP. eapply nth_error_In. eassumption. Qed.
Lemma playable_buffer b u mi mo : playable (NBuffer b u mi mo) = true -> exists pl ps, bf_stdin b = Some pl /\ bf_stdout b = Some ps /\ buffer_ends b = Ret (inr (pl, ps)).
Proof.
  unfold playable, buffer_ends. destruct (bf_stdin b) as [pl|]; [|discriminate]. destruct (bf_stdout b) as [ps|]; [|discriminate]. destruct (push_journey ps); [|discriminate]. intros _. exists pl, ps. auto.
Qed.

(** *** Standing still *)
Notation stood L ts := (forall t, tleaves (seat net cs t) (own t L) (ts t)).
Notation within_order L := (forall t ev, In (t, ev) L -> In t ord).

Lemma seat_alone k c : nth_error net k = Some c -> seat net cs (4 * k) =
  match c with NFaucet f _ => TM (faucet_start f None) | NRegulator r => TM (regulator_start r None) | NJunction j => TM (junction_start j None) | NDrain d _ => TM (drain_start d None) | _ => nobody end.
Proof. intro H. unfold seat. rewrite div4, mod4, H. destruct c as [f s|r|b u mi mo|j|cwd vars la|d s]; try reflexivity. destruct (bf_stdin b), (bf_stdout b); reflexivity. Qed.
Lemma div4i k i : i < 4 -> (4 * k + i) / 4 = k.
Proof. intro H. symmetry. apply (Nat.div_unique _ _ _ i); lia. Qed.
Lemma mod4i k i : i < 4 -> (4 * k + i) mod 4 = i.
Proof. intro H. symmetry. apply (Nat.mod_unique _ _ k); lia. Qed.
Lemma seat_buffer k b u mi mo pl ps : nth_error net k = Some (NBuffer b u mi mo) -> bf_stdin b = Some pl -> bf_stdout b = Some ps ->
  seat net cs (4 * k + 1) = TM (half_a u mi (pl, ps)) /\ seat net cs (4 * k + 2) = TM (half_b u mo None (pl, ps)) /\ seat net cs (4 * k + 3) = TC (total_in_buffer (bf_monitor b) mi mo).
Proof. intros H Hi Ho. unfold seat. rewrite !div4i, !mod4i, H, Hi, Ho by lia. auto. Qed.
Lemma seat_controller m c : nth_error cs m = Some c -> seat net cs (4 * (length net + m)) = TM (controller c).
Proof.
  intro H. unfold seat. rewrite div4, mod4. destruct (nth_error net (length net + m)) eqn:E; [exfalso|].
  - assert (K : nth_error net (length net + m) <> None) by congruence. apply nth_error_Some in K. lia.
  - replace (length net + m - length net) with m by lia. now rewrite H.
Qed.

Lemma buffer_during k b u mi mo L ts : nth_error net k = Some (NBuffer b u mi mo) -> stood L ts ->
  settled_m (ts (4 * k)) = true -> settled_m (ts (4 * k + 1)) = true -> settled_m (ts (4 * k + 2)) = true -> settled_c (ts (4 * k + 3)) = true ->
  buffer_start b None u mi mo (seen_by k L) (During (mstatus (ts (4 * k + 1))) (mstatus (ts (4 * k + 2))) (cstatus (ts (4 * k + 3)))).
Proof.
  intros Hk HS S0 S1 S2 S3. destruct (playable_buffer _ _ _ _ (playable_nth _ _ Hk)) as (pl & ps & Hi & Ho & He). destruct (seat_buffer _ _ _ _ _ _ _ Hk Hi Ho) as (E1 & E2 & E3).
  assert (E0 : own (4 * k) L = []).
  { pose proof (HS (4 * k)) as H. rewrite (seat_alone _ _ Hk) in H. pose proof (crowd_m _ _ _ H S0) as K. exact (ret_nil _ _ _ K). }
  unfold buffer_start. change (seen_by k L) with ([] ++ seen_by k L). apply (J_during _ _ _ _ _ [] (seen_by k L) (pl, ps)).
  - intros i _. reflexivity.
  - intros i [<-|[]]. rewrite P_Network.own_seen by lia. now rewrite Nat.add_0_r.
  - rewrite He. constructor.
  - rewrite P_Network.own_seen by lia. pose proof (HS (4 * k + 1)) as H. rewrite E1 in H. exact (crowd_m _ _ _ H S1).
  - rewrite P_Network.own_seen by lia. pose proof (HS (4 * k + 2)) as H. rewrite E2 in H. exact (crowd_m _ _ _ H S2).
  - rewrite P_Network.own_seen by lia. pose proof (HS (4 * k + 3)) as H. rewrite E3 in H. exact (crowd_c _ _ _ H S3).
Qed.

(** *** Going round *)
Fixpoint strip {A} (n : nat) (p : prog A) : prog A := match n, p with S n', Tau q => strip n' q | _, _ => p end.
Definition tstrip (n : nat) (t : task) : task := match t with TM p => TM (strip n p) | TC p => TC (strip n p) end.
Lemma strip_leaves {A} n : forall p : prog A, leaves p [] (strip n p).
Proof. induction n as [|n IH]; intro p; [apply leaves_nil|]. destruct p; try apply leaves_nil. cbn. intros tr st H. constructor. exact (IH _ tr st H). Qed.
Lemma tstrip_leaves n t : tleaves t [] (tstrip n t).
Proof. destruct t; apply strip_leaves. Qed.
Definition ready (ts : tasks) : tasks := fun t => tstrip 8 (ts t).
Lemma ready_stood L ts : stood L ts -> stood L (ready ts).
Proof. intros H t. rewrite <- (app_nil_r (own t L)). eapply tleaves_app; [apply H|apply tstrip_leaves]. Qed.

Definition settled (ts : tasks) (k : nat) (c : comp) : bool :=
  match c with
  | NBuffer _ _ _ _ => settled_m (ts (4 * k)) && settled_m (ts (4 * k + 1)) && settled_m (ts (4 * k + 2)) && settled_c (ts (4 * k + 3))
  | _ => settled_m (ts (4 * k))
  end.
Definition at_rest_t (t : task) (w : world) : bool := match t with TM p => at_rest_b p w | TC p => at_rest_b p w end.
Definition rested (ts : tasks) (w : world) (t : nat) : bool :=
  match nth_error net (t / 4) with Some c => settled ts (t / 4) c | None => settled_m (ts t) end && at_rest_t (ts t) w.
Lemma rested_sound L ts w t : stood L ts -> within_order L -> In t ord -> rested ts w t = true -> task_rests net cs L t w.
Proof.
  intros HS HO Hin H. unfold rested in H. apply andb_prop in H. destruct H as [H1 H2]. split.
  - intros c Hk. rewrite Hk in H1. pose proof (order_comp t _ c Hin eq_refl Hk) as HT. remember (t / 4) as k eqn:Ek.
    assert (HA : forall p, match c with NBuffer _ _ _ _ | NLaunch _ _ _ => False | _ => True end -> seat net cs (4 * k) = TM p -> t = 4 * k -> settled_m (ts (4 * k)) = true -> exists st, alone p (seen_by k L) st /\ part_rests st (t mod 4) w).
    { intros p Hc Ep -> S1. exists (Before (mstatus (ts (4 * k)))). pose proof (HS (4 * k)) as K. rewrite Ep in K. pose proof (crowd_m _ _ _ K S1) as X. split; [split|].
      - exact (ords_idle k c L HO Hk Hc).
      - eexists. split; [reflexivity|]. rewrite P_Network.own_seen by lia. now rewrite Nat.add_0_r.
      - rewrite mod4. cbn [part_rests]. destruct (ts (4 * k)) as [q|q]; [|discriminate S1]. exact (at_rest_sound _ _ H2). }
    pose proof (seat_alone k c Hk) as ES. destruct c as [f s|r|b u mi mo|j|cwd vars la|d s]; cbn [comp_rests settled] in *.
    + apply (HA _ Logic.I ES); [cbn in HT; lia|exact H1].
    + apply (HA _ Logic.I ES); [cbn in HT; lia|exact H1].
    + apply andb_prop in H1. destruct H1 as [H1 S3]. apply andb_prop in H1. destruct H1 as [H1 S2]. apply andb_prop in H1. destruct H1 as [S0 S1].
      eexists. split; [exact (buffer_during _ _ _ _ _ _ _ Hk HS S0 S1 S2 S3)|].
      assert (Hd : t = 4 * k + t mod 4) by (rewrite Ek; apply Nat.div_mod; lia). assert (Hm : t mod 4 < 4) by (apply Nat.mod_upper_bound; lia).
      remember (t mod 4) as i eqn:Ei. clear Ei. destruct i as [|[|[|[|i]]]]; [exact Logic.I| | | |lia]; cbn [part_rests]; rewrite Hd in H2.
      * destruct (ts (4 * k + 1)); [|discriminate S1]. exact (at_rest_sound _ _ H2).
      * destruct (ts (4 * k + 2)); [|discriminate S2]. exact (at_rest_sound _ _ H2).
      * destruct (ts (4 * k + 3)); [discriminate S3|]. exact (at_rest_sound _ _ H2).
    + apply (HA _ Logic.I ES); [cbn in HT; lia|exact H1].
    + discriminate (playable_nth _ _ Hk).
    + apply (HA _ Logic.I ES); [cbn in HT; lia|exact H1].
  - intros m c -> Hm. rewrite div4 in H1. destruct (nth_error net (length net + m)) eqn:E; [exfalso; assert (K : nth_error net (length net + m) <> None) by congruence; apply nth_error_Some in K; lia|].
    pose proof (HS (4 * (length net + m))) as K. rewrite (seat_controller m c Hm) in K. eexists. split; [exact (crowd_m _ _ _ K H1)|].
    destruct (ts (4 * (length net + m))); [|discriminate H1]. exact (at_rest_sound _ _ H2).
Qed.

Fixpoint go_to (n : nat) (ts : tasks) (w : world) (p t : nat) : option nat :=
  match nth_error ord p with
  | None => None
  | Some t' => if t' =? t then Some p else
    match n with O => None | S n' => if rested ts w t' then go_to n' ts w (next_place ord p) t else None end
  end.
Lemma go_sound n w0 : forall L ts w p t p', stood L ts -> within_order L -> go_to n ts w p t = Some p' -> in_rounds net cs w0 L p w -> in_rounds net cs w0 L p' w /\ nth_error ord p' = Some t.
Proof.
  induction n as [|n IH]; intros L ts w p t p' HS HO H HR; cbn [go_to] in H; destruct (nth_error ord p) as [t'|] eqn:E; try discriminate H; destruct (Nat.eqb_spec t' t) as [->|_]; try (injection H as <-; auto; fail); [discriminate H|].
  destruct (rested ts w t') eqn:R; [|discriminate H]. refine (IH _ _ _ _ _ _ HS HO H _). eapply IR_pass; [exact HR|exact E|]. apply (rested_sound _ ts); auto. eapply nth_error_In. exact E.
Qed.
Fixpoint round_and_round {O : outside} {Z : pausing} (fuel : nat) (sched : list nat) (rs : list bytes) (ts : tasks) (w : world) (p : nat) : bool :=
  match sched with
  | [] => true
  | i :: r =>
    match go_to (S (length ord)) (ready ts) w p i with
    | None => false
    | Some p' => let '(tr, t', w1, rs1) := tact fuel rs (ts i) w in round_and_round fuel r rs1 (put i t' ts) w1 p'
    end
  end.
Lemma rounds_by w0 p t tr : forall L w w', in_rounds net cs w0 L p w -> nth_error ord p = Some t -> wrun w (map (pair t) tr) w' -> in_rounds net cs w0 (L ++ map (pair t) tr) p w'.
Proof.
  induction tr as [|ev tr IH]; intros L w w' HR Hp HW; cbn [map] in *; inversion HW; subst; [now rewrite app_nil_r|].
  change ((t, ev) :: map (pair t) tr) with ([(t, ev)] ++ map (pair t) tr). rewrite app_assoc. eapply IH; [|exact Hp|eassumption]. eapply IR_act; eassumption.
Qed.
Lemma stood_put L ts i tr t' : stood L ts -> tleaves (ts i) tr t' -> stood (L ++ map (pair i) tr) (put i t' ts).
Proof.
  intros HS HL t. rewrite own_app, own_map. unfold put. destruct (Nat.eqb_spec t i) as [->|Hn].
  - rewrite Nat.eqb_refl. eapply tleaves_app; [apply HS|exact HL].
  - destruct (Nat.eqb_spec i t); [congruence|]. rewrite app_nil_r. apply HS.
Qed.
Lemma rounds_sound {O : outside} {Z : pausing} w0 fuel sched : forall rs ts w L p, stood L ts -> within_order L -> in_rounds net cs w0 L p w -> round_and_round fuel sched rs ts w p = true ->
  exists p', in_rounds net cs w0 (L ++ fst (fst (crowd fuel sched rs ts w))) p' (snd (crowd fuel sched rs ts w)) /\ within_order (L ++ fst (fst (crowd fuel sched rs ts w))).
Proof.
  induction sched as [|i sched IH]; intros rs ts w L p HS HO HR HI; cbn [round_and_round crowd] in HI |- *.
  - exists p. cbn. rewrite app_nil_r. auto.
  - destruct (go_to (S (length ord)) (ready ts) w p i) as [p'|] eqn:G; [|discriminate HI]. destruct (go_sound _ _ _ _ _ _ _ _ (ready_stood _ _ HS) HO G HR) as [HR' Hp].
    destruct (tact fuel rs (ts i) w) as [[[tr t'] w1] rs1] eqn:ET. destruct (tact_sound _ _ _ _ _ _ _ _ ET) as [T1 T2].
    destruct (crowd fuel sched rs1 (put i t' ts) w1) as [[l1 ts1] w2] eqn:EC. cbn [fst snd].
    assert (HO' : within_order (L ++ map (pair i) tr)).
    { intros t ev H. apply in_app_or in H. destruct H as [H|H]; [exact (HO _ _ H)|]. apply in_map_iff in H. destruct H as (x & [= <- _] & _). eapply nth_error_In. exact Hp. }
    destruct (IH rs1 (put i t' ts) w1 (L ++ map (pair i) tr) p' (stood_put _ _ _ _ _ HS T1) HO' (rounds_by _ _ _ _ _ _ _ HR' Hp (T2 i)) HI) as (q & Q1 & Q2).
    rewrite EC in Q1, Q2. cbn [fst snd] in Q1, Q2. exists q. rewrite app_assoc. auto.
Qed.

(** *** Where everybody is *)
Definition is_panic {A} (s : status A) : bool := match s with Panicked _ => true | _ => false end.
Definition seat_outcome (ts : tasks) (k : nat) : S_Net.outcome :=
  match nth_error net k with
  | Some (NBuffer _ _ _ _) =>
    match mstatus (ts (4 * k + 1)), mstatus (ts (4 * k + 2)), cstatus (ts (4 * k + 3)) with
    | Done a, Done b, Done c => Ended (buffer_result a b c)
    | a, b, c => if is_panic a || is_panic b || is_panic c then Broken else Going
    end
  | _ => outcome_of (A := mres nat) (B := mres nat) (C := option nat) (Before (mstatus (ts (4 * k))))
  end.
Definition all_settled (ts : tasks) : bool :=
  forallb (fun k => match nth_error net k with Some c => settled ts k c | None => settled_m (ts (4 * k)) end) (seq 0 (length net + length cs)).
Lemma stood_free L ts w0 w : stood L ts -> within_order L -> all_settled ts = true -> wrun w0 L w -> made_world net w0 -> free_run net cs w0 L w (seat_outcome ts).
Proof.
  intros HS HO HA HW HM. assert (HK : forall k, k < length net + length cs -> match nth_error net k with Some c => settled ts k c | None => settled_m (ts (4 * k)) end = true).
  { intros k Hk. unfold all_settled in HA. rewrite forallb_forall in HA. apply HA. apply in_seq. lia. }
  split; auto.
  - intros k c Hk. assert (Hl : k < length net) by (apply nth_error_Some; congruence). specialize (HK k ltac:(lia)). rewrite Hk in HK.
    assert (HX : forall p, match c with NBuffer _ _ _ _ | NLaunch _ _ _ => False | _ => True end -> seat net cs (4 * k) = TM p -> settled_m (ts (4 * k)) = true -> exists st, alone p (seen_by k L) st /\ seat_outcome ts k = outcome_of st).
    { intros p Hc Ep S1. exists (Before (mstatus (ts (4 * k)))). pose proof (HS (4 * k)) as K. rewrite Ep in K. pose proof (crowd_m _ _ _ K S1) as X. split; [split|].
      - exact (ords_idle k c L HO Hk Hc).
      - eexists. split; [reflexivity|]. rewrite P_Network.own_seen by lia. now rewrite Nat.add_0_r.
      - unfold seat_outcome. rewrite Hk. destruct c; try reflexivity. destruct Hc. }
    pose proof (seat_alone k c Hk) as ES. destruct c as [f s|r|b u mi mo|j|cwd vars la|d s]; cbn [comp_runs settled] in *; try (exact (HX _ Logic.I ES HK)).
    + apply andb_prop in HK. destruct HK as [HK S3]. apply andb_prop in HK. destruct HK as [HK S2]. apply andb_prop in HK. destruct HK as [S0 S1].
      pose proof (buffer_during _ _ _ _ _ _ _ Hk HS S0 S1 S2 S3) as HD. unfold seat_outcome. rewrite Hk. clear HX.
      destruct (playable_buffer _ _ _ _ (playable_nth _ _ Hk)) as (pl & ps & Hi & Ho & He). destruct (seat_buffer _ _ _ _ _ _ _ Hk Hi Ho) as (E1 & E2 & E3).
      pose proof (HS (4 * k + 1)) as X1. rewrite E1 in X1. pose proof (crowd_m _ _ _ X1 S1) as Y1. pose proof (HS (4 * k + 2)) as X2. rewrite E2 in X2. pose proof (crowd_m _ _ _ X2 S2) as Y2.
      pose proof (HS (4 * k + 3)) as X3. rewrite E3 in X3. pose proof (crowd_c _ _ _ X3 S3) as Y3.
      pose proof (HS (4 * k)) as X0. rewrite ES in X0. pose proof (crowd_m _ _ _ X0 S0) as Y0.
      destruct (mstatus (ts (4 * k + 1))) as [e1|a1|s1] eqn:M1; destruct (mstatus (ts (4 * k + 2))) as [e2|a2|s2] eqn:M2; destruct (cstatus (ts (4 * k + 3))) as [e3|a3|s3] eqn:M3;
        try (eexists; split; [exact HD|split; [exact Logic.I|reflexivity]]).
      exists (After (Done (buffer_result a1 a2 a3))). split; [|split; [exact Logic.I|reflexivity]].
      unfold buffer_start. rewrite <- (app_nil_r (seen_by k L)). change (seen_by k L ++ []) with ([] ++ seen_by k L ++ []). apply (J_after _ _ _ _ _ [] (seen_by k L) [] (pl, ps) a1 a2 a3).
      * intros i _. reflexivity.
      * intros i [<-|[]]. rewrite P_Network.own_seen by lia. rewrite Nat.add_0_r. exact (ret_nil _ _ _ Y0).
      * intros i _. reflexivity.
      * rewrite He. constructor.
      * rewrite P_Network.own_seen by lia. exact Y1.
      * rewrite P_Network.own_seen by lia. exact Y2.
      * rewrite P_Network.own_seen by lia. exact Y3.
      * constructor.
    + discriminate (playable_nth _ _ Hk).
  - intros m c Hm. assert (Hl : m < length cs) by (apply nth_error_Some; congruence). specialize (HK (length net + m) ltac:(lia)).
    destruct (nth_error net (length net + m)) eqn:E; [exfalso; assert (K : nth_error net (length net + m) <> None) by congruence; apply nth_error_Some in K; lia|].
    pose proof (HS (4 * (length net + m))) as K. rewrite (seat_controller m c Hm) in K. eexists. split; [exact (crowd_m _ _ _ K HK)|]. unfold seat_outcome. now rewrite E.
Qed.
Theorem played_whole {O : outside} {Z : pausing} fuel sched rs w0 :
  round_and_round fuel sched rs (seat net cs) w0 0 = true ->
  all_settled (ready (snd (fst (crowd fuel sched rs (seat net cs) w0)))) = true ->
  made_world net w0 ->
  whole_run net cs w0 (fst (fst (crowd fuel sched rs (seat net cs) w0))) (snd (crowd fuel sched rs (seat net cs) w0)) (seat_outcome (ready (snd (fst (crowd fuel sched rs (seat net cs) w0))))).
Proof.
  intros HR HA HM. destruct (crowd_run fuel sched rs (seat net cs) w0) as [HW HS].
  destruct (rounds_sound w0 fuel sched rs (seat net cs) w0 [] 0) as (p & P1 & P2); auto; try (intro t; apply tleaves_nil); try (intros ? ? []); [constructor|]. cbn [app] in P1, P2.
  split; [|exists p; exact P1]. apply stood_free; auto. apply ready_stood. exact HS.
Qed.

(** *** Nobody can go on *)
Lemma cut_own t e a (l l' : list nevent) : own t (l ++ (t, (e, a)) :: l') = own t l ++ (e, a) :: own t l'.
Proof. rewrite own_app, own_one, Nat.eqb_refl. reflexivity. Qed.
Lemma free_next w0 l t e a l' w ocs : free_run net cs w0 (l ++ (t, (e, a)) :: l') w ocs -> seat_exec (seat net cs t) (own t l) e.
Proof.
  intro HX. assert (Hin : In t ord) by (apply (fr_only _ _ _ _ _ _ HX t (e, a)); apply in_or_app; right; now left).
  destruct (nth_error net (t / 4)) as [c|] eqn:Hk.
  - pose proof (order_comp t _ c Hin eq_refl Hk) as HT. pose proof (fr_comps _ _ _ _ _ _ HX _ _ Hk) as HC. remember (t / 4) as k eqn:Ek. pose proof (seat_alone k c Hk) as ES.
    assert (HA : forall p st, t = 4 * k -> alone p (seen_by k (l ++ (t, (e, a)) :: l')) st -> exec p (own t l) (At e)).
    { intros p st -> (_ & s & _ & X). rewrite P_Network.own_seen, Nat.add_0_r, cut_own in X by lia. exact (exec_prefix _ _ _ X _ _ _ _ eq_refl). }
    destruct c as [f s|r|b u mi mo|j|cwd vars la|d s]; cbn [comp_runs] in HC.
    + destruct HC as (st & HC & _). assert (Et : t = 4 * k) by (cbn in HT; lia). specialize (HA _ _ Et HC). rewrite Et at 1. rewrite ES. exact HA.
    + destruct HC as (st & HC & _). assert (Et : t = 4 * k) by (cbn in HT; lia). specialize (HA _ _ Et HC). rewrite Et at 1. rewrite ES. exact HA.
    + destruct HC as (st & HC & _). clear HA. destruct (playable_buffer _ _ _ _ (playable_nth _ _ Hk)) as (pl & ps & Hi & Ho & He). destruct (seat_buffer _ _ _ _ _ _ _ Hk Hi Ho) as (E1 & E2 & E3).
      unfold buffer_start in HC. rewrite He in HC.
      assert (HL : forall i, i < 4 -> t = 4 * k + i -> own i (seen_by k (l ++ (t, (e, a)) :: l')) = own t l ++ (e, a) :: own t l').
      { intros i Hi4 Et. rewrite P_Network.own_seen, <- Et by exact Hi4. apply cut_own. }
      assert (HJ : own 0 (seen_by k (l ++ (t, (e, a)) :: l')) = [] /\ (idle [1; 2; 3] (seen_by k (l ++ (t, (e, a)) :: l')) \/ exists a1 b1 c1, exec (half_a u mi (pl, ps)) (own 1 (seen_by k (l ++ (t, (e, a)) :: l'))) a1 /\
        exec (half_b u mo None (pl, ps)) (own 2 (seen_by k (l ++ (t, (e, a)) :: l'))) b1 /\ exec (total_in_buffer (bf_monitor b) mi mo) (own 3 (seen_by k (l ++ (t, (e, a)) :: l'))) c1)).
      { revert HC. generalize (seen_by k (l ++ (t, (e, a)) :: l')). clear. intros X HC.
        destruct HC as [L e0 Hi HX|L s Hi HX|L r Hi HX|L0 L x a b0 c K0 K1 HX HA HB HZ|L0 L L1 x a b0 c st K0 K1 K2 HX HA HB HZ HF].
        - split; [exact (ret_nil _ _ _ HX)|now left].
        - split; [exact (ret_nil _ _ _ HX)|now left].
        - split; [exact (ret_nil _ _ _ HX)|now left].
        - assert (x = (pl, ps)) by (inversion HX; reflexivity). subst x. rewrite !own_app, (K1 0), (ret_nil _ _ _ HX), (K0 1), (K0 2), (K0 3) by (cbn; auto). split; [reflexivity|]. right. eauto 6.
        - assert (x = (pl, ps)) by (inversion HX; reflexivity). subst x. rewrite !own_app, (K1 0), (ret_nil _ _ _ HX), (ret_nil _ _ _ HF), (K0 1), (K0 2), (K0 3), (K2 1), (K2 2), (K2 3), !app_nil_r by (cbn; auto).
          split; [reflexivity|]. right. eauto 6. }
      destruct HJ as [J0 HJ].
      assert (HI : forall i, 0 < i < 4 -> t = 4 * k + i -> ~ idle [1; 2; 3] (seen_by k (l ++ (t, (e, a)) :: l'))).
      { intros i Hi4 Et X. specialize (X i ltac:(cbn; lia)). rewrite (HL i) in X by lia. destruct (own t l); discriminate X. }
      assert (K : t = 4 * k + 0 \/ t = 4 * k + 1 \/ t = 4 * k + 2 \/ t = 4 * k + 3) by (cbn in HT; lia). destruct K as [K|[K|[K|K]]].
      * rewrite (HL 0 ltac:(lia) K) in J0. destruct (own t l); discriminate J0.
      * destruct HJ as [HJ|(a1 & b1 & c1 & X1 & X2 & X3)]; [destruct (HI 1 ltac:(lia) K HJ)|]. rewrite (HL 1 ltac:(lia) K) in X1. rewrite K at 1. rewrite E1. exact (exec_prefix _ _ _ X1 _ _ _ _ eq_refl).
      * destruct HJ as [HJ|(a1 & b1 & c1 & X1 & X2 & X3)]; [destruct (HI 2 ltac:(lia) K HJ)|]. rewrite (HL 2 ltac:(lia) K) in X2. rewrite K at 1. rewrite E2. exact (exec_prefix _ _ _ X2 _ _ _ _ eq_refl).
      * destruct HJ as [HJ|(a1 & b1 & c1 & X1 & X2 & X3)]; [destruct (HI 3 ltac:(lia) K HJ)|]. rewrite (HL 3 ltac:(lia) K) in X3. rewrite K at 1. rewrite E3. exact (exec_prefix _ _ _ X3 _ _ _ _ eq_refl).
    + destruct HC as (st & HC & _). assert (Et : t = 4 * k) by (cbn in HT; lia). specialize (HA _ _ Et HC). rewrite Et at 1. rewrite ES. exact HA.
    + discriminate (playable_nth _ _ Hk).
    + destruct HC as (st & HC & _). assert (Et : t = 4 * k) by (cbn in HT; lia). specialize (HA _ _ Et HC). rewrite Et at 1. rewrite ES. exact HA.
  - destruct (order_rest t Hin Hk) as (m & Et & Hm). destruct (nth_error cs m) as [c|] eqn:Hc; [|apply nth_error_None in Hc; lia].
    destruct (fr_controllers _ _ _ _ _ _ HX _ _ Hc) as (st & X & _). rewrite <- Et, cut_own in X. rewrite Et at 1. rewrite (seat_controller m c Hc). exact (exec_prefix _ _ _ X _ _ _ _ eq_refl).
Qed.

Definition stuck_b {A} (p : prog A) (w : world) : bool :=
  match p with
  | Ret _ | Panic _ => true
  | Tau _ => false
  | Vis e _ => match on_chan e with None => false | Some _ => match answer kind_world w e with None => true | _ => false end end
  end.
Definition stuck_t (t : task) (w : world) : bool := match t with TM p => stuck_b p w | TC p => stuck_b p w end.
Lemma stuck_sound {A} (p p' : prog A) w tr e : leaves p tr p' -> stuck_b p' w = true -> exec p tr (At e) -> forall a w', ~ wstep w (e, a) w'.
Proof.
  intros HL HS HX. assert (HY : exec p tr (status_of p')) by (rewrite <- (app_nil_r tr); apply HL; apply status_exec; destruct p'; auto; discriminate HS).
  pose proof (exec_det _ _ _ HX _ HY) as E. destruct p' as [x|s|q|e' k]; cbn in E, HS; try discriminate E; try discriminate HS. injection E as ->.
  destruct (on_chan e') eqn:Eo; [|discriminate HS]. destruct (answer kind_world w e') eqn:Ea; [discriminate HS|]. intros a w'. apply (answer_none _ _ _ Ea). congruence.
Qed.
Theorem stood_locked L ts w0 w : stood L ts -> wrun w0 L w -> forallb (fun t => stuck_t (ts t) w) ord = true -> whole_locked net cs w0 L.
Proof.
  intros HS HW HA [|[t [e a]] l'] w' ocs HX; [reflexivity|exfalso].
  pose proof (fr_world _ _ _ _ _ _ HX) as HR. apply wrun_app in HR. destruct HR as (w1 & H1 & H2). pose proof (wrun_det _ _ _ H1 _ HW). subst w1. inversion H2 as [|? ? w1 ? ? HT _]; subst.
  assert (Hin : In t ord) by (apply (fr_only _ _ _ _ _ _ HX t (e, a)); apply in_or_app; right; now left).
  rewrite forallb_forall in HA. specialize (HA t Hin). pose proof (free_next _ _ _ _ _ _ _ _ HX) as HE. specialize (HS t).
  destruct (seat net cs t) as [p|p], (ts t) as [p'|p']; cbn in HS, HA, HE; try contradiction; exact (stuck_sound _ _ _ _ _ HS HA HE _ _ HT).
Qed.
Theorem played_locked {O : outside} {Z : pausing} fuel sched rs w0 :
  forallb (fun t => stuck_t (ready (snd (fst (crowd fuel sched rs (seat net cs) w0))) t) (snd (crowd fuel sched rs (seat net cs) w0))) ord = true ->
  whole_locked net cs w0 (fst (fst (crowd fuel sched rs (seat net cs) w0))).
Proof. intro H. destruct (crowd_run fuel sched rs (seat net cs) w0) as [HW HS]. exact (stood_locked _ _ _ _ (ready_stood _ _ HS) HW H). Qed.
End Whole.
