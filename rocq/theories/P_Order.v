(** * P_Order: telling from a schedule that the parts of a buffer were polled in turn, for examples *)
From Coq Require Import Ascii String List Bool Arith Lia.
From Verif Require Import M_Prog P_Prog P_Exec M_Motion M_Buffer M_Join M_Poll S_Trace S_Motion S_World S_Buffer S_Network S_Net P_Play P_World P_Network P_Link P_Crowd P_NetMoves P_Net P_Turn.
From Verif Require P_Network.
Import ListNotations.

Definition at_rest_b {A} (p : prog A) (w : world) : bool :=
  match p with
  | Ret _ | Panic _ => true
  | Tau _ => false
  | Vis e _ => match on_chan e with None => true | Some _ => match answer kind_world w e with None => true | _ => false end end
  end.
Lemma at_rest_sound {A} (p : prog A) w : at_rest_b p w = true -> rests (status_of p) w.
Proof.
  destruct p as [a|s|p|e k]; cbn; try discriminate; auto. intro H. destruct (on_chan e) eqn:E; [right|now left].
  destruct (answer kind_world w e) eqn:Ea; [discriminate H|]. intros a w'. apply (answer_none _ _ _ Ea). congruence.
Qed.
Definition rest_m (t : task) (w : world) : bool := match t with TM p => at_rest_b p w | TC _ => false end.
Definition rest_c (t : task) (w : world) : bool := match t with TC p => at_rest_b p w | TM _ => false end.
Lemma rest_m_sound t w : rest_m t w = true -> settled_m t = true /\ rests (mstatus t) w.
Proof. destruct t as [p|p]; [|discriminate]. intro H. split; [destruct p; try reflexivity; discriminate H|]. now apply at_rest_sound. Qed.
Lemma rest_c_sound t w : rest_c t w = true -> settled_c t = true /\ rests (cstatus t) w.
Proof. destruct t as [p|p]; [discriminate|]. intro H. split; [destruct p; try reflexivity; discriminate H|]. now apply at_rest_sound. Qed.

(** The turn passes from part [cur] to part [t], at most [n] times. *)
Definition passes (ts : tasks) (w : world) (k cur : nat) : option nat :=
  match cur with
  | 1 => if rest_m (ts (4 * k + 1)) w then Some 2 else None
  | 2 => if rest_m (ts (4 * k + 2)) w then Some 3 else None
  | 3 => if rest_c (ts (4 * k + 3)) w then Some 1 else None
  | _ => None
  end.
Fixpoint turn_to (n : nat) (ts : tasks) (w : world) (k cur t : nat) : bool :=
  if cur =? t then true else
  match n with O => false | S n' => match passes ts w k cur with Some cur' => turn_to n' ts w k cur' t | None => false end end.
Fixpoint in_order {O : outside} {Z : pausing} (fuel : nat) (sched : list nat) (rs : list bytes) (ts : tasks) (w : world) (k cur : nat) : bool :=
  match sched with
  | [] => true
  | i :: r =>
    let '(tr, t', w1, rs1) := tact fuel rs (ts i) w in
    if i / 4 =? k
    then if i mod 4 =? 0 then false else if turn_to 3 ts w k cur (i mod 4) then in_order fuel r rs1 (put i t' ts) w1 k (i mod 4) else false
    else in_order fuel r rs1 (put i t' ts) w1 k cur
  end.

Section Poll.
Variables (p1 p2 : prog (mres nat)) (p3 : prog (option nat)) (w0 : world) (k : nat).
Definition stand (L : list nevent) (ts : tasks) : Prop :=
  tleaves (TM p1) (own 1 L) (ts (4 * k + 1)) /\ tleaves (TM p2) (own 2 L) (ts (4 * k + 2)) /\ tleaves (TC p3) (own 3 L) (ts (4 * k + 3)).
Lemma turn_sound n : forall L ts w cur t, stand L ts -> turn_to n ts w k cur t = true -> polled p1 p2 p3 w0 L cur w -> polled p1 p2 p3 w0 L t w.
Proof.
  induction n as [|n IH]; intros L ts w cur t HS HT HP; cbn [turn_to] in HT; destruct (Nat.eqb_spec cur t) as [->|_]; try exact HP; [discriminate HT|].
  destruct (passes ts w k cur) as [cur'|] eqn:E; [|discriminate HT]. apply (IH _ _ _ _ _ HS HT). clear HT IH. destruct HS as (S1 & S2 & S3).
  destruct cur as [|[|[|[|cur]]]]; try discriminate E; unfold passes in E.
  - destruct (rest_m (ts (4 * k + 1)) w) eqn:R; [|discriminate E]. injection E as <-. destruct (rest_m_sound _ _ R). eapply PO_pass1; [exact HP|exact (crowd_m _ _ _ S1 H)|assumption].
  - destruct (rest_m (ts (4 * k + 2)) w) eqn:R; [|discriminate E]. injection E as <-. destruct (rest_m_sound _ _ R). eapply PO_pass2; [exact HP|exact (crowd_m _ _ _ S2 H)|assumption].
  - destruct (rest_c (ts (4 * k + 3)) w) eqn:R; [|discriminate E]. injection E as <-. destruct (rest_c_sound _ _ R). eapply PO_pass3; [exact HP|exact (crowd_c _ _ _ S3 H)|assumption].
Qed.
Lemma stand_put L ts i tr t' : stand L ts -> tleaves (ts i) tr t' -> stand (L ++ seen_by k (map (pair i) tr)) (put i t' ts).
Proof.
  assert (HO : forall t, t < 4 -> own t (seen_by k (map (pair i) tr)) = if 4 * k + t =? i then tr else []).
  { intros t Ht. rewrite P_Network.own_seen by exact Ht. rewrite own_map, Nat.eqb_sym. reflexivity. }
  assert (HT : forall t p, t < 4 -> tleaves (ts i) tr t' -> tleaves p (own t L) (ts (4 * k + t)) -> tleaves p (own t (L ++ seen_by k (map (pair i) tr))) (put i t' ts (4 * k + t))).
  { intros t p Ht HL HP. rewrite own_app, (HO t Ht). unfold put. destruct (Nat.eqb_spec (4 * k + t) i) as [<-|_]; [eapply tleaves_app; eassumption|now rewrite app_nil_r]. }
  intros (S1 & S2 & S3) HL. split; [|split]; apply HT; auto; lia.
Qed.
Lemma order_sound {O : outside} {Z : pausing} fuel sched : forall rs ts w L cur, stand L ts -> polled p1 p2 p3 w0 L cur w -> in_order fuel sched rs ts w k cur = true ->
  exists cur' w', polled p1 p2 p3 w0 (L ++ seen_by k (fst (fst (crowd fuel sched rs ts w)))) cur' w'.
Proof.
  induction sched as [|i sched IH]; intros rs ts w L cur HS HP HI; cbn [in_order crowd] in HI |- *.
  - exists cur, w. cbn. now rewrite app_nil_r.
  - destruct (tact fuel rs (ts i) w) as [[[tr t'] w1] rs1] eqn:ET. destruct (tact_sound _ _ _ _ _ _ _ _ ET) as [T1 T2].
    destruct (crowd fuel sched rs1 (put i t' ts) w1) as [[l1 ts1] w2] eqn:EC. cbn [fst]. rewrite seen_app, app_assoc.
    replace l1 with (fst (fst (crowd fuel sched rs1 (put i t' ts) w1))) by (now rewrite EC).
    pose proof (stand_put L ts i tr t' HS T1) as HS'. destruct (Nat.eqb_spec (i / 4) k) as [Ek|Ek].
    + destruct (Nat.eqb_spec (i mod 4) 0) as [E0|E0]; [discriminate HI|]. destruct (turn_to 3 ts w k cur (i mod 4)) eqn:Et; [|discriminate HI].
      pose proof (turn_sound _ _ _ _ _ _ HS Et HP) as HP'. assert (Hm : i mod 4 < 4) by (apply Nat.mod_upper_bound; lia).
      assert (Ei : i = 4 * k + i mod 4) by (rewrite <- Ek; apply Nat.div_mod; lia).
      refine (IH _ _ _ _ _ HS' _ HI). change (map (pair i) tr) with (by_task i tr). rewrite Ei at 1. rewrite seen_mine by exact Hm. eapply polled_by; [exact HP'|apply T2].
    + refine (IH _ _ _ _ _ HS' _ HI). eapply polled_others; [exact HP| |].
      * pose proof (T2 0) as HW. apply (wrun_map (fun _ => if i / 4 =? k then i mod 4 else 4 + i)) in HW. unfold seen_by. rewrite map_map in HW |- *. exact HW.
      * intros j ev Hj. destruct (seen_in _ _ _ _ Hj) as (i' & H1 & ->). apply in_map_iff in H1. destruct H1 as (x & H1 & _). injection H1 as <- _. rewrite (proj2 (Nat.eqb_neq _ _) Ek). lia.
Qed.
End Poll.

(** A run played by the crowd is in turn if its schedule is. *)
Lemma crowd_turn {O : outside} {Z : pausing} net w0 fuel sched rs ts E : fst (fst (crowd fuel sched rs ts w0)) = E ->
  (forall k b u mi mo pl ps, nth_error net k = Some (NBuffer b u mi mo) -> bf_stdin b = Some pl -> bf_stdout b = Some ps ->
    ts (4 * k + 1) = TM (half_a u mi (pl, ps)) /\ ts (4 * k + 2) = TM (half_b u mo None (pl, ps)) /\ ts (4 * k + 3) = TC (total_in_buffer (bf_monitor b) mi mo) /\
    in_order fuel sched rs ts w0 k 1 = true) -> in_turn net w0 E.
Proof.
  intros HE H k b u mi mo pl ps Hk E1 E2. destruct (H _ _ _ _ _ _ _ Hk E1 E2) as (T1 & T2 & T3 & HI). rewrite <- HE.
  destruct (order_sound (half_a u mi (pl, ps)) (half_b u mo None (pl, ps)) (total_in_buffer (bf_monitor b) mi mo) w0 k fuel sched rs ts w0 [] 1) as (cur & w' & HP).
  - unfold stand. rewrite T1, T2, T3. split; [|split]; apply leaves_nil.
  - constructor.
  - exact HI.
  - exists cur, w'. exact HP.
Qed.
