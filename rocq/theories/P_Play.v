(** * P_Play: playing runs out, for examples *)
From Coq Require Import Ascii String List Bool Arith Lia.
From Verif Require Import M_Prog P_Prog P_Exec S_Trace S_World P_World M_Poll P_BufferJoint.
Import ListNotations.

(** What a channel answers, if anything; for the rest [os] answers. *)
Definition answer (os : eff -> option ans) (w : world) (e : eff) : option (ans * world) :=
  match e with
  | ERecv c =>
    match cs_queue (w c) with
    | v :: q => Some (AMsg v, upd w c (CS (cs_cap (w c)) q (cs_closed (w c))))
    | [] => if cs_closed (w c) then Some (AClosed, w) else None
    end
  | ETryRecv c =>
    match cs_queue (w c) with
    | v :: q => Some (AMsg v, upd w c (CS (cs_cap (w c)) q (cs_closed (w c))))
    | [] => Some (if cs_closed (w c) then AClosed else AEmpty, w)
    end
  | ESend c v =>
    if cs_closed (w c) then Some (AClosed, w) else
    if match cs_cap (w c) with None => true | Some n => length (cs_queue (w c)) <? n end
    then Some (AOk, upd w c (CS (cs_cap (w c)) (cs_queue (w c) ++ [v]) false)) else None
  | EClose c => Some (AOk, upd w c (CS (cs_cap (w c)) (cs_queue (w c)) true))
  | EIsEmpty c => Some (ABool (is_nil (cs_queue (w c))), w)
  | EIsClosed c => Some (ABool (cs_closed (w c)), w)
  | _ => match os e with Some a => Some (a, w) | None => None end
  end.
Lemma answer_sound os w e a w' : answer os w e = Some (a, w') -> wt e a = true -> wstep w (e, a) w'.
Proof.
  intros H Hw. destruct e; cbn [answer] in H; try (match type of H with context [os ?x] => destruct (os x); [|discriminate H] end; injection H as <- <-; apply W_other; [reflexivity|exact Hw]).
  - destruct (cs_queue (w c)) eqn:E; [destruct (cs_closed (w c)) eqn:E'; [|discriminate H]|]; injection H as <- <-; [now apply W_recv_end|]. rewrite <- E' || idtac. now apply W_recv.
  - destruct (cs_queue (w c)) eqn:E; [destruct (cs_closed (w c)) eqn:E'|]; injection H as <- <-; [now apply W_try_end|now apply W_try_empty|now apply W_try].
  - destruct (cs_closed (w c)) eqn:E; [injection H as <- <-; now apply W_send_closed|].
    destruct (match cs_cap (w c) with None => true | Some n => length (cs_queue (w c)) <? n end) eqn:E'; [|discriminate H]. injection H as <- <-. apply W_send; [exact E|].
    unfold room. destruct (cs_cap (w c)); [now apply Nat.ltb_lt|exact I].
  - injection H as <- <-. apply W_close.
  - injection H as <- <-. apply W_is_empty.
  - injection H as <- <-. apply W_is_closed.
Qed.
Lemma answer_none os w e : answer os w e = None -> forall a w', on_chan e <> None -> ~ wstep w (e, a) w'.
Proof.
  intros H a w' Hc HW. destruct e; cbn [answer on_chan] in H, Hc; try contradiction; inversion HW; subst; try discriminate;
  repeat match goal with HQ : cs_queue _ = _ |- _ => rewrite HQ in * | HQ : cs_closed _ = _ |- _ => rewrite HQ in * end; try discriminate H.
  match goal with HQ : room _ |- _ => unfold room in HQ; destruct (cs_cap (w c)); [|discriminate H]; apply Nat.ltb_lt in HQ; rewrite HQ in H; discriminate H end.
Qed.

(** Run a program until it waits.  It waits at a sleep unless [awake]. *)
Fixpoint go {A} (os : eff -> option ans) (fuel : nat) (awake : bool) (p : prog A) (w : world) : option (trace * prog A * world) :=
  match fuel with
  | O => None
  | S fuel' =>
    match p with
    | Ret _ | Panic _ => Some ([], p, w)
    | Tau q => go os fuel' awake q w
    | Vis e k =>
      match e, awake with
      | ESleep _, false => Some ([], p, w)
      | _, _ =>
        match answer os w e with
        | None => Some ([], p, w)
        | Some (a, w') =>
          if wt e a then
            match go os fuel' false (k a) w' with
            | Some (tr, q, w2) => Some ((e, a) :: tr, q, w2)
            | None => None
            end
          else None
        end
      end
    end
  end.
Definition status_of {A} (p : prog A) : status A :=
  match p with Ret a => Done a | Panic s => Panicked s | Tau _ => Panicked "" | Vis e _ => At e end.
(** Reached: what is left after a trace. *)
Definition leaves {A} (p : prog A) (tr : trace) (q : prog A) : Prop := forall tr' st, exec q tr' st -> exec p (tr ++ tr') st.
Lemma leaves_nil {A} (p : prog A) : leaves p [] p.
Proof. intros tr' st H. exact H. Qed.
Lemma leaves_app {A} (p : prog A) t1 q t2 r : leaves p t1 q -> leaves q t2 r -> leaves p (t1 ++ t2) r.
Proof. intros H1 H2 tr' st H. rewrite <- app_assoc. apply H1, H2, H. Qed.

Lemma go_sound {A} os fuel : forall awake (p : prog A) w tr q w', go os fuel awake p w = Some (tr, q, w') ->
  leaves p tr q /\ (forall i, wrun w (map (pair i) tr) w') /\ rests (status_of q) w' /\ (match q with Tau _ => False | _ => True end).
Proof.
  induction fuel as [|fuel IH]; intros awake p w tr q w' H; cbn in H; [discriminate H|]. destruct p as [a|s|p|e k].
  - injection H as <- <- <-. repeat split; try apply leaves_nil. intro i. constructor.
  - injection H as <- <- <-. repeat split; try apply leaves_nil. intro i. constructor.
  - destruct (IH _ _ _ _ _ _ H) as (H1 & H2 & H3). split; [|split; [exact H2|exact H3]]. intros tr' st HX. constructor. now apply H1.
  - assert (HS : (tr = [] /\ q = Vis e k /\ w' = w /\ on_chan e = None) \/ (exists a w1, answer os w e = Some (a, w1) /\ wt e a = true /\ exists tr1, go os fuel false (k a) w1 = Some (tr1, q, w') /\ tr = (e, a) :: tr1) \/ (answer os w e = None /\ tr = [] /\ q = Vis e k /\ w' = w)).
    { destruct e; try (destruct (answer os w _) as [[a w1]|] eqn:E; [|right; right; split; [reflexivity|]; injection H as <- <- <-; now auto]; destruct (wt _ a) eqn:Hw; [|discriminate H]; destruct (go os fuel false (k a) w1) as [[[tr1 q1] w2]|] eqn:EG; [|discriminate H]; injection H as <- <- <-; right; left; now eauto 10).
      destruct awake; [|injection H as <- <- <-; left; now auto]. destruct (answer os w _) as [[a w1]|] eqn:E; [|right; right; split; [reflexivity|]; injection H as <- <- <-; now auto]; destruct (wt _ a) eqn:Hw; [|discriminate H]; destruct (go os fuel false (k a) w1) as [[[tr1 q1] w2]|] eqn:EG; [|discriminate H]; injection H as <- <- <-; right; left; now eauto 10. }
    clear H. destruct HS as [(-> & -> & -> & Hc)|[(a & w1 & HA & Hw & tr1 & HG & ->)|(HA & -> & -> & ->)]].
    + split; [apply leaves_nil|]. split; [intro i; constructor|]. split; [left; exact Hc|exact I].
    + destruct (IH _ _ _ _ _ _ HG) as (H1 & H2 & H3). split; [|split; [|exact H3]].
      * intros tr' st HX. cbn. constructor; [exact Hw|]. now apply H1.
      * intro i. cbn. econstructor; [apply (answer_sound _ _ _ _ _ HA Hw)|apply H2].
    + split; [apply leaves_nil|]. split; [intro i; constructor|]. split; [|exact I]. cbn. destruct (on_chan e) eqn:Ec; [|left; reflexivity]. right. intros a w' . apply (answer_none _ _ _ HA). rewrite Ec. discriminate.
Qed.

(** The other side: given events. *)
Fixpoint others_do (l : list eff) (w : world) : option (trace * world) :=
  match l with
  | [] => Some ([], w)
  | e :: r =>
    match answer (fun _ => Some AOk) w e with
    | Some (a, w1) => if wt e a then match others_do r w1 with Some (tr, w2) => Some ((e, a) :: tr, w2) | None => None end else None
    | None => None
    end
  end.
Lemma others_do_sound l : forall w tr w', others_do l w = Some (tr, w') -> forall i, wrun w (map (pair i) tr) w'.
Proof.
  induction l as [|e l IH]; intros w tr w' H i; cbn in H.
  - injection H as <- <-. constructor.
  - destruct (answer _ w e) as [[a w1]|] eqn:E; [|discriminate H]. destruct (wt e a) eqn:Hw; [|discriminate H]. destruct (others_do l w1) as [[tr1 w2]|] eqn:EO; [|discriminate H]. injection H as <- <-.
    cbn. econstructor; [exact (answer_sound _ _ _ _ _ E Hw)|]. now apply IH.
Qed.

Section Play.
Context {A B C : Type}.
Variables (p1 : prog A) (p2 : prog B) (p3 : prog C) (w0 : world).

Lemma polled_run_own L i w tr w' : polled p1 p2 p3 w0 L i w -> wrun w (map (pair i) tr) w' -> polled p1 p2 p3 w0 (L ++ map (pair i) tr) i w'.
Proof.
  revert L w. induction tr as [|ev tr IH]; intros L w HP HR; cbn in *.
  - inversion HR; subst. now rewrite app_nil_r.
  - inversion HR; subst. change (L ++ (i, ev) :: map (pair i) tr) with (L ++ [(i, ev)] ++ map (pair i) tr). rewrite app_assoc. eapply IH; [|eassumption]. eapply PO_own; eassumption.
Qed.
Lemma polled_run_other L i w tr w' : polled p1 p2 p3 w0 L i w -> wrun w (map (pair 4) tr) w' -> polled p1 p2 p3 w0 (L ++ map (pair 4) tr) i w'.
Proof.
  revert L w. induction tr as [|ev tr IH]; intros L w HP HR; cbn in *.
  - inversion HR; subst. now rewrite app_nil_r.
  - inversion HR; subst. change (L ++ (4, ev) :: map (pair 4) tr) with (L ++ [(4, ev)] ++ map (pair 4) tr). rewrite app_assoc. eapply IH; [|eassumption]. eapply PO_other; try eassumption; discriminate.
Qed.

(** Rounds of polling; before each round number 4 does what it is told. *)
Fixpoint play (os : eff -> option ans) (fuel : nat) (rounds : list (list eff)) (q1 : prog A) (q2 : prog B) (q3 : prog C) (w : world) : option (list nevent * prog A * prog B * prog C * world) :=
  match rounds with
  | [] => Some ([], q1, q2, q3, w)
  | es :: r =>
    match others_do es w with None => None | Some (t0, wa) =>
    match go os fuel true q1 wa with None => None | Some (t1, r1, wb) =>
    match go os fuel true q2 wb with None => None | Some (t2, r2, wc) =>
    match go os fuel true q3 wc with None => None | Some (t3, r3, wd) =>
    match play os fuel r r1 r2 r3 wd with None => None | Some (l, s1, s2, s3, we) =>
      Some (map (pair 4) t0 ++ map (pair 1) t1 ++ map (pair 2) t2 ++ map (pair 3) t3 ++ l, s1, s2, s3, we)
    end end end end end
  end.
Lemma status_exec {X} (q : prog X) : (match q with Tau _ => False | _ => True end) -> exec q [] (status_of q).
Proof. destruct q; intro H; try contradiction; constructor. Qed.
Lemma own_map i j tr : own i (map (pair j) tr) = if j =? i then tr else [].
Proof.
  induction tr as [|ev tr IH]; [now destruct (j =? i)|]. cbn [map]. change ((j, ev) :: map (pair j) tr) with ([(j, ev)] ++ map (pair j) tr). rewrite own_app, IH. unfold own. cbn. destruct (j =? i); reflexivity.
Qed.
Lemma play_sound os fuel rounds : forall L w q1 q2 q3, polled p1 p2 p3 w0 L 1 w -> leaves p1 (own 1 L) q1 -> leaves p2 (own 2 L) q2 -> leaves p3 (own 3 L) q3 ->
  forall l r1 r2 r3 w', play os fuel rounds q1 q2 q3 w = Some (l, r1, r2, r3, w') ->
  polled p1 p2 p3 w0 (L ++ l) 1 w' /\ leaves p1 (own 1 (L ++ l)) r1 /\ leaves p2 (own 2 (L ++ l)) r2 /\ leaves p3 (own 3 (L ++ l)) r3.
Proof.
  induction rounds as [|es rounds IH]; intros L w q1 q2 q3 HP L1 L2 L3 l r1 r2 r3 w' H; cbn [play] in H.
  - injection H as <- <- <- <- <-. rewrite app_nil_r. auto.
  - destruct (others_do es w) as [[t0 wa]|] eqn:E0; [|discriminate H].
    destruct (go os fuel true q1 wa) as [[[t1 s1] wb]|] eqn:E1; [|discriminate H].
    destruct (go os fuel true q2 wb) as [[[t2 s2] wc]|] eqn:E2; [|discriminate H].
    destruct (go os fuel true q3 wc) as [[[t3 s3] wd]|] eqn:E3; [|discriminate H].
    destruct (play os fuel rounds s1 s2 s3 wd) as [[[[[l' x1] x2] x3] we]|] eqn:E4; [|discriminate H]. injection H as <- <- <- <- <-.
    pose proof (others_do_sound _ _ _ _ E0) as R0. apply go_sound in E1, E2, E3. destruct E1 as (G1 & R1 & Q1 & T1), E2 as (G2 & R2 & Q2 & T2), E3 as (G3 & R3 & Q3 & T3).
    rewrite !app_assoc.
    assert (P0 := polled_run_other _ _ _ _ _ HP (R0 4)).
    assert (P1 := polled_run_own _ _ _ _ _ P0 (R1 1)).
    assert (O1 : leaves p1 (own 1 ((L ++ map (pair 4) t0) ++ map (pair 1) t1)) s1) by (rewrite !own_app, !own_map; cbn; rewrite app_nil_r; eapply leaves_app; eassumption).
    assert (X1 := O1 [] _ (status_exec _ T1)). rewrite app_nil_r in X1. pose proof (PO_pass1 _ _ _ _ _ _ _ P1 X1 Q1) as P1'.
    assert (P2 := polled_run_own _ _ _ _ _ P1' (R2 2)).
    assert (O2 : leaves p2 (own 2 (((L ++ map (pair 4) t0) ++ map (pair 1) t1) ++ map (pair 2) t2)) s2) by (rewrite !own_app, !own_map; cbn; rewrite !app_nil_r; eapply leaves_app; eassumption).
    assert (X2 := O2 [] _ (status_exec _ T2)). rewrite app_nil_r in X2. pose proof (PO_pass2 _ _ _ _ _ _ _ P2 X2 Q2) as P2'.
    assert (P3 := polled_run_own _ _ _ _ _ P2' (R3 3)).
    assert (O3 : leaves p3 (own 3 ((((L ++ map (pair 4) t0) ++ map (pair 1) t1) ++ map (pair 2) t2) ++ map (pair 3) t3)) s3) by (rewrite !own_app, !own_map; cbn; rewrite !app_nil_r; eapply leaves_app; eassumption).
    assert (X3 := O3 [] _ (status_exec _ T3)). rewrite app_nil_r in X3. pose proof (PO_pass3 _ _ _ _ _ _ _ P3 X3 Q3) as P3'.
    eapply IH; try eassumption.
    + rewrite !own_app, !own_map in *. cbn in *. rewrite !app_nil_r in *. exact O1.
    + rewrite !own_app, !own_map in *. cbn in *. rewrite !app_nil_r in *. exact O2.
Qed.
End Play.

Definition is_tau {X} (q : prog X) : bool := match q with Tau _ => true | _ => false end.
(** A played run and where it ended. *)
Definition played {A B C} (os : eff -> option ans) (rounds : list (list eff)) (p1 : prog A) (p2 : prog B) (p3 : prog C) (w0 : world)
  (L : list nevent) (s1 : status A) (s2 : status B) (s3 : status C) : Prop :=
  match play os 1000 rounds p1 p2 p3 w0 with
  | Some (l, q1, q2, q3, _) => l = L /\ status_of q1 = s1 /\ status_of q2 = s2 /\ status_of q3 = s3 /\ is_tau q1 || is_tau q2 || is_tau q3 = false
  | None => False
  end.
Lemma played_sound {A B C} os rounds (p1 : prog A) (p2 : prog B) (p3 : prog C) w0 L s1 s2 s3 : played os rounds p1 p2 p3 w0 L s1 s2 s3 ->
  (exists w, polled p1 p2 p3 w0 L 1 w) /\ exec p1 (own 1 L) s1 /\ exec p2 (own 2 L) s2 /\ exec p3 (own 3 L) s3.
Proof.
  unfold played. destruct (play os 1000 rounds p1 p2 p3 w0) as [[[[[l q1] q2] q3] w]|] eqn:E; [|contradiction]. intros (-> & <- & <- & <- & HT).
  destruct (play_sound p1 p2 p3 w0 os 1000 rounds [] w0 p1 p2 p3 (PO_start _ _ _ _) (leaves_nil _) (leaves_nil _) (leaves_nil _) _ _ _ _ _ E) as (HP & H1 & H2 & H3). cbn [app] in *.
  apply orb_false_elim in HT. destruct HT as [HT T3]. apply orb_false_elim in HT. destruct HT as [T1 T2].
  split; [eauto|]. split; [|split].
  - rewrite <- (app_nil_r (own 1 L)). apply H1, status_exec. now destruct q1.
  - rewrite <- (app_nil_r (own 2 L)). apply H2, status_exec. now destruct q2.
  - rewrite <- (app_nil_r (own 3 L)). apply H3, status_exec. now destruct q3.
Qed.

(** A run of the channels and what holds at its end. *)
Lemma wrun_labels i l : forall w w', wrun w (map (pair i) (all_of l)) w' -> wrun w l w'.
Proof. induction l as [|[k ev] l IH]; intros w w' H; cbn in H; inversion H; subst; econstructor; eauto. Qed.
Lemma channels_run L w (P : world -> Prop) :
  match others_do (map fst (all_of L)) w with Some (t, w') => t = all_of L /\ P w' | None => False end -> exists w', wrun w L w' /\ P w'.
Proof.
  destruct (others_do _ w) as [[t w']|] eqn:E; [|contradiction]. intros [-> HP]. exists w'. split; [|exact HP]. apply (wrun_labels 0). exact (others_do_sound _ _ _ _ E 0).
Qed.
