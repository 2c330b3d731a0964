(** * P_NetExamples: networks that have run *)
From Coq Require Import Ascii String List Bool Arith Lia ZArith.
From Verif Require Import M_Prog P_Prog P_Exec M_Motion M_Regulator M_Faucet M_Drain M_Buffer M_Junction M_Launch M_Join S_Trace S_Lines S_Motion S_World S_Launch S_Regulator S_Drain S_Buffer S_Junction S_Network S_Net.
From Verif Require Import P_World P_Play P_Crowd P_NetStart.
From Verif Require P_Network.
Import ListNotations.
Local Open Scope string_scope.

(** What the scheduler of P_Crowd has done is a run. *)
Section Played.
Context {O : outside} {Z : pausing}.
Variables (fuel : nat) (sched : list nat) (rs : list bytes) (ts : tasks) (w0 : world) (E : list nevent).
Notation R := (crowd fuel sched rs ts w0).
Hypothesis HE : fst (fst R) = E.

Lemma played_sound : wrun w0 E (snd R) /\ forall i, tleaves (ts i) (own i E) (snd (fst R) i).
Proof. rewrite <- HE. exact (crowd_run fuel sched rs ts w0). Qed.
Lemma idle_by is (l : list nevent) : forallb (fun x => negb (existsb (Nat.eqb (fst x)) is)) l = true -> idle is l.
Proof.
  induction l as [|[t ev] l IH]; intros H i Hi; [reflexivity|]. cbn [forallb fst] in H. apply andb_prop in H. destruct H as [H1 H2].
  rewrite own_one. destruct (Nat.eqb_spec t i) as [->|N]; [|exact (IH H2 i Hi)]. exfalso. apply negb_true_iff in H1.
  assert (X : existsb (Nat.eqb i) is = true) by (apply existsb_exists; exists i; split; [exact Hi|apply Nat.eqb_refl]). congruence.
Qed.
Lemma played_m k i p st : i < 4 -> ts (4 * k + i) = TM p -> mstatus (snd (fst R) (4 * k + i)) = st -> settled_m (snd (fst R) (4 * k + i)) = true -> exec p (own i (seen_by k E)) st.
Proof.
  intros Hi Ep Es Ht. rewrite P_Network.own_seen by exact Hi. destruct played_sound as [_ H]. specialize (H (4 * k + i)). rewrite Ep in H. rewrite <- Es. exact (crowd_m _ _ _ H Ht).
Qed.
Lemma played_c k i p st : i < 4 -> ts (4 * k + i) = TC p -> cstatus (snd (fst R) (4 * k + i)) = st -> settled_c (snd (fst R) (4 * k + i)) = true -> exec p (own i (seen_by k E)) st.
Proof.
  intros Hi Ep Es Ht. rewrite P_Network.own_seen by exact Hi. destruct played_sound as [_ H]. specialize (H (4 * k + i)). rewrite Ep in H. rewrite <- Es. exact (crowd_c _ _ _ H Ht).
Qed.
Lemma played_alone k p st : ts (4 * k) = TM p -> mstatus (snd (fst R) (4 * k)) = st -> settled_m (snd (fst R) (4 * k)) = true ->
  forallb (fun x => negb (existsb (Nat.eqb (fst x)) [1; 2; 3])) (seen_by k E) = true -> alone p (seen_by k E) (Before st).
Proof.
  intros Ep Es Ht Hf. split; [exact (idle_by [1; 2; 3] _ Hf)|]. exists st. split; [reflexivity|]. apply played_m; [lia| | |]; rewrite Nat.add_0_r; assumption.
Qed.
Lemma played_buffer k b pl ps u mi mo sa sb sc : bf_stdin b = Some pl -> bf_stdout b = Some ps -> bf_monitor b = None ->
  buffer_ends b = Ret (inr (pl, ps)) ->
  ts (4 * k + 1) = TM (half_a u mi (pl, ps)) -> ts (4 * k + 2) = TM (half_b u mo None (pl, ps)) -> ts (4 * k + 3) = TC (total_in_buffer None mi mo) ->
  mstatus (snd (fst R) (4 * k + 1)) = sa -> mstatus (snd (fst R) (4 * k + 2)) = sb -> cstatus (snd (fst R) (4 * k + 3)) = sc ->
  settled_m (snd (fst R) (4 * k + 1)) = true -> settled_m (snd (fst R) (4 * k + 2)) = true -> settled_c (snd (fst R) (4 * k + 3)) = true ->
  forallb (fun x => negb (existsb (Nat.eqb (fst x)) [0])) (seen_by k E) = true ->
  buffer_start b None u mi mo (seen_by k E)
    (match sa, sb, sc with Done a, Done b, Done c => After (Done (buffer_result a b c)) | _, _, _ => During sa sb sc end).
Proof.
  intros E1 E2 E3 E4 T1 T2 T3 S1 S2 S3 Q1 Q2 Q3 HF. unfold buffer_start. apply idle_by in HF.
  pose proof (played_m k 1 _ _ ltac:(lia) T1 S1 Q1) as X1. pose proof (played_m k 2 _ _ ltac:(lia) T2 S2 Q2) as X2. pose proof (played_c k 3 _ _ ltac:(lia) T3 S3 Q3) as X3.
  assert (D : joined (buffer_ends b) (half_a u mi) (half_b u mo None) (fun _ => total_in_buffer (bf_monitor b) mi mo) (fun _ r_a r_b total => Ret (buffer_result r_a r_b total)) (seen_by k E) (During sa sb sc)).
  { apply (J_during _ _ _ _ _ [] (seen_by k E) (pl, ps)); [intros i _; reflexivity|exact HF|rewrite E4; constructor|exact X1|exact X2|rewrite E3; exact X3]. }
  destruct sa as [ea|ra|ma]; [exact D| |exact D]. destruct sb as [eb|rb|mb]; [exact D| |exact D]. destruct sc as [ec|rc|mc]; [exact D| |exact D].
  rewrite <- (app_nil_r (seen_by k E)). apply (J_after _ _ _ _ _ [] (seen_by k E) [] (pl, ps) ra rb rc);
    [intros i _; reflexivity|exact HF|intros i _; reflexivity|rewrite E4; constructor|exact X1|exact X2|rewrite E3; exact X3|constructor].
Qed.
Lemma played_launch k cwd vars la L sa sb sc (x := launch_relays la 2 3 4) : la_launched la = false -> la_exit_status la = None ->
  seen_by k E = (0, (ESpawn (launch_spawning cwd vars la), AChild 2 3 4)) :: L ->
  ts (4 * k + 1) = TM (relay (rl_in x) None) -> ts (4 * k + 2) = TM (relay (rl_out x) None) -> ts (4 * k + 3) = TM (relay (rl_err x) None) ->
  mstatus (snd (fst R) (4 * k + 1)) = sa -> mstatus (snd (fst R) (4 * k + 2)) = sb -> mstatus (snd (fst R) (4 * k + 3)) = sc ->
  settled_m (snd (fst R) (4 * k + 1)) = true -> settled_m (snd (fst R) (4 * k + 2)) = true -> settled_m (snd (fst R) (4 * k + 3)) = true ->
  forallb (fun x => negb (existsb (Nat.eqb (fst x)) [0])) L = true ->
  launch_start cwd vars la None (seen_by k E)
    (match sa, sb, sc with Done a, Done b, Done c => After (Done (launch_result a b c)) | _, _, _ => During sa sb sc end).
Proof.
  intros Hl He EL T1 T2 T3 S1 S2 S3 Q1 Q2 Q3 HF. unfold launch_start. apply idle_by in HF.
  pose proof (played_m k 1 _ _ ltac:(lia) T1 S1 Q1) as X1. pose proof (played_m k 2 _ _ ltac:(lia) T2 S2 Q2) as X2. pose proof (played_m k 3 _ _ ltac:(lia) T3 S3 Q3) as X3.
  rewrite EL in *. cbn in X1, X2, X3.
  assert (I0 : idle [1; 2; 3] [(0, (ESpawn (launch_spawning cwd vars la), AChild 2 3 4))]) by (intros i [<-|[<-|[<-|[]]]]; reflexivity).
  assert (P0 : exec (launch_spawn cwd vars la) (own 0 [(0, (ESpawn (launch_spawning cwd vars la), AChild 2 3 4))]) (Done (inr x))).
  { unfold launch_spawn. rewrite Hl. cbn. constructor; [reflexivity|constructor]. }
  change ((0, (ESpawn (launch_spawning cwd vars la), AChild 2 3 4)) :: L) with ([(0, (ESpawn (launch_spawning cwd vars la), AChild 2 3 4))] ++ L)%list.
  destruct sa as [ea|ra|ma]; [eapply J_during; eassumption| |eapply J_during; eassumption]. destruct sb as [eb|rb|mb]; [eapply J_during; eassumption| |eapply J_during; eassumption].
  destruct sc as [ec|rc|mc]; [eapply J_during; eassumption| |eapply J_during; eassumption].
  rewrite <- (app_nil_r L). eapply J_after; try eassumption; [intros i _; reflexivity|]. unfold launch_finish. rewrite He. constructor.
Qed.
End Played.

(** in.txt to a junction; from there through a program, and through a buffer and a regulator, to another junction; out.txt.
    Channels 0 to 6; all have room for one message. *)
Definition io (src dst n : nat) : push := PsIoSender (J src (Some POut) dst Terminate) n.
Definition inp (src dst n : nat) : pull := PlReceiver (PJ src dst) n.
Definition dm_faucet : faucet := Faucet false 1 (Some (io 0 1 0)) None None (Some (PJ 0 1)) (Some "in.txt").
Definition dm_fork : junction := Junction 1 false [io 1 2 1; io 1 3 2] [] [(inp 0 1 0, 0%Z)].
Definition dm_launch : launch := Launch 2 "rev" None None None (Some (io 2 5 3)) None None (Some (inp 1 2 1)) false.
Definition dm_buf : buffer := Buffer 1 (Some (io 3 4 4)) (Some (inp 1 3 2)) None.
Definition dm_reg : regulator := Regulator false 1 (Some (io 4 5 5)) (Some (inp 3 4 4)) None.
Definition dm_join : junction := Junction 1 false [io 5 6 6] [] [(inp 2 5 3, 0%Z); (inp 4 5 5, 1%Z)].
Definition dm_drain : drain := Drain false (Some (inp 5 6 6)) (Some "out.txt").
Definition diamond : list comp :=
  [NFaucet dm_faucet "in.txt"; NJunction dm_fork; NLaunch None [] dm_launch; NBuffer dm_buf 9 1 2; NRegulator dm_reg; NJunction dm_join; NDrain dm_drain "out.txt"].
Definition dm_world : world := fun c => match c with CData 9 => fresh_chan None | CData _ => fresh_chan (Some 1) | _ => fresh_chan (Some 8) end.
Definition dm_tasks : tasks := fun t =>
  match t with
  | 0 => TM (faucet_start dm_faucet None)
  | 4 => TM (junction_start dm_fork None)
  | 8 => TM (Vis (ESpawn (launch_spawning None [] dm_launch)) (fun _ => Ret (Ok 0)))
  | 9 => TM (relay (rl_in (launch_relays dm_launch 2 3 4)) None)
  | 10 => TM (relay (rl_out (launch_relays dm_launch 2 3 4)) None)
  | 11 => TM (relay (rl_err (launch_relays dm_launch 2 3 4)) None)
  | 13 => TM (half_a 9 1 (inp 1 3 2, io 3 4 4))
  | 14 => TM (half_b 9 2 None (inp 1 3 2, io 3 4 4))
  | 15 => TC (total_in_buffer None 1 2)
  | 16 => TM (regulator_start dm_reg None)
  | 20 => TM (junction_start dm_join None)
  | 24 => TM (drain_start dm_drain None)
  | _ => TM (Ret (Ok 0))
  end.
(** The faucet reads until it is told twice that there is no more, then the program says "x" and nothing more. *)
Definition dm_reads : list bytes := [list_ascii_of_string "ab"; ["010"%char; "c"%char]; ["d"%char; "010"%char; "e"%char]; []; []; ["x"%char; "010"%char]].
Definition dm_first : list nat := [8; 24; 20; 16; 15; 14; 13; 4; 0; 4; 9; 13; 0; 4].
Definition dm_rest : list nat := concat (repeat [0; 4; 9; 13; 14; 15; 16; 20; 24] 12) ++ concat (repeat [10; 11; 20; 24; 4; 9; 13; 14; 15; 16] 12).
Definition dm_mid : list nevent * tasks * world := crowd 60 dm_first dm_reads dm_tasks dm_world.
Definition dm_run : list nevent * tasks * world := crowd 60 (dm_first ++ dm_rest) dm_reads dm_tasks dm_world.
Definition dm_seen : list nevent := Eval vm_compute in fst (fst dm_mid).
Definition dm_events : list nevent := Eval vm_compute in fst (fst dm_run).
Definition dm_now : world := snd dm_mid.
Definition dm_end : world := snd dm_run.
Definition dm_stand (k : nat) : outcome := Going.
Definition dm_fine (k : nat) : outcome :=
  match k with 0 | 4 => Ended (Ok 3) | 5 => Ended (Ok 6) | 6 => Ended (Ok 5) | _ => Ended (Ok 4) end.

Lemma dm_wired : net_wired diamond.
Proof.
  constructor.
  - intros c [<-|[<-|[<-|[<-|[<-|[<-|[<-|[]]]]]]]]; cbn [comp_ready].
    + split; [reflexivity|]. eexists _, _. repeat split; discriminate.
    + repeat split; repeat constructor; cbn; intuition discriminate.
    + split; [|split].
      * split; [reflexivity|]. split; [|split]; intros p H; cbn in H; injection H as <- || discriminate H; repeat split.
      * intros p H. cbn in H. injection H as <-. eexists _, _. reflexivity.
      * intros p [H|H]; cbn in H; [|discriminate H]. injection H as <-. eexists _, _. reflexivity.
    + split; [reflexivity|]. eexists _, _, _, _. repeat split; try reflexivity; try discriminate. intros e d [H|H]; cbn in H; injection H as <-; discriminate.
    + split; [reflexivity|]. eexists _, _, _, _. repeat split; reflexivity.
    + repeat split; repeat constructor; cbn; intuition discriminate.
    + eexists _, _. repeat split; discriminate || reflexivity.
  - intro n. cbn. intuition.
  - cbn. repeat constructor; cbn; intuition discriminate.
  - cbn. repeat constructor; cbn; intuition discriminate.
  - cbn. repeat constructor; cbn; intuition discriminate.
Qed.
Lemma dm_acyclic : acyclic diamond.
Proof.
  exists (fun k => k). intros k c k' c' n H H' Hn Hn'.
  destruct k as [|[|[|[|[|[|[|k]]]]]]]; cbn in H; try (destruct k; discriminate H); injection H as <-; cbn in Hn;
  destruct k' as [|[|[|[|[|[|[|k']]]]]]]; cbn in H'; try (destruct k'; discriminate H'); injection H' as <-; cbn in Hn'; lia.
Qed.
Lemma dm_polite : polite diamond.
Proof. intros j H. cbn in H. repeat destruct H as [H|H]; try discriminate H; try injection H as <-; try discriminate. destruct H. Qed.

Lemma dm_mid_is : fst (fst (crowd 60 dm_first dm_reads dm_tasks dm_world)) = dm_seen.
Proof. vm_compute. reflexivity. Qed.
Lemma dm_run_is : fst (fst (crowd 60 (dm_first ++ dm_rest) dm_reads dm_tasks dm_world)) = dm_events.
Proof. vm_compute. reflexivity. Qed.
Ltac by_vm := vm_compute; reflexivity.
Lemma dm_only l : forallb (fun x : nevent => (fst x <? 28)%nat) l = true -> forall i ev, In (i, ev) l -> i / 4 < length diamond.
Proof. intros H i ev Hin. rewrite forallb_forall in H. specialize (H _ Hin). cbn [fst] in H. apply Nat.ltb_lt in H. apply Nat.div_lt_upper_bound; [discriminate|]. exact H. Qed.
Lemma dm_new c : exists cap, dm_world c = fresh_chan cap.
Proof. unfold dm_world. destruct c as [n|n|n|n|n]; eauto. do 10 (destruct n as [|n]; eauto). Qed.
Lemma dm_room n : In n (flat_map comp_outs diamond) -> exists cap, dm_world (CData n) = fresh_chan (Some (S cap)).
Proof. cbn. intros H. exists 0. repeat destruct H as [<-|H]; try reflexivity. destruct H. Qed.
Lemma dm_inside b u mi mo : In (NBuffer b u mi mo) diamond -> new_inside u mi mo dm_world.
Proof. cbn. intro H. repeat destruct H as [H|H]; try discriminate H; [|destruct H]. injection H as <- <- <- <-. repeat split; reflexivity. Qed.
Ltac dm_alone is k := apply (played_alone 60 _ dm_reads dm_tasks dm_world _ is k); [reflexivity|by_vm|by_vm|by_vm].
Lemma dm_now_run : net_run diamond dm_world dm_seen dm_now dm_stand.
Proof.
  constructor.
  - intros [|[|[|[|[|[|[|k]]]]]]] c H; cbn in H; try (destruct k; discriminate H); injection H as <-; cbn [comp_runs].
    + eexists. split; [dm_alone dm_mid_is 0|reflexivity].
    + eexists. split; [dm_alone dm_mid_is 1|reflexivity].
    + eexists. split; [eapply (played_launch 60 _ dm_reads dm_tasks dm_world _ dm_mid_is 2); try by_vm|split; [exact I|reflexivity]].
    + eexists. split; [eapply (played_buffer 60 _ dm_reads dm_tasks dm_world _ dm_mid_is 3 dm_buf (inp 1 3 2) (io 3 4 4)); try by_vm|split; [exact I|reflexivity]].
    + eexists. split; [dm_alone dm_mid_is 4|reflexivity].
    + eexists. split; [dm_alone dm_mid_is 5|reflexivity].
    + eexists. split; [dm_alone dm_mid_is 6|reflexivity].
  - exact (proj1 (played_sound 60 _ _ _ _ _ dm_mid_is)).
  - apply dm_only. by_vm.
  - exact dm_new.
  - exact dm_room.
  - exact dm_inside.
Qed.
Lemma dm_end_run : net_run diamond dm_world dm_events dm_end dm_fine.
Proof.
  constructor.
  - intros [|[|[|[|[|[|[|k]]]]]]] c H; cbn in H; try (destruct k; discriminate H); injection H as <-; cbn [comp_runs].
    + eexists. split; [dm_alone dm_run_is 0|reflexivity].
    + eexists. split; [dm_alone dm_run_is 1|reflexivity].
    + eexists. split; [eapply (played_launch 60 _ dm_reads dm_tasks dm_world _ dm_run_is 2); try by_vm|split; [exact I|reflexivity]].
    + eexists. split; [eapply (played_buffer 60 _ dm_reads dm_tasks dm_world _ dm_run_is 3 dm_buf (inp 1 3 2) (io 3 4 4)); try by_vm|split; [exact I|reflexivity]].
    + eexists. split; [dm_alone dm_run_is 4|reflexivity].
    + eexists. split; [dm_alone dm_run_is 5|reflexivity].
    + eexists. split; [dm_alone dm_run_is 6|reflexivity].
  - exact (proj1 (played_sound 60 _ _ _ _ _ dm_run_is)).
  - apply dm_only. by_vm.
  - exact dm_new.
  - exact dm_room.
  - exact dm_inside.
Qed.
Lemma willing_by l : forallb (fun x : nevent => match snd (snd x) with ABroken | AErr => false | _ => true end) l = true -> willing l.
Proof.
  intros H e a Hin. unfold all_of in Hin. apply in_map_iff in Hin. destruct Hin as ([i [e' a']] & X & Hin). cbn in X. injection X as -> ->.
  rewrite forallb_forall in H. specialize (H _ Hin). cbn in H. destruct a; try discriminate H; split; discriminate.
Qed.
Lemma dm_willing : willing dm_seen /\ willing dm_events.
Proof. split; apply willing_by; by_vm. Qed.

Lemma dm_new_world : new_world diamond dm_world.
Proof.
  split; [|split].
  - intros [[|[|[|[|[|[|[|[|[|[|n]]]]]]]]]]|n| | |]; eexists; reflexivity.
  - intros n Hn. cbn in Hn. repeat (destruct Hn as [<-|Hn]; [exists 0; reflexivity|]). destruct Hn.
  - intros b u mi mo Hin. cbn in Hin. repeat (destruct Hin as [E|Hin]; [try discriminate E; injection E as <- <- <- <-; repeat split; reflexivity|]). destruct Hin.
Qed.

(** in.txt, a regulator, out.txt; and with a buffer in the place of the regulator. *)
Definition c3_faucet : faucet := Faucet false 1 (Some (io 0 1 0)) None None (Some (PJ 0 1)) (Some "in.txt").
Definition c3_reg : regulator := Regulator false 1 (Some (io 1 2 1)) (Some (inp 0 1 0)) None.
Definition c3_buf : buffer := Buffer 1 (Some (io 1 2 1)) (Some (inp 0 1 0)) None.
Definition c3_drain : drain := Drain false (Some (inp 1 2 1)) (Some "out.txt").
Definition chain3 : list comp := [NFaucet c3_faucet "in.txt"; NRegulator c3_reg; NDrain c3_drain "out.txt"].
Definition bchain3 : list comp := [NFaucet c3_faucet "in.txt"; NBuffer c3_buf 9 1 2; NDrain c3_drain "out.txt"].
Ltac c3_wire :=
  constructor;
  [intros c [<-|[<-|[<-|[]]]]; cbn [comp_ready];
    [split; [reflexivity|]; eexists _, _; repeat split; discriminate
    |split; [reflexivity|]; eexists _, _, _, _; repeat split; try reflexivity; try discriminate; intros e d [H|H]; cbn in H; injection H as <-; discriminate
    |eexists _, _; repeat split; discriminate || reflexivity]
  |intro n; cbn; intuition|cbn; repeat constructor; cbn; intuition discriminate..].
Lemma c3_wired : net_wired chain3.
Proof. c3_wire. Qed.
Lemma b3_wired : net_wired bchain3.
Proof. c3_wire. Qed.
Ltac c3_order :=
  exists (fun k => k); intros k c k' c' n H H' Hn Hn';
  destruct k as [|[|[|k]]]; cbn in H; try (destruct k; discriminate H); injection H as <-; cbn in Hn;
  destruct k' as [|[|[|k']]]; cbn in H'; try (destruct k'; discriminate H'); injection H' as <-; cbn in Hn'; lia.
Lemma c3_acyclic : acyclic chain3.
Proof. c3_order. Qed.
Lemma b3_acyclic : acyclic bchain3.
Proof. c3_order. Qed.
Ltac c3_world :=
  split; [exact dm_new|split];
  [intros n Hn; cbn in Hn; repeat (destruct Hn as [<-|Hn]; [exists 0; reflexivity|]); destruct Hn
  |intros b u mi mo Hin; cbn in Hin; repeat (destruct Hin as [E|Hin]; [try discriminate E; injection E as <- <- <- <-; repeat split; reflexivity|]); destruct Hin].
Lemma c3_new : new_world chain3 dm_world.
Proof. c3_world. Qed.
Lemma b3_new : new_world bchain3 dm_world.
Proof. c3_world. Qed.
Lemma c3_restless c : In c chain3 -> restless c.
Proof. intros [<-|[<-|[<-|[]]]]; exact I. Qed.
Lemma straight_forever : exists net w0 f, net_wired net /\ acyclic net /\ new_world net w0 /\ length net = 3 /\
  endless net w0 f /\ (forall n, willing (so_far f n)) /\ (forall n, in_turn net w0 (so_far f n)) /\ limited f /\ statuses_come f.
Proof.
  destruct (dozing_on bchain3 dm_world b3_wired b3_new 1 c3_buf 9 1 2 eq_refl) as (H1 & H2 & H3 & H4 & H5 & _).
  exists bchain3, dm_world. eexists. exact (conj b3_wired (conj b3_acyclic (conj b3_new (conj eq_refl (conj H1 (conj H2 (conj H3 (conj H4 H5)))))))).
Qed.
