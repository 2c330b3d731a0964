(** * P_NetworkExamples: a pipeline that has run *)
From Coq Require Import Ascii String List Bool Arith Lia ZArith.
From Verif Require Import M_Prog P_Prog P_Exec M_Motion M_Regulator M_Faucet M_Drain M_Buffer M_Junction M_Join S_Trace S_Lines S_Motion S_World S_Launch S_Regulator S_Drain S_Buffer S_Junction S_Network.
From Verif Require Import P_World P_Play P_Crowd P_Network.
Import ListNotations.
Local Open Scope string_scope.

(** in.txt, a regulator, a buffer, a junction, out.txt; channels 0, 1, 2, 3; all have room for one message. *)
Definition ex_faucet : faucet := Faucet false 1 (Some (PsIoSender (J 0 (Some POut) 1 Terminate) 0)) None None (Some (PJ 0 1)) (Some "in.txt").
Definition ex_reg : regulator := Regulator false 1 (Some (PsIoSender (J 1 (Some POut) 2 Terminate) 1)) (Some (PlReceiver (PJ 0 1) 0)) None.
Definition ex_buf : buffer := Buffer 1 (Some (PsIoSender (J 2 (Some POut) 3 Terminate) 2)) (Some (PlReceiver (PJ 1 2) 1)) None.
Definition ex_jun : junction := Junction 1 false [PsIoSender (J 3 (Some POut) 4 Terminate) 3] [] [(PlReceiver (PJ 2 3) 2, 0%Z)].
Definition ex_drain : drain := Drain false (Some (PlReceiver (PJ 3 4) 3)) (Some "out.txt").
Definition ex_pipeline : pipeline := Pipeline ex_faucet "in.txt" [PRegulator ex_reg; PBuffer ex_buf 9 1 2; PJunction ex_jun] ex_drain "out.txt".
Definition ex_world : world := fun c => match c with CData 9 => fresh_chan None | CData _ => fresh_chan (Some 1) | _ => fresh_chan (Some 8) end.

Definition ex_tasks : tasks := fun t =>
  match t with
  | 0 => TM (faucet_start ex_faucet None)
  | 4 => TM (regulator_start ex_reg None)
  | 9 => TM (half_a 9 1 (PlReceiver (PJ 1 2) 1, PsIoSender (J 2 (Some POut) 3 Terminate) 2))
  | 10 => TM (half_b 9 2 None (PlReceiver (PJ 1 2) 1, PsIoSender (J 2 (Some POut) 3 Terminate) 2))
  | 11 => TC (total_in_buffer None 1 2)
  | 12 => TM (junction_start ex_jun None)
  | 16 => TM (drain_start ex_drain None)
  | _ => TM (Ret (Ok 0))
  end.
Definition ex_reads : list bytes := [list_ascii_of_string "ab"; ["010"%char; "c"%char]; ["d"%char; "010"%char; "e"%char]].
(** First the end of the pipeline, then the beginning, then all in turn. *)
Definition ex_sched : list nat := [16; 12; 11; 10; 9; 4; 0; 0; 4] ++ concat (repeat [12; 16; 9; 10; 0; 4; 11] 12).


Definition ex_run : list nevent * tasks * world := crowd 60 ex_sched ex_reads ex_tasks ex_world.
Definition ex_events : list nevent := Eval vm_compute in fst (fst ex_run).
Definition ex_end : world := snd ex_run.
Definition ex_stand (k : nat) : standing := match k with 0 | 1 => Before (Done (Ok 3)) | 2 => After (Done (Ok 4)) | _ => Before (Done (Ok 4)) end.

Lemma ex_sound : wrun ex_world ex_events ex_end /\ forall i, tleaves (ex_tasks i) (own i ex_events) (snd (fst ex_run) i).
Proof.
  assert (E : fst (fst ex_run) = ex_events) by (vm_compute; reflexivity). rewrite <- E. exact (crowd_run 60 ex_sched ex_reads ex_tasks ex_world).
Qed.
Lemma ex_idle k is : forallb (fun x => negb (existsb (Nat.eqb (fst x)) is)) (seen_by k ex_events) = true -> idle is (seen_by k ex_events).
Proof.
  generalize (seen_by k ex_events). induction l as [|[t ev] l IH]; intros H i Hi; [reflexivity|]. cbn [forallb fst] in H. apply andb_prop in H. destruct H as [H1 H2].
  rewrite own_one. destruct (Nat.eqb_spec t i) as [->|N]; [|exact (IH H2 i Hi)]. exfalso. apply negb_true_iff in H1.
  assert (E : existsb (Nat.eqb i) is = true) by (apply existsb_exists; exists i; split; [exact Hi|apply Nat.eqb_refl]). congruence.
Qed.
Lemma ex_alone k p st : ex_tasks (4 * k) = TM p -> mstatus (snd (fst ex_run) (4 * k)) = st -> settled_m (snd (fst ex_run) (4 * k)) = true ->
  forallb (fun x => negb (existsb (Nat.eqb (fst x)) [1; 2; 3])) (seen_by k ex_events) = true -> alone p (seen_by k ex_events) (Before st).
Proof.
  intros Ep Es Ht Hf. split; [exact (ex_idle k [1; 2; 3] Hf)|]. exists st. split; [reflexivity|]. rewrite own_seen by lia. rewrite Nat.add_0_r.
  destruct ex_sound as [_ H]. specialize (H (4 * k)). rewrite Ep in H. rewrite <- Es. exact (crowd_m _ _ _ H Ht).
Qed.

Lemma ex_m k i p st : i < 4 -> ex_tasks (4 * k + i) = TM p -> mstatus (snd (fst ex_run) (4 * k + i)) = st -> settled_m (snd (fst ex_run) (4 * k + i)) = true -> exec p (own i (seen_by k ex_events)) st.
Proof.
  intros Hi Ep Es Ht. rewrite own_seen by exact Hi. destruct ex_sound as [_ H]. specialize (H (4 * k + i)). rewrite Ep in H. rewrite <- Es. exact (crowd_m _ _ _ H Ht).
Qed.
Lemma ex_c k i p st : i < 4 -> ex_tasks (4 * k + i) = TC p -> cstatus (snd (fst ex_run) (4 * k + i)) = st -> settled_c (snd (fst ex_run) (4 * k + i)) = true -> exec p (own i (seen_by k ex_events)) st.
Proof.
  intros Hi Ep Es Ht. rewrite own_seen by exact Hi. destruct ex_sound as [_ H]. specialize (H (4 * k + i)). rewrite Ep in H. rewrite <- Es. exact (crowd_c _ _ _ H Ht).
Qed.

Lemma ex_wired : pipeline_wired (fun k => k) ex_pipeline.
Proof.
  split; [auto|]. split; [|split].
  - eexists. repeat split; discriminate || reflexivity.
  - intros [|[|[|[|k]]]] q H; cbn in H; try discriminate H; injection H as <-; cbn.
    + eexists _, _. repeat split; reflexivity.
    + eexists _, _. repeat split; try reflexivity; try discriminate. intros e d [H|H]; cbn in H; injection H as <-; discriminate.
    + repeat split; try reflexivity; repeat constructor; cbn; intuition discriminate.
  - eexists. repeat split; discriminate || reflexivity.
Qed.

Lemma ex_pipeline_run : pipeline_run (fun k => k) ex_pipeline None ex_world ex_events ex_end ex_stand.
Proof.
  constructor.
  - apply (ex_alone 0); [reflexivity|vm_compute; reflexivity|vm_compute; reflexivity|vm_compute; reflexivity].
  - intros [|[|[|[|k]]]] q H; cbn in H; try discriminate H; injection H as <-; cbn [part_runs].
    + apply (ex_alone 1); [reflexivity|vm_compute; reflexivity|vm_compute; reflexivity|vm_compute; reflexivity].
    + unfold buffer_start. change (seen_by 2 ex_events) with ([] ++ seen_by 2 ex_events)%list. rewrite <- (app_nil_r (seen_by 2 ex_events)).
      eapply J_after with (x := (PlReceiver (PJ 1 2) 1, PsIoSender (J 2 (Some POut) 3 Terminate) 2)) (a := Ok 4) (b := Ok 4) (c := Some 0).
      * intros i _. reflexivity.
      * apply ex_idle. vm_compute. reflexivity.
      * intros i _. reflexivity.
      * constructor.
      * apply (ex_m 2 1); [lia|reflexivity|vm_compute; reflexivity|vm_compute; reflexivity].
      * apply (ex_m 2 2); [lia|reflexivity|vm_compute; reflexivity|vm_compute; reflexivity].
      * apply (ex_c 2 3); [lia|reflexivity|vm_compute; reflexivity|vm_compute; reflexivity].
      * constructor.
    + apply (ex_alone 3); [reflexivity|vm_compute; reflexivity|vm_compute; reflexivity|vm_compute; reflexivity].
  - apply (ex_alone 4); [reflexivity|vm_compute; reflexivity|vm_compute; reflexivity|vm_compute; reflexivity].
  - exact (proj1 ex_sound).
  - intros k Hk. cbn in Hk. exists 0. destruct k as [|[|[|[|k]]]]; try reflexivity. lia.
  - intros i e a k Hk Hin Hc. cbn in Hk.
    assert (F : forallb (fun x : nevent => match on_chan (fst (snd x)) with Some (CData n) => ((3 <? n) || (fst x / 4 =? n) || (fst x / 4 =? S n))%nat | _ => true end) ex_events = true) by (vm_compute; reflexivity).
    rewrite forallb_forall in F. specialize (F _ Hin). cbn [fst snd] in F. rewrite Hc in F. apply orb_prop in F. destruct F as [F|F]; [apply orb_prop in F; destruct F as [F|F]|].
    + apply Nat.ltb_lt in F. lia.
    + left. now apply Nat.eqb_eq.
    + right. now apply Nat.eqb_eq.
  - intros [|[|[|[|k]]]] b u mi mo H; cbn in H; try discriminate H; injection H as <- <- <- <-. split; [repeat split; reflexivity|].
    intros i e a c Hin Hc Hi.
    assert (F : forallb (fun x : nevent => match on_chan (fst (snd x)) with Some (CData 9) | Some (CMon _) => ((fst x =? 1) || (fst x =? 2) || (fst x =? 3))%nat | _ => true end) (seen_by 2 ex_events) = true) by (vm_compute; reflexivity).
    rewrite forallb_forall in F. specialize (F _ Hin). cbn [fst snd] in F. rewrite Hc in F.
    assert (G : ((i =? 1) || (i =? 2) || (i =? 3))%nat = true) by (destruct Hi as [->|[->| ->]]; exact F).
    apply orb_prop in G. destruct G as [G|G]; [apply orb_prop in G; destruct G as [G|G]|]; apply Nat.eqb_eq in G; auto.
Qed.
