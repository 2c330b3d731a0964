(** * P_News: the controller of a regulator signals no more often than it hears something *)
From Coq Require Import Ascii String List Bool Arith Lia.
From Verif Require Import M_Prog P_Prog P_Exec M_Motion M_BackOff M_Utils M_Regulator M_Manager S_Trace S_World S_Regulator S_News.
From Verif Require Import P_Read P_World P_Manager P_Act P_Ask P_JPass.
Import ListNotations.
Local Open Scope list_scope.

Lemma heard_app a b : heard (a ++ b) = heard a + heard b.
Proof. unfold heard. now rewrite filter_app, app_length. Qed.
Lemma heard_cons ev a : heard (ev :: a) = heard [ev] + heard a.
Proof. exact (heard_app [ev] a). Qed.
Lemma signals_app c a b : signals c (a ++ b) = signals c a + signals c b.
Proof. unfold signals. now rewrite P_Read.offered_app, app_length. Qed.
Lemma signals_cons c ev a : signals c (ev :: a) = signals c [ev] + signals c a.
Proof. exact (signals_app c [ev] a). Qed.
Lemma signals_send c v x : signals c [(ESend (CCtl c) v, x)] = 1.
Proof. unfold signals. cbn. now rewrite Nat.eqb_refl. Qed.

(** ** What is not news leaves the level as it was *)
Definition sized (ev : eff * ans) : Prop := match ev with (ETryRecv (CSize _), AMsg v) => exists k, v = VSize k | (ERecv (CSize _), _) => False | _ => True end.
Lemma no_news_taken n tr : Forall sized tr -> heard tr = 0 -> taken (CSize n) tr = [].
Proof.
  intros HF. induction HF as [|[e x] tr Hs HF IH]; [reflexivity|]. intro H. rewrite heard_cons in H. apply Nat.eq_add_0 in H. destruct H as [H1 H2].
  change (taken (CSize n) ([(e, x)] ++ tr) = []). rewrite P_Read.taken_app, (IH H2), app_nil_r.
  destruct e as [[]|[]| | | | | | | | | | | | | | | |]; try reflexivity; destruct x; try reflexivity; cbn in Hs; try contradiction.
  destruct Hs as [k ->]. discriminate H1.
Qed.
Lemma no_news_gone n tr : heard tr = 0 -> gone n tr = false.
Proof.
  induction tr as [|[e x] tr IH]; [reflexivity|]. intro H. rewrite heard_cons in H. apply Nat.eq_add_0 in H. destruct H as [H1 H2].
  change (gone n ([(e, x)] ++ tr) = false). rewrite gone_app, (IH H2), orb_false_r.
  destruct e as [|[]| | | | | | | | | | | | | | | |]; try reflexivity; destruct x; try reflexivity. discriminate H1.
Qed.
Lemma no_news_level chans a b : Forall sized b -> heard b = 0 -> level chans (a ++ b) = level chans a.
Proof.
  intros HF H. unfold level. induction chans as [|n chans IH]; [reflexivity|]. cbn. rewrite IH, gone_app, (no_news_gone n b H).
  rewrite orb_false_r. unfold latest. rewrite P_Read.taken_app, (no_news_taken n b HF H), app_nil_r. reflexivity.
Qed.
Lemma level_nothing chans : level chans [] = 0.
Proof. induction chans; [reflexivity|exact IHchans]. Qed.

(** ** The last signal *)
Lemma last_signal c tr : signals c tr = 0 \/ exists u v x w, tr = u ++ (ESend (CCtl c) v, x) :: w /\ signals c w = 0.
Proof.
  induction tr as [|[e x] tr IH]; [now left|]. destruct IH as [IH|(u & v & y & w & -> & Hw)]; [|right; now exists ((e, x) :: u), v, y, w].
  destruct (signals c [(e, x)]) eqn:E; [left; exact (eq_trans (signals_cons c (e, x) tr) (f_equal2 Nat.add E IH))|]. right. destruct e as [| |[] v| | | | | | | | | | | | | | |]; try discriminate E.
  unfold signals in E. cbn in E. destruct (Nat.eqb c n0) eqn:En; [|discriminate E]. apply Nat.eqb_eq in En. subst. now exists [], v, x, tr.
Qed.

Section News.
Variables (low high c : nat) (chans : list nat).
Hypothesis Hnd : NoDup chans.
Hypothesis Hm : low < high.
Let p := manage_regulator low high (RC false c) chans.

Lemma manager_sized tr st : exec p tr st -> Forall sized tr.
Proof.
  intro HX. apply Forall_forall. intros [e x] Hin. apply in_split in Hin. destruct Hin as (a & b & E).
  pose proof (exec_prefix _ _ _ HX _ _ _ _ E) as HA. pose proof (manager_effects low high c chans Hnd _ _ HA) as HE.
  destruct e as [|[]| | | | | | | | | | | | | | | |]; cbn in *; try exact I; try contradiction.
  destruct x; try exact I. assert (W : wt (ETryRecv (CSize n)) (AMsg v) = true) by (apply (P_Act.exec_wt _ _ _ HX); subst tr; apply in_elt).
  destruct v; try discriminate W. now eexists.
Qed.
Lemma news_between a v x b : exec p (a ++ (ESend (CCtl c) v, x) :: b) (At (ESend (CCtl c) VUnit)) -> signals c b = 0 -> 1 <= heard b.
Proof.
  intros HX Hb. destruct (heard b) eqn:E; [|lia]. exfalso.
  pose proof (exec_prefix _ _ _ HX _ _ _ _ eq_refl) as HA. pose proof (manager_sized _ _ HX) as HF.
  apply Forall_app in HF. destruct HF as [_ HF].
  destruct (manager_signal low high c chans Hnd _ _ _ HX) as (_ & _ & H1). destruct (manager_signal low high c chans Hnd _ _ _ HA) as (_ & _ & H2).
  rewrite (no_news_level chans a) in H1; [|exact HF|rewrite heard_cons, E; reflexivity].
  assert (ES : told_to_pause c (a ++ (ESend (CCtl c) v, x) :: b) = negb (told_to_pause c a)).
  { unfold told_to_pause. rewrite signals_app, signals_cons, signals_send, Hb, Nat.add_comm. cbn [Nat.add]. now rewrite Nat.odd_succ, <- Nat.negb_odd. }
  rewrite ES in H1. destruct (told_to_pause c a); cbn in H1; lia.
Qed.
Lemma news_first a : exec p a (At (ESend (CCtl c) VUnit)) -> signals c a = 0 -> 1 <= heard a.
Proof.
  intros HX Ha. destruct (heard a) eqn:E; [|lia]. exfalso. destruct (manager_signal low high c chans Hnd _ _ _ HX) as (_ & _ & H1).
  unfold told_to_pause in H1. rewrite Ha in H1. cbn in H1. pose proof (no_news_level chans [] a (manager_sized _ _ HX) E) as EL. rewrite level_nothing in EL. cbn [app] in EL. lia.
Qed.
Lemma news_before_signal : forall k tr, List.length tr <= k -> exec p tr (At (ESend (CCtl c) VUnit)) -> signals c tr < heard tr.
Proof.
  induction k as [|k IH]; intros tr Hk HX; destruct (last_signal c tr) as [H0|(u & v & x & w & -> & Hw)].
  - pose proof (news_first _ HX H0). lia.
  - rewrite app_length in Hk. cbn in Hk. lia.
  - pose proof (news_first _ HX H0). lia.
  - pose proof (exec_prefix _ _ _ HX _ _ _ _ eq_refl) as HA. destruct (manager_signal low high c chans Hnd _ _ _ HA) as (_ & -> & _).
    assert (Hu : List.length u <= k) by (rewrite app_length in Hk; cbn in Hk; lia). pose proof (IH u Hu HA) as H1. pose proof (news_between _ _ _ _ HX Hw) as H2.
    rewrite signals_app, signals_cons, signals_send, heard_app, (heard_cons _ w). lia.
Qed.
Lemma news_enough tr st : exec p tr st -> signals c tr <= heard tr.
Proof.
  intro HX. destruct (last_signal c tr) as [H0|(u & v & x & w & -> & Hw)]; [lia|].
  pose proof (exec_prefix _ _ _ HX _ _ _ _ eq_refl) as HA. destruct (manager_signal low high c chans Hnd _ _ _ HA) as (_ & -> & _).
  pose proof (news_before_signal _ u (le_n _) HA). rewrite signals_app, signals_cons, signals_send, heard_app. lia.
Qed.
End News.

(** ** Marks in the wrong order *)
Section Flutter.
Variables (low high c n : nat).
Hypothesis Hm : high <= low.
Let at_rest (b m : nat) : mstate := MS [Bsm high n] (RC false c) false b m.

Lemma pauses : exec (pause_if (negb false && (high <=? 0 + high)) (RC false c) false) [(ESend (CCtl c) VUnit, AOk)] (Done (RC true c, true)).
Proof. cbn [Nat.add]. rewrite Nat.leb_refl. apply (drive_sound 20 _ [AOk]). vm_compute. reflexivity. Qed.
Lemma resumes : exec (resume_if (true && (0 + high <=? low)) (RC true c) true) [(ESend (CCtl c) VUnit, AOk)] (Done (RC false c, false)).
Proof. cbn [Nat.add]. rewrite (proj2 (Nat.leb_le _ _) Hm). apply (drive_sound 20 _ [AOk]). vm_compute. reflexivity. Qed.
Definition both_signals : trace := [(ESend (CCtl c) VUnit, AOk); (ESend (CCtl c) VUnit, AOk)].
Lemma pass_reported : exec (manage_body low high (MS [Bsm 0 n] (RC false c) false 0 0)) ((ETryRecv (CSize n), AMsg (VSize high)) :: both_signals) (Done (inl (at_rest 0 1))).
Proof.
  unfold manage_body. change ((ETryRecv (CSize n), AMsg (VSize high)) :: both_signals) with ([(ETryRecv (CSize n), AMsg (VSize high))] ++ [(ESend (CCtl c) VUnit, AOk)] ++ [(ESend (CCtl c) VUnit, AOk)] ++ []).
  eapply exec_bind_intro; [apply (drive_sound 20 _ [AMsg (VSize high)]); reflexivity|]. cbn beta iota zeta.
  eapply exec_bind_intro; [exact pauses|]. cbn beta iota zeta. eapply exec_bind_intro; [exact resumes|]. cbn beta iota zeta.
  apply (drive_sound 20 _ []). reflexivity.
Qed.
Lemma pass_empty b m : exists b', exec (manage_body low high (at_rest b m)) ((ETryRecv (CSize n), AEmpty) :: both_signals ++ [(ESleep (b * b), AOk)]) (Done (inl (at_rest b' m))).
Proof.
  exists (if b <=? 50 then S b else b). replace m with (m + 0) at 2 by lia.
  unfold manage_body. change ((ETryRecv (CSize n), AEmpty) :: both_signals ++ [(ESleep (b * b), AOk)]) with ([(ETryRecv (CSize n), AEmpty)] ++ [(ESend (CCtl c) VUnit, AOk)] ++ [(ESend (CCtl c) VUnit, AOk)] ++ [(ESleep (b * b), AOk)]).
  eapply exec_bind_intro; [apply (drive_sound 20 _ [AEmpty]); reflexivity|]. cbn beta iota zeta.
  eapply exec_bind_intro; [exact pauses|]. cbn beta iota zeta. eapply exec_bind_intro; [exact resumes|]. cbn beta iota zeta.
  apply (drive_sound 20 _ [AOk]). reflexivity.
Qed.
Lemma pass_signals b : signals c ((ETryRecv (CSize n), AEmpty) :: both_signals ++ [(ESleep (b * b), AOk)]) = 2.
Proof. unfold signals. cbn. now rewrite Nat.eqb_refl. Qed.
Lemma passes N : forall b m, exists tr, heard tr = 0 /\ signals c tr >= N /\ exec (iter (manage_body low high) (at_rest b m)) tr (At (ETryRecv (CSize n))).
Proof.
  induction N as [|N IH]; intros b m.
  - exists []. split; [reflexivity|]. split; [apply le_n|]. apply (drive_sound 20 _ []). reflexivity.
  - destruct (pass_empty b m) as (b' & HP). destruct (IH b' m) as (tr & H1 & H2 & HX). eexists. split; [|split; [|exact (exec_iter_step _ _ _ _ _ _ HP HX)]].
    + rewrite heard_app, H1. reflexivity.
    + rewrite signals_app, pass_signals. lia.
Qed.
Lemma flutter_all N : exists tr e, heard tr = 1 /\ signals c tr >= N /\ exec (manage_regulator low high (RC false c) [n]) tr (At e).
Proof.
  destruct (passes N 0 1) as (tr & H1 & H2 & HX). exists (((ETryRecv (CSize n), AMsg (VSize high)) :: both_signals) ++ tr), (ETryRecv (CSize n)). split; [|split].
  - rewrite heard_app, H1. reflexivity.
  - rewrite signals_app. lia.
  - exact (exec_iter_step _ _ _ _ _ _ pass_reported HX).
Qed.
End Flutter.
