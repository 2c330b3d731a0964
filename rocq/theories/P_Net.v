(** * P_Net: a network in which nothing flows back never gets stuck *)
From Coq Require Import Ascii String List Bool Arith Lia.
From Verif Require Import M_Prog P_Prog P_Exec M_Motion M_Regulator M_Faucet M_Drain M_Buffer M_Junction M_Launch M_Join S_Trace S_Lines S_Motion S_World S_Launch S_Regulator S_Drain S_Buffer S_Junction S_Network S_Net
  P_World P_Link P_Network P_NetComp P_NetMoves P_NetEnd.
Import ListNotations.

Lemma in_seen' l t ev : In (t, ev) l -> In (t mod 4, ev) (seen_by (t / 4) l).
Proof. intro H. unfold seen_by. apply in_map_iff. exists (t, ev). split; [|exact H]. cbn. now rewrite Nat.eqb_refl. Qed.
Lemma own_all i ev l : In ev (own i l) -> In ev (all_of l).
Proof. unfold own, all_of. intro H. apply in_map_iff in H. destruct H as (x & E & H). apply filter_In in H. apply in_map_iff. exists x. tauto. Qed.
Lemma seen_app k a b : seen_by k (a ++ b) = seen_by k a ++ seen_by k b.
Proof. apply map_app. Qed.
Lemma div_mine k t : t < 4 -> (4 * k + t) / 4 = k.
Proof. intro Ht. rewrite Nat.mul_comm, Nat.div_add_l by lia. rewrite Nat.div_small by exact Ht. lia. Qed.
Lemma seen_mine k t s : t < 4 -> seen_by k (by_task (4 * k + t) s) = by_task t s.
Proof.
  intro Ht. unfold seen_by, by_task. rewrite map_map. apply map_ext. intro ev. cbn [fst snd].
  assert (E : (4 * k + t) / 4 = k) by (rewrite Nat.mul_comm, Nat.div_add_l by lia; rewrite Nat.div_small by exact Ht; lia).
  assert (E' : (4 * k + t) mod 4 = t) by (rewrite Nat.add_comm, Nat.mul_comm, Nat.mod_add by lia; now apply Nat.mod_small).
  rewrite E, E', Nat.eqb_refl. reflexivity.
Qed.
Lemma seen_theirs k k' t s : t < 4 -> k' <> k -> foreign (seen_by k' (by_task (4 * k + t) s)).
Proof.
  intros Ht Hk i ev Hin. unfold seen_by, by_task in Hin. rewrite map_map in Hin. apply in_map_iff in Hin. destruct Hin as (x & E & _). cbn [fst snd] in E.
  assert (E1 : (4 * k + t) / 4 = k) by (rewrite Nat.mul_comm, Nat.div_add_l by lia; rewrite Nat.div_small by exact Ht; lia).
  rewrite E1 in E. destruct (Nat.eqb_spec k k'); [congruence|]. injection E as <- _. lia.
Qed.

(** ** What the channels hold *)
Lemma fitting_run w l w' : wrun w l w' -> fitting w -> (forall i c v a, In (i, (ESend c v, a)) l -> fits c v = true) -> fitting w'.
Proof.
  induction 1 as [|w i ev w1 l w2 H1 H2 IH]; intros HF HS; [exact HF|]. apply IH; [|intros; eapply HS; right; eassumption]. clear IH H2.
  assert (HU : forall c q b, (forall v, In v q -> fits c v = true) -> fitting (upd w c (CS (cs_cap (w c)) q b))).
  { intros c q b Hq c' v Hv. unfold upd in Hv. destruct (chan_eqb c c') eqn:E; [apply chan_eqb_eq in E; subst c'; now apply Hq|now apply HF]. }
  inversion H1; subst; try exact HF; apply HU.
  - intros x Hx. apply (HF c). rewrite H. now right.
  - intros x Hx. apply (HF c). rewrite H. now right.
  - intros x Hx. apply in_app_or in Hx. destruct Hx as [Hx|[<-|[]]]; [now apply (HF c)|]. eapply HS. now left.
  - intros x Hx. now apply (HF c).
Qed.
Lemma found_closed w l w' i c v : wrun w l w' -> In (i, (ESend c v, AClosed)) l -> cs_closed (w' c) = true.
Proof.
  intros HW Hin. apply in_split in Hin. destruct Hin as (a & b & ->). destruct (wrun_mid _ _ _ _ _ _ HW) as (w1 & w2 & _ & HS & HB). apply (stays_closed c _ _ _ HB). now inversion HS; subst.
Qed.

Section Net.
Variables (net : list comp) (w0 : world).
Hypothesis HN : net_wired net.

Section Run.
Variables (l : list nevent) (w : world) (ocs : nat -> outcome).
Hypothesis HX : net_run net w0 l w ocs.

Lemma event_may i e a : In (i, (e, a)) l -> exists c, nth_error net (i / 4) = Some c /\ comp_may c (i mod 4) e.
Proof.
  intro Hin. pose proof (nr_only _ _ _ _ _ HX _ _ Hin) as Hlt. destruct (nth_error net (i / 4)) as [c|] eqn:E; [|apply nth_error_None in E; lia]. exists c. split; [reflexivity|].
  eapply comp_within; [apply (nw_ready _ HN), (nth_error_In _ _ E)|apply (nr_comps _ _ _ _ _ HX _ _ E)|apply Nat.mod_upper_bound; lia|]. apply in_seen'. exact Hin.
Qed.
Lemma net_fitting : fitting w.
Proof.
  eapply fitting_run; [apply (nr_world _ _ _ _ _ HX)| |].
  - intros c v Hv. destruct (nr_new _ _ _ _ _ HX c) as (cap & E). rewrite E in Hv. destruct Hv.
  - intros i c v a Hin. destruct (event_may _ _ _ Hin) as (k & _ & H). destruct c; try contradiction H; destruct v; try contradiction H; reflexivity.
Qed.
Lemma net_ok k c : nth_error net k = Some c -> world_ok c (seen_by k l) w.
Proof.
  intro Hk. pose proof (nr_world _ _ _ _ _ HX) as HW. constructor.
  - exact net_fitting.
  - intros t ch Ht Hc. apply (closes_it ch _ _ _ HW). rewrite own_seen in Hc by exact Ht. unfold closed_by in *. eapply own_all. exact Hc.
  - intros u Hu. rewrite (cap_same _ _ _ _ HW). destruct c as [| |b u' mi mo| | |]; try contradiction Hu. destruct Hu as [<-|[]].
    destruct (nr_inside _ _ _ _ _ HX b u' mi mo (nth_error_In _ _ Hk)) as (E & _). now rewrite E.
  - intros m Hm. rewrite (cap_same _ _ _ _ HW). destruct c as [| |b u' mi mo| | |]; try contradiction Hm.
    destruct (nr_inside _ _ _ _ _ HX b u' mi mo (nth_error_In _ _ Hk)) as (_ & E1 & E2). destruct Hm as [<-|[<-|[]]]; [now rewrite E1|now rewrite E2].
Qed.

(** One component's move is a move of the network. *)
Lemma net_extend k c t s w' oc : nth_error net k = Some c -> t < 4 -> comp_runs c (seen_by k l ++ by_task t s) oc -> wrun w (by_task t s) w' ->
  net_run net w0 (l ++ by_task (4 * k + t) s) w' (fun i => if i =? k then oc else ocs i).
Proof.
  intros Hk Ht HC HW.
  assert (Hlt : k < length net) by (apply nth_error_Some; congruence).
  constructor; [| | |apply (nr_new _ _ _ _ _ HX)|apply (nr_room _ _ _ _ _ HX)|apply (nr_inside _ _ _ _ _ HX)].
  - intros i ci Hi. rewrite seen_app. destruct (Nat.eqb_spec i k) as [->|Hne].
    + rewrite seen_mine by exact Ht. now replace ci with c by congruence.
    + apply comp_foreign; [now apply (nr_comps _ _ _ _ _ HX)|]. apply seen_theirs; assumption.
  - apply wrun_app. exists w. split; [apply (nr_world _ _ _ _ _ HX)|]. eapply wrun_by. exact HW.
  - intros i ev Hin. apply in_app_or in Hin. destruct Hin as [Hin|Hin]; [now apply (nr_only _ _ _ _ _ HX _ _ Hin)|].
    unfold by_task in Hin. apply in_map_iff in Hin. destruct Hin as (x & E & _). apply (f_equal fst) in E. cbn [fst] in E. subst i. rewrite (div_mine _ _ Ht). exact Hlt.
Qed.

Lemma net_move k c : nth_error net k = Some c -> can_move c (seen_by k l) w ->
  exists l' w' ocs', net_run net w0 (l ++ l') w' ocs' /\ existsb useful (all_of l') = true /\ forallb friendly (all_of l') = true.
Proof.
  intros Hk (t & s & w' & oc & Ht & HC & HW & HU & HF). exists (by_task (4 * k + t) s), w', (fun i => if i =? k then oc else ocs i). split; [|rewrite all_by; auto using brisk_useful].
  now apply (net_extend k c).
Qed.

Hypothesis HG : granted l.
Hypothesis HS : sound_so_far net ocs.

Lemma ended_closed k c n r : nth_error net k = Some c -> ocs k = Ended r -> In n (comp_ins c ++ comp_outs c) -> cs_closed (w (CData n)) = true.
Proof.
  intros Hk Ho Hn. pose proof (nr_world _ _ _ _ _ HX) as HW. pose proof (nr_comps _ _ _ _ _ HX _ _ Hk) as HC. rewrite Ho in HC.
  assert (K : let_go n (seen_by k l)).
  { apply (comp_ended c _ r); [apply (nw_ready _ HN), (nth_error_In _ _ Hk)|exact HC| |exact Hn]. pose proof (HS _ _ Hk) as HF. rewrite Ho in HF. destruct c; try exact I.
    - intros nm Hin. rewrite own_seen in Hin by lia. exact (proj2 HG nm (own_all _ _ _ Hin)).
    - intros e ->. apply HF. cbn. eauto. }
  destruct K as (t & Ht & [K|(v & K)]); rewrite own_seen in K by exact Ht.
  - apply (closes_it _ _ _ _ HW). unfold closed_by in *. eapply own_all. exact K.
  - apply in_own in K. eapply found_closed; eassumption.
Qed.
Lemma not_broken k c : nth_error net k = Some c -> ocs k = Going \/ exists r, ocs k = Ended r.
Proof.
  intro Hk. destruct (ocs k) as [|r|] eqn:E; eauto. exfalso. pose proof (nr_comps _ _ _ _ _ HX _ _ Hk) as HC. rewrite E in HC.
  pose proof (comp_breaks _ _ (nw_ready _ HN _ (nth_error_In _ _ Hk)) HC) as K. pose proof (HS _ _ Hk) as HF. rewrite E in HF. destruct c; try contradiction K; [now apply HF|].
  destruct K as (sp & K). rewrite own_seen in K by lia. exact (proj1 HG sp (own_all _ _ _ K)).
Qed.

Definition somebody : Prop := exists k c, nth_error net k = Some c /\ can_move c (seen_by k l) w.
Variable rank : nat -> nat.
Hypothesis HR : forall k c k' c' n, nth_error net k = Some c -> nth_error net k' = Some c' -> In n (comp_outs c) -> In n (comp_ins c') -> rank k < rank k'.

Lemma reader_of k c n : nth_error net k = Some c -> In n (comp_outs c) -> exists k' c', nth_error net k' = Some c' /\ In n (comp_ins c').
Proof.
  intros Hk Hn. assert (Hin : In n (flat_map comp_outs net)) by (apply in_flat_map; exists c; split; [exact (nth_error_In _ _ Hk)|exact Hn]).
  apply (nw_ends _ HN) in Hin. apply in_flat_map in Hin. destruct Hin as (c' & H1 & H2). apply In_nth_error in H1. destruct H1 as (k' & H1). eauto.
Qed.
Lemma writer_of k c n : nth_error net k = Some c -> In n (comp_ins c) -> exists k' c', nth_error net k' = Some c' /\ In n (comp_outs c').
Proof.
  intros Hk Hn. assert (Hin : In n (flat_map comp_ins net)) by (apply in_flat_map; exists c; split; [exact (nth_error_In _ _ Hk)|exact Hn]).
  apply (nw_ends _ HN) in Hin. apply in_flat_map in Hin. destruct Hin as (c' & H1 & H2). apply In_nth_error in H1. destruct H1 as (k' & H1). eauto.
Qed.
Lemma rank_le k : k < length net -> rank k <= list_max (map rank (seq 0 (length net))).
Proof.
  intro H. assert (HF := proj1 (list_max_le (map rank (seq 0 (length net))) _) (le_n _)). rewrite Forall_forall in HF. apply HF. apply in_map, in_seq. lia.
Qed.
(** Whoever waits for room waits for somebody further on, and in the end for somebody who moves. *)
Lemma going_in : forall d k c, list_max (map rank (seq 0 (length net))) - rank k <= d -> nth_error net k = Some c -> ocs k = Going -> somebody \/ blocked_in c w.
Proof.
  induction d as [d IH] using lt_wf_ind. intros k c Hd Hk Ho. pose proof (nr_comps _ _ _ _ _ HX _ _ Hk) as HC. rewrite Ho in HC.
  destruct (comp_moves c _ w (nw_ready _ HN _ (nth_error_In _ _ Hk)) HC (net_ok _ _ Hk)) as [H|[(n & Hn & Hf)|H]]; [left; exists k, c; auto| |now right].
  left. destruct (reader_of _ _ _ Hk Hn) as (k' & c' & Hk' & Hn'). pose proof (HR _ _ _ _ _ Hk Hk' Hn Hn') as Hrk.
  destruct (not_broken _ _ Hk') as [Ho'|(r & Ho')].
  - assert (Hlt : k' < length net) by (apply nth_error_Some; congruence). pose proof (rank_le _ Hlt).
    destruct (IH (list_max (map rank (seq 0 (length net))) - rank k')) with (k := k') (c := c') as [K|[_ K]]; try assumption; [lia|lia|]. exfalso.
    pose proof (K n Hn' (proj1 Hf)) as Hq. destruct (nr_room _ _ _ _ _ HX n) as (cap & E); [apply in_flat_map; exists c; split; [exact (nth_error_In _ _ Hk)|exact Hn]|].
    apply (proj2 Hf). unfold room. rewrite (cap_same _ _ _ _ (nr_world _ _ _ _ _ HX)), E, Hq. cbn. lia.
  - exfalso. assert (K : cs_closed (w (CData n)) = true) by (eapply ended_closed; [exact Hk'|exact Ho'|apply in_or_app; now left]). destruct Hf. congruence.
Qed.
Lemma going_moves : forall d k c, rank k <= d -> nth_error net k = Some c -> ocs k = Going -> somebody.
Proof.
  induction d as [d IH] using lt_wf_ind. intros k c Hd Hk Ho. destruct (going_in _ _ _ (le_n _) Hk Ho) as [H|[(n & Hn & Hdry) _]]; [exact H|].
  destruct (writer_of _ _ _ Hk Hn) as (k' & c' & Hk' & Hn'). pose proof (HR _ _ _ _ _ Hk' Hk Hn' Hn) as Hrk. destruct (not_broken _ _ Hk') as [Ho'|(r & Ho')].
  - apply (IH (rank k')) with (k := k') (c := c'); auto. lia.
  - exfalso. assert (K : cs_closed (w (CData n)) = true) by (eapply ended_closed; [exact Hk'|exact Ho'|apply in_or_app; now right]). destruct Hdry. congruence.
Qed.
End Run.

Lemma somebody_moves l w ocs : acyclic net -> net_run net w0 l w ocs -> granted l -> sound_so_far net ocs -> forall k, k < length net -> ocs k = Going -> somebody l w.
Proof.
  intros (rank & HR) HX HG HS k Hk Ho. destruct (nth_error net k) as [c|] eqn:E; [|apply nth_error_None in E; lia].
  exact (going_moves l w ocs HX HG HS rank HR _ _ _ (le_n _) E Ho).
Qed.
Theorem net_moves l w ocs : acyclic net -> net_run net w0 l w ocs -> granted l -> sound_so_far net ocs -> forall k, k < length net -> ocs k = Going ->
  exists l' w' ocs', net_run net w0 (l ++ l') w' ocs' /\ existsb useful (all_of l') = true /\ forallb friendly (all_of l') = true.
Proof.
  intros HA HX HG HS k Hk Ho. destruct (somebody_moves l w ocs HA HX HG HS k Hk Ho) as (k' & c' & H1 & H2). exact (net_move l w ocs HX _ _ H1 H2).
Qed.
End Net.
