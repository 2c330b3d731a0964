(** * P_NetDone: a network in which nothing flows back can always be brought to its end *)
From Coq Require Import Ascii String List Bool Arith Lia.
From Verif Require Import M_Prog M_Motion M_Junction S_Trace S_World S_Junction S_Network S_Net P_World P_Net P_NetCost.
Import ListNotations.

Lemma all_app (a b : list nevent) : all_of (a ++ b) = all_of a ++ all_of b.
Proof. apply map_app. Qed.
Lemma friendly_granted a b : granted a -> forallb friendly (all_of b) = true -> granted (a ++ b).
Proof.
  intros [H1 H2] HF. rewrite forallb_forall in HF. split; intros x Hin; rewrite all_app in Hin; apply in_app_or in Hin; destruct Hin as [Hin|Hin]; try (now apply (H1 x)); try (now apply (H2 x)); discriminate (HF _ Hin).
Qed.
Lemma friendly_bytes a b : forallb friendly (all_of b) = true -> bytes_read (a ++ b) = bytes_read a.
Proof.
  intro HF. unfold bytes_read. rewrite all_app, map_app, list_sum_app. rewrite forallb_forall in HF.
  assert (E : list_sum (map (fun ev : event => match ev with (ERead _, AData d) => length d | _ => 0 end) (all_of b)) = 0); [|unfold event in *; rewrite E; lia].
  induction (all_of b) as [|[e x] tr IH]; [reflexivity|]. cbn [map list_sum fold_right]. unfold list_sum in IH. rewrite IH by (intros y Hy; apply HF; now right). specialize (HF _ (or_introl eq_refl)).
  destruct e; try reflexivity. destruct x; try reflexivity. destruct d; [reflexivity|discriminate HF].
Qed.
Lemma useful_more a b : existsb useful (all_of b) = true -> useful_count a < useful_count (a ++ b).
Proof.
  intro H. unfold useful_count. rewrite all_app, filter_app, app_length. apply existsb_exists in H. destruct H as (ev & H1 & H2).
  assert (K : In ev (filter useful (all_of b))) by (apply filter_In; auto). destruct (filter useful (all_of b)); [destruct K|]. cbn. lia.
Qed.
Lemma some_failed net ocs : (exists k c, nth_error net k = Some c /\ failed c (ocs k)) \/ sound_so_far net ocs.
Proof.
  assert (D : forall c oc, failed c oc \/ ~ failed c oc).
  { intros c oc. destruct c; try solve [right; intros []]; destruct oc as [|[n|e]|]; cbn; try (right; intros [e' E]; discriminate E); try (right; discriminate); left; eauto. }
  assert (K : forall n, (exists k c, k < n /\ nth_error net k = Some c /\ failed c (ocs k)) \/ forall k c, k < n -> nth_error net k = Some c -> ~ failed c (ocs k)).
  { induction n as [|n [(k & c & H1 & H2 & H3)|IH]]; [right; intros; lia|left; exists k, c; auto|].
    destruct (nth_error net n) as [c|] eqn:E.
    - destruct (D c (ocs n)) as [H|H]; [left; exists n, c; auto|]. right. intros k c' Hk Hc. destruct (Nat.eq_dec k n) as [->|Hne]; [congruence|]. apply IH; [lia|exact Hc].
    - right. intros k c' Hk Hc. destruct (Nat.eq_dec k n) as [->|Hne]; [congruence|]. apply IH; [lia|exact Hc]. }
  destruct (K (length net)) as [(k & c & _ & H)|H]; [left; eauto|]. right. intros k c Hk. apply H; [apply nth_error_Some; congruence|exact Hk].
Qed.
Lemma some_going n (ocs : nat -> outcome) : (exists k, k < n /\ ocs k = Going) \/ forall k, k < n -> ocs k <> Going.
Proof.
  induction n as [|n [(k & H1 & H2)|IH]]; [right; intros; lia|left; exists k; auto|]. destruct (ocs n) eqn:E; [left; exists n; auto| |]; right; intros k Hk; (destruct (Nat.eq_dec k n) as [->|Hne]; [congruence|]; apply IH; lia).
Qed.
Theorem net_finishes net w0 l w ocs : net_wired net -> acyclic net -> net_run net w0 l w ocs -> granted l ->
  exists l' w' ocs', net_run net w0 (l ++ l') w' ocs' /\ forallb friendly (all_of l') = true /\ (all_ended net ocs' \/ exists k c, nth_error net k = Some c /\ failed c (ocs' k)).
Proof.
  intros HN HA HX HG. destruct (net_bound net HN HA (bytes_read l)) as (B & HB).
  assert (K : forall d l' w' ocs', B - useful_count (l ++ l') <= d -> net_run net w0 (l ++ l') w' ocs' -> forallb friendly (all_of l') = true ->
    exists l' w' ocs', net_run net w0 (l ++ l') w' ocs' /\ forallb friendly (all_of l') = true /\ (all_ended net ocs' \/ exists k c, nth_error net k = Some c /\ failed c (ocs' k))).
  { induction d as [d IH] using lt_wf_ind. intros l1 w1 ocs1 Hd HX1 HF. destruct (some_failed net ocs1) as [Hf|HS]; [exists l1, w1, ocs1; auto|].
    pose proof (friendly_granted _ _ HG HF) as HG1.
    destruct (some_going (length net) ocs1) as [(k & Hk & Ho)|Hno].
    - destruct (net_moves net w0 HN _ _ _ HA HX1 HG1 HS k Hk Ho) as (l2 & w2 & ocs2 & HX2 & HU & HF2). pose proof (useful_more (l ++ l1) l2 HU) as Hlt. rewrite <- app_assoc in HX2, Hlt.
      assert (HF12 : forallb friendly (all_of (l1 ++ l2)) = true) by (rewrite all_app, forallb_app, HF, HF2; reflexivity).
      assert (Hle : useful_count (l ++ l1 ++ l2) <= B) by (apply (HB w0 _ _ _ HX2); rewrite (friendly_bytes _ _ HF12); lia).
      apply (IH (B - useful_count (l ++ l1 ++ l2))) with (w' := w2) (ocs' := ocs2) (l' := l1 ++ l2); auto. lia.
    - exists l1, w1, ocs1. split; [exact HX1|]. split; [exact HF|]. left. intros k Hk. destruct (nth_error net k) as [c|] eqn:E; [|apply nth_error_None in E; lia].
      destruct (not_broken net w0 HN _ _ _ HX1 HG1 HS k c E) as [Ho|Ho]; [destruct (Hno _ Hk Ho)|exact Ho]. }
  apply (K (B - useful_count l) [] w ocs); rewrite ?app_nil_r; auto.
Qed.
