(** * P_Flow: the worker and the copy loop, as rounds *)
From Coq Require Import Ascii String List Bool Arith Lia.
From Verif Require Import M_Prog P_Prog P_Exec M_Motion S_Trace S_Lines S_Motion P_Split P_Read P_Motion P_Worker.
Import ListNotations.

Definition rounds (pushs : list push) (l : list (bytes * list wout)) : list (eff * bytes * ans) :=
  flat_map (fun x => round pushs (fst x) (snd x)) l.

(** A round after which the component goes on. *)
Definition round_ok (pushs : list push) (x : bytes * list wout) : Prop :=
  Forall2 (no_fail (fst x)) pushs (snd x) /\ count_finish pushs (snd x) <> length pushs.

Lemma rounds_app pushs a b : rounds pushs (a ++ b) = rounds pushs a ++ rounds pushs b.
Proof. apply flat_map_app. Qed.

Section Flow.
Variables (pl0 : pull) (pushs0 : list push).

(** Between two messages. *)
Definition LI (h : trace) (l : list (bytes * list wout)) (pl : pull) (pushs : list push) : Prop :=
  rinv pl0 h (map fst l) pl /\ map erase pushs = map erase pushs0 /\
  attempts h = rounds pushs0 l /\ Forall (round_ok pushs0) l.

Definition at_read (h : trace) (l : list (bytes * list wout)) : Prop :=
  attempts h = rounds pushs0 l /\ seen pl0 h (map fst l).
Definition mid (h : trace) (l : list (bytes * list wout)) (d : bytes) (done rest : list push) (os : list wout) : Prop :=
  attempts h = rounds pushs0 l ++ round done d os /\ pushs0 = done ++ rest /\ length os = length done /\
  Forall2 (no_fail d) done os /\ seen pl0 h (map fst l ++ [d]).
Definition fin (h : trace) (l : list (bytes * list wout)) : Prop :=
  attempts h = rounds pushs0 l /\ got pl0 h = map fst l /\ ended pl0 h.

Definition report (e : eff) : Prop :=
  match e with ESend (CMon _) _ | ESend (CSpy _) _ => True | _ => False end.

(** Wherever the component stands. *)
Definition now (t : bool) (h : trace) (e : eff) : Prop :=
  exists l, Forall (round_ok pushs0) l /\
  ((at_read h l /\ read_eff pl0 t = Some e /\ length (got pl0 h) <= S (length l))
   \/ (exists d done rest os, mid h l d done rest os /\ (report e \/ exists p rest', rest = p :: rest' /\ write_eff p d = Some e))
   \/ (fin h l /\ report e)).

(** Stopping because every output is a closed Finish pipe. *)
Definition all_closed (h : trace) (l : list (bytes * list wout)) (d : bytes) (os : list wout) : Prop :=
  mid h l d pushs0 [] os /\ count_finish pushs0 os = length pushs0.

(** Stopping with an error. *)
Definition failed (t : bool) (h : trace) (err : merror) : Prop :=
  exists l, Forall (round_ok pushs0) l /\
  ((at_read h l /\ exists j, pull_journey pl0 = Some j /\ err = ReadIOError j /\ exists e', read_eff pl0 t = Some e' /\ In (e', AErr) h)
   \/ (exists d done p rest os o, attempts h = rounds pushs0 l ++ round done d os ++ attempt p d o /\
        pushs0 = done ++ p :: rest /\ length os = length done /\ Forall2 (no_fail d) done os /\
        can_out p o /\ push_fail p d o = Some err /\ seen pl0 h (map fst l ++ [d]) /\
        exists h0 post, h = h0 ++ write_ev p d o ++ post /\ only_closing post)
   \/ (((exists d done rest os, mid h l d done rest os) \/ fin h l) /\
       ((exists s dd p m, err = SpyWriteError s dd p m) \/ (exists s, err = MonitorReadError s) \/ (exists j, err = MonitorWriteError j)))).

Lemma attempts_output_other h tr : attempts tr = [] -> attempts (h ++ tr) = attempts h.
Proof. intro E. now rewrite attempts_app, E, app_nil_r. Qed.

Lemma seen_frame h acc tr : seen pl0 h acc -> no_reads tr -> seen pl0 (h ++ tr) acc.
Proof.
  unfold seen. intros [H1 H2] Hn.
  assert (E : got pl0 (h ++ tr) = got pl0 h).
  { destruct pl0; cbn [got]; auto.
    - now rewrite reads_app, (no_reads_reads _ _ Hn), app_nil_r.
    - now rewrite taken_app, (no_reads_taken _ _ Hn), app_nil_r. }
  rewrite E. auto.
Qed.
Lemma got_frame h tr : no_reads tr -> got pl0 (h ++ tr) = got pl0 h.
Proof.
  intro Hn. destruct pl0; cbn [got]; auto.
  - now rewrite reads_app, (no_reads_reads _ _ Hn), app_nil_r.
  - now rewrite taken_app, (no_reads_taken _ _ Hn), app_nil_r.
Qed.
Lemma ended_app h tr : ended pl0 h -> ended pl0 (h ++ tr).
Proof.
  destruct pl0; cbn; auto.
  - intro H. apply in_or_app. auto.
  - unfold saw_end. intros [H|H]; [left|right]; apply in_or_app; auto.
Qed.
Lemma ended_app2 h tr : ended pl0 tr -> ended pl0 (h ++ tr).
Proof.
  destruct pl0; cbn; auto.
  - intro H. apply in_or_app. auto.
  - unfold saw_end. intros [H|H]; [left|right]; apply in_or_app; auto.
Qed.

Lemma count_finish_le pushs outs : count_finish pushs outs <= length pushs.
Proof.
  revert outs; induction pushs as [|p ps IH]; intros [|o os]; cbn; try lia.
  specialize (IH os). destruct (closed_finish p o); lia.
Qed.

(** The result of one call of the worker. *)
Definition worker_post (t : bool) (l : list (bytes * list wout)) (h : trace) (r : mres worker_result * pull * list push) : Prop :=
  let '(r, pl, pushs) := r in
  pull_journey pl = pull_journey pl0 /\ read_eff pl t = read_eff pl0 t /\ map erase pushs = map erase pushs0 /\
  match r with
  | Err e => failed t h e
  | Ok (WR false false) => t = true /\ LI h l pl pushs /\ exists e h0, read_eff pl0 true = Some e /\ h = h0 ++ [(e, AEmpty)]
  | Ok (WR false true) => exists d os, LI h (l ++ [(d, os)]) pl pushs
  | Ok (WR true true) => (fin h l /\ rinv pl0 h (map fst l) pl \/ exists d os, all_closed h l d os)
  | Ok (WR true false) => False
  end.

Lemma rinv_read_eff h acc pl t : rinv pl0 h acc pl -> read_eff pl t = read_eff pl0 t.
Proof. destruct pl0; cbn; [intros (ov & -> & _)|intros [-> _]|intros (q' & -> & _)|intros [-> _]]; reflexivity. Qed.

Lemma worker_flow h l pl pushs mon spy t :
  LI h l pl pushs -> try_ok pl0 t -> (pull_journey pl0 <> None \/ mon = mn_empty) ->
  sat h (motion_worker pl mon pushs spy t) (now t) (worker_post t l).
Proof.
  intros (HR & HE & HA & HO) Ht Hmon tr st HX.
  destruct (worker_inv _ _ _ _ _ _ _ _ _ _ HR Ht HX) as (tr1 & tr2 & -> & Hrd & HC).
  pose proof (reads_of_attempts _ _ _ Hrd) as Ha1.
  destruct HC as [(-> & e & -> & He & Hlen & Hseen)|[(-> & j & pl' & -> & Hj & Hseen & HIn)|[(-> & Htt & pl' & -> & HR' & HIn)|[(d & pl1 & HR1 & HAf)|(pl1 & HR1 & Hgot & Hend & HAf)]]]].
  - rewrite app_nil_r. exists l. split; [exact HO|]. left. repeat split; try assumption.
    + now rewrite attempts_output_other.
    + apply Hseen.
    + apply Hseen.
    + now rewrite map_length in Hlen.
  - rewrite app_nil_r.
    assert (Hpl : pull_journey pl' = pull_journey pl0 /\ read_eff pl' t = read_eff pl0 t).
    { unfold motion_worker in HX.
      rewrite app_nil_r in HX.
      destruct (exec_bind_inv _ _ _ _ HX) as [(u1 & u2 & x & _ & H1 & H2)|[(e & E & H1)|(s' & E & H1)]]; try discriminate.
      destruct x as [r q]. assert (Hq : q = pl').
      { destruct r as [[d| |]|e].
        - unfold after_prog in *.
          pose proof (after_inv mon spy pushs (IOData d) q u2 _ ltac:(discriminate) H2) as HAf.
          inversion HAf; subst; try reflexivity.
        - pose proof (after_inv mon spy pushs Finished q u2 _ ltac:(discriminate) H2) as HAf.
          inversion HAf; subst; try reflexivity.
        - apply exec_ret_inv in H2; destruct H2 as [_ H2]; inversion H2; reflexivity.
        - apply exec_ret_inv in H2; destruct H2 as [_ H2]; inversion H2; reflexivity. }
      subst q.
      pose proof (rinv_journey _ _ _ _ HR) as J1. pose proof (rinv_read_eff _ _ _ t HR) as J2.
      rewrite <- J1, <- J2. clear -H1. destruct pl as [k j f sc|j n|j q|]; cbn [motion_read] in H1; destruct t; try (apply exec_panic_inv in H1; destruct H1; discriminate).
      - destruct (exec_bind_inv _ _ _ _ H1) as [(v1 & v2 & x & _ & G1 & G2)|[(e & E & G1)|(s' & E & G1)]]; try discriminate.
        destruct x as [[v|] sc']; apply exec_ret_inv in G2; destruct G2 as [_ G2]; inversion G2; subst; split; reflexivity.
      - destruct (exec_bind_inv _ _ _ _ H1) as [(v1 & v2 & x & _ & G1 & G2)|[(e & E & G1)|(s' & E & G1)]]; try discriminate.
        destruct x as [[]| |]; try (unfold ill in G2; apply exec_panic_inv in G2; destruct G2; discriminate);
          apply exec_ret_inv in G2; destruct G2 as [_ G2]; inversion G2; subst; split; reflexivity.
      - destruct (exec_bind_inv _ _ _ _ H1) as [(v1 & v2 & x & _ & G1 & G2)|[(e & E & G1)|(s' & E & G1)]]; try discriminate.
        destruct x; apply exec_ret_inv in G2; destruct G2 as [_ G2]; inversion G2; subst; split; reflexivity.
      - destruct q; apply exec_ret_inv in H1; destruct H1 as [_ G2]; inversion G2; subst; split; reflexivity.
      - destruct q; apply exec_ret_inv in H1; destruct H1 as [_ G2]; inversion G2; subst; split; reflexivity.
      - apply exec_ret_inv in H1; destruct H1 as [_ G2]; inversion G2; subst; split; reflexivity. }
    destruct Hpl as [Hpl1 Hpl2]. split; [exact Hpl1|]. split; [exact Hpl2|]. split; [exact HE|].
    exists l. split; [exact HO|]. left. split.
    + split; [now rewrite attempts_output_other|exact Hseen].
    + exists j. split; [exact Hj|]. split; [reflexivity|]. destruct HIn as (e' & He' & HIn). exists e'.
      split; [exact He'|]. apply in_or_app; now right.
  - rewrite app_nil_r. split; [eapply rinv_journey; eassumption|]. split; [eapply rinv_read_eff; eassumption|].
    split; [exact HE|]. split; [exact Htt|]. split.
    + split; [exact HR'|]. split; [exact HE|]. split; [now rewrite attempts_output_other|exact HO].
    + destruct HIn as (e & He & ->). exists e, h. auto.
  - (* data *)
    rewrite app_assoc. set (h1 := h ++ tr1) in *.
    assert (HA1 : attempts h1 = rounds pushs0 l) by (unfold h1; now rewrite attempts_output_other).
    apply (after_congr _ _ _ _ _ _ _ _ HE) in HAf.
    pose proof (output_no_reads _ (after_output _ _ _ _ _ _ _ HAf)) as Hnr.
    pose proof (seen_frame _ _ _ (rinv_seen _ _ _ _ HR1) Hnr) as Hseen.
    pose proof (rinv_journey _ _ _ _ HR1) as J1. pose proof (rinv_read_eff _ _ _ t HR1) as J2.
    assert (Hmid0 : attempts tr2 = [] -> mid (h1 ++ tr2) l d [] pushs0 []).
    { intro E. split; [|repeat split; try constructor; apply Hseen]. rewrite attempts_app, HA1, E. cbn. now rewrite app_nil_r. }
    destruct HAf as [c Hc|c j pushs' Hc Hj He'|c s Hc Hj|tr e HP|tr err pushs' HP He'|tr outs c HP Hl Hc|tr outs c j pushs' HP Hl Hc Hj He'|tr outs c s HP Hl Hc Hj|tr outs pushs' HP Hl He'].
    + exists l. split; [exact HO|]. right; left. exists d, [], pushs0, []. split; [now apply Hmid0|]. left; exact I.
    + split; [exact J1|]. split; [exact J2|]. split; [exact He'|].
      exists l. split; [exact HO|]. right; right. split; [left; exists d, [], pushs0, []; now apply Hmid0|]. right; left; eauto.
    + destruct Hmon as [Hmon|Hmon]; [congruence|]. subst mon. discriminate Hc.
    + destruct (pushes_attempts _ _ _ _ _ HP) as (done & rest & os & Hps & Hlo & Hat & HF & Hnext).
      exists l. split; [exact HO|]. right; left. exists d, done, rest, os. split.
      * split; [|split; [exact Hps|split; [exact Hlo|split; [exact HF|exact Hseen]]]].
        rewrite !attempts_app, HA1, attempts_mon_ev, Hat. reflexivity.
      * destruct Hnext as [Hnext|(s & v & ->)]; [right; exact Hnext|left; exact I].
    + split; [exact J1|]. split; [exact J2|]. split; [exact He'|].
      destruct (pushes_attempts _ _ _ _ _ HP) as (done & rest & os & Hps & Hlo & Hat & Hcase).
      exists l. split; [exact HO|].
      destruct Hcase as [(done0 & p & os0 & o & -> & -> & HF & Hl0 & Hco & Hpf & t0 & Ht0)|(HF & Hspy)].
      * right; left. exists d, done0, p, rest, os0, o. rewrite <- app_assoc in Hps. cbn in Hps.
        split; [|repeat split; auto; try apply Hseen; exists (h1 ++ mon_ev (mon_read mon) VRead ++ t0), []; split; [rewrite Ht0, app_nil_r, <- !app_assoc; reflexivity|constructor]].
        rewrite !attempts_app, HA1, attempts_mon_ev, Hat. f_equal. cbn.
        clear -Hl0. revert os0 Hl0; induction done0 as [|q qs IH]; intros [|o' os0] Hl0; try discriminate; cbn.
        -- now rewrite app_nil_r.
        -- rewrite <- app_assoc. f_equal. apply IH. cbn in Hl0; lia.
      * right; right. split; [|left; exact Hspy]. left. exists d, done, rest, os.
        split; [|split; [exact Hps|split; [exact Hlo|split; [exact HF|exact Hseen]]]].
        rewrite !attempts_app, HA1, attempts_mon_ev, Hat. reflexivity.
    + destruct (pushes_attempts _ _ _ _ _ HP) as (done & rest & os & Hps & Hlo & Hat & -> & -> & HF).
      rewrite app_nil_r in Hps. rewrite <- Hps in *. clear Hps done.
      exists l. split; [exact HO|]. right; left. exists d, pushs0, [], outs. split; [|left; exact I].
      split; [|split; [now rewrite app_nil_r|split; [exact Hlo|split; [exact HF|exact Hseen]]]].
      rewrite !attempts_app, HA1, attempts_mon_ev, Hat. reflexivity.
    + split; [exact J1|]. split; [exact J2|]. split; [exact He'|].
      destruct (pushes_attempts _ _ _ _ _ HP) as (done & rest & os & Hps & Hlo & Hat & -> & -> & HF).
      rewrite app_nil_r in Hps. rewrite <- Hps in *. clear Hps done.
      exists l. split; [exact HO|]. right; right. split; [|right; right; eauto]. left. exists d, pushs0, [], outs.
      split; [|split; [now rewrite app_nil_r|split; [exact Hlo|split; [exact HF|exact Hseen]]]].
      rewrite !attempts_app, HA1, attempts_mon_ev, Hat. cbn. now rewrite app_nil_r.
    + destruct Hmon as [Hmon|Hmon]; [congruence|]. subst mon. discriminate Hc.
    + destruct (pushes_attempts _ _ _ _ _ HP) as (done & rest & os & Hps & Hlo & Hat & -> & -> & HF).
      rewrite app_nil_r in Hps. rewrite <- Hps in *. clear Hps done.
      assert (Hatt : attempts (h1 ++ mon_ev (mon_read mon) VRead ++ tr ++ mon_ev (mon_written mon) VWrote) = rounds pushs0 l ++ round pushs0 d outs).
      { rewrite !attempts_app, HA1, !attempts_mon_ev, Hat. now rewrite app_nil_r. }
      split; [exact J1|]. split; [exact J2|]. split; [exact He'|].
      destruct (length pushs0 - count_finish pushs0 outs =? 0) eqn:E; cbn [is_finished].
      * right. exists d, outs. split.
        -- split; [exact Hatt|]. split; [now rewrite app_nil_r|]. split; [exact Hlo|]. split; [exact HF|exact Hseen].
        -- apply Nat.eqb_eq in E. pose proof (count_finish_le pushs0 outs). lia.
      * exists d, outs. split; [|split; [exact He'|split]].
        -- rewrite map_app. cbn. apply rinv_frame; assumption.
        -- rewrite Hatt, rounds_app. cbn. now rewrite app_nil_r.
        -- apply Forall_app. split; [exact HO|]. constructor; [|constructor]. split; [exact HF|]. cbn.
           apply Nat.eqb_neq in E. lia.
  - (* finished *)
    rewrite app_assoc. set (h1 := h ++ tr1) in *.
    assert (HA1 : attempts h1 = rounds pushs0 l) by (unfold h1; now rewrite attempts_output_other).
    apply (after_congr _ _ _ _ _ _ _ _ HE) in HAf.
    pose proof (output_no_reads _ (after_output _ _ _ _ _ _ _ HAf)) as Hnr.
    pose proof (rinv_journey _ _ _ _ HR1) as J1. pose proof (rinv_read_eff _ _ _ t HR1) as J2.
    assert (Hfin : attempts tr2 = [] -> fin (h1 ++ tr2) l).
    { intro E. split; [now rewrite attempts_app, HA1, E, app_nil_r|]. split; [now rewrite got_frame|].
      apply ended_app. unfold h1. now apply ended_app2. }
    destruct HAf as [c Hc|c j pushs' Hc Hj He'|c s Hc Hj|tr e HP|tr err pushs' HP He'|tr outs c HP Hl Hc|tr outs c j pushs' HP Hl Hc Hj He'|tr outs c s HP Hl Hc Hj|tr outs pushs' HP Hl He'].
    + exists l. split; [exact HO|]. right; right. split; [now apply Hfin|exact I].
    + split; [exact J1|]. split; [exact J2|]. split; [exact He'|].
      exists l. split; [exact HO|]. right; right. split; [right; now apply Hfin|]. right; left; eauto.
    + destruct Hmon as [Hmon|Hmon]; [congruence|]. subst mon. discriminate Hc.
    + destruct (pushes_finished _ _ _ _ HP) as (Hat & (s & v & ->)).
      exists l. split; [exact HO|]. right; right. split; [|exact I]. apply Hfin. now rewrite attempts_app, attempts_mon_ev, Hat.
    + split; [exact J1|]. split; [exact J2|]. split; [exact He'|].
      destruct (pushes_finished _ _ _ _ HP) as (Hat & Hspy).
      exists l. split; [exact HO|]. right; right. split; [|left; exact Hspy]. right. apply Hfin. now rewrite attempts_app, attempts_mon_ev, Hat.
    + destruct (pushes_finished _ _ _ _ HP) as (Hat & Hcf).
      exists l. split; [exact HO|]. right; right. split; [|exact I]. apply Hfin. now rewrite attempts_app, attempts_mon_ev, Hat.
    + split; [exact J1|]. split; [exact J2|]. split; [exact He'|].
      destruct (pushes_finished _ _ _ _ HP) as (Hat & Hcf).
      exists l. split; [exact HO|]. right; right. split; [|right; right; eauto]. right. apply Hfin.
      now rewrite !attempts_app, attempts_mon_ev, Hat.
    + destruct Hmon as [Hmon|Hmon]; [congruence|]. subst mon. discriminate Hc.
    + destruct (pushes_finished _ _ _ _ HP) as (Hat & Hcf).
      split; [exact J1|]. split; [exact J2|]. split; [exact He'|].
      cbn [is_finished].
      assert (Hb : (if length pushs0 - count_finish pushs0 outs =? 0 then true else true) = true) by now destruct (_ =? _).
      rewrite Hb. left. split; [|now apply rinv_frame]. apply Hfin. now rewrite !attempts_app, !attempts_mon_ev, Hat.
Qed.

End Flow.
