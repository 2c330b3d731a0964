(** * P_Fan: one call of the worker with any number of outputs *)
From Coq Require Import Ascii String List Bool Arith Lia.
From Verif Require Import M_Prog P_Prog P_Exec M_Motion S_Trace S_Lines S_Motion P_Split P_Read P_Motion P_Worker P_Flow P_Loop P_Copy.
Import ListNotations.

Lemma round_in pushs d0 : forall os e d a, In (e, d, a) (round pushs d0 os) ->
  exists p o, In (p, o) (combine pushs os) /\ write_eff p d0 = Some e /\ d = d0 /\ a = write_ans p o.
Proof.
  induction pushs as [|p ps IH]; intros os e d a HIn; [destruct HIn|].
  destruct os as [|o os]; [destruct HIn|]. cbn in HIn. apply in_app_iff in HIn. destruct HIn as [HIn|HIn].
  - exists p, o. split; [now left|]. unfold attempt in HIn. destruct (write_eff p d0) as [e'|]; [|destruct HIn].
    destruct HIn as [HIn|[]]; inversion HIn; auto.
  - destruct (IH _ _ _ _ HIn) as (q & o' & H1 & H2). exists q, o'. split; [now right|exact H2].
Qed.

Lemma write_eff_dest p q d e : write_eff p d = Some e -> write_eff q d = Some e -> dest p = dest q /\ dest p <> [].
Proof.
  destruct p, q; cbn; intros E1 E2; inversion E1; subst; inversion E2; subst; split; congruence || discriminate.
Qed.

Lemma distinct_pos pushs d e : forall (os : list wout) p o q o', distinct_outputs pushs ->
  In (p, o) (combine pushs os) -> In (q, o') (combine pushs os) ->
  write_eff p d = Some e -> write_eff q d = Some e -> p = q /\ o = o'.
Proof.
  unfold distinct_outputs. induction pushs as [|x xs IH]; intros os p o q o' HN H1 H2 E1 E2; [destruct H1|].
  destruct os as [|y ys]; [destruct H1|]. cbn in HN. destruct H1 as [H1|H1], H2 as [H2|H2].
  - inversion H1; inversion H2; subst; auto.
  - exfalso. inversion H1; subst. apply in_combine_l in H2.
    destruct (write_eff_dest _ _ _ _ E1 E2) as [Hd Hne].
    destruct (dest p) as [|w ws] eqn:Ew; [congruence|]. cbn in HN. inversion HN as [|? ? Hni _]; subst. apply Hni.
    apply in_app_iff. right. apply in_flat_map. exists q. split; [exact H2|]. rewrite <- Hd. now left.
  - exfalso. inversion H2; subst. apply in_combine_l in H1.
    destruct (write_eff_dest _ _ _ _ E2 E1) as [Hd Hne].
    destruct (dest q) as [|w ws] eqn:Ew; [congruence|]. cbn in HN. inversion HN as [|? ? Hni _]; subst. apply Hni.
    apply in_app_iff. right. apply in_flat_map. exists p. split; [exact H1|]. rewrite <- Hd. now left.
  - eapply IH; eauto. clear -HN. induction (dest x) as [|w ws IHw]; [exact HN|]. apply IHw. now inversion HN.
Qed.

Lemma in_attempts_gen p e d a tr : In (e, a) tr -> write_eff p d = Some e -> In (e, d, a) (attempts tr).
Proof.
  intros HIn He. unfold attempts. apply in_flat_map. exists (e, a). split; [exact HIn|].
  destruct p; cbn in He; inversion He; subst; now left.
Qed.

Lemma offers_round pushs d : forall os, length os = length pushs -> offers pushs d (round pushs d os).
Proof.
  unfold offers. induction pushs as [|p ps IH]; intros [|o os] Hl; try discriminate; [constructor|].
  cbn in Hl. specialize (IH os ltac:(lia)).
  destruct p; cbn; try (constructor; [cbn; auto|]); exact IH.
Qed.

Lemma closed_out p o : can_out p o -> write_ans p o = closed_ans p -> (exists d e, write_eff p d = Some e) -> o = OClosed.
Proof.
  intros Hc Hw (d & e & He). destruct p, o; cbn in *; try discriminate; try reflexivity; congruence.
Qed.

Section Fan.
Variables (pl : pull) (mon : notifications) (pushs : list push) (spy : option nat) (t : bool).
Hypothesis Hfresh : fresh_pull pl.
Hypothesis Htry : try_ok pl t.
Hypothesis Hmon : pull_journey pl <> None \/ mon = mn_empty.

Lemma start_LI : LI pl pushs [] [] pl pushs.
Proof. split; [now apply rinv_start|]. repeat split; constructor. Qed.

Lemma worker_sat : sat [] (motion_worker pl mon pushs spy t) (now pl pushs t) (worker_post pl pushs t []).
Proof. apply worker_flow; auto. apply start_LI. Qed.

(** The outcomes of a successful beginning of a round contain no closed Terminate output. *)
Lemma no_fail_closed p d e done : forall os, In p pushs -> (forall x, In x done -> In x pushs) -> push_brk p = Terminate ->
  distinct_outputs pushs -> write_eff p d = Some e ->
  Forall2 (no_fail d) done os -> ~ In (e, d, closed_ans p) (round done d os).
Proof.
  intros os Hp Hsub Hb HD He HF HIn.
  destruct (round_in _ _ _ _ _ _ HIn) as (q & o & HC & Hq & _ & Ha).
  assert (Hqp : q = p).
  { assert (Hq' : In q pushs) by (apply Hsub; eapply in_combine_l; eassumption).
    assert (Hlen : exists os2, length os2 = length pushs) by (exists (map (fun _ => OAcc) pushs); apply map_length).
    destruct Hlen as (os2 & Hlen).
    assert (Hc2 : forall x, In x pushs -> exists o2, In (x, o2) (combine pushs os2)).
    { clear -Hlen. revert os2 Hlen. induction pushs as [|y ys IH]; intros [|z zs] Hlen x Hx; try discriminate; [destruct Hx|].
      destruct Hx as [->|Hx]; [exists z; now left|]. destruct (IH zs ltac:(cbn in Hlen; lia) x Hx) as (o2 & H2). exists o2. now right. }
    destruct (Hc2 _ Hq') as (o1 & H1). destruct (Hc2 _ Hp) as (o2 & H2).
    eapply distinct_pos; eauto. }
  subst q.
  assert (Hnf : no_fail d p o).
  { clear -HF HC. induction HF as [|x y xs ys Hxy HF IH]; [destruct HC|]. destruct HC as [HC|HC]; [inversion HC; subst; exact Hxy|auto]. }
  destruct Hnf as [Hc Hf]. assert (o = OClosed) as -> by (eapply closed_out; eauto).
  unfold push_fail in Hf. destruct (push_journey p) as [j|] eqn:Ej.
  - rewrite (push_brk_journey _ _ Ej) in Hb. rewrite Hb in Hf. discriminate.
  - destruct p; cbn in *; discriminate.
Qed.

Lemma fan_terminate tr st p d : exec (motion_worker pl mon pushs spy t) tr st ->
  In p pushs -> push_brk p = Terminate -> distinct_outputs pushs -> found_closed p d tr ->
  exists e pre j reason pl' pushs', write_eff p d = Some e /\ tr = pre ++ [(e, closed_ans p)] /\
    push_journey p = Some j /\ st = Done (Err (OutputClosed j reason d), pl', pushs').
Proof.
  intros HX Hp Hb HD (e & He & HIn).
  pose proof (in_attempts_gen _ _ _ _ _ HIn He) as HAt.
  destruct (worker_inv _ _ _ _ _ _ _ _ _ _ (proj1 start_LI) Htry HX) as (tr1 & tr2 & -> & Hrd & HC).
  pose proof (reads_of_attempts _ _ _ Hrd) as Ha1.
  rewrite attempts_app, Ha1 in HAt. cbn [app] in HAt.
  assert (Hpre : forall done rest os, pushs = done ++ rest -> Forall2 (no_fail d) done os -> ~ In (e, d, closed_ans p) (round done d os)).
  { intros done rest os E HF. eapply no_fail_closed; eauto. intros x Hx. rewrite E. apply in_or_app; auto. }
  assert (Hd : forall d', forall done os, In (e, d, closed_ans p) (round done d' os) -> d' = d).
  { intros d' done os H. destruct (round_in _ _ _ _ _ _ H) as (q & o & _ & _ & -> & _). reflexivity. }
  destruct HC as [(-> & _)|[(-> & _)|[(-> & _)|[(d' & pl1 & HR1 & HAf)|(pl1 & HR1 & Hgot & Hend & HAf)]]]]; try (destruct HAt; fail).
  - inversion HAf as [c Hc|c j pushs' Hc Hj He'|c s Hc Hj|tr' e0 HP|tr' err pushs' HP He'|tr' outs c HP Hl Hc|tr' outs c j pushs' HP Hl Hc Hj He'|tr' outs c s HP Hl Hc Hj|tr' outs pushs' HP Hl He']; subst;
      try (destruct HAt; fail);
      rewrite ?attempts_app, ?attempts_mon_ev in HAt; cbn [app attempts flat_map] in HAt; rewrite ?app_nil_r in HAt;
      destruct (pushes_attempts _ _ _ _ _ HP) as (done & rest & os & Hps & Hlo & Hat & Hcase); rewrite Hat in HAt;
      pose proof (Hd _ _ _ HAt) as Hdd; subst d'.
    + exfalso. eapply Hpre; [exact Hps|apply Hcase|exact HAt].
    + destruct Hcase as [(done0 & q & os0 & o & -> & -> & HF & Hl0 & Hco & Hpf & t0 & ->)|(HF & _)].
      2:{ exfalso. eapply Hpre; [exact Hps|exact HF|exact HAt]. }
      rewrite <- app_assoc in Hps.
      assert (HAt2 : In (e, d, closed_ans p) (round done0 d os0 ++ attempt q d o)).
      { revert HAt. clear -Hl0. revert os0 Hl0; induction done0 as [|x xs IH]; intros [|o' os0] Hl0; try discriminate; cbn.
        - now rewrite app_nil_r.
        - rewrite <- app_assoc, !in_app_iff. intros [H|H]; [now left|]. right. apply in_app_iff. apply IH; [cbn in Hl0; lia|exact H]. }
      apply in_app_iff in HAt2. destruct HAt2 as [HAt2|HAt2].
      { exfalso. eapply Hpre; [exact Hps|exact HF|exact HAt2]. }
      assert (Hcomb : In (q, o) (combine (done0 ++ [q]) (os0 ++ [o]))).
      { clear -Hl0. revert os0 Hl0; induction done0 as [|x xs IH]; intros [|o' os0] Hl0; try discriminate; cbn; [now left|]. right. apply IH. cbn in Hl0; lia. }
      unfold attempt in HAt2. destruct (write_eff q d) as [eq|] eqn:Eq; [|destruct HAt2]. destruct HAt2 as [HAt2|[]]. inversion HAt2 as [[E1 E2]]. subst eq.
      assert (Hqp : q = p).
      { assert (Hq' : In q pushs) by (rewrite Hps; apply in_or_app; right; now left).
        assert (Hlen : exists os2, length os2 = length pushs) by (exists (map (fun _ => OAcc) pushs); apply map_length).
        destruct Hlen as (os2 & Hlen).
        assert (Hc2 : forall x, In x pushs -> exists o2, In (x, o2) (combine pushs os2)).
        { clear -Hlen. revert os2 Hlen. induction pushs as [|y ys IH]; intros [|z zs] Hlen x Hx; try discriminate; [destruct Hx|].
          destruct Hx as [->|Hx]; [exists z; now left|]. destruct (IH zs ltac:(cbn in Hlen; lia) x Hx) as (o2 & H2). exists o2. now right. }
        destruct (Hc2 _ Hq') as (o1 & H1). destruct (Hc2 _ Hp) as (o2 & H2).
        eapply distinct_pos; eauto. }
      subst q. assert (o = OClosed) as -> by (eapply closed_out; eauto).
      unfold push_fail in Hpf. destruct (push_journey p) as [j|] eqn:Ej.
      2:{ discriminate. }
      rewrite (push_brk_journey _ _ Ej) in Hb. rewrite Hb in Hpf. inversion Hpf; subst err.
      exists e, (tr1 ++ mon_ev (mon_read mon) VRead ++ t0), j. do 3 eexists. split; [exact He|].
      split; [|split; [reflexivity|reflexivity]].
      rewrite <- !app_assoc. unfold write_ev. rewrite He. destruct p; reflexivity.
    + exfalso. destruct Hcase as (-> & -> & HF). eapply Hpre; [exact Hps|exact HF|exact HAt].
    + exfalso. destruct Hcase as (-> & -> & HF). eapply Hpre; [exact Hps|exact HF|exact HAt].
    + exfalso. destruct Hcase as (-> & -> & HF). eapply Hpre; [exact Hps|exact HF|exact HAt].
    + exfalso. destruct Hcase as (-> & -> & HF). eapply Hpre; [exact Hps|exact HF|exact HAt].
  - exfalso.
    inversion HAf as [c Hc|c j pushs' Hc Hj He'|c s Hc Hj|tr' e0 HP|tr' err pushs' HP He'|tr' outs c HP Hl Hc|tr' outs c j pushs' HP Hl Hc Hj He'|tr' outs c s HP Hl Hc Hj|tr' outs pushs' HP Hl He']; subst;
      try (destruct HAt; fail);
      rewrite ?attempts_app, ?attempts_mon_ev in HAt; cbn [app attempts flat_map] in HAt; rewrite ?app_nil_r in HAt;
      destruct (pushes_finished _ _ _ _ HP) as (Hat & Hcase); rewrite Hat in HAt; destruct HAt.
Qed.

Lemma fan_out tr st : exec (motion_worker pl mon pushs spy t) tr st ->
  exists tr1 tr2, tr = tr1 ++ tr2 /\ attempts tr1 = [] /\ no_reads tr2 /\
   (attempts tr2 = [] \/ exists d done rest, pushs = done ++ rest /\ In d (got pl tr) /\ offers done d (attempts tr2)) /\
   (forall fin pl' pushs', st = Done (Ok (WR fin true), pl', pushs') ->
      (attempts tr2 = [] /\ got pl tr = [] /\ ended pl tr) \/ exists d, In d (got pl tr) /\ offers pushs d (attempts tr2)).
Proof.
  intro HX.
  destruct (worker_inv _ _ _ _ _ _ _ _ _ _ (proj1 start_LI) Htry HX) as (tr1 & tr2 & -> & Hrd & HC).
  pose proof (reads_of_attempts _ _ _ Hrd) as Ha1.
  exists tr1, tr2. split; [reflexivity|]. split; [exact Ha1|].
  destruct HC as [(-> & e & -> & _)|[(-> & j & pl' & -> & _)|[(-> & _ & pl' & -> & _)|[(d & pl1 & HR1 & HAf)|(pl1 & HR1 & Hgot & Hend & HAf)]]]].
  - split; [constructor|]. split; [left; reflexivity|]. intros; discriminate.
  - split; [constructor|]. split; [left; reflexivity|]. intros; discriminate.
  - split; [constructor|]. split; [left; reflexivity|]. intros; discriminate.
  - pose proof (output_no_reads _ (after_output _ _ _ _ _ _ _ HAf)) as Hnr. split; [exact Hnr|].
    assert (HIn : In d (got pl (tr1 ++ tr2))).
    { rewrite got_frame by exact Hnr. destruct (rinv_prefix _ _ _ _ HR1) as [c Hc]. cbn in Hc. rewrite Hc. now left. }
    assert (Hoff : forall done os, length os = length done -> offers done d (round done d os)) by (intros; now apply offers_round).
    inversion HAf as [c Hc|c j pushs' Hc Hj He'|c s Hc Hj|tr' e0 HP|tr' err pushs' HP He'|tr' outs c HP Hl Hc|tr' outs c j pushs' HP Hl Hc Hj He'|tr' outs c s HP Hl Hc Hj|tr' outs pushs' HP Hl He']; subst;
      try (split; [left; reflexivity|intros; discriminate]);
      rewrite ?attempts_app, ?attempts_mon_ev; cbn [app attempts flat_map]; rewrite ?app_nil_r;
      destruct (pushes_attempts _ _ _ _ _ HP) as (done & rest & os & Hps & Hlo & Hat & Hcase); rewrite Hat.
    1-5: split; [right; exists d, done, rest; auto|intros; discriminate].
    split; [right; exists d, done, rest; auto|]. intros fin0 pl' ps' _. right. exists d. split; [exact HIn|].
    destruct Hcase as (-> & -> & HF). rewrite app_nil_r in Hps. subst done. auto.
  - pose proof (output_no_reads _ (after_output _ _ _ _ _ _ _ HAf)) as Hnr. split; [exact Hnr|].
    assert (HA2 : attempts tr2 = []).
    { inversion HAf as [c Hc|c j pushs' Hc Hj He'|c s Hc Hj|tr' e0 HP|tr' err pushs' HP He'|tr' outs c HP Hl Hc|tr' outs c j pushs' HP Hl Hc Hj He'|tr' outs c s HP Hl Hc Hj|tr' outs pushs' HP Hl He']; subst;
      try reflexivity;
      rewrite ?attempts_app, ?attempts_mon_ev; cbn [app attempts flat_map]; rewrite ?app_nil_r;
      destruct (pushes_finished _ _ _ _ HP) as (Hat & Hcase); exact Hat. }
    split; [left; exact HA2|]. intros fin0 pl' ps' _. left. split; [exact HA2|].
    split; [rewrite got_frame by exact Hnr; exact Hgot|]. apply ended_app. exact Hend.
Qed.

Lemma count_finish_all : forall ps os, length os = length ps ->
  (count_finish ps os = length ps <-> Forall2 (fun p o => push_brk p = Finish /\ o = OClosed) ps os).
Proof.
  induction ps as [|p ps IH]; intros [|o os] Hl; try discriminate; [split; constructor|].
  cbn in Hl. specialize (IH os ltac:(lia)). cbn [count_finish length].
  pose proof (count_finish_le ps os) as Hle.
  split.
  - intro H. destruct (closed_finish p o) eqn:E; [|lia].
    constructor; [|apply IH; lia]. destruct o; cbn in E; try discriminate. destruct (push_brk p); try discriminate; auto.
  - intro H. inversion H as [|? ? ? ? [H1 ->] H2]; subst. apply IH in H2. rewrite H2. unfold closed_finish. rewrite H1. reflexivity.
Qed.

Lemma Forall2_combine {A B} (P : A -> B -> Prop) l m : length m = length l ->
  (forall x y, In (x, y) (combine l m) -> P x y) -> Forall2 P l m.
Proof.
  revert m; induction l as [|x l IH]; intros [|y m] Hl H; try discriminate; constructor.
  - apply H. now left.
  - apply IH; [cbn in Hl; lia|]. intros; apply H; now right.
Qed.
Lemma Forall2_len {A B} (P : A -> B -> Prop) l m : Forall2 P l m -> length m = length l.
Proof. induction 1; cbn; auto. Qed.
Lemma Forall2_in {A B} (P : A -> B -> Prop) l m x y : Forall2 P l m -> In (x, y) (combine l m) -> P x y.
Proof. induction 1; intros []; [now inversion H1; subst|auto]. Qed.
Lemma combine_in_l {A B} (l : list A) (m : list B) x : length m = length l -> In x l -> exists y, In (x, y) (combine l m).
Proof.
  revert m; induction l as [|a l IH]; intros [|b m] Hl Hx; try discriminate; [destruct Hx|].
  destruct Hx as [->|Hx]; [exists b; now left|]. destruct (IH m ltac:(cbn in Hl; lia) Hx) as [y Hy]. exists y. now right.
Qed.

Lemma round_has ps d p o e : forall os, In (p, o) (combine ps os) -> write_eff p d = Some e -> In (e, d, write_ans p o) (round ps d os).
Proof.
  induction ps as [|q ps IH]; intros [|o' os] HIn He; try destruct HIn.
  - inversion H; subst. cbn. apply in_app_iff. left. unfold attempt. rewrite He. now left.
  - cbn. apply in_app_iff. right. apply IH; auto.
Qed.
Lemma attempts_in e d a tr : In (e, d, a) (attempts tr) -> In (e, a) tr.
Proof.
  unfold attempts. intro H. apply in_flat_map in H. destruct H as ([e' a'] & H1 & H2).
  destruct e' as [ | |[] []| | | | | | | | | | | | | | | ]; cbn in H2; try contradiction; destruct H2 as [H2|[]]; inversion H2; subst; exact H1.
Qed.

(** A message makes the worker stop exactly when all outputs are closed Finish outputs. *)
Lemma fan_finish tr fin pl' pushs' : exec (motion_worker pl mon pushs spy t) tr (Done (Ok (WR fin true), pl', pushs')) ->
  distinct_outputs pushs ->
  (fin = true <-> (got pl tr = [] /\ ended pl tr) \/
                  (forall p, In p pushs -> push_brk p = Finish /\ exists d, found_closed p d tr)).
Proof.
  intros HX HD. pose proof (worker_sat _ _ HX) as H. cbn in H. destruct H as (_ & _ & _ & H).
  destruct fin.
  - split; [intros _|reflexivity].
    destruct H as [((H1 & H2 & H3) & _)|(d & os & (H1 & H2 & H3 & H4 & H5) & Hcf)]; [left; auto|].
    right. apply count_finish_all in Hcf; [|exact H3]. intros p Hp. destruct (combine_in_l _ os p H3 Hp) as [o Ho].
    destruct (Forall2_in _ _ _ _ _ Hcf Ho) as [Hb ->]. split; [exact Hb|].
    exists d. cbn in H1. destruct (write_eff p d) as [e|] eqn:Ee.
    + exists e. split; [exact Ee|]. apply attempts_in with (d := d). rewrite H1.
      replace (closed_ans p) with (write_ans p OClosed) by (destruct p; reflexivity). now apply round_has.
    + exfalso. destruct (Forall2_in _ _ _ _ _ H4 Ho) as [Hc _]. destruct p; cbn in Ee, Hc; discriminate.
  - split; [discriminate|]. intros [[Hg _]|Hall].
    + destruct H as (d & os & (HR & _)). cbn in HR. destruct (rinv_prefix _ _ _ _ HR) as [c Hc]. rewrite Hg in Hc. discriminate.
    + exfalso. destruct H as (d & os & (_ & _ & HA & HO)). inversion HO as [|? ? [HF Hcf] _]; subst. cbn in HF, Hcf, HA.
      rewrite app_nil_r in HA. apply Hcf. pose proof (Forall2_len _ _ _ HF) as Hl.
      apply count_finish_all; [auto|]. apply Forall2_combine; [auto|]. intros p o Ho.
      destruct (Hall p (in_combine_l _ _ _ _ Ho)) as [Hb (d' & e & He & HIn)]. split; [exact Hb|].
      pose proof (in_attempts_gen _ _ _ _ _ HIn He) as HAt. rewrite HA in HAt.
      destruct (round_in _ _ _ _ _ _ HAt) as (q & o' & HC & Hq & -> & Ha).
      destruct (distinct_pos _ _ _ _ _ _ _ _ HD Ho HC He Hq) as [<- <-].
      eapply closed_out; [apply (Forall2_in _ _ _ _ _ HF Ho)|symmetry; exact Ha|eauto].
Qed.

(** Consume outputs never stop the worker. *)
Lemma fan_consume tr st : exec (motion_worker pl mon pushs spy t) tr st -> pushs <> [] ->
  (forall p, In p pushs -> push_brk p = Consume) ->
  match st with
  | Done (Ok (WR true _), _, _) => got pl tr = [] /\ ended pl tr
  | Done (Err (OutputClosed _ _ _), _, _) => False
  | Panicked _ => False
  | _ => True
  end.
Proof.
  intros HX Hne Hall. pose proof (worker_sat _ _ HX) as H. destruct st as [e|[[r pl'] pushs']|s]; [exact I| |exact H].
  cbn [app] in H. destruct H as (_ & _ & _ & H). destruct r as [[[] []]|err].
  - destruct H as [((H1 & H2 & H3) & _)|(d & os & (H1 & H2 & H3 & H4 & H5) & Hcf)]; [auto|exfalso].
    apply count_finish_all in Hcf; [|exact H3]. inversion Hcf as [E|p o ps os' [Hb _] _ E]; subst; [congruence|].
    rewrite (Hall p (or_introl eq_refl)) in Hb. discriminate.
  - destruct H.
  - exact I.
  - exact I.
  - destruct H as (l & HO & H).
    destruct H as [(_ & j & _ & -> & _)|[(d & done & p & rest & os & o & _ & H2 & _ & _ & _ & H6 & _)|(_ & H)]].
    + exact I.
    + unfold push_fail in H6. assert (Hb : push_brk p = Consume) by (apply Hall; rewrite H2; apply in_or_app; right; now left).
      destruct (push_journey p) as [j|] eqn:Ej.
      * rewrite (push_brk_journey _ _ Ej) in Hb. rewrite Hb in H6. destruct o; inversion H6; exact I.
      * destruct o; discriminate.
    + destruct H as [(s & dd & p & m & ->)|[(s & ->)|(j & ->)]]; exact I.
Qed.
End Fan.
