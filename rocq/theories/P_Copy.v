(** * P_Copy: the claims about copying, from the flow of rounds *)
From Coq Require Import Ascii String List Bool Arith Lia.
From Verif Require Import M_Prog P_Prog P_Exec M_Motion S_Trace S_Lines S_Motion P_Split P_Read P_Motion P_Worker P_Flow P_Loop.
Import ListNotations.

(** What an output was offered, and accepted, read off the attempts. *)
Definition hits (p : push) (e : eff) : bool :=
  match p, e with
  | (PsSender _ n | PsIoSender _ n), ESend (CData m) _ => n =? m
  | PsBytes _ _ f, EWrite g _ => f =? g
  | _, _ => false
  end.
Definition is_ok (a : ans) : bool := match a with AOk => true | _ => false end.

Lemma offered_attempts p tr :
  offered_to p tr = flat_map (fun x => if hits p (fst (fst x)) then [snd (fst x)] else []) (attempts tr).
Proof.
  induction tr as [|[e a] tr IH]; [destruct p; reflexivity|].
  change ((e, a) :: tr) with ([(e, a)] ++ tr). rewrite attempts_app, flat_map_app, <- IH.
  destruct p as [j q|k j f|j n|j n|]; cbn [offered_to hits].
  - destruct e as [ | |[] []| | | | | | | | | | | | | | | ]; reflexivity.
  - rewrite flat_map_app. f_equal. destruct e as [ | |[] []| | | | | | | | | | | | | | | ]; reflexivity.
  - rewrite offered_app, datas_app. f_equal. destruct e as [ | |[] []| | | | | | | | | | | | | | | ]; try reflexivity; cbn; destruct (_ =? _); reflexivity.
  - rewrite offered_app, datas_app. f_equal. destruct e as [ | |[] []| | | | | | | | | | | | | | | ]; try reflexivity; cbn; destruct (_ =? _); reflexivity.
  - destruct e as [ | |[] []| | | | | | | | | | | | | | | ]; reflexivity.
Qed.

Lemma accepted_attempts p tr :
  accepted_by p tr = flat_map (fun x => if hits p (fst (fst x)) && is_ok (snd x) then [snd (fst x)] else []) (attempts tr).
Proof.
  induction tr as [|[e a] tr IH]; [destruct p; reflexivity|].
  change ((e, a) :: tr) with ([(e, a)] ++ tr). rewrite attempts_app, flat_map_app, <- IH.
  destruct p as [j q|k j f|j n|j n|]; cbn [accepted_by hits].
  - destruct e as [ | |[] []| | | | | | | | | | | | | | | ]; reflexivity.
  - rewrite written_app. f_equal. destruct e as [ | |[] []| | | | | | | | | | | | | | | ]; destruct a; cbn; try reflexivity; destruct (_ =? _); reflexivity.
  - rewrite sent_app, datas_app. f_equal. destruct e as [ | |[] []| | | | | | | | | | | | | | | ]; destruct a; cbn; try reflexivity; destruct (_ =? _); reflexivity.
  - rewrite sent_app, datas_app. f_equal. destruct e as [ | |[] []| | | | | | | | | | | | | | | ]; destruct a; cbn; try reflexivity; destruct (_ =? _); reflexivity.
  - destruct e as [ | |[] []| | | | | | | | | | | | | | | ]; reflexivity.
Qed.

Lemma attempt_offered p d o : real_push p ->
  flat_map (fun x => if hits p (fst (fst x)) then [snd (fst x)] else []) (attempt p d o) = [d].
Proof. destruct p; cbn; try contradiction; now rewrite Nat.eqb_refl. Qed.
Lemma attempt_accepted p d o : real_push p -> can_out p o ->
  flat_map (fun x => if hits p (fst (fst x)) && is_ok (snd x) then [snd (fst x)] else []) (attempt p d o) = match o with OAcc => [d] | _ => [] end.
Proof. destruct p; cbn; try contradiction; rewrite Nat.eqb_refl; destruct o; cbn; try reflexivity; intros; congruence. Qed.

Lemma rounds1_offered p l : real_push p -> Forall (round_ok [p]) l ->
  flat_map (fun x => if hits p (fst (fst x)) then [snd (fst x)] else []) (rounds [p] l) = map fst l.
Proof.
  intros Hr. induction 1 as [|[d os] l H HF IH]; [reflexivity|].
  change (rounds [p] ((d, os) :: l)) with (round [p] d os ++ rounds [p] l). rewrite flat_map_app, IH. destruct H as [H _]. cbn in H. inversion H as [|? o ? os' Ho H']; subst.
  inversion H'; subst. cbn [round]. rewrite app_nil_r, (attempt_offered _ _ _ Hr). reflexivity.
Qed.

Lemma rounds1_accepted p l : real_push p -> push_brk p = Terminate -> Forall (round_ok [p]) l ->
  flat_map (fun x => if hits p (fst (fst x)) && is_ok (snd x) then [snd (fst x)] else []) (rounds [p] l) = map fst l.
Proof.
  intros Hr Hb. induction 1 as [|[d os] l H HF IH]; [reflexivity|].
  change (rounds [p] ((d, os) :: l)) with (round [p] d os ++ rounds [p] l). rewrite flat_map_app, IH. destruct H as [H _]. cbn in H. inversion H as [|? o ? os' Ho H']; subst.
  inversion H'; subst. cbn [round]. destruct Ho as [Hc Hf].
  rewrite app_nil_r, (attempt_accepted _ _ _ Hr Hc).
  destruct o; [reflexivity| |]; exfalso; destruct p; cbn in Hr, Hb, Hf; try contradiction; unfold push_fail, push_brk in *; cbn in *;
    try rewrite Hb in Hf; discriminate.
Qed.

Section Motion.
Variables (pl : pull) (mon : notifications) (spy : option nat) (ps : push).
Hypothesis Hfresh : fresh_pull pl.
Hypothesis Hmon : pull_journey pl <> None \/ mon = mn_empty.
Hypothesis Hreal : real_push ps.

Lemma motion_no_panic tr s : ~ exec (motion pl mon spy ps) tr (Panicked s).
Proof. intro HX. exact (motion_sat pl ps mon spy Hfresh Hmon _ _ HX). Qed.

(** Wherever it stands: complete rounds and perhaps one message under way. *)
Definition position (tr : trace) : Prop :=
  exists l x, Forall (round_ok [ps]) l /\ seen pl tr (map fst l ++ x) /\
    ((x = [] /\ attempts tr = rounds [ps] l) \/
     (exists d, x = [d] /\ (attempts tr = rounds [ps] l \/ exists o, can_out ps o /\ attempts tr = rounds [ps] l ++ attempt ps d o))).

Lemma fin_position h l : Forall (round_ok [ps]) l -> fin pl [ps] h l -> position h.
Proof.
  clear Hreal.  intros HO (H1 & H2 & H3). exists l, []. split; [exact HO|]. rewrite app_nil_r. split; [|auto].
  rewrite <- H2. split; [exists []; now rewrite app_nil_r|auto].
Qed.
Lemma mid_position h l d done rest os : Forall (round_ok [ps]) l -> mid pl [ps] h l d done rest os -> position h.
Proof.
  clear Hreal.  intros HO (H1 & H2 & H3 & H4 & H5). exists l, [d]. split; [exact HO|]. split; [exact H5|]. right. exists d. split; [reflexivity|].
  destruct done as [|p [|p2 done]].
  - left. cbn in H1. now rewrite app_nil_r in H1.
  - inversion H2; subst. destruct os as [|o []]; try discriminate H3. right. exists o. inversion H4; subst. split; [apply H7|].
    rewrite H1. cbn. now rewrite app_nil_r.
  - exfalso. apply (f_equal (@length push)) in H2. cbn in H2. rewrite app_length in H2. lia.
Qed.
Lemma failed_position h e : failed pl [ps] false h e -> position h.
Proof.
  clear Hreal.  intros (l & HO & [(H & _)|[(d & done & p & rest & os & o & H1 & H2 & H3 & H4 & H5 & H6 & H7 & _)|([(d & done & rest & os & H)|H] & _)]]).
  - destruct H as [H1 H2]. exists l, []. rewrite app_nil_r. auto.
  - exists l, [d]. split; [exact HO|]. split; [exact H7|]. right. exists d. split; [reflexivity|]. right.
    destruct done as [|p2 done].
    + inversion H2; subst. exists o. split; [exact H5|]. exact H1.
    + exfalso. apply (f_equal (@length push)) in H2. cbn in H2. rewrite app_length in H2. cbn in H2. lia.
  - eapply mid_position; eassumption.
  - eapply fin_position; eassumption.
Qed.
Lemma over_position h n : over pl ps h n -> position h.
Proof.
  clear Hreal.  intros (l & HO & _ & [H|(d & os & H & _)]); [eapply fin_position|eapply mid_position]; eassumption.
Qed.
Lemma loop_ok_position h r : loop_ok pl ps h r -> position h.
Proof.
  clear Hreal.  destruct r as [n|e]; cbn; intro H.
  - destruct H as [H _]. eapply over_position; eassumption.
  - destruct H as [H|(n & j & H & _)]; [eapply failed_position|eapply over_position]; eassumption.
Qed.
Lemma position_frame h tr : position h -> only_closing tr -> position (h ++ tr).
Proof.
  clear Hreal.  intros (l & x & HO & Hs & H) Hc. pose proof (only_closing_no_reads _ Hc) as Hn. pose proof (only_closing_attempts _ Hc) as Ha.
  exists l, x. split; [exact HO|]. split; [now apply seen_frame|]. now rewrite attempts_output_other.
Qed.

Lemma motion_position tr st : exec (motion pl mon spy ps) tr st -> position tr.
Proof.
  clear Hreal.  intro HX. pose proof (motion_sat pl ps mon spy Hfresh Hmon _ _ HX) as H. destruct st as [e|r|s]; cbn [app] in H.
  - destruct H as [[(l & HO & [(H & _)|[(d & done & rest & os & H & _)|(H & _)]])|(_ & n & H)]|(_ & h0 & r & t & -> & Hc & H)].
    + destruct H as [H1 H2]. exists l, []. rewrite app_nil_r. auto.
    + eapply mid_position; eassumption.
    + eapply fin_position; eassumption.
    + eapply over_position; eassumption.
    + apply position_frame; [|exact Hc]. eapply loop_ok_position; eassumption.
  - destruct H as (H & _). eapply loop_ok_position; eassumption.
  - contradiction.
Qed.

Lemma position_offered tr : position tr ->
  prefix (offered_to ps tr) (got pl tr) /\ (is_chan pl -> length (got pl tr) <= S (length (offered_to ps tr))).
Proof.
  intros (l & x & HO & (Hp & Hc) & H). rewrite offered_attempts.
  destruct H as [(-> & ->)|(d & -> & [->|(o & Ho & ->)])].
  - rewrite (rounds1_offered _ _ Hreal HO). rewrite app_nil_r in *. split; [exact Hp|]. intro Hi. rewrite (Hc Hi). lia.
  - rewrite (rounds1_offered _ _ Hreal HO). split.
    + destruct Hp as [c Hp]. exists ([d] ++ c). rewrite Hp, <- app_assoc. reflexivity.
    + intro Hi. rewrite (Hc Hi), app_length. cbn. lia.
  - rewrite flat_map_app, (rounds1_offered _ _ Hreal HO), (attempt_offered _ _ _ Hreal). split; [exact Hp|].
    intro Hi. rewrite (Hc Hi). lia.
Qed.

Lemma copy_prefix tr st : exec (motion pl mon spy ps) tr st ->
  prefix (offered_to ps tr) (got pl tr) /\ (is_chan pl -> length (got pl tr) <= S (length (offered_to ps tr))).
Proof. intro HX. apply position_offered. eapply motion_position; eassumption. Qed.

(** When it asks for more, everything complete has been offered. *)
Lemma copy_caught_up tr e : exec (motion pl mon spy ps) tr (At e) -> is_read e = true ->
  length (got pl tr) <= S (length (offered_to ps tr)) /\ (is_chan pl -> offered_to ps tr = got pl tr).
Proof.
  intros HX He. pose proof (motion_sat pl ps mon spy Hfresh Hmon _ _ HX) as H. cbn [app] in H.
  destruct H as [[(l & HO & [((H1 & H2) & Hr & Hl)|[(d & done & rest & os & H & Hn)|(H & Hr)]])|(Hcl & n & H)]|(Hcl & h0 & r & t & -> & Hc & H)].
  - rewrite offered_attempts, H1, (rounds1_offered _ _ Hreal HO), map_length. split; [exact Hl|].
    intro Hi. symmetry. now apply H2.
  - exfalso. destruct Hn as [Hn|(p & rest' & -> & Hn)].
    + destruct e as [| |[]| | | | | | | | | | | | | | |]; cbn in Hn, He; try contradiction; discriminate.
    + destruct p; cbn in Hn; inversion Hn; subst; discriminate.
  - exfalso. destruct e as [| |[]| | | | | | | | | | | | | | |]; cbn in Hr, He; try contradiction; discriminate.
  - exfalso. destruct e; cbn in Hcl, He; try contradiction; discriminate.
  - exfalso. destruct e; cbn in Hcl, He; try contradiction; discriminate.
Qed.

Lemma count_finish1 p o : count_finish [p] [o] = 1 -> o = OClosed /\ push_brk p = Finish.
Proof.
  cbn. destruct (closed_finish p o) eqn:E; [|lia]. intros _. destruct o; cbn in E; try discriminate. split; [reflexivity|].
  destruct (push_brk p); cbn in E; try discriminate; reflexivity.
Qed.

(** How it ends: having offered everything, or because its Finish output is closed. *)
Lemma copy_end tr n : exec (motion pl mon spy ps) tr (Done (Ok n)) ->
  (offered_to ps tr = got pl tr /\ ended pl tr /\ n = S (length (got pl tr))) \/
  (push_brk ps = Finish /\ n = length (offered_to ps tr) /\
   exists d e pre, write_eff ps d = Some e /\ attempts tr = pre ++ [(e, d, closed_ans ps)]).
Proof.
  intro HX. pose proof (motion_sat pl ps mon spy Hfresh Hmon _ _ HX) as H. cbn [app] in H.
  destruct H as (((l & HO & -> & H) & _) & _). destruct H as [(H1 & H2 & H3)|(d & os & (H1 & H2 & H3 & H4 & H5) & Hcf)].
  - left. rewrite offered_attempts, H1, (rounds1_offered _ _ Hreal HO). repeat split; auto. now rewrite H2, map_length.
  - right. destruct os as [|o []]; try discriminate H3. destruct (count_finish1 _ _ Hcf) as [-> Hb].
    split; [exact Hb|]. rewrite offered_attempts, H1. cbn [round]. rewrite app_nil_r, flat_map_app, (rounds1_offered _ _ Hreal HO), (attempt_offered _ _ _ Hreal).
    split; [rewrite app_length, map_length; cbn; lia|].
    exists d. destruct ps; cbn in Hreal; try contradiction; cbn; eauto.
Qed.

Lemma copy_terminate_all tr n : exec (motion pl mon spy ps) tr (Done (Ok n)) -> push_brk ps = Terminate ->
  accepted_by ps tr = got pl tr.
Proof.
  intros HX Hb. pose proof (motion_sat pl ps mon spy Hfresh Hmon _ _ HX) as H. cbn [app] in H.
  destruct H as (((l & HO & -> & H) & _) & _). destruct H as [(H1 & H2 & H3)|(d & os & (H1 & H2 & H3 & H4 & H5) & Hcf)].
  - now rewrite accepted_attempts, H1, (rounds1_accepted _ _ Hreal Hb HO).
  - destruct os as [|o []]; try discriminate H3. destruct (count_finish1 _ _ Hcf) as [-> Hb']. congruence.
Qed.

(** ** Closed outputs *)

Lemma in_attempts e d a tr : In (e, a) tr -> write_eff ps d = Some e -> In (e, d, a) (attempts tr).
Proof.
  intros HIn He. unfold attempts. apply in_flat_map. exists (e, a). split; [exact HIn|].
  destruct ps; cbn in He; inversion He; subst; now left.
Qed.

Lemma rounds1_no_closed d e l : push_brk ps = Terminate -> Forall (round_ok [ps]) l ->
  ~ In (e, d, closed_ans ps) (rounds [ps] l).
Proof.
  intros Hb HO HIn. unfold rounds in HIn. apply in_flat_map in HIn. destruct HIn as ([d' os] & Hl & HIn).
  rewrite Forall_forall in HO. destruct (HO _ Hl) as [HF _]. cbn in HF, HIn. inversion HF as [|? o ? ? Hno HF']; subst. inversion HF'; subst.
  cbn in HIn. rewrite app_nil_r in HIn. destruct Hno as [Hc Hf].
  destruct o; destruct ps; cbn in *; try contradiction; unfold push_fail, push_brk in *; cbn in *; try rewrite Hb in Hf; try discriminate;
    destruct HIn as [HIn|[]]; inversion HIn.
Qed.


Lemma write_closed_ev d e : write_eff ps d = Some e -> write_ev ps d OClosed = [(e, closed_ans ps)].
Proof. unfold write_ev. intros ->. destruct ps; cbn in Hreal; try contradiction; reflexivity. Qed.

(** A closed Terminate output: nothing but closing afterwards, and the error names it. *)
Definition stopped_by (tr : trace) (e : eff) (d : bytes) : Prop :=
  exists pre post, tr = pre ++ [(e, closed_ans ps)] ++ post /\ only_closing post.

Lemma failed_terminate h err d e : failed pl [ps] false h err -> push_brk ps = Terminate ->
  write_eff ps d = Some e -> In (e, closed_ans ps) h ->
  stopped_by h e d /\ exists j reason, push_journey ps = Some j /\ err = OutputClosed j reason d.
Proof.
  intros (l & HO & H) Hb He HIn.
  pose proof (in_attempts _ _ _ _ HIn He) as HAt.
  pose proof (rounds1_no_closed d e l Hb HO) as Hno.
  destruct H as [((H & _) & _)|[(d' & done & p & rest & os & o & H1 & H2 & H3 & H4 & H5 & H6 & H7 & h0 & post & H8 & H9)|([(d' & done & rest & os & H)|(H & _)] & _)]].
  - rewrite H in HAt. contradiction.
  - destruct done as [|p2 done].
    2:{ exfalso. apply (f_equal (@length push)) in H2. cbn in H2. rewrite app_length in H2. cbn in H2. lia. }
    inversion H2; subst p rest. rewrite H1 in HAt. rewrite in_app_iff in HAt. destruct HAt as [HAt|HAt]; [contradiction|].
    destruct os; [|discriminate]. cbn in HAt.
    assert (Heq : d' = d /\ o = OClosed).
    { destruct ps; cbn in Hreal, He, HAt; try contradiction; destruct HAt as [HAt|[]]; inversion HAt; subst; split; auto;
        destruct o; try discriminate; try reflexivity; cbn in H5; congruence. }
    destruct Heq as [-> ->]. split.
    + exists h0, post. rewrite <- (write_closed_ev d e He). auto.
    + unfold push_fail in H6. destruct (push_journey ps) as [j|] eqn:Ej; [|discriminate].
      rewrite (push_brk_journey _ _ Ej) in Hb. rewrite Hb in H6. inversion H6; subst. eauto.
  - exfalso. destruct H as (H1 & H2 & H3 & H4 & H5). rewrite H1, in_app_iff in HAt. destruct HAt as [HAt|HAt]; [contradiction|].
    destruct done as [|p done]; [destruct HAt|]. inversion H2; subst p. destruct os as [|o os]; [discriminate|].
    inversion H4 as [|? ? ? ? Hno' _]; subst. destruct done; [|exfalso; apply (f_equal (@length push)) in H2; cbn in H2; lia].
    cbn in HAt. rewrite app_nil_r in HAt. destruct Hno' as [Hc Hf].
    destruct o; destruct ps; cbn in *; try contradiction; unfold push_fail, push_brk in *; cbn in *; try rewrite Hb in Hf; try discriminate;
      destruct HAt as [HAt|[]]; inversion HAt.
  - exfalso. rewrite H in HAt. contradiction.
Qed.

Lemma over_terminate h n d e : over pl ps h n -> push_brk ps = Terminate -> write_eff ps d = Some e -> ~ In (e, closed_ans ps) h.
Proof.
  intros (l & HO & _ & H) Hb He HIn.
  pose proof (in_attempts _ _ _ _ HIn He) as HAt.
  pose proof (rounds1_no_closed d e l Hb HO) as Hno.
  destruct H as [(H & _)|(d' & os & (H & _ & H3 & _) & Hcf)].
  - rewrite H in HAt. contradiction.
  - destruct os as [|o []]; try discriminate H3. destruct (count_finish1 _ _ Hcf) as [-> Hb']. congruence.
Qed.

Lemma loop_ok_terminate h r d e : loop_ok pl ps h r -> push_brk ps = Terminate -> write_eff ps d = Some e -> In (e, closed_ans ps) h ->
  stopped_by h e d /\ exists j reason, push_journey ps = Some j /\ r = Err (OutputClosed j reason d).
Proof.
  destruct r as [n|err]; cbn; intros H Hb He HIn.
  - exfalso. destruct H as [H _]. eapply over_terminate; eassumption.
  - destruct H as [H|(n & j & H & _)]; [|exfalso; eapply over_terminate; eassumption].
    destruct (failed_terminate _ _ _ _ H Hb He HIn) as (H1 & j & reason & H2 & ->). eauto.
Qed.

Lemma terminate_stops tr st d : exec (motion pl mon spy ps) tr st -> push_brk ps = Terminate ->
  found_closed ps d tr ->
  (exists e, write_eff ps d = Some e /\ stopped_by tr e d) /\
  match st with
  | At e' => closing_eff e'
  | Done r => exists j reason, push_journey ps = Some j /\ r = Err (OutputClosed j reason d)
  | Panicked _ => False
  end.
Proof.
  intros HX Hb (e & He & HIn). pose proof (motion_sat pl ps mon spy Hfresh Hmon _ _ HX) as H. destruct st as [e'|r|s]; cbn [app] in H.
  - destruct H as [[(l & HO & H)|(_ & n & H)]|(Hcl & h0 & r & t & -> & Hc & H)].
    + exfalso. pose proof (in_attempts _ _ _ _ HIn He) as HAt.
      pose proof (rounds1_no_closed d e l Hb HO) as Hno.
      destruct H as [((H & _) & _)|[(d' & done & rest & os & H & _)|((H & _) & _)]].
      * rewrite H in HAt. contradiction.
      * destruct H as (H1 & H2 & H3 & H4 & H5). rewrite H1, in_app_iff in HAt. destruct HAt as [HAt|HAt]; [contradiction|].
        destruct done as [|p done]; [destruct HAt|]. inversion H2; subst p. destruct os as [|o os]; [discriminate|].
        inversion H4 as [|? ? ? ? Hno' _]; subst. destruct done; [|exfalso; apply (f_equal (@length push)) in H2; cbn in H2; lia].
        cbn in HAt. rewrite app_nil_r in HAt. destruct Hno' as [Hc Hf].
        destruct o; destruct ps; cbn in *; try contradiction; unfold push_fail, push_brk in *; cbn in *; try rewrite Hb in Hf; try discriminate;
          destruct HAt as [HAt|[]]; inversion HAt.
      * rewrite H in HAt. contradiction.
    + exfalso. eapply over_terminate; eassumption.
    + split; [|exact Hcl]. exists e. split; [exact He|].
      assert (HIn0 : In (e, closed_ans ps) h0).
      { apply in_app_iff in HIn. destruct HIn as [HIn|HIn]; [exact HIn|]. exfalso.
        unfold only_closing in Hc. rewrite Forall_forall in Hc. specialize (Hc _ HIn). cbn in Hc. destruct ps; cbn in He; inversion He; subst; contradiction. }
      destruct (loop_ok_terminate _ _ _ _ H Hb He HIn0) as ((pre & post & -> & Hp) & _).
      exists pre, (post ++ t). rewrite <- !app_assoc. split; [reflexivity|now apply only_closing_app].
  - destruct H as (H & _). destruct (loop_ok_terminate _ _ _ _ H Hb He HIn) as (H1 & H2). eauto.
  - contradiction.
Qed.

(** A Consume output: the copy ends only with its input or with an error of another kind. *)
Lemma consume_reads_all tr r : exec (motion pl mon spy ps) tr (Done r) -> push_brk ps = Consume ->
  match r with
  | Ok n => offered_to ps tr = got pl tr /\ ended pl tr
  | Err (OutputClosed _ _ _) => False
  | Err _ => True
  end.
Proof.
  intros HX Hb. destruct r as [n|err].
  - destruct (copy_end _ _ HX) as [(H1 & H2 & _)|(H & _)]; [auto|congruence].
  - pose proof (motion_sat pl ps mon spy Hfresh Hmon _ _ HX) as H. cbn [app] in H. destruct H as (H & _). cbn in H.
    destruct H as [(l & HO & H)|(n & j & _ & _ & ->)]; [|exact I].
    destruct H as [(_ & j & _ & -> & _)|[(d & done & p & rest & os & o & _ & H2 & _ & _ & _ & H6 & _)|(_ & H)]].
    + exact I.
    + destruct done as [|p2 done].
      2:{ exfalso. apply (f_equal (@length push)) in H2. cbn in H2. rewrite app_length in H2. cbn in H2. lia. }
      inversion H2; subst p. unfold push_fail in H6. destruct (push_journey ps) as [j|] eqn:Ej.
      * rewrite (push_brk_journey _ _ Ej) in Hb. rewrite Hb in H6. destruct o; inversion H6; exact I.
      * destruct o; discriminate.
    + destruct H as [(s & dd & p & m & ->)|[(s & ->)|(j & ->)]]; exact I.
Qed.

Lemma copy_released tr r : exec (motion pl mon spy ps) tr (Done r) ->
  pull_released pl tr /\ push_released ps tr /\
  (forall c, mon_read mon = Some c -> closed_by (CMon c) tr) /\ (forall c, mon_written mon = Some c -> closed_by (CMon c) tr).
Proof.
  intro HX. pose proof (motion_sat pl ps mon spy Hfresh Hmon _ _ HX) as H. cbn [app] in H. apply H.
Qed.

Lemma copy_shut tr n : exec (motion pl mon spy ps) tr (Done (Ok n)) -> shut ps tr.
Proof.
  intro HX. pose proof (motion_sat pl ps mon spy Hfresh Hmon _ _ HX) as H. cbn [app] in H. apply H.
Qed.

Lemma copy_ends tr n : exec (motion pl mon spy ps) tr (Done (Ok n)) ->
  (offered_to ps tr = got pl tr /\ ended pl tr) \/ (push_brk ps = Finish /\ exists d, found_closed ps d tr).
Proof.
  intro HX. destruct (copy_end _ _ HX) as [(H1 & H2 & _)|(H1 & _ & d & e & pre & He & HA)]; [auto|right].
  split; [exact H1|]. exists d, e. split; [exact He|].
  assert (HIn : In (e, d, closed_ans ps) (attempts tr)) by (rewrite HA; apply in_or_app; right; now left).
  unfold attempts in HIn. apply in_flat_map in HIn. destruct HIn as ([e' a'] & HIn1 & HIn2).
  destruct e' as [ | |[] []| | | | | | | | | | | | | | | ]; cbn in HIn2; try contradiction; destruct HIn2 as [HIn2|[]]; inversion HIn2; subst; exact HIn1.
Qed.

Lemma terminate_stops' tr st d : exec (motion pl mon spy ps) tr st -> push_brk ps = Terminate ->
  found_closed ps d tr ->
  (exists e pre post, write_eff ps d = Some e /\ tr = pre ++ [(e, closed_ans ps)] ++ post /\ only_closing post) /\
  match st with
  | At e' => closing_eff e'
  | Done r => exists j reason, push_journey ps = Some j /\ r = Err (OutputClosed j reason d)
  | Panicked _ => False
  end.
Proof.
  intros HX Hb Hc. destruct (terminate_stops _ _ _ HX Hb Hc) as ((e & He & pre & post & H) & Hst).
  split; [|exact Hst]. exists e, pre, post. tauto.
Qed.
End Motion.
