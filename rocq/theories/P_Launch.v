(** * P_Launch: launched programs *)
From Coq Require Import Ascii String List Bool Arith ZArith Lia.
From Verif Require Import M_Prog P_Prog P_Exec M_Motion M_Join M_Launch S_Trace S_Lines S_Motion S_World S_Drain S_Launch.
From Verif Require Import P_Split P_Read P_Motion P_Worker P_Flow P_Loop P_Copy P_World P_Drain P_Text P_Machine.
Import ListNotations.

(** ** Outputs other than Consume: everything before the last attempt was accepted *)
Lemma rounds1_accepted_nc p l : real_push p -> push_brk p <> Consume -> Forall (round_ok [p]) l ->
  flat_map (fun x => if hits p (fst (fst x)) && is_ok (snd x) then [snd (fst x)] else []) (rounds [p] l) = map fst l.
Proof.
  intros Hr Hb. induction 1 as [|[d os] l H HF IH]; [reflexivity|].
  change (rounds [p] ((d, os) :: l)) with (round [p] d os ++ rounds [p] l). rewrite flat_map_app, IH. destruct H as [H Hc]. cbn in H. inversion H as [|? o ? os' Ho H']; subst.
  inversion H'; subst. cbn [round]. destruct Ho as [Ho Hf].
  rewrite app_nil_r, (attempt_accepted _ _ _ Hr Ho).
  assert (Ej : exists j, push_journey p = Some j) by (destruct p; try contradiction; cbn; eauto). destruct Ej as [j Ej].
  destruct o; [reflexivity| |]; exfalso; unfold push_fail in Hf; rewrite Ej in Hf; rewrite (push_brk_journey _ _ Ej) in Hb.
  - cbn in Hc. unfold closed_finish in Hc. rewrite (push_brk_journey _ _ Ej) in Hc. destruct (j_brk j); [discriminate|apply Hc; reflexivity|congruence].
  - discriminate.
Qed.

Lemma position_accepted_nc pl ps tr : real_push ps -> push_brk ps <> Consume -> position pl ps tr -> prefix (accepted_by ps tr) (got pl tr).
Proof.
  intros Hreal Hb (l & x & HO & (Hp & _) & H). rewrite accepted_attempts.
  destruct H as [(-> & ->)|(d & -> & [->|(o & Ho & ->)])].
  - rewrite (rounds1_accepted_nc _ _ Hreal Hb HO). now rewrite app_nil_r in Hp.
  - rewrite (rounds1_accepted_nc _ _ Hreal Hb HO). destruct Hp as [c Hp]. exists ([d] ++ c). rewrite Hp, <- app_assoc. reflexivity.
  - rewrite flat_map_app, (rounds1_accepted_nc _ _ Hreal Hb HO), (attempt_accepted _ _ _ Hreal Ho).
    destruct Hp as [c Hp]. destruct o; [exists c; exact Hp| |]; exists ([d] ++ c); rewrite Hp, app_nil_r, <- app_assoc; reflexivity.
Qed.

(** A finished copy to a Finish output: all accepted, or it found the output closed. *)
Lemma copy_end_nc pl mon spy ps tr n : fresh_pull pl -> (pull_journey pl <> None \/ mon = mn_empty) -> real_push ps -> push_brk ps <> Consume ->
  exec (motion pl mon spy ps) tr (Done (Ok n)) ->
  (accepted_by ps tr = got pl tr /\ ended pl tr /\ n = S (length (got pl tr))) \/ (push_brk ps = Finish /\ exists d, found_closed ps d tr).
Proof.
  intros Hf Hm Hr Hb HX. pose proof (motion_sat pl ps mon spy Hf Hm _ _ HX) as H. cbn [app] in H.
  destruct H as (((l & HO & -> & H) & _) & _). destruct H as [(H1 & H2 & H3)|(d & os & _ & _)].
  - left. rewrite accepted_attempts, H1, (rounds1_accepted_nc _ _ Hr Hb HO). rewrite H2, map_length. auto.
  - destruct (copy_ends pl mon spy ps Hf Hm Hr tr _ HX) as [(K1 & K2)|K]; [|right; exact K].
    destruct (copy_end pl mon spy ps Hf Hm Hr tr _ HX) as [(K3 & K4 & K5)|(K3 & _ & d' & e & pre & K4 & K5)].
    + left. split; [|auto]. pose proof (motion_sat pl ps mon spy Hf Hm _ _ HX) as H. cbn [app] in H.
      destruct H as (((l' & HO' & E & H) & _) & _). destruct H as [(H1 & H2 & H3)|(d' & os' & (H1 & _ & H3 & _ & _) & Hcf)].
      * rewrite accepted_attempts, H1, (rounds1_accepted_nc _ _ Hr Hb HO'). now rewrite H2.
      * exfalso. destruct os' as [|o []]; try discriminate H3. rewrite offered_attempts, H1 in K1. cbn [round] in K1.
        rewrite app_nil_r, flat_map_app, (rounds1_offered _ _ Hr HO'), (attempt_offered _ _ _ Hr) in K1.
        apply (f_equal (@length bytes)) in K1. rewrite app_length, map_length in K1. cbn in K1.
        assert (length (got pl tr) = length l) by lia. lia.
    + right. split; [exact K3|]. exists d'. eapply P_Control.attempt_found; eassumption.
Qed.

(** ** The exit port *)
Fixpoint retries (k : nat) : trace :=
  match k with O => [] | S k => retries k ++ [(EStatus, AErr); (ESleep 100, AOk)] end.

Definition exit_now (spy : option nat) (j : journey) (n : nat) (h : trace) (e : eff) : Prop :=
  exists k, (h = retries k /\ e = EStatus) \/ (h = retries k ++ [(EStatus, AErr)] /\ e = ESleep 100) \/
  exists code m rest, exit_message (AStatus code) = Some m /\ h = retries k ++ [(EStatus, AStatus code)] ++ rest /\
    ((rest = [] /\ e = ESend (CData n) (VData m)) \/
     (rest = [(ESend (CData n) (VData m), AOk)] /\ exists s port, spy = Some s /\ j_port j = Some port /\ e = ESend (CSpy s) (VSpy (j_src j) (j_dst j) port (IOData m))) \/
     (exists t, rest = (ESend (CData n) (VData m), AOk) :: t /\ offered (CData n) t = [] /\ statuses t = [] /\ spawns t = [] /\ e = EClose (CData n))).
Definition exit_post (spy : option nat) (j : journey) (n : nat) (h : trace) (r : mres unit) : Prop :=
  exists k code m rest, exit_message (AStatus code) = Some m /\ h = retries k ++ [(EStatus, AStatus code)] ++ rest /\
    ((rest = [(ESend (CData n) (VData m), AClosed)] /\ r = Err (SendError j m)) \/
     (exists s port, rest = [(ESend (CData n) (VData m), AOk); (ESend (CSpy s) (VSpy (j_src j) (j_dst j) port (IOData m)), AClosed)] /\
        spy = Some s /\ r = Err (SpyWriteError (j_src j) (j_dst j) port (IOData m))) \/
     (exists t, rest = (ESend (CData n) (VData m), AOk) :: t ++ [(EClose (CData n), AOk)] /\ offered (CData n) t = [] /\ statuses t = [] /\ spawns t = [] /\ r = Ok tt)).

Lemma exit_sat spy j n : sat [] (iter (exit_body spy j n) tt) (exit_now spy j n) (exit_post spy j n).
Proof.
  apply sat_iter with (Inv := fun h _ => exists k, h = retries k); [|exists 0; reflexivity].
  intros h [] (k & ->). unfold exit_body. apply sat_vis; [exists k; auto|]. intros a Hwt.
  assert (Hend : forall code m t, exit_message (AStatus code) = Some m -> offered (CData n) t = [] -> statuses t = [] -> spawns t = [] ->
    sat ((retries k ++ [(EStatus, AStatus code)]) ++ [(ESend (CData n) (VData m), AOk)] ++ t) (close (CData n) ;;; Ret (@inr unit (mres unit) (Ok tt))) (exit_now spy j n)
      (fun h' lr => match lr with inl _ => exists k', h' = retries k' | inr r => exit_post spy j n h' r end)).
  { intros code m t Hm Ht1 Ht2 Ht3. apply sat_bind. intros tr st HX. destruct (close_inv _ _ _ HX) as [[-> ->]|[-> ->]].
    - exists k. right. right. exists code, m. eexists. split; [exact Hm|]. rewrite app_nil_r, <- app_assoc. split; [reflexivity|]. right. right. exists t. auto.
    - apply sat_ret. exists k, code, m. eexists. split; [exact Hm|]. rewrite <- !app_assoc. split; [reflexivity|]. right. right. exists t. auto. }
  assert (Hrun : forall code m, exit_message (AStatus code) = Some m ->
    sat (retries k ++ [(EStatus, AStatus code)]) (ok <- send (CData n) (VData m) ;;
      if negb ok then Ret (inr (Err (SendError j m))) else
      match spy, j_port j with
      | Some s, Some port =>
        ok2 <- send (CSpy s) (VSpy (j_src j) (j_dst j) port (IOData m)) ;;
        if negb ok2 then Ret (inr (Err (SpyWriteError (j_src j) (j_dst j) port (IOData m)))) else
        close (CData n) ;;; Ret (inr (Ok tt))
      | _, _ => close (CData n) ;;; Ret (inr (Ok tt))
      end) (exit_now spy j n) (fun h' (lr : unit + mres unit) => match lr with inl _ => exists k', h' = retries k' | inr r => exit_post spy j n h' r end)).
  { intros code m Hm. apply sat_bind. intros tr st HX. destruct (send_inv _ _ _ _ HX) as [[-> ->]|[[-> ->]|[-> ->]]].
    - exists k. right. right. exists code, m, []. split; [exact Hm|]. split; [now rewrite !app_nil_r|auto].
    - cbn [negb]. destruct spy as [s|]; [destruct (j_port j) as [port|] eqn:Ep|].
      + apply sat_bind. intros tr st HX'. destruct (send_inv _ _ _ _ HX') as [[-> ->]|[[-> ->]|[-> ->]]].
        * exists k. right. right. exists code, m. eexists. split; [exact Hm|]. rewrite app_nil_r, <- app_assoc. split; [reflexivity|].
          right. left. split; [reflexivity|]. exists s, port. auto.
        * cbn [negb]. rewrite <- app_assoc. apply Hend; [exact Hm|reflexivity ..].
        * cbn [negb]. apply sat_ret. exists k, code, m. eexists. split; [exact Hm|]. rewrite <- !app_assoc. split; [reflexivity|].
          right. left. exists s, port. auto.
      + exact (Hend code m [] Hm eq_refl eq_refl eq_refl).
      + exact (Hend code m [] Hm eq_refl eq_refl eq_refl).
    - cbn [negb]. apply sat_ret. exists k, code, m. eexists. split; [exact Hm|]. rewrite <- app_assoc. split; [reflexivity|]. left. auto. }
  destruct a; try discriminate Hwt.
  - cbn [exit_message]. apply sat_bind. intros tr st HX. destruct (sleep_inv _ _ _ HX) as [[-> ->]|[-> ->]].
    + exists k. right. left. rewrite app_nil_r. auto.
    + apply sat_ret. exists (S k). cbn [retries]. now rewrite <- app_assoc.
  - destruct code as [z|].
    + exact (Hrun (Some z) _ eq_refl).
    + exact (Hrun None _ eq_refl).
Qed.

Lemma offered_retries c k : offered c (retries k) = [].
Proof. induction k as [|k IH]; [reflexivity|]. cbn [retries]. rewrite offered_app, IH. reflexivity. Qed.
Lemma sent_retries c k : sent c (retries k) = [].
Proof. induction k as [|k IH]; [reflexivity|]. cbn [retries]. rewrite sent_app', IH. reflexivity. Qed.
Lemma statuses_app a b : statuses (a ++ b) = statuses a ++ statuses b.
Proof. apply flat_map_app. Qed.
Lemma spawns_app a b : spawns (a ++ b) = spawns a ++ spawns b.
Proof. apply flat_map_app. Qed.
Lemma statuses_retries k : statuses (retries k) = repeat AErr k.
Proof.
  induction k as [|k IH]; [reflexivity|]. cbn [retries]. rewrite statuses_app, IH. cbn. now rewrite repeat_cons.
Qed.
Lemma spawns_retries k : spawns (retries k) = [].
Proof. induction k as [|k IH]; [reflexivity|]. cbn [retries]. rewrite spawns_app, IH. reflexivity. Qed.

Lemma exit_text_ok code m : exit_message (AStatus code) = Some m -> exit_text code m.
Proof. destruct code as [z|]; cbn; intro E; injection E as <-; [apply decimal_text|reflexivity]. Qed.

(** ** The parts of a run *)
Lemma spawn_inv cwd vars l tr st : la_launched l = false -> exec (launch_spawn cwd vars l) tr st ->
  (tr = [] /\ st = At (ESpawn (launch_spawning cwd vars l))) \/
  (tr = [(ESpawn (launch_spawning cwd vars l), AErr)] /\ exists s, st = Panicked s) \/
  (exists fin fout ferr, tr = [(ESpawn (launch_spawning cwd vars l), AChild fin fout ferr)] /\ st = Done (inr (launch_relays l fin fout ferr))).
Proof.
  intros HL HX. unfold launch_spawn in HX. rewrite HL in HX. apply exec_vis_inv in HX.
  destruct HX as [[-> ->]|(a & rest & -> & Hwt & HX)]; [auto|right].
  destruct a; try discriminate Hwt.
  - left. apply exec_panic_inv in HX. destruct HX as [-> ->]. eauto.
  - right. apply exec_ret_inv in HX. destruct HX as [-> ->]. eauto 6.
Qed.

Lemma own_idle i is l : idle is l -> In i is -> own i l = [].
Proof. auto. Qed.

(** A launch, part by part: the traces of the three relays and what component 0 did. *)
Lemma launch_parts cwd vars l spy L st : la_launched l = false -> launch_start cwd vars l spy L st ->
  match st with
  | Before s => idle [1; 2; 3] L /\
      ((own 0 L = [] /\ s = At (ESpawn (launch_spawning cwd vars l))) \/
       (own 0 L = [(ESpawn (launch_spawning cwd vars l), AErr)] /\ exists m, s = Panicked m))
  | During a b c => exists fin fout ferr, let x := launch_relays l fin fout ferr in
      own 0 L = [(ESpawn (launch_spawning cwd vars l), AChild fin fout ferr)] /\
      exec (relay (rl_in x) None) (own 1 L) a /\ exec (relay (rl_out x) spy) (own 2 L) b /\ exec (relay (rl_err x) spy) (own 3 L) c
  | After s => exists fin fout ferr a b c tr, let x := launch_relays l fin fout ferr in
      own 0 L = [(ESpawn (launch_spawning cwd vars l), AChild fin fout ferr)] ++ tr /\
      exec (relay (rl_in x) None) (own 1 L) (Done a) /\ exec (relay (rl_out x) spy) (own 2 L) (Done b) /\ exec (relay (rl_err x) spy) (own 3 L) (Done c) /\
      exec (launch_finish l spy a b c) tr s
  end.
Proof.
  intros HL H. unfold launch_start in H. destruct H as [L e Hi HX|L s Hi HX|L r Hi HX|L0 L x a b c H0 H1 HX Ha Hb Hc|L0 L L1 x a b c st H0 H1 H2 HX Ha Hb Hc HF].
  - split; [exact Hi|]. destruct (spawn_inv _ _ _ _ _ HL HX) as [(E1 & E2)|[(E1 & m & E2)|(fin & fout & ferr & E1 & E2)]]; try discriminate E2.
    injection E2 as ->. auto.
  - split; [exact Hi|]. destruct (spawn_inv _ _ _ _ _ HL HX) as [(E1 & E2)|[(E1 & m & E2)|(fin & fout & ferr & E1 & E2)]]; try discriminate E2.
    right. eauto.
  - destruct (spawn_inv _ _ _ _ _ HL HX) as [(E1 & E2)|[(E1 & m & E2)|(fin & fout & ferr & E1 & E2)]]; discriminate E2.
  - destruct (spawn_inv _ _ _ _ _ HL HX) as [(E1 & E2)|[(E1 & m & E2)|(fin & fout & ferr & E1 & E2)]]; try discriminate E2.
    injection E2 as ->. exists fin, fout, ferr. rewrite !own_app, E1, (H1 0 (or_introl eq_refl)).
    rewrite (H0 1), (H0 2), (H0 3); cbn; auto 8.
  - destruct (spawn_inv _ _ _ _ _ HL HX) as [(E1 & E2)|[(E1 & m & E2)|(fin & fout & ferr & E1 & E2)]]; try discriminate E2.
    injection E2 as ->. exists fin, fout, ferr, a, b, c, (own 0 L1). rewrite !own_app, E1, (H1 0 (or_introl eq_refl)).
    rewrite (H0 1), (H0 2), (H0 3), (H2 1), (H2 2), (H2 3), !app_nil_r by (cbn; auto). cbn [app]. auto 8.
Qed.

(** ** The relays *)
Section Relays.
Variables (cwd : option string) (vars : list (string * string)) (l : launch) (spy : option nat).
Hypothesis HR : launch_ready l.

Lemma launch_relay_run L st : launch_start cwd vars l spy L st -> forall fin fout ferr, child_of (own 0 L) = Some (fin, fout, ferr) ->
  let x := launch_relays l fin fout ferr in
  exists a b c, exec (relay (rl_in x) None) (own 1 L) a /\ exec (relay (rl_out x) spy) (own 2 L) b /\ exec (relay (rl_err x) spy) (own 3 L) c /\
    match st with Before _ => False | During a' b' c' => a' = a /\ b' = b /\ c' = c | After _ => exists ra rb rc, a = Done ra /\ b = Done rb /\ c = Done rc end.
Proof.
  intros H fin fout ferr Hc x. pose proof (launch_parts _ _ _ _ _ _ (proj1 HR) H) as HP. destruct st as [s|a b c|s].
  - exfalso. destruct HP as (_ & [(E & _)|(E & _)]); rewrite E in Hc; discriminate Hc.
  - destruct HP as (fin' & fout' & ferr' & E & H1 & H2 & H3). rewrite E in Hc. injection Hc as -> -> ->. exists a, b, c. repeat split; assumption.
  - destruct HP as (fin' & fout' & ferr' & a & b & c & tr & E & H1 & H2 & H3 & _). rewrite E in Hc. injection Hc as -> -> ->.
    exists (Done a), (Done b), (Done c). split; [exact H1|]. split; [exact H2|]. split; [exact H3|]. eauto 8.
Qed.

Lemma stdin_relay pl fin fout ferr : la_stdin l = Some pl ->
  exists j, j_brk j = Finish /\ j_dst j = la_id l /\ rl_in (launch_relays l fin fout ferr) = (pl, PsBytes DstCmdStdin j fin).
Proof. intro E. unfold launch_relays. rewrite E. cbn. eexists (J _ None _ Finish). repeat split; reflexivity. Qed.
Lemma stdout_relay ps fin fout ferr : la_stdout l = Some ps ->
  exists j, rl_out (launch_relays l fin fout ferr) = (PlBytes SrcCmdStdout j fout split_control_new, ps).
Proof. intro E. unfold launch_relays. rewrite E. cbn. eauto. Qed.
Lemma stderr_relay ps fin fout ferr : la_stderr l = Some ps ->
  exists j, rl_err (launch_relays l fin fout ferr) = (PlBytes SrcCmdStderr j ferr split_control_new, ps).
Proof. intro E. unfold launch_relays. rewrite E. cbn. eauto. Qed.

Lemma relay_in L st pl fin fout ferr : launch_start cwd vars l spy L st -> la_stdin l = Some pl ->
  child_of (own 0 L) = Some (fin, fout, ferr) ->
  prefix (written fin (own 1 L)) (got pl (own 1 L)) /\
  (forall x, In x (attempts (own 1 L)) -> fst (fst x) = EWrite fin (snd (fst x))) /\
  (forall n, match st with During (Done (Ok m)) _ _ | After (Done (Ok m)) => m = n | _ => False end ->
     In (EDropFd fin, AOk) (own 1 L) /\
     ((written fin (own 1 L) = got pl (own 1 L) /\ ended pl (own 1 L) /\ In (EFlush fin, AOk) (own 1 L) /\ n = S (length (got pl (own 1 L)))) \/
      exists d, In (EWrite fin d, ABroken) (own 1 L))).
Proof.
  intros H Hin Hc. destruct HR as (HL & HR1 & HR2 & HR3). destruct (HR1 _ Hin) as [Hf Hreal]. assert (Hj : pull_journey pl <> None) by (destruct pl; try contradiction; discriminate).
  destruct (stdin_relay pl fin fout ferr Hin) as (j & Hb & _ & Ex).
  pose proof (launch_relay_run L st H fin fout ferr Hc) as (a & b & c & H1 & H2 & H3 & Hst). rewrite Ex in H1. unfold relay in H1. cbn [fst snd] in H1.
  pose proof (motion_position pl mn_empty None _ Hf (or_introl Hj) _ _ H1) as HP.
  assert (Hnc : push_brk (PsBytes DstCmdStdin j fin) <> Consume) by (unfold push_brk; cbn; congruence).
  split; [exact (position_accepted_nc pl (PsBytes DstCmdStdin j fin) _ I Hnc HP)|]. split.
  { intros x Hx. pose proof (position_here _ _ _ x HP Hx) as K. cbn in K. now injection K as <-. }
  assert (G : forall n, exec (motion pl mn_empty None (PsBytes DstCmdStdin j fin)) (own 1 L) (Done (Ok n)) ->
    In (EDropFd fin, AOk) (own 1 L) /\
     ((written fin (own 1 L) = got pl (own 1 L) /\ ended pl (own 1 L) /\ In (EFlush fin, AOk) (own 1 L) /\ n = S (length (got pl (own 1 L)))) \/
      exists d, In (EWrite fin d, ABroken) (own 1 L))).
  { intros n Hd. split; [apply (copy_released pl mn_empty None _ Hf (or_introl Hj) _ _ Hd)|].
    destruct (copy_end_nc pl mn_empty None (PsBytes DstCmdStdin j fin) _ n Hf (or_introl Hj) I Hnc Hd) as [(K1 & K2 & K3)|(_ & d & e & K1 & K2)].
    - left. split; [exact K1|]. split; [exact K2|]. split; [exact (copy_shut pl mn_empty None _ Hf (or_introl Hj) _ _ Hd)|exact K3].
    - right. exists d. cbn in K1. injection K1 as <-. exact K2. }
  intros n Hn. destruct st as [s|a' b' c'|s]; try contradiction.
  - destruct Hst as (-> & -> & ->). destruct a as [e|[m|err]|p]; try contradiction. subst m. exact (G n H1).
  - pose proof (launch_parts _ _ _ _ _ _ HL H) as HP'. cbn beta iota in HP'. destruct HP' as (fin' & fout' & ferr' & ra & rb & rc & tr & E & K1 & K2 & K3 & K4).
    rewrite E in Hc. injection Hc as -> -> ->. rewrite Ex in K1.
    destruct s as [e|[m|err]|p]; try contradiction. subst m.
    assert (Ea : ra = Ok n).
    { unfold launch_finish in K4. destruct (la_exit_status l) as [[je ne]|].
      - destruct (exec_bind_inv _ _ _ _ K4) as [(t1 & t2 & x & _ & _ & K5)|[(e & K5 & _)|(s & K5 & _)]]; try discriminate K5.
        destruct x; apply exec_ret_inv in K5; destruct K5 as [_ K5]; injection K5 as K5; [|discriminate K5].
        unfold launch_result in K5. destruct ra, rb, rc; try discriminate K5. now rewrite K5.
      - apply exec_ret_inv in K4. destruct K4 as [_ K4]. injection K4 as K4. unfold launch_result in K4. destruct ra, rb, rc; try discriminate K4. now rewrite K4. }
    subst ra. exact (G n K1).
Qed.

Lemma relay_bytes k j f ps tr st : real_push ps -> exec (relay (PlBytes k j f split_control_new, ps) spy) tr st ->
  prefix (offered_to ps tr) (messages_of_reads (reads f tr)) /\
  match st with
  | Done (Ok n) =>
     (offered_to ps tr = messages_of_reads (reads f tr) /\ In (ERead f, AData []) tr) \/ (push_brk ps = Finish /\ exists d, found_closed ps d tr)
  | Panicked _ => False
  | _ => True
  end /\
  match st with Done _ => push_released ps tr /\ In (EDropFd f, AOk) tr | _ => True end.
Proof.
  intros Hr HX. unfold relay in HX. cbn [fst snd] in HX. set (pl := PlBytes k j f split_control_new) in *.
  assert (Hj : pull_journey pl <> None) by discriminate.
  split; [exact (proj1 (copy_prefix pl mn_empty spy ps eq_refl (or_introl Hj) Hr _ _ HX))|]. split.
  - destruct st as [e|[n|err]|s]; try exact I.
    + exact (copy_ends pl mn_empty spy ps eq_refl (or_introl Hj) Hr _ _ HX).
    + exact (motion_no_panic pl mn_empty spy ps eq_refl (or_introl Hj) _ _ HX).
  - destruct st as [e|r|s]; try exact I. destruct (copy_released pl mn_empty spy ps eq_refl (or_introl Hj) _ _ HX) as (K1 & K2 & _). auto.
Qed.

Lemma relay_out L st ps fin fout ferr : launch_start cwd vars l spy L st -> la_stdout l = Some ps ->
  child_of (own 0 L) = Some (fin, fout, ferr) ->
  exists s, relay_status 2 st s /\
  prefix (offered_to ps (own 2 L)) (messages_of_reads (reads fout (own 2 L))) /\
  match s with
  | Done (Ok n) =>
     (offered_to ps (own 2 L) = messages_of_reads (reads fout (own 2 L)) /\ In (ERead fout, AData []) (own 2 L)) \/
     (push_brk ps = Finish /\ exists d, found_closed ps d (own 2 L))
  | Panicked _ => False
  | _ => True
  end.
Proof.
  intros H Ho Hc. destruct HR as (HL & HR1 & HR2 & HR3). destruct (stdout_relay ps fin fout ferr Ho) as (j & Ex).
  pose proof (launch_relay_run L st H fin fout ferr Hc) as (a & b & c & H1 & H2 & H3 & Hst). rewrite Ex in H2.
  destruct (relay_bytes _ _ _ _ _ _ (HR2 _ Ho) H2) as (K1 & K2 & _). exists b. split; [|auto].
  destruct st as [s|a' b' c'|s]; cbn; try tauto. - intuition. - destruct Hst as (ra & rb & rc & _ & -> & _). eauto.
Qed.
Lemma relay_err L st ps fin fout ferr : launch_start cwd vars l spy L st -> la_stderr l = Some ps ->
  child_of (own 0 L) = Some (fin, fout, ferr) ->
  exists s, relay_status 3 st s /\
  prefix (offered_to ps (own 3 L)) (messages_of_reads (reads ferr (own 3 L))) /\
  match s with
  | Done (Ok n) =>
     (offered_to ps (own 3 L) = messages_of_reads (reads ferr (own 3 L)) /\ In (ERead ferr, AData []) (own 3 L)) \/
     (push_brk ps = Finish /\ exists d, found_closed ps d (own 3 L))
  | Panicked _ => False
  | _ => True
  end.
Proof.
  intros H Ho Hc. destruct HR as (HL & HR1 & HR2 & HR3). destruct (stderr_relay ps fin fout ferr Ho) as (j & Ex).
  pose proof (launch_relay_run L st H fin fout ferr Hc) as (a & b & c & H1 & H2 & H3 & Hst). rewrite Ex in H3.
  destruct (relay_bytes _ _ _ _ _ _ (HR3 _ Ho) H3) as (K1 & K2 & _). exists c. split; [|auto].
  destruct st as [s|a' b' c'|s]; cbn; try tauto. - intuition. - destruct Hst as (ra & rb & rc & _ & _ & ->). eauto.
Qed.
End Relays.

(** ** The whole launch *)
Lemma app_mid_split {A} (x : A) : forall a b c d, a ++ b = c ++ x :: d -> (exists e, a = c ++ x :: e /\ d = e ++ b) \/ (exists e, c = a ++ e /\ b = e ++ x :: d).
Proof.
  induction a as [|y a IH]; intros b c d E.
  - right. exists c. auto.
  - destruct c as [|z c]; cbn in E; injection E as E1 E2.
    + left. exists a. cbn. now rewrite E1, E2.
    + destruct (IH _ _ _ E2) as [(e & K1 & K2)|(e & K1 & K2)]; [left|right]; exists e; cbn; now rewrite ?E1, K1.
Qed.

Lemma idle_suffix is a b : idle is (a ++ b) -> idle is b.
Proof. intros H i Hi. specialize (H i Hi). rewrite own_app in H. now apply app_eq_nil in H. Qed.
Lemma own_in i ev l : In (i, ev) l -> In ev (own i l).
Proof. intro H. unfold own. apply in_map_iff. exists (i, ev). split; [reflexivity|]. apply filter_In. cbn. now rewrite Nat.eqb_refl. Qed.

Section Whole.
Variables (cwd : option string) (vars : list (string * string)) (l : launch) (spy : option nat).
Hypothesis HR : launch_ready l.

Lemma launch_zero L st A ev B : launch_start cwd vars l spy L st -> L = A ++ (0, ev) :: B ->
  (exists s, fst ev = ESpawn s) \/ (idle [1; 2; 3] B /\ exists s, st = After s).
Proof.
  intros H EL. unfold launch_start in H.
  assert (HS : forall L0 st', exec (launch_spawn cwd vars l) (own 0 L0) st' -> In (0, ev) L0 -> exists s, fst ev = ESpawn s).
  { intros L0 st' HX Hin. apply own_in in Hin. destruct (spawn_inv _ _ _ _ _ (proj1 HR) HX) as [(E1 & _)|[(E1 & _)|(f1 & f2 & f3 & E1 & _)]];
      rewrite E1 in Hin; [contradiction| |]; destruct Hin as [<-|[]]; eexists; reflexivity. }
  destruct H as [L e Hi HX|L s Hi HX|L r Hi HX|L0 L x a b c H0 H1 HX Ha Hb Hc|L0 L L1 x a b c st H0 H1 H2 HX Ha Hb Hc HF]; subst.
  - left. eapply HS; [exact HX|]. apply in_app_iff. cbn. auto.
  - left. eapply HS; [exact HX|]. apply in_app_iff. cbn. auto.
  - left. eapply HS; [exact HX|]. apply in_app_iff. cbn. auto.
  - left. assert (Hin : In (0, ev) (L0 ++ L)) by (rewrite EL; apply in_app_iff; cbn; auto). apply in_app_iff in Hin. destruct Hin as [Hin|Hin].
    + eapply HS; eassumption.
    + exfalso. apply own_in in Hin. rewrite (H1 0 (or_introl eq_refl)) in Hin. destruct Hin.
  - apply app_mid_split in EL. destruct EL as [(e & -> & ->)|(e & -> & EL)].
    + left. eapply HS; [exact HX|]. apply in_app_iff. cbn. auto.
    + apply app_mid_split in EL. destruct EL as [(e' & -> & ->)|(e' & -> & ->)].
      * exfalso. specialize (H1 0 (or_introl eq_refl)). rewrite own_app, own_one in H1. cbn in H1. apply app_eq_nil in H1. destruct H1 as [_ H1]. discriminate H1.
      * right. split; [|eauto]. apply idle_suffix with (a := e' ++ [(0, ev)]). now rewrite <- app_assoc.
Qed.

(** *** The exit port *)
Variables (j : journey) (n : nat).
Hypothesis HE : la_exit_status l = Some (j, n).

Lemma finish_inv a b c tr st : exec (launch_finish l spy a b c) tr st ->
  match st with
  | At e => exit_now spy j n tr e
  | Done r => exists x, exit_post spy j n tr x /\ r = match x with Err e => Err e | Ok _ => launch_result a b c end
  | Panicked _ => False
  end.
Proof.
  unfold launch_finish. rewrite HE. intro HX. destruct (exec_bind_inv _ _ _ _ HX) as [(t1 & t2 & x & -> & K1 & K2)|[(e & -> & K1)|(s & -> & K1)]].
  - pose proof (exit_sat spy j n _ _ K1) as K. cbn [app] in K. destruct x; apply exec_ret_inv in K2; destruct K2 as [-> ->]; rewrite app_nil_r; eauto.
  - exact (exit_sat spy j n _ _ K1).
  - exact (exit_sat spy j n _ _ K1).
Qed.

Lemma offered_spy (s : nat) v a c (t : trace) : offered (CData c) ((ESend (CSpy s) v, a) :: t) = offered (CData c) t.
Proof. reflexivity. Qed.

Lemma exit_now_offers h e : exit_now spy j n h e -> exists x, offered (CData n) h = x /\ (x = [] \/ exists code m, x = [VData m] /\ exit_text code m /\ last (statuses h) AErr = AStatus code).
Proof.
  intros (k & [(-> & _)|[(-> & _)|(code & m & rest & Hm & -> & H)]]).
  - exists []. split; [apply offered_retries|auto].
  - exists []. split; [|auto]. rewrite offered_app, offered_retries. reflexivity.
  - eexists. split; [reflexivity|]. rewrite offered_app, offered_retries. cbn [app].
    destruct H as [(-> & _)|[(-> & _)|(t & -> & Ht & Hs & _)]].
    + left. reflexivity.
    + right. exists code, m. cbn. rewrite Nat.eqb_refl. split; [reflexivity|]. split; [now apply exit_text_ok|].
      rewrite statuses_app, statuses_retries. cbn. now rewrite last_last.
    + right. exists code, m. split; [|split; [now apply exit_text_ok|]].
      * change (offered (CData n) ((EStatus, AStatus code) :: (ESend (CData n) (VData m), AOk) :: t)) with (offered (CData n) ([(ESend (CData n) (VData m), AOk)] ++ t)).
        rewrite offered_app, Ht. cbn. now rewrite Nat.eqb_refl.
      * rewrite statuses_app, statuses_retries.
        assert (Est : statuses ([(EStatus, AStatus code)] ++ (ESend (CData n) (VData m), AOk) :: t) = AStatus code :: statuses t) by reflexivity.
        cbn [app] in Est |- *. rewrite Est, Hs. apply last_last.
Qed.

Lemma exit_post_offers h r : exit_post spy j n h r -> exists k code m,
  statuses h = repeat AErr k ++ [AStatus code] /\ offered (CData n) h = [VData m] /\ exit_text code m /\
  match r with
  | Ok _ => sent (CData n) h = [VData m] /\ exists h', h = h' ++ [(EClose (CData n), AOk)]
  | Err e => (e = SendError j m /\ In (ESend (CData n) (VData m), AClosed) h) \/
      (exists s port, spy = Some s /\ e = SpyWriteError (j_src j) (j_dst j) port (IOData m) /\ In (ESend (CSpy s) (VSpy (j_src j) (j_dst j) port (IOData m)), AClosed) h)
  end.
Proof.
  intros (k & code & m & rest & Hm & -> & H). exists k, code, m. rewrite statuses_app, statuses_retries, offered_app, offered_retries. cbn [app].
  destruct H as [(-> & ->)|[(s & port & -> & Hs & ->)|(t & -> & Ht & Hs & Hp & ->)]].
  - split; [reflexivity|]. split; [cbn; now rewrite Nat.eqb_refl|]. split; [now apply exit_text_ok|]. left. split; [reflexivity|].
    apply in_app_iff. cbn. auto.
  - split; [reflexivity|]. split; [cbn; now rewrite Nat.eqb_refl|]. split; [now apply exit_text_ok|]. right. exists s, port. split; [exact Hs|]. split; [reflexivity|].
    apply in_app_iff. cbn. auto.
  - assert (Ho : offered (CData n) (t ++ [(EClose (CData n), AOk)]) = []) by (rewrite offered_app, Ht; reflexivity).
    assert (Hse : sent (CData n) (t ++ [(EClose (CData n), AOk)]) = []).
    { destruct (sent (CData n) (t ++ [(EClose (CData n), AOk)])) eqn:E; [reflexivity|]. exfalso.
      assert (Hin : In v (sent (CData n) (t ++ [(EClose (CData n), AOk)]))) by (rewrite E; left; reflexivity).
      assert (G : In v (offered (CData n) (t ++ [(EClose (CData n), AOk)]))); [|rewrite Ho in G; destruct G].
      unfold sent in Hin. unfold offered. apply in_flat_map in Hin. apply in_flat_map. destruct Hin as ([e0 a0] & H1 & H2). exists (e0, a0). split; [exact H1|].
      destruct e0; try contradiction. destruct a0; try contradiction. exact H2. }
    split; [|split; [|split; [now apply exit_text_ok|split]]].
    + f_equal. change (statuses ((EStatus, AStatus code) :: (ESend (CData n) (VData m), AOk) :: t ++ [(EClose (CData n), AOk)])) with (AStatus code :: statuses (t ++ [(EClose (CData n), AOk)])).
      rewrite statuses_app, Hs. reflexivity.
    + change (offered (CData n) ((EStatus, AStatus code) :: (ESend (CData n) (VData m), AOk) :: t ++ [(EClose (CData n), AOk)]))
        with (offered (CData n) ([(ESend (CData n) (VData m), AOk)] ++ (t ++ [(EClose (CData n), AOk)]))).
      rewrite offered_app, Ho. cbn. now rewrite Nat.eqb_refl.
    + rewrite sent_app', sent_retries.
      change (sent (CData n) ((EStatus, AStatus code) :: (ESend (CData n) (VData m), AOk) :: t ++ [(EClose (CData n), AOk)]))
        with (sent (CData n) ([(ESend (CData n) (VData m), AOk)] ++ (t ++ [(EClose (CData n), AOk)]))).
      rewrite sent_app', Hse. cbn. now rewrite Nat.eqb_refl.
    + exists (retries k ++ (EStatus, AStatus code) :: (ESend (CData n) (VData m), AOk) :: t). rewrite <- app_assoc. reflexivity.
Qed.


(** *** The relays keep off the exit port *)
Lemma none_relay sp tr st : exec (relay (PlNone, PsNone) sp) tr st -> tr = [] /\ st = Done (Ok 1).
Proof.
  intro HX. assert (HD : drive 20 (relay (PlNone, PsNone) sp) [] = Some ([], Done (Ok 1))) by (destruct sp; vm_compute; reflexivity).
  exact (drive_only 20 _ _ HD _ _ HX).
Qed.

Definition elsewhere (ps : push) : Prop := forall d, write_eff ps d <> Some (ESend (CData n) (VData d)).
Lemma relay_elsewhere pl ps sp tr st : real_pull pl -> real_push ps -> elsewhere ps ->
  exec (relay (pl, ps) sp) tr st -> offered (CData n) tr = [].
Proof.
  intros Hp Hr He HX. unfold relay in HX. cbn [fst snd] in HX.
  destruct (motion_machine pl mn_empty sp ps) with (tr := tr) (st := st) as (s & HM & _); [exact Hp|exact Hr|exact HX|].
  apply mexec_view in HM. destruct HM as [HF _]. clear HX.
  induction HF as [|[e a] t (s1 & E) HF IH]; [reflexivity|].
  etransitivity; [exact (offered_app (CData n) [(e, a)] t)|]. rewrite IH. rewrite app_nil_r. cbn [fst] in E. destruct e; try reflexivity.
  change (offered (CData n) [(ESend c v, a)]) with ((if chan_eqb (CData n) c then [v] else []) ++ []).
  destruct (chan_eqb (CData n) c) eqn:Ec; [|reflexivity]. apply chan_eqb_eq in Ec. subst c. exfalso.
  apply view_data_send in E. destruct E as (d & E & ->). exact (He d E).
Qed.

Hypothesis HX' : forall ps d, la_stdout l = Some ps \/ la_stderr l = Some ps -> write_eff ps d <> Some (ESend (CData n) (VData d)).

Lemma relays_elsewhere fin fout ferr tr st :
  let x := launch_relays l fin fout ferr in
  (exec (relay (rl_in x) None) tr st -> offered (CData n) tr = []) /\
  (exec (relay (rl_out x) spy) tr st -> offered (CData n) tr = []) /\
  (exec (relay (rl_err x) spy) tr st -> offered (CData n) tr = []).
Proof.
  destruct HR as (HL & HR1 & HR2 & HR3). cbn zeta. unfold launch_relays. cbn [rl_in rl_out rl_err]. split; [|split].
  - destruct (la_stdin l) as [pl|] eqn:E.
    + apply relay_elsewhere; [now apply HR1|exact I|]. intros d E'. discriminate E'.
    + intro K. now destruct (none_relay _ _ _ K) as [-> _].
  - destruct (la_stdout l) as [ps|] eqn:E.
    + apply relay_elsewhere; [exact I|now apply HR2|]. intro d. apply HX'. auto.
    + intro K. now destruct (none_relay _ _ _ K) as [-> _].
  - destruct (la_stderr l) as [ps|] eqn:E.
    + apply relay_elsewhere; [exact I|now apply HR3|]. intro d. apply HX'. auto.
    + intro K. now destruct (none_relay _ _ _ K) as [-> _].
Qed.

Lemma exit_port L st : launch_start cwd vars l spy L st ->
  (forall i, i = 1 \/ i = 2 \/ i = 3 -> offered (CData n) (own i L) = []) /\
  match st with
  | Before _ | During _ _ _ => offered (CData n) (own 0 L) = [] /\ statuses (own 0 L) = []
  | After (At _) => offered (CData n) (own 0 L) = [] \/
      exists code m, offered (CData n) (own 0 L) = [VData m] /\ exit_text code m /\ last (statuses (own 0 L)) AErr = AStatus code
  | After (Done r) => exists k code m,
      statuses (own 0 L) = repeat AErr k ++ [AStatus code] /\ offered (CData n) (own 0 L) = [VData m] /\ exit_text code m /\
      ((sent (CData n) (own 0 L) = [VData m] /\ exists h, own 0 L = h ++ [(EClose (CData n), AOk)]) \/
       (r = Err (SendError j m) /\ In (ESend (CData n) (VData m), AClosed) (own 0 L)) \/
       (exists s port, spy = Some s /\ r = Err (SpyWriteError (j_src j) (j_dst j) port (IOData m)) /\
          In (ESend (CSpy s) (VSpy (j_src j) (j_dst j) port (IOData m)), AClosed) (own 0 L)))
  | After (Panicked _) => False
  end.
Proof.
  intro H. pose proof (launch_parts _ _ _ _ _ _ (proj1 HR) H) as HP. destruct st as [s|a b c|s].
  - destruct HP as (Hi & HP). split.
    + intros i Hi'. rewrite Hi; [reflexivity|]. cbn. intuition.
    + destruct HP as [(-> & _)|(-> & _)]; auto.
  - destruct HP as (fin & fout & ferr & E & H1 & H2 & H3). split.
    + intros i [->|[->| ->]]; [eapply (proj1 (relays_elsewhere fin fout ferr _ _))|eapply (proj1 (proj2 (relays_elsewhere fin fout ferr _ _)))|eapply (proj2 (proj2 (relays_elsewhere fin fout ferr _ _)))]; eassumption.
    + rewrite E. auto.
  - destruct HP as (fin & fout & ferr & a & b & c & tr & E & H1 & H2 & H3 & H4). split.
    + intros i [->|[->| ->]]; [eapply (proj1 (relays_elsewhere fin fout ferr _ _))|eapply (proj1 (proj2 (relays_elsewhere fin fout ferr _ _)))|eapply (proj2 (proj2 (relays_elsewhere fin fout ferr _ _)))]; eassumption.
    + apply finish_inv in H4. rewrite E. set (sp := (ESpawn (launch_spawning cwd vars l), AChild fin fout ferr)) in *.
      assert (E1 : offered (CData n) ([sp] ++ tr) = offered (CData n) tr) by reflexivity.
      assert (E2 : sent (CData n) ([sp] ++ tr) = sent (CData n) tr) by reflexivity.
      assert (E3 : statuses ([sp] ++ tr) = statuses tr) by reflexivity.
      rewrite E1, E2, E3. destruct s as [e|r|p]; [| |exact H4].
      * apply exit_now_offers in H4. destruct H4 as (x & <- & [K|K]); [left; exact K|right; exact K].
      * destruct H4 as (x & H4 & ->). apply exit_post_offers in H4. destruct H4 as (k & code & m & K1 & K2 & K3 & K4). exists k, code, m.
        split; [exact K1|]. split; [exact K2|]. split; [exact K3|]. destruct x as [u|err].
        -- left. destruct K4 as (K4 & h & ->). split; [exact K4|]. exists ([sp] ++ h). rewrite app_assoc. reflexivity.
        -- right. destruct K4 as [(-> & K4)|(s & port & Hs & -> & K4)]; [left|right].
           ++ split; [reflexivity|]. now right.
           ++ exists s, port. split; [exact Hs|]. split; [reflexivity|]. now right.
Qed.
End Whole.

(** Without an exit connection the status is not asked for. *)
Lemma no_exit cwd vars l spy L st : launch_ready l -> la_exit_status l = None -> launch_start cwd vars l spy L st -> statuses (own 0 L) = [].
Proof.
  intros HR HE H. pose proof (launch_parts _ _ _ _ _ _ (proj1 HR) H) as HP. destruct st as [s|a b c|s].
  - destruct HP as (Hi & [(-> & _)|(-> & _)]); reflexivity.
  - destruct HP as (fin & fout & ferr & -> & _). reflexivity.
  - destruct HP as (fin & fout & ferr & a & b & c & tr & -> & _ & _ & _ & HF). unfold launch_finish in HF. rewrite HE in HF. apply exec_ret_inv in HF. destruct HF as [-> _]. reflexivity.
Qed.

(** The exit message is the last thing. *)
Lemma exit_last cwd vars l spy L st A n v a B : launch_ready l -> launch_start cwd vars l spy L st -> L = A ++ (0, (ESend (CData n) v, a)) :: B ->
  idle [1; 2; 3] B /\ exists s, st = After s.
Proof.
  intros HR H E. destruct (launch_zero cwd vars l spy HR L st A _ B H E) as [(s & K)|K]; [discriminate K|exact K].
Qed.

(** *** The result *)
Lemma launch_ends cwd vars l spy L r : launch_ready l -> launch_start cwd vars l spy L (After (Done r)) ->
  exists L0 L1 a b c, L = L0 ++ L1 /\ launch_start cwd vars l spy L0 (During (Done a) (Done b) (Done c)) /\ idle [1; 2; 3] L1 /\
  ((r = match first_error [a; b; c] with Some e => Err e | None => a end) \/
   exists j n e, la_exit_status l = Some (j, n) /\ r = Err e /\
     ((exists m, e = SendError j m /\ In (ESend (CData n) (VData m), AClosed) (own 0 L1)) \/
      (exists s port m, spy = Some s /\ e = SpyWriteError (j_src j) (j_dst j) port (IOData m) /\
         In (ESend (CSpy s) (VSpy (j_src j) (j_dst j) port (IOData m)), AClosed) (own 0 L1)))).
Proof.
  intros HR H. unfold launch_start in H. inversion H as [| | | |l0 ll l1 x a b c st H0 H1 H2 HX Ha Hb Hc HF E1 E2]; subst.
  exists (l0 ++ ll), l1, a, b, c. split; [apply app_assoc|]. split; [now apply J_during with (x := x)|]. split; [exact H2|].
  assert (ER : launch_result a b c = match first_error [a; b; c] with Some e => Err e | None => a end) by (destruct a, b, c; reflexivity).
  destruct (la_exit_status l) as [[j n]|] eqn:EE.
  - apply (finish_inv l spy j n EE) in HF. destruct HF as (y & Hy & ->). destruct y as [u|err]; [left; exact ER|right].
    exists j, n, err. split; [reflexivity|]. split; [reflexivity|]. apply exit_post_offers in Hy. destruct Hy as (k & code & m & _ & _ & _ & [(-> & K)|(s & port & Hs & -> & K)]).
    + left. eauto.
    + right. exists s, port, m. auto.
  - left. unfold launch_finish in HF. rewrite EE in HF. apply exec_ret_inv in HF. destruct HF as [_ HF]. injection HF as ->. exact ER.
Qed.

(** *** Starting the program *)
Lemma copy_no_spawn tr : Forall (fun ev => copy_eff (fst ev)) tr -> spawns tr = [].
Proof. induction 1 as [|[e a] tr He _ IH]; [reflexivity|]. etransitivity; [exact (spawns_app [(e, a)] tr)|]. rewrite IH. destruct e; cbn in He; try contradiction; reflexivity. Qed.

Lemma relay_no_spawn l fin fout ferr spy tr st : launch_ready l -> let x := launch_relays l fin fout ferr in
  (exec (relay (rl_in x) None) tr st -> spawns tr = []) /\ (exec (relay (rl_out x) spy) tr st -> spawns tr = []) /\ (exec (relay (rl_err x) spy) tr st -> spawns tr = []).
Proof.
  intros (HL & HR1 & HR2 & HR3) x. unfold x, launch_relays. cbn [rl_in rl_out rl_err]. unfold relay.
  assert (G : forall pl ps sp, fresh_pull pl -> exec (motion pl mn_empty sp ps) tr st -> spawns tr = []).
  { intros pl ps sp Hf HX. apply copy_no_spawn. apply (motion_copy_eff pl mn_empty sp ps tr st Hf (or_intror eq_refl) HX). }
  split; [|split].
  - destruct (la_stdin l) as [pl|] eqn:E; cbn [fst snd]; apply G; [now apply HR1|exact I].
  - destruct (la_stdout l) as [ps|] eqn:E; cbn [fst snd]; apply G; [reflexivity|exact I].
  - destruct (la_stderr l) as [ps|] eqn:E; cbn [fst snd]; apply G; [reflexivity|exact I].
Qed.

Lemma finish_no_spawn l spy a b c tr st : exec (launch_finish l spy a b c) tr st -> spawns tr = [].
Proof.
  intro HX. destruct (la_exit_status l) as [[j n]|] eqn:EE.
  - apply (finish_inv l spy j n EE) in HX. destruct st as [e|r|s]; [| |contradiction].
    + destruct HX as (k & [(-> & _)|[(-> & _)|(code & m & rest & _ & -> & H)]]); rewrite ?spawns_app, ?spawns_retries; try reflexivity.
      destruct H as [(-> & _)|[(-> & _)|(t & -> & _ & _ & Ht & _)]]; try reflexivity. exact Ht.
    + destruct HX as (y & (k & code & m & rest & _ & -> & H) & _). rewrite !spawns_app, spawns_retries. cbn [app].
      destruct H as [(-> & _)|[(s & port & -> & _)|(t & -> & _ & _ & Ht & _)]]; try reflexivity.
      change (spawns [(EStatus, AStatus code)] ++ spawns ((ESend (CData n) (VData m), AOk) :: t ++ [(EClose (CData n), AOk)])) with (spawns (t ++ [(EClose (CData n), AOk)])).
      rewrite spawns_app, Ht. reflexivity.
  - unfold launch_finish in HX. rewrite EE in HX. apply exec_ret_inv in HX. now destruct HX as [-> _].
Qed.

Lemma spawned cwd vars l spy L st : launch_ready l -> launch_start cwd vars l spy L st ->
  (forall i, i = 1 \/ i = 2 \/ i = 3 -> spawns (own i L) = []) /\
  ((own 0 L = [] /\ st = Before (At (ESpawn (launch_spawning cwd vars l)))) \/
   exists a tr, own 0 L = (ESpawn (launch_spawning cwd vars l), a) :: tr /\ spawns tr = []).
Proof.
  intros HR H. pose proof (launch_parts _ _ _ _ _ _ (proj1 HR) H) as HP. destruct st as [s|a b c|s].
  - destruct HP as (Hi & HP). split.
    + intros i Hi'. rewrite Hi; [reflexivity|]. cbn. intuition.
    + destruct HP as [(E & ->)|(E & _)]; rewrite E; [left; auto|right]. exists AErr, []. auto.
  - destruct HP as (fin & fout & ferr & E & H1 & H2 & H3). split.
    + intros i [->|[->| ->]]; [eapply (proj1 (relay_no_spawn l fin fout ferr spy _ _ HR))|eapply (proj1 (proj2 (relay_no_spawn l fin fout ferr spy _ _ HR)))|eapply (proj2 (proj2 (relay_no_spawn l fin fout ferr spy _ _ HR)))]; eassumption.
    + right. rewrite E. exists (AChild fin fout ferr), []. auto.
  - destruct HP as (fin & fout & ferr & a & b & c & tr & E & H1 & H2 & H3 & H4). split.
    + intros i [->|[->| ->]]; [eapply (proj1 (relay_no_spawn l fin fout ferr spy _ _ HR))|eapply (proj1 (proj2 (relay_no_spawn l fin fout ferr spy _ _ HR)))|eapply (proj2 (proj2 (relay_no_spawn l fin fout ferr spy _ _ HR)))]; eassumption.
    + right. rewrite E. exists (AChild fin fout ferr), tr. split; [reflexivity|]. eapply finish_no_spawn; eassumption.
Qed.

Lemma spawn_failure cwd vars l spy L st sp tr : launch_ready l -> launch_start cwd vars l spy L st -> own 0 L = (ESpawn sp, AErr) :: tr -> exists m, st = Before (Panicked m).
Proof.
  intros HR H E. pose proof (launch_parts _ _ _ _ _ _ (proj1 HR) H) as HP. destruct st as [s|a b c|s].
  - destruct HP as (Hi & [(E' & _)|(E' & m & ->)]); [congruence|eauto].
  - destruct HP as (fin & fout & ferr & E' & _). rewrite E in E'. discriminate E'.
  - destruct HP as (fin & fout & ferr & a & b & c & tr' & E' & _). rewrite E in E'. discriminate E'.
Qed.

(** *** Letting go *)
Lemma launch_releases cwd vars l spy L r : launch_ready l -> launch_start cwd vars l spy L (After (Done r)) ->
  (forall pl, la_stdin l = Some pl -> pull_released pl (own 1 L)) /\
  (forall ps, la_stdout l = Some ps -> push_released ps (own 2 L)) /\
  (forall ps, la_stderr l = Some ps -> push_released ps (own 3 L)) /\
  (forall fin fout ferr, child_of (own 0 L) = Some (fin, fout, ferr) ->
     (la_stdin l <> None -> In (EDropFd fin, AOk) (own 1 L)) /\ (la_stdout l <> None -> In (EDropFd fout, AOk) (own 2 L)) /\ (la_stderr l <> None -> In (EDropFd ferr, AOk) (own 3 L))).
Proof.
  intros HR H. pose proof (launch_parts _ _ _ _ _ _ (proj1 HR) H) as HP. destruct HR as (HL & HR1 & HR2 & HR3).
  cbn beta iota in HP. destruct HP as (fin & fout & ferr & a & b & c & tr & E & H1 & H2 & H3 & _).
  unfold launch_relays in H1, H2, H3. cbn [rl_in rl_out rl_err] in H1, H2, H3.
  assert (Gin : forall pl, la_stdin l = Some pl -> pull_released pl (own 1 L) /\ In (EDropFd fin, AOk) (own 1 L)).
  { intros pl Ep. rewrite Ep in H1. unfold relay in H1. cbn [fst snd] in H1. destruct (HR1 _ Ep) as [Hf _].
    destruct (copy_released _ _ _ _ Hf (or_intror eq_refl) _ _ H1) as (K1 & K2 & _). split; [exact K1|exact K2]. }
  assert (Gout : forall ps, la_stdout l = Some ps -> push_released ps (own 2 L) /\ In (EDropFd fout, AOk) (own 2 L)).
  { intros ps Ep. rewrite Ep in H2. destruct (relay_bytes spy _ _ _ _ _ _ (HR2 _ Ep) H2) as (_ & _ & K). exact K. }
  assert (Gerr : forall ps, la_stderr l = Some ps -> push_released ps (own 3 L) /\ In (EDropFd ferr, AOk) (own 3 L)).
  { intros ps Ep. rewrite Ep in H3. destruct (relay_bytes spy _ _ _ _ _ _ (HR3 _ Ep) H3) as (_ & _ & K). exact K. }
  split; [intros pl Ep; now apply Gin|]. split; [intros ps Ep; now apply Gout|]. split; [intros ps Ep; now apply Gerr|].
  intros fin' fout' ferr' Hc. rewrite E in Hc. injection Hc as <- <- <-. split; [|split]; intro Hn.
  - destruct (la_stdin l); [now apply Gin with (pl := p)|congruence].
  - destruct (la_stdout l); [now apply Gout with (ps := p)|congruence].
  - destruct (la_stderr l); [now apply Gerr with (ps := p)|congruence].
Qed.

Lemma spawned_as cwd vars l spy L st : launch_ready l -> launch_start cwd vars l spy L st ->
  (forall i, i = 1 \/ i = 2 \/ i = 3 -> spawns (own i L) = []) /\
  exists s,
  sp_program s = la_command l /\
  sp_args s = match la_args l with Some args => args | None => [] end /\
  sp_dir s = match la_path l with Some p => Some p | None => cwd end /\
  sp_env s = match la_env l with Some env => env | None => vars end /\
  (sp_stdin s = true <-> la_stdin l <> None) /\ (sp_stdout s = true <-> la_stdout l <> None) /\ (sp_stderr s = true <-> la_stderr l <> None) /\
  ((own 0 L = [] /\ st = Before (At (ESpawn s))) \/ (exists a tr, own 0 L = (ESpawn s, a) :: tr /\ spawns tr = [])).
Proof.
  intros HR H. destruct (spawned cwd vars l spy L st HR H) as [H1 H2]. split; [exact H1|]. exists (launch_spawning cwd vars l).
  assert (G : forall A (o : option A), is_some o = true <-> o <> None) by (intros A [x|]; cbn; split; congruence).
  repeat (split; [first [reflexivity|apply G]|]). exact H2.
Qed.
