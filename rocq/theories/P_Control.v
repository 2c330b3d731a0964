(** * P_Control: handles, regulators and faucets as a whole *)
From Coq Require Import Ascii String List Bool Arith Lia ZArith.
From Verif Require Import M_Prog P_Prog P_Exec M_Motion M_Connectable M_Regulator M_Faucet S_Trace S_Lines S_Motion S_World S_Regulator.
From Verif Require Import P_Read P_Motion P_Worker P_Flow P_Loop P_Copy P_World P_Regulator P_Pause.
Import ListNotations.

(** ** Handles *)
Lemma signals_cons c v a tr : signals c ((ESend (CCtl c) v, a) :: tr) = S (signals c tr).
Proof. unfold signals. cbn. now rewrite Nat.eqb_refl. Qed.

Lemma last_snoc {X} (l : list X) x d : last (l ++ [x]) d = x.
Proof. apply last_last. Qed.

Lemma last_cons {X} (l : list X) x d : last (x :: l) d = last l x.
Proof. revert x d. induction l as [|y l IH]; intros; [reflexivity|]. change (last (x :: y :: l) d) with (last (y :: l) d). now rewrite IH, <- (IH y x). Qed.

Lemma requests_run c : forall ops now tr st, exec (requests ops (RC now c)) tr st ->
  length tr = signals c tr /\
  match st with
  | At e => exists ops1 o ops2, ops = ops1 ++ o :: ops2 /\ e = ESend (CCtl c) VUnit /\ o = negb (last ops1 now) /\
              signals c tr = length (changes now ops1)
  | Done (oks, c') => c' = RC (last ops now) c /\ length oks = length ops /\ signals c tr = length (changes now ops) /\
              length (sent (CCtl c) tr) = length (filter (fun x => x) oks)
  | Panicked _ => False
  end.
Proof.
  induction ops as [|o ops IH]; intros now tr st HX.
  { apply exec_ret_inv in HX. destruct HX as [-> ->]. cbn. auto. }
  cbn [requests] in HX.
  assert (Hstep : (o = now /\ exec (' (oks, c'') <- requests ops (RC now c) ;; Ret (false :: oks, c'')) tr st) \/
                  (o = negb now /\ ((tr = [] /\ st = At (ESend (CCtl c) VUnit)) \/
                     exists a tr', tr = (ESend (CCtl c) VUnit, a) :: tr' /\ (a = AOk \/ a = AClosed) /\
                       exec (' (oks, c'') <- requests ops (RC o c) ;; Ret ((match a with AOk => true | _ => false end) :: oks, c'')) tr' st))).
  { assert (Hcase : o = now \/ o = negb now) by (destruct o, now; auto). destruct Hcase as [->|E].
    - left. split; [reflexivity|]. destruct now; unfold rc_pause, rc_resume in HX; cbn [rc_paused negb] in HX; rewrite bind_ret in HX; exact HX.
    - right. split; [exact E|].
      replace (if o then rc_pause (RC now c) else rc_resume (RC now c)) with (ok <- send (CCtl c) VUnit ;; Ret (ok, RC o c)) in HX
        by (subst o; destruct now; reflexivity).
      apply exec_bind_inv in HX. destruct HX as [(t1 & t2 & [ok c'] & -> & H1 & H2)|[(e & -> & H1)|(s & -> & H1)]].
      + apply exec_bind_inv in H1. destruct H1 as [(t3 & t4 & ok' & -> & H3 & H4)|[(e & He & H1)|(s & Hs & H1)]]; try discriminate.
        apply exec_ret_inv in H4. destruct H4 as [-> E4]. injection E4 as -> ->.
        apply send_inv in H3. destruct H3 as [[_ H3]|[[-> H3]|[-> H3]]]; try discriminate; injection H3 as ->; right.
        * exists AOk, t2. auto.
        * exists AClosed, t2. auto.
      + left. apply exec_bind_inv in H1. destruct H1 as [(t3 & t4 & ok' & -> & H3 & H4)|[(e' & He & H1)|(s & Hs & H1)]]; try discriminate.
        * apply exec_ret_inv in H4. destruct H4; discriminate.
        * injection He as ->. apply send_inv in H1. destruct H1 as [[-> H1]|[[-> H1]|[-> H1]]]; try discriminate. injection H1 as ->. split; reflexivity.
      + exfalso. apply exec_bind_inv in H1. destruct H1 as [(t3 & t4 & ok' & -> & H3 & H4)|[(e' & He & H1)|(s' & Hs & H1)]]; try discriminate.
        * apply exec_ret_inv in H4. destruct H4; discriminate.
        * apply send_inv in H1. destruct H1 as [[_ H1]|[[_ H1]|[_ H1]]]; discriminate. }
  assert (Hgo : forall b now' tr', exec (' (oks, c'') <- requests ops (RC now' c) ;; Ret (b :: oks, c'')) tr' st ->
     length tr' = signals c tr' /\
     match st with
     | At e => exists ops1 o ops2, ops = ops1 ++ o :: ops2 /\ e = ESend (CCtl c) VUnit /\ o = negb (last ops1 now') /\
              signals c tr' = length (changes now' ops1)
     | Done (oks, c') => exists oks', oks = b :: oks' /\ c' = RC (last ops now') c /\ length oks' = length ops /\ signals c tr' = length (changes now' ops) /\
              length (sent (CCtl c) tr') = length (filter (fun x => x) oks')
     | Panicked _ => False
     end).
  { intros b now' tr' HY. apply exec_bind_inv in HY. destruct HY as [(t1 & t2 & [oks c'] & -> & H1 & H2)|[(e & -> & H1)|(s & -> & H1)]].
    - apply exec_ret_inv in H2. destruct H2 as [-> ->]. rewrite app_nil_r. destruct (IH _ _ _ H1) as (L & H). split; [exact L|].
      exists oks. tauto.
    - exact (IH _ _ _ H1).
    - destruct (IH _ _ _ H1) as (_ & []). }
  destruct Hstep as [[-> HY]|[E [[-> ->]|(a & tr' & -> & Ha & HY)]]].
  - destruct (Hgo _ _ _ HY) as (L & H). split; [exact L|]. destruct st as [e|[oks c']|s]; [|destruct H as (oks' & -> & -> & H1 & H2 & H3)|exact H].
    + destruct H as (ops1 & o & ops2 & -> & -> & -> & Hs). exists (now :: ops1), (negb (last ops1 now)), ops2.
      rewrite last_cons. cbn [changes]. rewrite Bool.eqb_reflx. auto.
    + rewrite last_cons. cbn [changes length filter]. rewrite Bool.eqb_reflx. auto.
  - split; [reflexivity|]. exists [], o, ops. auto.
  - assert (Hne : Bool.eqb o now = false) by (subst o; destruct now; reflexivity).
    destruct (Hgo _ _ _ HY) as (L & H). rewrite signals_cons. split; [cbn; lia|].
    destruct st as [e|[oks c']|s]; [|destruct H as (oks' & -> & -> & H1 & H2 & H3)|exact H].
    + destruct H as (ops1 & o' & ops2 & -> & -> & -> & Hs). exists (o :: ops1), (negb (last ops1 o)), ops2.
      rewrite last_cons. cbn [changes]. rewrite Hne. cbn [length]. auto.
    + rewrite last_cons. cbn [changes length]. rewrite Hne. cbn [length].
      change ((ESend (CCtl c) VUnit, a) :: tr') with ([(ESend (CCtl c) VUnit, a)] ++ tr'). rewrite sent_app', app_length, H3.
      repeat split; [lia|lia|]. destruct Ha as [-> | ->]; cbn; [now rewrite Nat.eqb_refl|reflexivity].
Qed.

Lemma changes_last : forall ops now, last ops now = xorb now (Nat.odd (length (changes now ops))).
Proof.
  induction ops as [|o ops IH]; intro now; [cbn; now destruct now|]. rewrite last_cons. cbn [changes].
  destruct (Bool.eqb o now) eqn:E.
  - apply Bool.eqb_prop in E. subst o. apply IH.
  - cbn [length]. rewrite IH, Nat.odd_succ, <- Nat.negb_odd. destruct o, now; cbn in *; try discriminate; now destruct (Nat.odd _).
Qed.

Lemma requests_alternate ops c tr e : exec (requests ops (RC false c)) tr (At e) ->
  exists ops1 o ops2, ops = ops1 ++ o :: ops2 /\ e = ESend (CCtl c) VUnit /\ o = Nat.even (signals c tr) /\
    signals c tr = length (changes false ops1) /\ length tr = signals c tr.
Proof.
  intro HX. destruct (requests_run c _ _ _ _ HX) as (L & ops1 & o & ops2 & H1 & H2 & H3 & H4). exists ops1, o, ops2. repeat split; auto.
  rewrite H3, changes_last, H4, <- Nat.negb_odd, xorb_false_l. reflexivity.
Qed.
Lemma requests_done ops c tr oks c' : exec (requests ops (RC false c)) tr (Done (oks, c')) ->
  signals c tr = length (changes false ops) /\ length tr = signals c tr /\
  rc_paused c' = Nat.odd (signals c tr) /\ rc_paused c' = last ops false /\ rc_control c' = c /\
  length oks = length ops /\ length (sent (CCtl c) tr) = length (filter (fun x => x) oks).
Proof.
  intro HX. destruct (requests_run c _ _ _ _ HX) as (L & -> & H2 & H3 & H4). cbn. repeat split; auto.
  rewrite changes_last, H3, xorb_false_l. reflexivity.
Qed.

(** ** A signal waits only for an earlier one *)
Lemma signal_waits w0 l w c : wrun w0 l w -> w0 (CCtl c) = fresh_chan (Some 1) ->
  blocked w (ESend (CCtl c) VUnit) ->
  exists v, cs_queue (w (CCtl c)) = [v] /\ length (sent (CCtl c) (all_of l)) = S (length (taken (CCtl c) (all_of l))).
Proof.
  intros HW H0 HB. pose proof (fifo (CCtl c) _ _ _ HW) as Hf. rewrite H0 in Hf. cbn in Hf.
  assert (Hle : length (cs_queue (w (CCtl c))) <= 1) by (eapply within; [exact HW|now rewrite H0|rewrite H0; cbn; lia]).
  destruct (cs_queue (w (CCtl c))) as [|v [|]] eqn:E; [|exists v|cbn in Hle; lia].
  - exfalso. destruct (cs_closed (w (CCtl c))) eqn:Ec.
    + eapply HB. apply W_send_closed. exact Ec.
    + eapply HB. apply W_send; [exact Ec|]. unfold room. rewrite (cap_same (CCtl c) _ _ _ HW), H0, E. cbn. lia.
  - split; [reflexivity|]. rewrite <- Hf, app_length. cbn. lia.
Qed.

(** ** Regulators *)
Lemma regulator_gate r pl ps spy : regulator_ready r pl ps -> regulator_start r spy = start_secret false (Some pl) (Some ps) (rg_control r) spy.
Proof. intros (H1 & H2 & H3 & _). unfold regulator_start. now rewrite H1, H2, H3. Qed.

(** ** Faucets *)
Lemma faucet_run f name ps spy tr st : faucet_ready f name ps -> exec (faucet_start f spy) tr st ->
  (tr = [] /\ st = At (source_eff name)) \/
  (exists j, fc_pull_journey f = Some j /\ tr = [(source_eff name, AErr)] /\ st = Done (Err (OpenIOError j)) /\ name <> "-"%string) \/
  exists d rest k j, tr = (source_eff name, AFd d) :: rest /\
    exec (start_secret false (Some (PlBytes k j d split_control_new)) (Some ps) (fc_control f) spy) rest st.
Proof.
  intros (H1 & H2 & H3 & H4 & H5) HX. unfold faucet_start, faucet_source, source_eff in *. rewrite H2, H3, H1 in HX.
  destruct (fc_pull_journey f) as [j|]; [|contradiction].
  destruct (string_dec name "-") as [Hn|Hn].
  - apply exec_bind_inv in HX. destruct HX as [(t1 & t2 & x & -> & H6 & H7)|[(e & -> & H6)|(s & -> & H6)]];
      apply exec_vis_inv in H6; destruct H6 as [[-> E]|(a & tr' & -> & Hwt & H6)]; try discriminate; try (injection E as ->; left; auto; fail);
      destruct a; try discriminate Hwt; apply exec_ret_inv in H6; destruct H6 as [-> E]; try discriminate.
    injection E as ->. right. right. cbn [app]. eauto 8.
  - apply exec_bind_inv in HX. destruct HX as [(t1 & t2 & x & -> & H6 & H7)|[(e & -> & H6)|(s & -> & H6)]];
      apply exec_vis_inv in H6; destruct H6 as [[-> E]|(a & tr' & -> & Hwt & H6)]; try discriminate; try (injection E as ->; left; auto; fail);
      destruct a; try discriminate Hwt; apply exec_ret_inv in H6; destruct H6 as [-> E]; try discriminate; injection E as ->.
    + right. left. apply exec_ret_inv in H7. destruct H7 as [-> ->]. exists j. auto.
    + right. right. cbn [app]. eauto 8.
Qed.

Lemma source_frame ps name d rest : real_push ps ->
  offered_to ps ((source_eff name, AFd d) :: rest) = offered_to ps rest /\ accepted_by ps ((source_eff name, AFd d) :: rest) = accepted_by ps rest /\
  (forall f, reads f ((source_eff name, AFd d) :: rest) = reads f rest) /\ attempts ((source_eff name, AFd d) :: rest) = attempts rest.
Proof. intro Hr. unfold source_eff. destruct (string_dec name "-"); destruct ps; try contradiction; repeat split. Qed.

Lemma faucet_prefix f name ps spy tr st : faucet_ready f name ps -> exec (faucet_start f spy) tr st ->
  offered_to ps tr = [] \/ exists d rest, tr = (source_eff name, AFd d) :: rest /\ prefix (offered_to ps tr) (messages_of_reads (reads d tr)).
Proof.
  intros HR HX. pose proof HR as (_ & _ & _ & Hr & _).
  destruct (faucet_run _ _ _ _ _ _ HR HX) as [[-> _]|[(j & _ & -> & _ & _)|(d & rest & k & j & -> & HY)]].
  - left. destruct ps; reflexivity.
  - left. destruct ps; try reflexivity; unfold source_eff; destruct (string_dec name "-"); reflexivity.
  - right. exists d, rest. split; [reflexivity|]. destruct (source_frame ps name d rest Hr) as (-> & _ & -> & _).
    exact (proj1 (gate_prefix (PlBytes k j d split_control_new) ps _ _ eq_refl rest st Hr HY)).
Qed.

Lemma faucet_caught_up f name ps spy tr fd : faucet_ready f name ps -> exec (faucet_start f spy) tr (At (ERead fd)) ->
  exists d rest, tr = (source_eff name, AFd d) :: rest /\ length (messages_of_reads (reads d tr)) <= S (length (offered_to ps tr)).
Proof.
  intros HR HX. pose proof HR as (_ & _ & _ & Hr & _).
  destruct (faucet_run _ _ _ _ _ _ HR HX) as [[-> H]|[(j & _ & -> & H & _)|(d & rest & k & j & -> & HY)]]; try discriminate.
  { unfold source_eff in H. destruct (string_dec name "-"); discriminate. }
  exists d, rest. split; [reflexivity|]. destruct (source_frame ps name d rest Hr) as (-> & _ & -> & _).
  exact (gate_reading (PlBytes k j d split_control_new) ps _ _ eq_refl rest _ Hr HY eq_refl).
Qed.

Lemma faucet_end f name ps spy tr n : faucet_ready f name ps -> exec (faucet_start f spy) tr (Done (Ok n)) ->
  exists d rest, tr = (source_eff name, AFd d) :: rest /\
   ((offered_to ps tr = messages_of_reads (reads d tr) /\ In (ERead d, AData []) tr /\ n = length (messages_of_reads (reads d tr))) \/
    (push_brk ps = Finish /\ S n = length (offered_to ps tr) /\ exists m, found_closed ps m tr)).
Proof.
  intros HR HX. pose proof HR as (_ & _ & _ & Hr & _).
  destruct (faucet_run _ _ _ _ _ _ HR HX) as [[-> H]|[(j & _ & -> & H & _)|(d & rest & k & j & -> & HY)]]; try discriminate.
  exists d, rest. split; [reflexivity|]. destruct (source_frame ps name d rest Hr) as (-> & _ & -> & _).
  destruct (gate_end (PlBytes k j d split_control_new) ps _ _ eq_refl rest n Hr HY) as [(H1 & H2 & H3)|(H1 & H2 & m & e & pre & H3 & H4)].
  - left. cbn in *. auto.
  - right. split; [exact H1|]. split; [exact H2|]. exists m, e. split; [exact H3|]. right.
    assert (HI : In (e, m, closed_ans ps) (attempts rest)) by (rewrite H4; apply in_or_app; right; now left).
    unfold attempts in HI. apply in_flat_map in HI. destruct HI as ([e' a'] & HI & HI2).
    destruct e'; try contradiction; [destruct c; try contradiction; destruct v; try contradiction|];
      destruct HI2 as [E|[]]; injection E as E1 E2 E3; rewrite E1, E3 in HI; exact HI.
Qed.

Lemma faucet_released f name ps spy tr r : faucet_ready f name ps -> exec (faucet_start f spy) tr (Done r) ->
  (push_released ps tr /\ (forall d rest, tr = (source_eff name, AFd d) :: rest -> In (EDropFd d, AOk) tr)) \/
  (exists j, r = Err (OpenIOError j) /\ tr = [(source_eff name, AErr)]).
Proof.
  intros HR HX.
  destruct (faucet_run _ _ _ _ _ _ HR HX) as [[-> H]|[(j & _ & -> & H & _)|(d & rest & k & j & -> & HY)]]; try discriminate.
  - right. injection H as ->. eauto.
  - left. destruct (gate_released (PlBytes k j d split_control_new) ps _ _ eq_refl rest r HY) as (H1 & H2 & _). split.
    + destruct ps; cbn in *; auto; right; exact H2.
    + intros d' rest' E. injection E as -> ->. right. exact H1.
Qed.

(** ** Pausing *)
Lemma regulator_turned r pl ps spy tr st : regulator_ready r pl ps -> exec (regulator_start r spy) tr st -> turned (rg_control r) tr.
Proof.
  intros HR HX. rewrite (regulator_gate _ _ _ _ HR) in HX. destruct HR as (_ & _ & _ & Hf & _). exact (gate_turned pl ps _ spy Hf tr st HX).
Qed.
Lemma turned_nil ctl : turned ctl [].
Proof.
  exists [], []. split; [reflexivity|]. split; [|constructor]. exists [], [], []. split; [reflexivity|]. split; [constructor|].
  split; [constructor|]. split; [cbn; lia|auto].
Qed.
Lemma faucet_turned f name ps spy tr st : faucet_ready f name ps -> exec (faucet_start f spy) tr st -> turned (fc_control f) tr.
Proof.
  intros HR HX.
  assert (Hq : forall a, quiet [(source_eff name, a)] /\ attempts [(source_eff name, a)] = []).
  { intro a. unfold source_eff. destruct (string_dec name "-"); (split; [constructor; [exact I|constructor]|reflexivity]). }
  destruct (faucet_run _ _ _ _ _ _ HR HX) as [[-> _]|[(j & _ & -> & _)|(d & rest & k & j & -> & HY)]].
  - apply turned_nil.
  - apply turned_cons; [apply Hq|apply Hq|]. apply turned_nil.
  - apply turned_cons; [apply Hq|apply Hq|]. exact (gate_turned (PlBytes k j d split_control_new) ps _ spy eq_refl _ _ HY).
Qed.

(** ** The statements about whole components *)
Lemma attempt_found ps tr pre d e : write_eff ps d = Some e -> attempts tr = pre ++ [(e, d, closed_ans ps)] -> found_closed ps d tr.
Proof.
  intros H3 H4. exists e. split; [exact H3|].
  assert (HI : In (e, d, closed_ans ps) (attempts tr)) by (rewrite H4; apply in_or_app; right; now left).
  unfold attempts in HI. apply in_flat_map in HI. destruct HI as ([e' a'] & HI & HI2).
  destruct e'; try contradiction; [destruct c; try contradiction; destruct v; try contradiction|];
      destruct HI2 as [E|[]]; injection E as E1 E2 E3; rewrite E1, E3 in HI; exact HI.
Qed.

Lemma regulator_forwards r pl ps spy tr st : regulator_ready r pl ps -> exec (regulator_start r spy) tr st ->
  prefix (offered_to ps tr) (got pl tr) /\
  (is_chan pl -> length (got pl tr) <= S (length (offered_to ps tr))) /\
  (is_chan pl -> (exists n, st = At (ERecv (CData n)) \/ st = At (ETryRecv (CCtl n)) \/ st = At (ERecv (CCtl n))) ->
     offered_to ps tr = got pl tr).
Proof.
  intros HR HX. rewrite (regulator_gate _ _ _ _ HR) in HX. destruct HR as (_ & _ & _ & Hf & Hr).
  destruct (gate_prefix pl ps _ spy Hf tr st Hr HX) as [H1 H2]. split; [exact H1|]. split; [exact H2|].
  intros Hi (n & Hst). destruct Hst as [->|[->| ->]]; eapply (gate_caught_up pl ps _ spy Hf); try eassumption; cbn; auto.
Qed.

Lemma regulator_count r pl ps spy tr n : regulator_ready r pl ps -> exec (regulator_start r spy) tr (Done (Ok n)) ->
  (offered_to ps tr = got pl tr /\ ended pl tr /\ n = length (got pl tr)) \/
  (push_brk ps = Finish /\ S n = length (offered_to ps tr) /\ exists d, found_closed ps d tr).
Proof.
  intros HR HX. rewrite (regulator_gate _ _ _ _ HR) in HX. destruct HR as (_ & _ & _ & Hf & Hr).
  destruct (gate_end pl ps _ spy Hf tr n Hr HX) as [H|(H1 & H2 & d & e & pre & H3 & H4)]; [now left|right].
  split; [exact H1|]. split; [exact H2|]. exists d. eapply attempt_found; eassumption.
Qed.
Lemma regulator_ends r pl ps spy tr n : regulator_ready r pl ps -> exec (regulator_start r spy) tr (Done (Ok n)) ->
  (offered_to ps tr = got pl tr /\ ended pl tr) \/ (push_brk ps = Finish /\ exists d, found_closed ps d tr).
Proof. intros HR HX. destruct (regulator_count _ _ _ _ _ _ HR HX) as [(H1 & H2 & _)|(H1 & _ & H2)]; auto. Qed.
Lemma faucet_ends f name ps spy tr n : faucet_ready f name ps -> exec (faucet_start f spy) tr (Done (Ok n)) ->
  exists d rest, tr = (source_eff name, AFd d) :: rest /\
   ((offered_to ps tr = messages_of_reads (reads d tr) /\ In (ERead d, AData []) tr) \/
    (push_brk ps = Finish /\ exists m, found_closed ps m tr)).
Proof.
  intros HR HX. destruct (faucet_end _ _ _ _ _ _ HR HX) as (d & rest & E & [(H1 & H2 & _)|(H1 & _ & H2)]); exists d, rest; auto.
Qed.
Lemma faucet_forwards f name ps spy tr st : faucet_ready f name ps -> exec (faucet_start f spy) tr st ->
  offered_to ps tr = [] \/
  exists d rest, tr = (source_eff name, AFd d) :: rest /\ prefix (offered_to ps tr) (messages_of_reads (reads d tr)) /\
    (forall fd, st = At (ERead fd) -> length (messages_of_reads (reads d tr)) <= S (length (offered_to ps tr))).
Proof.
  intros HR HX. destruct (faucet_prefix _ _ _ _ _ _ HR HX) as [H|(d & rest & E & H)]; [now left|right].
  exists d, rest. split; [exact E|]. split; [exact H|]. intros fd ->.
  destruct (faucet_caught_up _ _ _ _ _ _ HR HX) as (d' & rest' & E' & H'). rewrite E in E'. injection E' as <- <-. exact H'.
Qed.
Lemma regulator_releases r pl ps spy tr st : regulator_ready r pl ps -> exec (regulator_start r spy) tr st ->
  match st with
  | Done x => pull_released pl tr /\ push_released ps tr /\ (forall c n, rg_control r = Some c -> x = Ok n -> closed_by (CCtl c) tr)
  | Panicked _ => False
  | At _ => True
  end.
Proof.
  intros HR HX. rewrite (regulator_gate _ _ _ _ HR) in HX. destruct HR as (_ & _ & _ & Hf & Hr). destruct st as [e|x|s]; [exact I| |].
  - destruct (gate_released pl ps _ spy Hf tr x HX) as (H1 & H2 & H3). split; [exact H1|]. split; [exact H2|]. eauto.
  - exact (gate_no_panic pl ps _ spy Hf tr s HX).
Qed.
