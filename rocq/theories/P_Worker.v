(** * P_Worker: what one call of the worker does *)
From Coq Require Import Ascii String List Bool Arith Lia.
From Verif Require Import M_Prog P_Prog P_Exec M_Motion S_Trace S_Lines S_Motion P_Split P_Read P_Motion.
Import ListNotations.

Definition mon_ev (m : option nat) (v : val) : trace :=
  match m with Some c => [(ESend (CMon c) v, AOk)] | None => [] end.

Lemma notify_inv m v pl onerr tr st : exec (notify m v pl onerr) tr st ->
  (tr = mon_ev m v /\ st = Done (Ok tt)) \/
  (exists c, m = Some c /\
     ((tr = [] /\ st = At (ESend (CMon c) v)) \/
      (tr = [(ESend (CMon c) v, AClosed)] /\
       ((exists j, pull_journey pl = Some j /\ st = Done (Err (onerr j))) \/
        (exists s, pull_journey pl = None /\ st = Panicked s))))).
Proof.
  unfold notify, mon_ev. intro HX. destruct m as [c|].
  2:{ apply exec_ret_inv in HX; destruct HX as [-> ->]; auto. }
  destruct (exec_bind_inv _ _ _ _ HX) as [(t1 & t2 & x & -> & H1 & H2)|[(e & -> & H1)|(s' & -> & H1)]];
    destruct (send_inv _ _ _ _ H1) as [[? E]|[[? E]|[? E]]]; try discriminate E; inversion E; subst.
  - apply exec_ret_inv in H2; destruct H2 as [-> ->]. auto.
  - right. exists c. split; [reflexivity|]. right. destruct (pull_journey pl) as [j|] eqn:Ej.
    + apply exec_ret_inv in H2; destruct H2 as [-> ->]. eauto 6.
    + apply exec_panic_inv in H2; destruct H2 as [-> ->]. eauto 6.
  - right. exists c. auto.
Qed.

(** What happens once something ([data]) has been read. *)
Inductive after (mon : notifications) (spy : option nat) (pushs : list push) (data : iodw) (pl : pull)
  : trace -> status (mres worker_result * pull * list push) -> Prop :=
| AF_r_at : forall c, mon_read mon = Some c -> after mon spy pushs data pl [] (At (ESend (CMon c) VRead))
| AF_r_err : forall c j pushs', mon_read mon = Some c -> pull_journey pl = Some j -> map erase pushs' = map erase pushs ->
    after mon spy pushs data pl [(ESend (CMon c) VRead, AClosed)] (Done (Err (MonitorReadError (pj_src j)), pl, pushs'))
| AF_r_panic : forall c s, mon_read mon = Some c -> pull_journey pl = None ->
    after mon spy pushs data pl [(ESend (CMon c) VRead, AClosed)] (Panicked s)
| AF_p_at : forall tr e, pushes_run spy data pushs tr (At e) ->
    after mon spy pushs data pl (mon_ev (mon_read mon) VRead ++ tr) (At e)
| AF_p_err : forall tr e pushs', pushes_run spy data pushs tr (Done (Err e)) -> map erase pushs' = map erase pushs ->
    after mon spy pushs data pl (mon_ev (mon_read mon) VRead ++ tr) (Done (Err e, pl, pushs'))
| AF_w_at : forall tr outs c, pushes_run spy data pushs tr (Done (Ok outs)) -> length outs = length pushs ->
    mon_written mon = Some c ->
    after mon spy pushs data pl (mon_ev (mon_read mon) VRead ++ tr) (At (ESend (CMon c) VWrote))
| AF_w_err : forall tr outs c j pushs', pushes_run spy data pushs tr (Done (Ok outs)) -> length outs = length pushs ->
    mon_written mon = Some c -> pull_journey pl = Some j -> map erase pushs' = map erase pushs ->
    after mon spy pushs data pl (mon_ev (mon_read mon) VRead ++ tr ++ [(ESend (CMon c) VWrote, AClosed)])
          (Done (Err (MonitorWriteError j), pl, pushs'))
| AF_w_panic : forall tr outs c s, pushes_run spy data pushs tr (Done (Ok outs)) -> length outs = length pushs ->
    mon_written mon = Some c -> pull_journey pl = None ->
    after mon spy pushs data pl (mon_ev (mon_read mon) VRead ++ tr ++ [(ESend (CMon c) VWrote, AClosed)]) (Panicked s)
| AF_ok : forall tr outs pushs', pushes_run spy data pushs tr (Done (Ok outs)) -> length outs = length pushs ->
    map erase pushs' = map erase pushs ->
    after mon spy pushs data pl (mon_ev (mon_read mon) VRead ++ tr ++ mon_ev (mon_written mon) VWrote)
      (Done (Ok (WR (if length pushs - count_finish pushs outs =? 0 then true else is_finished data) true), pl, pushs')).

Definition after_prog (mon : notifications) (spy : option nat) (pushs : list push) (data : iodw) (pl' : pull) :
  prog (mres worker_result * pull * list push) :=
    nr <- notify (mon_read mon) VRead pl' (fun j => MonitorReadError (pj_src j)) ;;
    match nr with
    | Err e => Ret (Err e, pl', pushs)
    | Ok _ =>
      ' (wr, pushs') <- worker_pushes spy data pushs (length pushs) ;;
      match wr with
      | Err e => Ret (Err e, pl', pushs')
      | Ok unfinished =>
        nw <- notify (mon_written mon) VWrote pl' MonitorWriteError ;;
        match nw with
        | Err e => Ret (Err e, pl', pushs')
        | Ok _ =>
          Ret (Ok (WR (if unfinished =? 0 then true else is_finished data) true), pl', pushs')
        end
      end
    end.

Lemma after_inv mon spy pushs data pl tr st : data <> Skipped ->
  exec (after_prog mon spy pushs data pl) tr st -> after mon spy pushs data pl tr st.
Proof.
  intros Hns HX. unfold after_prog in HX.
  destruct (exec_bind_inv _ _ _ _ HX) as [(t1 & t2 & x & -> & H1 & H2)|[(e & -> & H1)|(s' & -> & H1)]];
    destruct (notify_inv _ _ _ _ _ _ H1) as [(-> & E)|(c & Hc & [(-> & E)|(-> & [(j & Hj & E)|(s & Hj & E)])])];
    try discriminate E; inversion E; subst; clear H1 HX E.
  2:{ apply exec_ret_inv in H2; destruct H2 as [-> ->]. eapply AF_r_err; auto. }
  2:{ now econstructor. }
  2:{ eapply AF_r_panic; eassumption. }
  destruct (exec_bind_inv _ _ _ _ H2) as [(u1 & u2 & y & -> & G1 & G2)|[(e & -> & G1)|(s' & -> & G1)]];
    destruct (worker_pushes_inv _ _ Hns _ _ _ _ G1) as (st' & HR & Hst'); clear G1 H2.
  - destruct st' as [e|[outs|err]|s]; try discriminate Hst'; try contradiction.
    + destruct Hst' as (Hl & ps & E & Hps). inversion E; subst y; clear E.
      destruct (exec_bind_inv _ _ _ _ G2) as [(v1 & v2 & z & -> & K1 & K2)|[(e & -> & K1)|(s' & -> & K1)]];
        destruct (notify_inv _ _ _ _ _ _ K1) as [(-> & E)|(c & Hc & [(-> & E)|(-> & [(j & Hj & E)|(s & Hj & E)])])];
        try discriminate E; inversion E; subst; clear K1 E G2.
      * apply exec_ret_inv in K2; destruct K2 as [-> ->]. rewrite app_nil_r. now apply AF_ok.
      * apply exec_ret_inv in K2; destruct K2 as [-> ->]. rewrite app_nil_r. now apply AF_w_err with (outs := outs).
      * rewrite app_nil_r. now apply AF_w_at with (outs := outs).
      * eapply AF_w_panic; eassumption.
    + destruct Hst' as (ps & E & Hps). inversion E; subst y; clear E.
      apply exec_ret_inv in G2; destruct G2 as [-> ->]. rewrite app_nil_r. now apply AF_p_err.
  - destruct st' as [e'|[outs|err]|s]; try contradiction.
    + inversion Hst'; subst. now apply AF_p_at.
    + destruct Hst' as (Hl & ps & E & Hps). discriminate E.
    + destruct Hst' as (ps & E & Hps). discriminate E.
  - destruct st' as [e'|[outs|err]|s]; try contradiction; try discriminate Hst'.
    + destruct Hst' as (Hl & ps & E & Hps). discriminate E.
    + destruct Hst' as (ps & E & Hps). discriminate E.
Qed.

Lemma worker_inv pl0 h acc pl mon pushs spy t tr st :
  rinv pl0 h acc pl -> try_ok pl0 t -> exec (motion_worker pl mon pushs spy t) tr st ->
  exists tr1 tr2, tr = tr1 ++ tr2 /\ reads_of pl0 t tr1 /\
  ( (tr2 = [] /\ exists e, st = At e /\ read_eff pl0 t = Some e /\ length (got pl0 (h ++ tr1)) <= S (length acc) /\ seen pl0 (h ++ tr1) acc)
    \/ (tr2 = [] /\ exists j pl', st = Done (Err (ReadIOError j), pl', pushs) /\ pull_journey pl0 = Some j /\ seen pl0 (h ++ tr1) acc /\ (exists e', read_eff pl0 t = Some e' /\ In (e', AErr) tr1))
    \/ (tr2 = [] /\ t = true /\ exists pl', st = Done (Ok (WR false false), pl', pushs) /\ rinv pl0 (h ++ tr1) acc pl' /\ (exists e, read_eff pl0 true = Some e /\ tr1 = [(e, AEmpty)]))
    \/ (exists d pl1, rinv pl0 (h ++ tr1) (acc ++ [d]) pl1 /\ after mon spy pushs (IOData d) pl1 tr2 st)
    \/ (exists pl1, rinv pl0 (h ++ tr1) acc pl1 /\ got pl0 (h ++ tr1) = acc /\ ended pl0 tr1 /\ after mon spy pushs Finished pl1 tr2 st)).
Proof.
  intros HI Ht HX. unfold motion_worker in HX.
  destruct (exec_bind_inv _ _ _ _ HX) as [(t1 & t2 & x & -> & H1 & H2)|[(e & -> & H1)|(s' & -> & H1)]];
    destruct (motion_read_step _ _ _ _ _ _ _ HI Ht H1) as [Hr HS]; clear H1 HX.
  - destruct x as [[data|err] pl'].
    + exists t1, t2. split; [reflexivity|]. split; [exact Hr|].
      destruct data as [d| |].
      * right; right; right; left. exists d, pl'. split; [exact HS|]. apply after_inv; [discriminate|exact H2].
      * right; right; right; right. destruct HS as (HS1 & HS2 & HS3). exists pl'. split; [exact HS1|]. split; [exact HS2|].
        split; [exact HS3|].
        apply after_inv; [discriminate|exact H2].
      * right; right; left. apply exec_ret_inv in H2; destruct H2 as [-> ->].
        destruct HS as (HS1 & HS2 & HS3). split; [reflexivity|]. split; [exact HS1|]. exists pl'. auto.
    + exists t1, []. rewrite app_nil_r. apply exec_ret_inv in H2; destruct H2 as [-> ->]. rewrite app_nil_r.
      split; [reflexivity|]. split; [exact Hr|]. right; left. split; [reflexivity|].
      destruct HS as (j & Hj & -> & Hp & HIn). eauto 10.
  - exists tr, []. rewrite app_nil_r. split; [reflexivity|]. split; [exact Hr|]. left. split; [reflexivity|].
    exists e. tauto.
  - contradiction.
Qed.

(** ** Observations *)

(** What is attempted when message [d] meets outcomes [os] at the outputs. *)
Definition attempt (p : push) (d : bytes) (o : wout) : list (eff * bytes * ans) :=
  match write_eff p d with Some e => [(e, d, write_ans p o)] | None => [] end.
Fixpoint round (pushs : list push) (d : bytes) (os : list wout) : list (eff * bytes * ans) :=
  match pushs, os with
  | p :: ps, o :: os' => attempt p d o ++ round ps d os'
  | _, _ => []
  end.

Lemma attempts_write_ev p d o : attempts (write_ev p d o) = attempt p d o.
Proof. destruct p; reflexivity. Qed.

Lemma attempts_spy_ev spy data p : attempts (spy_ev spy data p) = [].
Proof.
  unfold spy_ev, spy_eff. destruct spy; [|reflexivity].
  destruct (push_journey p) as [[src [port|] dst b]|]; reflexivity.
Qed.
Lemma attempts_mon_ev m v : attempts (mon_ev m v) = [].
Proof. destruct m; reflexivity. Qed.

Definition no_fail (d : bytes) (p : push) (o : wout) : Prop := can_out p o /\ push_fail p d o = None.

(** With data: the attempts of a run over the outputs are those of a beginning of the outputs, each
    but perhaps the last without failure. *)
Lemma pushes_attempts spy d pushs tr st : pushes_run spy (IOData d) pushs tr st ->
  exists done rest os, pushs = done ++ rest /\ length os = length done /\ attempts tr = round done d os /\
  match st with
  | Done (Ok outs) => rest = [] /\ os = outs /\ Forall2 (no_fail d) done os
  | At e => Forall2 (no_fail d) done os /\ ((exists p rest', rest = p :: rest' /\ write_eff p d = Some e) \/ (exists s v, e = ESend (CSpy s) v))
  | Done (Err err) =>
      (exists done0 p os0 o, done = done0 ++ [p] /\ os = os0 ++ [o] /\ Forall2 (no_fail d) done0 os0 /\ length os0 = length done0 /\ can_out p o /\ push_fail p d o = Some err /\ exists t0, tr = t0 ++ write_ev p d o)
      \/ (Forall2 (no_fail d) done os /\ exists s dd p m, err = SpyWriteError s dd p m)
  | Panicked _ => False
  end.
Proof.
  induction 1 as [|p rest d' e Hd He|p rest o err Hc Hf|p rest o e Hc Hf Hs|p rest o e Hc Hf Hs|p rest o tr st Hc Hf HR IH].
  - exists [], [], []. repeat split. constructor.
  - inversion Hd; subst. exists [], (p :: rest), []. repeat split; [constructor|]. left. eauto.
  - cbn in *. exists [p], rest, [o]. rewrite attempts_write_ev. cbn. rewrite app_nil_r. repeat split.
    left. exists [], p, [], o. repeat split; try assumption; [constructor|]. now exists [].
  - cbn in *. exists [p], rest, [o]. rewrite attempts_write_ev. cbn. rewrite app_nil_r. repeat split.
    + constructor; [split; assumption|constructor].
    + right. unfold spy_eff in Hs. destruct spy; [|discriminate].
      destruct (push_journey p) as [[src [port|] dst b]|]; inversion Hs; eauto.
  - cbn in *. exists [p], rest, [o]. rewrite attempts_app, attempts_write_ev. cbn.
    assert (He : attempts [(e, AClosed)] = []).
    { unfold spy_eff in Hs. destruct spy; [|discriminate].
      destruct (push_journey p) as [[src [port|] dst b]|]; inversion Hs; reflexivity. }
    cbn in He. rewrite He, !app_nil_r. repeat split.
    right. split; [constructor; [split; assumption|constructor]|].
    unfold spy_eff in Hs. unfold spy_err. destruct spy; [|discriminate].
    destruct (push_journey p) as [[src [port|] dst b]|]; inversion Hs; eauto.
  - cbn in Hc, Hf. destruct IH as (done & rest' & os & -> & Hl & Ha & IH).
    exists (p :: done), rest', (o :: os). split; [reflexivity|]. split; [cbn; congruence|]. split.
    + cbn [data_ev round]. rewrite !attempts_app, attempts_write_ev, attempts_spy_ev, Ha. reflexivity.
    + destruct st as [e|[outs|err]|s]; cbn [cons_out].
      * destruct IH as (IH1 & IH2). split; [constructor; [split; assumption|exact IH1]|exact IH2].
      * destruct IH as (-> & -> & IH). repeat split. constructor; [split; assumption|exact IH].
      * destruct IH as [(d0 & p0 & os0 & o0 & -> & -> & IH1 & IH2 & IH3)|(IH1 & IH2)].
        -- left. exists (p :: d0), p0, (o :: os0), o0. split; [reflexivity|]. split; [reflexivity|].
           split; [constructor; [split; assumption|exact IH1]|]. split; [cbn; congruence|].
           destruct IH3 as (IH3 & IH4 & t0 & ->). split; [exact IH3|]. split; [exact IH4|].
           exists (data_ev p (IOData d) o ++ spy_ev spy (IOData d) p ++ t0). now rewrite <- !app_assoc.
        -- right. split; [constructor; [split; assumption|exact IH1]|exact IH2].
      * exact IH.
Qed.

(** Without data nothing is attempted. *)
Lemma pushes_finished spy pushs tr st : pushes_run spy Finished pushs tr st ->
  attempts tr = [] /\
  match st with
  | Done (Ok outs) => count_finish pushs outs = 0
  | At e => exists s v, e = ESend (CSpy s) v
  | Done (Err err) => exists s dd p m, err = SpyWriteError s dd p m
  | Panicked _ => False
  end.
Proof.
  induction 1 as [|p rest d' e Hd He|p rest o err Hc Hf|p rest o e Hc Hf Hs|p rest o e Hc Hf Hs|p rest o tr st Hc Hf HR IH].
  - split; reflexivity.
  - discriminate.
  - discriminate Hf.
  - split; [reflexivity|]. unfold spy_eff in Hs. destruct spy; [|discriminate].
    destruct (push_journey p) as [[src [port|] dst b]|]; inversion Hs; eauto.
  - unfold spy_eff in Hs. unfold spy_err. destruct spy; [|discriminate].
    destruct (push_journey p) as [[src [port|] dst b]|]; inversion Hs; split; [reflexivity|eauto].
  - cbn in Hc. subst o. destruct IH as [IH1 IH2]. cbn [data_ev]. split.
    + rewrite !attempts_app, attempts_spy_ev, IH1. reflexivity.
    + destruct st as [e|[outs|err]|s]; cbn; auto.
Qed.

(** Events of the worker after its read are writes of data, monitor or spy messages. *)
Definition is_output (ev : event) : Prop :=
  match fst ev with
  | ESend (CData _) (VData _) | ESend (CMon _) _ | ESend (CSpy _) _ | EWrite _ _ => True
  | _ => False
  end.

Lemma write_ev_output p d o : Forall is_output (write_ev p d o).
Proof. destruct p; cbn; repeat constructor. Qed.
Lemma spy_ev_output spy data p : Forall is_output (spy_ev spy data p).
Proof.
  unfold spy_ev, spy_eff. destruct spy; [|constructor].
  destruct (push_journey p) as [[src [port|] dst b]|]; repeat constructor.
Qed.
Lemma mon_ev_output m v : Forall is_output (mon_ev m v).
Proof. destruct m; repeat constructor. Qed.

Lemma pushes_output spy data pushs tr st : pushes_run spy data pushs tr st -> Forall is_output tr.
Proof.
  induction 1 as [|p rest d' e Hd He|p rest o err Hc Hf|p rest o e Hc Hf Hs|p rest o e Hc Hf Hs|p rest o tr st Hc Hf HR IH];
    try constructor.
  - unfold data_ev. destruct data; try constructor. apply write_ev_output.
  - unfold data_ev. destruct data; try constructor. apply write_ev_output.
  - apply Forall_app. split.
    + unfold data_ev. destruct data; try constructor. apply write_ev_output.
    + unfold spy_eff in Hs. destruct spy; [|discriminate].
      destruct (push_journey p) as [[src [port|] dst b]|]; inversion Hs; repeat constructor.
  - rewrite !Forall_app. repeat split; [|apply spy_ev_output|exact IH].
    unfold data_ev. destruct data; try constructor. apply write_ev_output.
Qed.

Lemma after_output mon spy pushs data pl tr st : after mon spy pushs data pl tr st -> Forall is_output tr.
Proof.
  destruct 1; try (repeat constructor; fail); repeat (rewrite Forall_app; split); try apply mon_ev_output;
    try (eapply pushes_output; eassumption); repeat constructor.
Qed.

Lemma output_no_reads tr : Forall is_output tr -> no_reads tr.
Proof.
  apply Forall_impl. intros [e a]. unfold is_output. cbn. destruct e; try contradiction; reflexivity.
Qed.

Lemma reads_of_attempts pl t tr : reads_of pl t tr -> attempts tr = [].
Proof.
  induction 1 as [|[e a] tr H HF IH]; [reflexivity|].
  change ((e, a) :: tr) with ([(e, a)] ++ tr). rewrite attempts_app, IH, app_nil_r. cbn in H.
  destruct pl; cbn in H; try discriminate; inversion H; subst; try reflexivity. destruct t; reflexivity.
Qed.

(** ** Test doubles: only their recording changes *)
Lemma erase_write_eff p d : write_eff (erase p) d = write_eff p d.
Proof. destruct p; reflexivity. Qed.
Lemma erase_journey' p : push_journey (erase p) = push_journey p.
Proof. destruct p; reflexivity. Qed.
Lemma erase_can_out p o : can_out (erase p) o <-> can_out p o.
Proof. destruct p; reflexivity. Qed.
Lemma erase_push_fail p d o : push_fail (erase p) d o = push_fail p d o.
Proof. destruct p; reflexivity. Qed.
Lemma erase_closed_finish p o : closed_finish (erase p) o = closed_finish p o.
Proof. destruct p, o; reflexivity. Qed.
Lemma erase_write_ev p d o : write_ev (erase p) d o = write_ev p d o.
Proof. destruct p; reflexivity. Qed.
Lemma erase_attempt p d o : attempt (erase p) d o = attempt p d o.
Proof. destruct p; reflexivity. Qed.
Lemma erase_spy_eff spy data p : spy_eff spy data (erase p) = spy_eff spy data p.
Proof. unfold spy_eff. now rewrite erase_journey'. Qed.
Lemma erase_spy_err data p : spy_err data (erase p) = spy_err data p.
Proof. unfold spy_err. now rewrite erase_journey'. Qed.

Lemma erase_count_finish pushs outs : count_finish (map erase pushs) outs = count_finish pushs outs.
Proof. revert outs; induction pushs as [|p ps IH]; intros [|o os]; cbn; auto. now rewrite IH, erase_closed_finish. Qed.

Lemma pushes_erase spy data pushs tr st : pushes_run spy data pushs tr st -> pushes_run spy data (map erase pushs) tr st.
Proof.
  induction 1 as [|p rest d' e Hd He|p rest o err Hc Hf|p rest o e Hc Hf Hs|p rest o e Hc Hf Hs|p rest o tr st Hc Hf HR IH]; cbn [map].
  - constructor.
  - econstructor; [eassumption|now rewrite erase_write_eff].
  - replace (data_ev p data o) with (data_ev (erase p) data o) by (destruct data; cbn; auto using erase_write_ev).
    apply PR_fail.
    + destruct data; cbn in *; auto. now apply erase_can_out.
    + destruct data; cbn in *; auto. now rewrite erase_push_fail.
  - replace (data_ev p data o) with (data_ev (erase p) data o) by (destruct data; cbn; auto using erase_write_ev).
    apply PR_at_spy.
    + destruct data; cbn in *; auto. now apply erase_can_out.
    + destruct data; cbn in *; auto. now rewrite erase_push_fail.
    + now rewrite erase_spy_eff.
  - replace (data_ev p data o) with (data_ev (erase p) data o) by (destruct data; cbn; auto using erase_write_ev).
    rewrite <- erase_spy_err. apply PR_spy_fail.
    + destruct data; cbn in *; auto. now apply erase_can_out.
    + destruct data; cbn in *; auto. now rewrite erase_push_fail.
    + now rewrite erase_spy_eff.
  - replace (data_ev p data o) with (data_ev (erase p) data o) by (destruct data; cbn; auto using erase_write_ev).
    replace (spy_ev spy data p) with (spy_ev spy data (erase p)) by (unfold spy_ev; now rewrite erase_spy_eff).
    apply PR_cons; auto.
    + destruct data; cbn in *; auto. now apply erase_can_out.
    + destruct data; cbn in *; auto. now rewrite erase_push_fail.
Qed.

Lemma pushes_unerase spy data : forall pushs tr st, pushes_run spy data (map erase pushs) tr st -> pushes_run spy data pushs tr st.
Proof.
  intros pushs tr st H. remember (map erase pushs) as ps eqn:E. revert pushs E.
  induction H as [|p rest d' e Hd He|p rest o err Hc Hf|p rest o e Hc Hf Hs|p rest o e Hc Hf Hs|p rest o tr st Hc Hf HR IH];
    intros pushs E; destruct pushs as [|q qs]; cbn in E; try discriminate; try (inversion E; subst).
  - constructor.
  - econstructor; [reflexivity|now rewrite <- erase_write_eff].
  - replace (data_ev (erase q) data o) with (data_ev q data o) by (destruct data; cbn; auto using eq_sym, erase_write_ev).
    apply PR_fail.
    + destruct data; cbn in *; auto. now apply erase_can_out.
    + destruct data; cbn in *; auto. now rewrite <- erase_push_fail.
  - replace (data_ev (erase q) data o) with (data_ev q data o) by (destruct data; cbn; auto using eq_sym, erase_write_ev).
    apply PR_at_spy.
    + destruct data; cbn in *; auto. now apply erase_can_out.
    + destruct data; cbn in *; auto. now rewrite <- erase_push_fail.
    + now rewrite <- erase_spy_eff.
  - replace (data_ev (erase q) data o) with (data_ev q data o) by (destruct data; cbn; auto using eq_sym, erase_write_ev).
    rewrite erase_spy_err. apply PR_spy_fail.
    + destruct data; cbn in *; auto. now apply erase_can_out.
    + destruct data; cbn in *; auto. now rewrite <- erase_push_fail.
    + now rewrite <- erase_spy_eff.
  - replace (data_ev (erase q) data o) with (data_ev q data o) by (destruct data; cbn; auto using eq_sym, erase_write_ev).
    replace (spy_ev spy data (erase q)) with (spy_ev spy data q) by (unfold spy_ev; now rewrite erase_spy_eff).
    apply PR_cons; auto.
    + destruct data; cbn in *; auto. now apply erase_can_out.
    + destruct data; cbn in *; auto. now rewrite <- erase_push_fail.
Qed.

Lemma pushes_congr spy data pushs pushs' tr st : map erase pushs = map erase pushs' ->
  pushes_run spy data pushs tr st -> pushes_run spy data pushs' tr st.
Proof. intros E H. apply pushes_unerase. rewrite <- E. now apply pushes_erase. Qed.

Lemma count_finish_congr pushs pushs' outs : map erase pushs = map erase pushs' -> count_finish pushs outs = count_finish pushs' outs.
Proof. intros E. now rewrite <- (erase_count_finish pushs), E, erase_count_finish. Qed.

Lemma erase_length pushs pushs' : map erase pushs = map erase pushs' -> length pushs = length pushs'.
Proof. intro E. rewrite <- (map_length erase pushs), E. apply map_length. Qed.

Lemma after_congr mon spy pushs pushs0 data pl tr st : map erase pushs = map erase pushs0 ->
  after mon spy pushs data pl tr st -> after mon spy pushs0 data pl tr st.
Proof.
  intros E H. pose proof (erase_length _ _ E) as EL. destruct H.
  - now econstructor.
  - econstructor; eauto. congruence.
  - eapply AF_r_panic; eauto.
  - apply AF_p_at. eapply pushes_congr; eauto.
  - apply AF_p_err; [eapply pushes_congr; eauto|congruence].
  - eapply AF_w_at; [eapply pushes_congr; eauto|congruence|assumption].
  - eapply AF_w_err; [eapply pushes_congr; eauto|congruence|assumption|assumption|congruence].
  - eapply AF_w_panic; [eapply pushes_congr; eauto|congruence|assumption|assumption].
  - rewrite (count_finish_congr _ _ outs E), EL. apply AF_ok; [eapply pushes_congr; eauto|congruence|congruence].
Qed.
