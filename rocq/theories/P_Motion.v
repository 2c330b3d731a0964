(** * P_Motion: what the worker and the copy loop do, for any environment *)
From Coq Require Import Ascii String List Bool Arith Lia.
From Verif Require Import M_Prog P_Prog P_Exec M_Motion S_Trace S_Motion.
Import ListNotations.

(** A push up to the contents of a test double. *)
Definition erase (p : push) : push := match p with PsMock j _ => PsMock j [] | _ => p end.

(** ** One write *)
Definition write_res (p : push) (d : bytes) (o : wout) : mres unit :=
  match push_journey p, o with
  | _, OAcc => Ok tt
  | Some j, OClosed => Err (OutputClosed j (match p with PsBytes _ _ _ => BrokenPipe | _ => ChannelClosed end) d)
  | Some j, OFail => Err (WriteIOError j d)
  | None, _ => Ok tt
  end.

Lemma motion_write_inv p d tr st : exec (motion_write p d) tr st ->
  (exists e, write_eff p d = Some e /\ tr = [] /\ st = At e) \/
  (exists o p', can_out p o /\ tr = write_ev p d o /\ st = Done (write_res p d o, p') /\ erase p' = erase p).
Proof.
  destruct p as [j q|k j f|j n|j n|]; cbn; intro HX.
  - apply exec_ret_inv in HX; destruct HX as [-> ->]. right. exists OAcc. eexists. repeat split.
  - destruct (exec_bind_inv _ _ _ _ HX) as [(t1 & t2 & x & -> & H1 & H2)|[(e & -> & H1)|(s & -> & H1)]];
      destruct (write_all_inv _ _ _ _ H1) as [[? E]|[[? E]|[[? E]|[? E]]]]; try discriminate E.
    + inversion E; subst. apply exec_ret_inv in H2; destruct H2 as [-> ->]. right. exists OAcc. eexists. repeat split.
    + inversion E; subst. apply exec_ret_inv in H2; destruct H2 as [-> ->]. right. exists OClosed. eexists. repeat split.
    + inversion E; subst. apply exec_ret_inv in H2; destruct H2 as [-> ->]. right. exists OFail. eexists. repeat split.
    + inversion E; subst. left. eauto.
  - destruct (exec_bind_inv _ _ _ _ HX) as [(t1 & t2 & x & -> & H1 & H2)|[(e & -> & H1)|(s & -> & H1)]];
      destruct (send_inv _ _ _ _ H1) as [[? E]|[[? E]|[? E]]]; try discriminate E.
    + inversion E; subst. apply exec_ret_inv in H2; destruct H2 as [-> ->]. right. exists OAcc. eexists. repeat split. discriminate.
    + inversion E; subst. apply exec_ret_inv in H2; destruct H2 as [-> ->]. right. exists OClosed. eexists. repeat split. discriminate.
    + inversion E; subst. left. eauto.
  - destruct (exec_bind_inv _ _ _ _ HX) as [(t1 & t2 & x & -> & H1 & H2)|[(e & -> & H1)|(s & -> & H1)]];
      destruct (send_inv _ _ _ _ H1) as [[? E]|[[? E]|[? E]]]; try discriminate E.
    + inversion E; subst. apply exec_ret_inv in H2; destruct H2 as [-> ->]. right. exists OAcc. eexists. repeat split. discriminate.
    + inversion E; subst. apply exec_ret_inv in H2; destruct H2 as [-> ->]. right. exists OClosed. eexists. repeat split. discriminate.
    + inversion E; subst. left. eauto.
  - apply exec_ret_inv in HX; destruct HX as [-> ->]. right. exists OAcc. eexists. repeat split.
Qed.

(** ** All pushes *)
Definition data_ev (p : push) (data : iodw) (o : wout) : trace :=
  match data with IOData d => write_ev p d o | _ => [] end.
Definition data_can (p : push) (data : iodw) (o : wout) : Prop :=
  match data with IOData _ => can_out p o | _ => o = OAcc end.
Definition data_fail (p : push) (data : iodw) (o : wout) : option merror :=
  match data with IOData d => push_fail p d o | _ => None end.

Definition spy_eff (spy : option nat) (data : iodw) (p : push) : option eff :=
  match spy, push_journey p with
  | Some s, Some (J src (Some port) dst _) => Some (ESend (CSpy s) (VSpy src dst port data))
  | _, _ => None
  end.
Definition spy_err (data : iodw) (p : push) : merror :=
  match push_journey p with
  | Some (J src (Some port) dst _) => SpyWriteError src dst port data
  | _ => NoneError
  end.
Definition spy_ev (spy : option nat) (data : iodw) (p : push) : trace :=
  match spy_eff spy data p with Some e => [(e, AOk)] | None => [] end.

Definition cons_out (o : wout) (st : status (mres (list wout))) : status (mres (list wout)) :=
  match st with Done (Ok l) => Done (Ok (o :: l)) | st => st end.

Inductive pushes_run (spy : option nat) (data : iodw) : list push -> trace -> status (mres (list wout)) -> Prop :=
| PR_nil : pushes_run spy data [] [] (Done (Ok []))
| PR_at_write : forall p rest d e,
    data = IOData d -> write_eff p d = Some e -> pushes_run spy data (p :: rest) [] (At e)
| PR_fail : forall p rest o err,
    data_can p data o -> data_fail p data o = Some err ->
    pushes_run spy data (p :: rest) (data_ev p data o) (Done (Err err))
| PR_at_spy : forall p rest o e,
    data_can p data o -> data_fail p data o = None -> spy_eff spy data p = Some e ->
    pushes_run spy data (p :: rest) (data_ev p data o) (At e)
| PR_spy_fail : forall p rest o e,
    data_can p data o -> data_fail p data o = None -> spy_eff spy data p = Some e ->
    pushes_run spy data (p :: rest) (data_ev p data o ++ [(e, AClosed)]) (Done (Err (spy_err data p)))
| PR_cons : forall p rest o tr st,
    data_can p data o -> data_fail p data o = None ->
    pushes_run spy data rest tr st ->
    pushes_run spy data (p :: rest) (data_ev p data o ++ spy_ev spy data p ++ tr) (cons_out o st).

Definition closed_finish (p : push) (o : wout) : bool :=
  match o with OClosed => brk_eqb (push_brk p) Finish | _ => false end.

Fixpoint count_finish (pushs : list push) (outs : list wout) : nat :=
  match pushs, outs with
  | p :: ps, o :: os => (if closed_finish p o then 1 else 0) + count_finish ps os
  | _, _ => 0
  end.

Lemma push_brk_journey p j : push_journey p = Some j -> push_brk p = j_brk j.
Proof. unfold push_brk. now intros ->. Qed.

Lemma worker_write_inv data p tr st : data <> Skipped -> exec (worker_write data p) tr st ->
  (exists d e, data = IOData d /\ write_eff p d = Some e /\ tr = [] /\ st = At e) \/
  (exists o p', data_can p data o /\ tr = data_ev p data o /\ erase p' = erase p /\
     st = Done (match data_fail p data o with Some e => Err e | None => Ok (closed_finish p o) end, p')).
Proof.
  intros Hns HX. destruct data as [d| |]; [|right; exists OAcc, p|congruence].
  2:{ destruct (push_brk p) eqn:?; unfold worker_write in HX; rewrite Heqb in HX;
      apply exec_ret_inv in HX; destruct HX as [-> ->]; repeat split. }
  unfold worker_write in HX.
  assert (HX' : exec (bind (motion_write p d) (fun x => match x with (r, p') =>
      Ret (match push_brk p with
           | Terminate => match r with Ok _ => Ok false | Err e => Err e end
           | b => match r with Err (OutputClosed _ _ _) => Ok (brk_eqb b Finish) | Ok _ => Ok false | Err e => Err e end
           end, p') end)) tr st) by (destruct (push_brk p); exact HX).
  clear HX; rename HX' into HX.
  destruct (exec_bind_inv _ _ _ _ HX) as [(t1 & t2 & x & -> & H1 & H2)|[(e & -> & H1)|(s & -> & H1)]];
    destruct (motion_write_inv _ _ _ _ H1) as [(e' & He & Ht & E)|(o & p' & Hc & Ht & E & Her)]; try discriminate E.
  - inversion E; subst. apply exec_ret_inv in H2; destruct H2 as [-> ->].
    right. exists o, p'. cbn. rewrite app_nil_r. repeat split; auto.
    f_equal. f_equal. unfold closed_finish, push_fail, write_res, push_brk.
    destruct (push_journey p) as [[s0 po d0 b]|] eqn:Ej.
    + cbn. destruct o, b; reflexivity.
    + destruct p; cbn in Ej; try discriminate. cbn in Hc. subst o. reflexivity.
  - inversion E; subst. left. eauto 6.
Qed.

Lemma worker_spy_inv spy data p tr st : exec (worker_spy spy data p) tr st ->
  (tr = spy_ev spy data p /\ st = Done (Ok tt)) \/
  (exists e, spy_eff spy data p = Some e /\
     ((tr = [] /\ st = At e) \/ (tr = [(e, AClosed)] /\ st = Done (Err (spy_err data p))))).
Proof.
  unfold worker_spy, spy_ev, spy_eff, spy_err. intro HX.
  destruct spy as [s|]; [|apply exec_ret_inv in HX; destruct HX as [-> ->]; auto].
  destruct (push_journey p) as [[src [port|] dst b]|];
    try (apply exec_ret_inv in HX; destruct HX as [-> ->]; auto; fail).
  destruct (exec_bind_inv _ _ _ _ HX) as [(t1 & t2 & x & -> & H1 & H2)|[(e & -> & H1)|(s' & -> & H1)]];
    destruct (send_inv _ _ _ _ H1) as [[? E]|[[? E]|[? E]]]; try discriminate E; inversion E; subst;
    try (apply exec_ret_inv in H2; destruct H2 as [-> ->]); eauto 10.
Qed.

Lemma erase_journey p p' : erase p' = erase p -> push_journey p' = push_journey p.
Proof. destruct p, p'; cbn; intro H; inversion H; reflexivity. Qed.

Lemma spy_eff_erase spy data p p' : erase p' = erase p -> spy_eff spy data p' = spy_eff spy data p.
Proof. intro H. unfold spy_eff. now rewrite (erase_journey _ _ H). Qed.
Lemma spy_err_erase data p p' : erase p' = erase p -> spy_err data p' = spy_err data p.
Proof. intro H. unfold spy_err. now rewrite (erase_journey _ _ H). Qed.

Lemma worker_pushes_inv spy data : data <> Skipped -> forall pushs n tr st,
  exec (worker_pushes spy data pushs n) tr st ->
  exists st', pushes_run spy data pushs tr st' /\
    match st' with
    | At e => st = At e
    | Done (Err e) => exists pushs', st = Done (Err e, pushs') /\ map erase pushs' = map erase pushs
    | Done (Ok outs) => length outs = length pushs /\
        exists pushs', st = Done (Ok (n - count_finish pushs outs), pushs') /\ map erase pushs' = map erase pushs
    | Panicked _ => False
    end.
Proof.
  intros Hns. induction pushs as [|p rest IH]; intros n tr st HX; cbn [worker_pushes] in HX.
  - apply exec_ret_inv in HX; destruct HX as [-> ->].
    exists (Done (Ok [])). split; [constructor|]. split; [reflexivity|]. exists []. cbn. rewrite Nat.sub_0_r. auto.
  - destruct (exec_bind_inv _ _ _ _ HX) as [(t1 & t2 & x & -> & H1 & H2)|[(e & -> & H1)|(s & -> & H1)]];
      destruct (worker_write_inv _ _ _ _ Hns H1) as [(d & e' & Hd & He & Ht & E)|(o & p' & Hc & Ht & Her & E)];
      try discriminate E; inversion E; subst.
    + destruct (data_fail p data o) as [err|] eqn:Ef.
      * apply exec_ret_inv in H2; destruct H2 as [-> ->]. exists (Done (Err err)). rewrite app_nil_r.
        split; [eapply PR_fail; eassumption|]. exists (p' :: rest). split; [reflexivity|]. cbn. now rewrite Her.
      * destruct (exec_bind_inv _ _ _ _ H2) as [(u1 & u2 & y & -> & G1 & G2)|[(e & -> & G1)|(s & -> & G1)]];
          destruct (worker_spy_inv _ _ _ _ _ G1) as [(-> & E2)|(e2 & Hs & [[-> E2]|[-> E2]])];
          try discriminate E2; inversion E2; subst;
          try rewrite (spy_eff_erase _ _ _ _ Her) in Hs.
        -- replace (spy_ev spy data p') with (spy_ev spy data p) by (unfold spy_ev; now rewrite (spy_eff_erase _ _ _ _ Her)).
           destruct (exec_bind_inv _ _ _ _ G2) as [(v1 & v2 & z & -> & K1 & K2)|[(e & -> & K1)|(s & -> & K1)]];
             destruct (IH _ _ _ K1) as (st' & HR & Hst').
           ++ destruct z as [r' rest']. apply exec_ret_inv in K2; destruct K2 as [-> ->].
              exists (cons_out o st'). split.
              ** rewrite app_nil_r. apply PR_cons; assumption.
              ** destruct st' as [e|[outs|err]|s]; cbn.
                 --- discriminate Hst'.
                 --- destruct Hst' as (Hl & ps & E3 & Hps). inversion E3; subst.
                     split; [now rewrite Hl|]. exists (p' :: ps). cbn. rewrite Her, Hps. split; [|reflexivity].
                     f_equal. f_equal. destruct (closed_finish p o); cbn; f_equal; lia.
                 --- destruct Hst' as (ps & E3 & Hps). inversion E3; subst. exists (p' :: ps). cbn. now rewrite Her, Hps.
                 --- exact Hst'.
           ++ exists (cons_out o st'). split.
              ** apply PR_cons; assumption.
              ** destruct st' as [e3|[outs|err]|s3]; cbn.
                 --- inversion Hst'; reflexivity.
                 --- destruct Hst' as (Hl & ps & E3 & Hps). discriminate E3.
                 --- destruct Hst' as (ps & E3 & Hps). discriminate E3.
                 --- exact Hst'.
           ++ exfalso. destruct st' as [e3|[outs|err]|s3]; try discriminate Hst'.
              ** destruct Hst' as (Hl & ps & E3 & Hps). discriminate E3.
              ** destruct Hst' as (ps & E3 & Hps). discriminate E3.
              ** exact Hst'.
        -- (* spy failed *)
           apply exec_ret_inv in G2; destruct G2 as [-> ->]. rewrite (spy_err_erase _ _ _ Her).
           exists (Done (Err (spy_err data p))). rewrite app_nil_r.
           split; [eapply PR_spy_fail; eassumption|]. exists (p' :: rest). split; [reflexivity|]. cbn. now rewrite Her.
        -- (* about to spy *)
           exists (At e2). split; [|reflexivity]. rewrite app_nil_r. eapply PR_at_spy; eassumption.
    + exists (At e'). split; [|reflexivity]. eapply PR_at_write; [reflexivity|eassumption].
Qed.
