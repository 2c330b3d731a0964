(** * P_SpyEnd: what a spy has been told once all parts of a buffer or program are done, and of the exit status *)
From Coq Require Import Ascii String List Bool Arith ZArith.
From Verif Require Import M_Prog M_Motion M_Connectable M_Join M_Buffer M_Launch S_Motion S_World S_Launch S_Spy P_Prog P_Exec P_Motion P_World P_Launch P_Spy.
Import ListNotations.

Theorem spy_buffer_after b s u mi mo l st p : followed p -> bf_stdout b = Some p -> buffer_start b (Some s) u mi mo l (After st) ->
  told (talk p s (own 2 l)) /\ forall n, st = Done (Ok n) -> told_all (talk p s (own 2 l)).
Proof.
  intros HF E HX. inversion HX as [| | | |l0 l' l1 x a o c st' I0 I1 I2 HE _ HO _ HP]; subst.
  rewrite !own_app, (I0 2), (I2 2), app_nil_r by (cbn; auto). cbn [app].
  unfold buffer_ends in HE. rewrite E in HE. destruct (bf_stdin b) as [pl|]; [|inversion HE].
  pose proof HF as HF0. destruct HF as (HR & src & port & dst & b' & Hj). rewrite Hj in HE. apply exec_ret_inv in HE. destruct HE as [_ HE]. injection HE as E2. subst x.
  assert (K : told_in p s (own 2 l') (Done o)) by (eapply spy_motion; [exact HF0|exact HO]). cbn in K. split; [destruct o; [now apply told_all_told|exact K]|].
  intros n ->. apply exec_ret_inv in HP. destruct HP as [_ HP]. unfold buffer_result in HP. destruct a; [|discriminate HP]. destruct o; [exact K|discriminate HP].
Qed.

(** ** The status *)
Section Status.
Variables (j : journey) (n s : nat) (port : oport).
Hypothesis HP : j_port j = Some port.
Let p := PsSender j n.
Lemma talk_more h t x y : talk p s h = x -> talk p s t = y -> talk p s (h ++ t) = x ++ y.
Proof. intros <- <-. apply talk_app. Qed.

Lemma names_it : names p (j_src j) (j_dst j) port = true.
Proof. unfold names, p. cbn. destruct j as [a q z k]. cbn in *. subst q. rewrite !Nat.eqb_refl, oport_eqb_refl. reflexivity. Qed.
Definition status_now (h : trace) (_ : eff) : Prop := talk p s h = [] \/ exists m, talk p s h = [inl m] \/ talk p s h = [inl m; inr (IOData m)].
Definition status_end (h : trace) (r : mres unit) : Prop :=
  match r with
  | Ok _ => exists code m, exit_text code m /\ talk p s h = [inl m; inr (IOData m)]
  | Err _ => exists m, talk p s h = [inl m]
  end.
Lemma status_told : sat [] (iter (exit_body (Some s) j n) tt) status_now status_end.
Proof.
  apply sat_iter with (Inv := fun h _ => talk p s h = []); [|reflexivity]. intros h [] Hh. unfold exit_body. apply sat_vis; [now left|]. intros a Hw.
  assert (H1 : talk p s (h ++ [(EStatus, a)]) = []) by (refine (talk_more _ [_] _ [] Hh _); reflexivity).
  destruct (exit_message a) as [m|] eqn:Em.
  - apply sat_bind. intros tr st HX. apply exec_vis_inv in HX. destruct HX as [[-> ->]|(a1 & tr' & -> & Hw1 & HX)]; [left; now rewrite app_nil_r|].
    assert (H2 : talk p s ((h ++ [(EStatus, a)]) ++ [(ESend (CData n) (VData m), a1)]) = [inl m]) by (refine (talk_more _ [_] [] _ H1 _); cbn; rewrite Nat.eqb_refl; reflexivity).
    destruct a1; try discriminate Hw1; apply exec_ret_inv in HX; destruct HX as [-> ->]; cbn [negb]; rewrite ?HP.
    + apply sat_ret. exists m. exact H2.
    + apply sat_bind. intros tr st HX. apply exec_vis_inv in HX. destruct HX as [[-> ->]|(a2 & tr' & -> & Hw2 & HX)]; [right; exists m; left; now rewrite app_nil_r|].
      destruct a2; try discriminate Hw2; apply exec_ret_inv in HX; destruct HX as [-> ->]; cbn [negb].
      * apply sat_ret. exists m. refine (talk_more _ [_] _ [] H2 _); reflexivity.
      * assert (H3 : talk p s (((h ++ [(EStatus, a)]) ++ [(ESend (CData n) (VData m), AOk)]) ++ [(ESend (CSpy s) (VSpy (j_src j) (j_dst j) port (IOData m)), AOk)]) = [inl m; inr (IOData m)])
          by (refine (talk_more _ [_] [_] [_] H2 _); cbn [talk flat_map word_of]; rewrite Nat.eqb_refl, names_it; reflexivity).
        apply sat_bind. intros tr st HX. destruct (close_inv _ _ _ HX) as [[-> ->]|[-> ->]]; [right; exists m; right; now rewrite app_nil_r|].
        apply sat_ret. destruct a; try discriminate Em. exists code, m. split; [now apply exit_text_ok|]. refine (talk_more _ [_] _ [] H3 _); reflexivity.
  - apply sat_bind. intros tr st HX. apply exec_vis_inv in HX. destruct HX as [[-> ->]|(a1 & tr' & -> & Hw1 & HX)]; [left; now rewrite app_nil_r|].
    destruct a1; try discriminate Hw1. apply exec_ret_inv in HX. destruct HX as [-> ->]. apply sat_ret. refine (talk_more _ [_] [] [] H1 _); reflexivity.
Qed.
End Status.

Theorem spy_launch_after cwd vars la s l st : launch_start cwd vars la (Some s) l (After st) ->
  (forall p, followed p -> la_stdout la = Some p -> told (talk p s (own 2 l)) /\ forall n, st = Done (Ok n) -> told_all (talk p s (own 2 l))) /\
  (forall p, followed p -> la_stderr la = Some p -> told (talk p s (own 3 l)) /\ forall n, st = Done (Ok n) -> told_all (talk p s (own 3 l))) /\
  (forall j n port, la_exit_status la = Some (j, n) -> j_port j = Some port -> told (talk (PsSender j n) s (own 0 l)) /\
     forall k, st = Done (Ok k) -> exists code m, exit_text code m /\ talk (PsSender j n) s (own 0 l) = [inl m; inr (IOData m)]).
Proof.
  intros HX. inversion HX as [| | | |l0 l' l1 x a o c st' I0 I1 I2 HE _ HO HC HP]; subst.
  rewrite !own_app, (I0 2), (I0 3), (I2 2), (I2 3), (I1 0), !app_nil_r by (cbn; auto). cbn [app].
  unfold launch_spawn in HE. destruct (la_launched la); [inversion HE|].
  inversion HE as [| | | |? ? an ? ? Hw HE']; subst. destruct an; try discriminate Hw; [inversion HE'|].
  apply exec_ret_inv in HE'. destruct HE' as [E1 HE']. injection HE' as E2. subst x. unfold relay in HO, HC. cbn in HO, HC.
  assert (R : forall k, st = Done (Ok k) -> exists u v w, a = Ok u /\ o = Ok v /\ c = Ok w).
  { intros k ->. unfold launch_finish in HP. assert (Q : launch_result a o c = Ok k).
    { destruct (la_exit_status la) as [[j n]|]; [|apply exec_ret_inv in HP; destruct HP as [_ HP]; congruence].
      apply exec_bind_inv in HP. destruct HP as [(t1 & t2 & y & _ & _ & K)|[(e & E & _)|(e & E & _)]]; try discriminate E.
      destruct y; apply exec_ret_inv in K; destruct K as [_ K]; congruence. }
    destruct a, o, c; try discriminate Q; eauto 6. }
  assert (T : forall p tr r, told_in p s tr (Done r) -> told (talk p s tr) /\ forall v : nat, r = Ok v -> told_all (talk p s tr)).
  { intros p t0 r K. cbn in K. destruct r; (split; [|intros ? [=]]); [now apply told_all_told|exact K|exact K]. }
  split; [|split].
  - intros p HF E. rewrite E in HO. cbn in HO. destruct (T _ _ _ (spy_motion _ _ _ _ _ _ HF HO)) as [T1 T2]. split; [exact T1|]. intros k Hk. destruct (R k Hk) as (? & v & ? & _ & Ho & _). exact (T2 _ Ho).
  - intros p HF E. rewrite E in HC. cbn in HC. destruct (T _ _ _ (spy_motion _ _ _ _ _ _ HF HC)) as [T1 T2]. split; [exact T1|]. intros k Hk. destruct (R k Hk) as (? & ? & v & _ & _ & Ho). exact (T2 _ Ho).
  - intros j n port Ej Hp. unfold launch_finish in HP. rewrite Ej in HP. rewrite talk_app.
    rewrite E1. change (talk (PsSender j n) s [(ESpawn (launch_spawning cwd vars la), AChild fin fout ferr)]) with (@nil word). cbn [app]. apply exec_bind_inv in HP. destruct HP as [(t1 & t2 & y & E & K1 & K)|[(e & E & K)|(e & E & K)]].
    + pose proof (status_told j n s port Hp _ _ K1) as S. cbn [app] in S. assert (E' : t2 = [] /\ st = Done (match y with Ok _ => launch_result a o c | Err e => Err e end)) by (destruct y; apply exec_ret_inv in K; exact K).
      destruct E' as [-> ->]. rewrite app_nil_r in E. rewrite E. cbn in S. destruct y; cbn in S.
      * destruct S as (code & m & S1 & S2). split; [rewrite S2; left; exact (T_data [] m T_nil)|]. intros _ _. eauto.
      * destruct S as (m & S). split; [rewrite S; exact (told_mid [] m T_nil)|discriminate].
    + subst st. pose proof (status_told j n s port Hp _ _ K) as S. cbn in S. split; [|discriminate].
      destruct S as [->|(m & [->| ->])]; [left; constructor|exact (told_mid [] m T_nil)|left; exact (T_data [] m T_nil)].
    + subst st. pose proof (status_told j n s port Hp _ _ K) as S. contradiction S.
Qed.
