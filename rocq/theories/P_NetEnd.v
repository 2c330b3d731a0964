(** * P_NetEnd: a component that has ended has left its channels closed *)
From Coq Require Import Ascii String List Bool Arith Lia ZArith.
From Verif Require Import M_Prog P_Prog P_Exec M_Motion M_BackOff M_Regulator M_Faucet M_Drain M_Buffer M_Launch M_Junction M_Join S_Trace S_Lines S_Motion S_World S_Launch S_Regulator S_Drain S_Buffer S_Junction S_Network S_Net
  P_Split P_Read P_Motion P_Worker P_Flow P_Ask P_Pass P_Copy P_World P_Launch P_Regulator P_Control P_Drain P_Buffer P_BufferRun P_Link P_Phase P_Junction P_JStart P_JPass P_Conduit P_NetComp.
Import ListNotations.

(** Closed by the component itself, or found closed by it. *)
Definition let_go (n : nat) (L : list nevent) : Prop := exists t, t < 4 /\ (closed_by (CData n) (own t L) \/ exists v, In (ESend (CData n) v, AClosed) (own t L)).

Lemma comp_ended c L r : comp_ready c -> comp_runs c L (Ended r) ->
  match c with NFaucet _ _ => forall nm, ~ In (EOpenRead nm, AErr) (own 0 L) | NJunction _ => forall e, r <> Err e | _ => True end ->
  forall n, In n (comp_ins c ++ comp_outs c) -> let_go n L.
Proof.
  destruct c as [f name|g|b u mi mo|j|cwd vars la|d name]; intros HR HX HS n Hn.
  - destruct HR as (HC & j & o & HR). destruct HX as (st & (_ & s & -> & HX) & HG). destruct s as [e|r'|m]; try discriminate HG. injection HG as <-.
    assert (EO : comp_outs (NFaucet f name) = [o]) by (destruct HR as (_ & _ & E & _); cbn; now rewrite E). rewrite EO in Hn. destruct Hn as [<-|[]].
    exists 0. split; [lia|]. left. destruct (faucet_run _ _ _ _ _ _ HR HX) as [[_ E]|[(j' & _ & E & _ & Hna)|(d & rest & k & j' & E & HZ)]]; [discriminate E| |].
    { exfalso. apply (HS name). rewrite E. unfold source_eff. destruct (string_dec name "-"); [contradiction|now left]. }
    rewrite E. destruct (gate_released (PlBytes k j' d split_control_new) _ _ _ eq_refl _ _ HZ) as (_ & K & _). now right.
  - destruct HR as (HC & pj & i & j & o & HR). destruct HX as (st & (_ & s & -> & HX) & HG). destruct s as [e|r'|m]; try discriminate HG. injection HG as <-.
    destruct (regulator_releases _ _ _ _ _ _ HR HX) as (K1 & K2 & _). exists 0. split; [lia|]. left. destruct HR as (_ & E1 & E2 & _). cbn in Hn. rewrite E1, E2 in Hn. destruct Hn as [<-|[<-|[]]]; assumption.
  - destruct HR as (HC & pj & i & j & o & HR). destruct HX as (st & HX & HM & HG). pose proof (buffer_parts _ _ _ _ _ _ _ _ _ HR HX) as (sa & sb & sc & Ha & Hb & Hc & HP).
    assert (E1 := proj1 HR). assert (E2 := proj1 (proj2 HR)). cbn in Hn. rewrite E1, E2 in Hn.
    destruct st as [s|x y z|s]; [contradiction|cbn in HG; destruct (_ || _); discriminate HG|]. destruct HP as (ra & rb & rc & -> & -> & -> & _).
    destruct Hn as [<-|[<-|[]]]; [exists 1|exists 2]; (split; [lia|]); left.
    + destruct (copy_released (PlReceiver pj i) (MN None (Some mi)) None (PsSender (J 0 None 0 (push_brk (PsIoSender j o))) u) I ltac:(left; discriminate) _ _ Ha) as (K & _). exact K.
    + destruct (copy_released (PlReceiver (PJ 0 0) u) (MN (Some mo) None) None (PsIoSender j o) I ltac:(left; discriminate) _ _ Hb) as (_ & K & _). exact K.
  - destruct HX as (st & (_ & s & -> & HX) & HG). destruct s as [e|r'|m]; try discriminate HG. injection HG as <-. exists 0. split; [lia|]. left.
    destruct r as [k|e]; [|now destruct (HS e)]. destruct (ends_properly j None HR _ _ HX) as (_ & pre & E & _ & K). rewrite E. unfold closed_by. apply in_or_app. apply in_app_or in Hn. destruct Hn as [Hn|Hn]; [left; now apply K|right].
    apply in_map_iff. exists n. auto.
  - destruct HR as (HR & Hin & Hout). destruct HX as (st & HX & HM & HG). destruct st as [[e|r'|m]|x y z|[e|r'|m]]; try discriminate HG.
    + pose proof (launch_parts _ _ _ _ _ _ (proj1 HR) HX) as HP. cbn beta iota in HP. destruct HP as (_ & [(_ & E)|(_ & m & E)]); discriminate E.
    + cbn in HG. destruct (_ || _); discriminate HG.
    + destruct (launch_releases _ _ _ _ _ _ HR HX) as (K1 & K2 & K3 & _). cbn in Hn. rewrite !in_app_iff in Hn.
      destruct Hn as [Hn|[Hn|[Hn|Hn]]].
      * destruct (la_stdin la) as [pl|] eqn:E; [|destruct Hn]. destruct (Hin _ eq_refl) as (pj & i & ->). destruct Hn as [<-|[]]. exists 1. split; [lia|]. left. exact (K1 _ eq_refl).
      * destruct (la_stdout la) as [ps|] eqn:E; [|destruct Hn]. destruct (Hout ps (or_introl eq_refl)) as (j & o & ->). destruct Hn as [<-|[]]. exists 2. split; [lia|]. left. exact (K2 _ eq_refl).
      * destruct (la_stderr la) as [ps|] eqn:E; [|destruct Hn]. destruct (Hout ps (or_intror eq_refl)) as (j & o & ->). destruct Hn as [<-|[]]. exists 3. split; [lia|]. left. exact (K3 _ eq_refl).
      * destruct (la_exit_status la) as [[j m]|] eqn:HE; [|destruct Hn]. destruct Hn as [<-|[]]. exists 0. split; [lia|].
        pose proof (launch_parts _ _ _ _ _ _ (proj1 HR) HX) as HP. cbn beta iota in HP. destruct HP as (fin & fout & ferr & a & b & c & tr & E & _ & _ & _ & HF).
        destruct (finish_inv la None j m HE _ _ _ _ _ HF) as (x & (k & code & msg & rest & _ & E' & [(-> & _)|[(s & port & _ & K & _)|(t & -> & _)]]) & _).
        -- right. exists (VData msg). rewrite E, E', !in_app_iff. right. right. right. now left.
        -- discriminate K.
        -- left. rewrite E, E'. unfold closed_by. rewrite !in_app_iff. right. right. right. right. rewrite in_app_iff. right. now left.
  - destruct HR as (pj & i & HR). destruct HX as (st & (_ & s & -> & HX) & HG). destruct s as [e|r'|m]; try discriminate HG. injection HG as <-.
    destruct (drain_releases _ _ _ _ _ HR HX) as (K & _). cbn in Hn. rewrite (proj1 HR) in Hn. destruct Hn as [<-|[]]. exists 0. split; [lia|]. left. exact K.
Qed.

(** Only the counter of a buffer, or a program that cannot be started, brings a component down. *)
Lemma comp_breaks c L : comp_ready c -> comp_runs c L Broken ->
  match c with NBuffer _ _ _ _ => True | NLaunch _ _ _ => exists sp, In (ESpawn sp, AErr) (own 0 L) | _ => False end.
Proof.
  destruct c as [f name|g|b u mi mo|j|cwd vars la|d name]; intros HR HX; [| |exact I| | |].
  - destruct HR as (HC & j & o & HR). destruct HX as (st & (_ & s & -> & HX) & HG). destruct s as [e|r'|m]; try discriminate HG.
    destruct (faucet_run _ _ _ _ _ _ HR HX) as [[_ E]|[(j' & _ & _ & E & _)|(d & rest & k & j' & E & HZ)]]; try discriminate E. exact (gate_no_panic (PlBytes k j' d split_control_new) _ _ _ eq_refl _ _ HZ).
  - destruct HR as (HC & pj & i & j & o & HR). destruct HX as (st & (_ & s & -> & HX) & HG). destruct s as [e|r'|m]; try discriminate HG. exact (regulator_releases _ _ _ _ _ _ HR HX).
  - destruct HX as (st & (_ & s & -> & HX) & HG). destruct s as [e|r'|m]; try discriminate HG. exact (start_no_panic j None HR _ _ HX).
  - destruct HR as (HR & Hin & Hout). destruct HX as (st & HX & HM & HG). pose proof (launch_parts _ _ _ _ _ _ (proj1 HR) HX) as HP.
    assert (NP : forall fin fout ferr tr m, let x := launch_relays la fin fout ferr in ~ exec (relay (rl_in x) None) tr (Panicked m) /\ ~ exec (relay (rl_out x) None) tr (Panicked m) /\ ~ exec (relay (rl_err x) None) tr (Panicked m)).
    { intros fin fout ferr tr m x. subst x. unfold launch_relays, relay. cbn [rl_in rl_out rl_err fst snd]. (split; [|split]); intro K; apply motion_no_panic in K; auto.
      - destruct (la_stdin la) as [pl|] eqn:E; [|exact I]. destruct (Hin _ eq_refl) as (pj & i & ->). exact I.
      - destruct (la_stdout la); reflexivity.
      - destruct (la_stderr la); reflexivity. }
    destruct st as [s|a b c|s]; cbn beta iota in HP.
    + destruct HP as (_ & [(_ & ->)|(E & m & ->)]); [discriminate HG|]. eexists. rewrite E. now left.
    + exfalso. destruct HP as (fin & fout & ferr & _ & H1 & H2 & H3). destruct a as [x|x|x]; [| |exact (proj1 (NP fin fout ferr _ _) H1)];
        (destruct b as [y|y|y]; [| |exact (proj1 (proj2 (NP fin fout ferr _ _)) H2)]); (destruct c as [z|z|z]; [discriminate HG|discriminate HG|exact (proj2 (proj2 (NP fin fout ferr _ _)) H3)]).
    + exfalso. destruct HP as (fin & fout & ferr & a & b & c & tr & _ & _ & _ & _ & HF). destruct s as [e|r|m]; try discriminate HG.
      destruct (la_exit_status la) as [[j n]|] eqn:HE; [exact (finish_inv la None j n HE _ _ _ _ _ HF)|]. unfold launch_finish in HF. rewrite HE in HF. apply exec_ret_inv in HF. destruct HF as [_ HF]. discriminate HF.
  - destruct HR as (pj & i & HR). destruct HX as (st & (_ & s & -> & HX) & HG). destruct s as [e|r'|m]; try discriminate HG.
    destruct (drain_run _ _ _ _ _ HR HX) as [(_ & K)|(e & _ & [[_ E]|[(f & rest & k & pj' & _ & _ & K)|(rest & pj' & _ & _ & K)]])].
    + exact (motion_no_panic (PlReceiver pj i) mn_empty None _ I (or_intror eq_refl) _ _ K).
    + discriminate E.
    + exact (motion_no_panic (PlReceiver pj i) mn_empty None _ I (or_intror eq_refl) _ _ K).
    + cbn [drop_pull] in K. destruct (exec_bind_inv _ _ _ _ K) as [(t1 & t2 & x & _ & _ & K5)|[(e' & K5 & _)|(s & _ & K5)]]; [apply exec_ret_inv in K5; destruct K5 as [_ K5]; discriminate K5|discriminate K5|].
      destruct (close_inv _ _ _ K5) as [[_ E]|[_ E]]; discriminate E.
Qed.
