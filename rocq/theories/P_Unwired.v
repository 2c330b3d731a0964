(** * P_Unwired: components that are not connected *)
From Coq Require Import Ascii String List Bool Arith ZArith Lia.
From Verif Require Import M_Prog P_Prog P_Exec M_Motion M_Connectable M_BackOff M_Utils M_Regulator M_Faucet M_Drain M_Junction M_Buffer M_Join S_World S_Trace S_Junction S_Unwired.
Import ListNotations.

Definition gone {A} (p : prog A) (Q : A -> Prop) : Prop :=
  forall tr st, exec p tr st -> only_lets_go tr /\ ((exists a, st = Done a /\ Q a) \/ exists e, st = At e /\ lets_go e).
Lemma gone_ret {A} (a : A) (Q : A -> Prop) : Q a -> gone (Ret a) Q.
Proof. intros H tr st HX. apply exec_ret_inv in HX. destruct HX as [-> ->]. split; [constructor|left; eauto]. Qed.
Lemma gone_bind {A B} (p : prog A) (k : A -> prog B) P Q : gone p P -> (forall a, P a -> gone (k a) Q) -> gone (bind p k) Q.
Proof.
  intros Hp Hk tr st HX. destruct (exec_bind_inv _ _ _ _ HX) as [(t1 & t2 & x & -> & H1 & H2)|[(e & -> & H1)|(s & -> & H1)]].
  - destruct (Hp _ _ H1) as [Ht [(a & Ha & HP)|(e & He & _)]]; [|discriminate]. inversion Ha; subst. destruct (Hk _ HP _ _ H2) as [Ht2 Hst].
    split; [now apply Forall_app|exact Hst].
  - destruct (Hp _ _ H1) as [Ht [(a & Ha & _)|(e' & He & Hl)]]; [discriminate|]. inversion He; subst. split; [exact Ht|right; eauto].
  - destruct (Hp _ _ H1) as [Ht [(a & Ha & _)|(e' & He & Hl)]]; discriminate.
Qed.
Lemma gone_close c : gone (close c) (fun _ => True).
Proof. intros tr st HX. destruct (close_inv _ _ _ HX) as [[-> ->]|[-> ->]]; (split; [repeat constructor|]); [right; eexists; split; [reflexivity|exact I]|left; eauto]. Qed.
Lemma gone_drop_fd c : gone (drop_fd c) (fun _ => True).
Proof. intros tr st HX. destruct (drop_fd_inv _ _ _ HX) as [[-> ->]|[-> ->]]; (split; [repeat constructor|]); [right; eexists; split; [reflexivity|exact I]|left; eauto]. Qed.
Lemma gone_drop_pull p : gone (drop_pull p) (fun _ => True).
Proof. destruct p; cbn; try (now apply gone_ret); [apply gone_drop_fd|apply gone_close]. Qed.
Lemma gone_drop_push p : gone (drop_push p) (fun _ => True).
Proof. destruct p; cbn; try (now apply gone_ret); [apply gone_drop_fd|apply gone_close..]. Qed.
Lemma gone_ends {A} (p : prog A) r tr st : gone p (eq r) -> exec p tr st -> ends_at_once r tr st.
Proof. intros Hg HX. destruct (Hg _ _ HX) as [Ht [(a & -> & <-)|He]]; (split; [exact Ht|]); auto. Qed.

Lemma secret_gone stdin stdout ctl spy : stdin = None \/ stdout = None -> gone (start_secret false stdin stdout ctl spy) (eq (Ok 0)).
Proof.
  intro H. unfold start_secret. destruct stdin as [pl|], stdout as [ps|]; [destruct H; discriminate| | |now apply gone_ret].
  - eapply gone_bind; [apply gone_drop_pull|]. intros _ _. now apply gone_ret.
  - eapply gone_bind; [apply gone_drop_push|]. intros _ _. now apply gone_ret.
Qed.

Lemma regulator_unwired r spy tr st : rg_started r = false -> rg_stdin r = None \/ rg_stdout r = None ->
  exec (regulator_start r spy) tr st -> ends_at_once (Ok 0) tr st.
Proof. intros Hs H HX. unfold regulator_start in HX. rewrite Hs in HX. eapply gone_ends; [|exact HX]; apply secret_gone; exact H. Qed.

Lemma unconnected_parts f : unconnected_faucet f -> fc_started f = false /\ fc_stdout f = None /\ fc_pull_journey f = None.
Proof.
  induction 1 as [l|f n _ IH|f n f' c _ IH E]; [repeat split|exact IH|]. unfold faucet_get_control in E.
  destruct (fc_control f); [discriminate|]. inversion E; subst. exact IH.
Qed.
Lemma faucet_unwired f spy tr st : unconnected_faucet f -> exec (faucet_start f spy) tr st -> ends_at_once (Ok 0) tr st.
Proof.
  intros U HX. destruct (unconnected_parts f U) as (Hs & Ho & Hj). unfold faucet_start, faucet_source in HX. rewrite Hj, bind_ret, Hs, Ho in HX.
  eapply gone_ends; [|exact HX]. apply secret_gone. now right.
Qed.

Lemma drain_unwired d tr st : dr_stdin d = None -> exec (drain_start d None) tr st -> ends_at_once (Err NoneError) tr st.
Proof. intros H HX. unfold drain_start in HX. rewrite H in HX. eapply gone_ends; [now apply gone_ret|exact HX]. Qed.

Lemma buffer_ends_gone b : bf_stdin b = None \/ bf_stdout b = None -> gone (buffer_ends b) (eq (inl (Err NoneError))).
Proof.
  intro H. unfold buffer_ends. destruct (bf_stdin b) as [pl|]; [|now apply gone_ret]. destruct (bf_stdout b) as [ps|]; [destruct H; discriminate|].
  eapply gone_bind; [apply gone_drop_pull|]. intros _ _. now apply gone_ret.
Qed.
Lemma buffer_unwired b spy u mi mo l js : bf_stdin b = None \/ bf_stdout b = None -> buffer_start b spy u mi mo l js ->
  own 1 l = [] /\ own 2 l = [] /\ own 3 l = [] /\ exists st, js = Before st /\ ends_at_once (Err NoneError) (own 0 l) st.
Proof.
  intros H HJ. pose proof (buffer_ends_gone b H) as G.
  assert (Hi : forall l, idle [1; 2; 3] l -> own 1 l = [] /\ own 2 l = [] /\ own 3 l = []) by (intros l' Hl; repeat split; apply Hl; cbn; auto).
  destruct HJ as [l e Hl HX|l s Hl HX|l r Hl HX|l0 l x a b' c H1 H2 HX|l0 l l1 x a b' c st H1 H2 H3 HX]; destruct (G _ _ HX) as [Ht Hst].
  - destruct (Hi _ Hl) as (? & ? & ?). repeat (split; [assumption|]). eexists. split; [reflexivity|]. split; [exact Ht|].
    destruct Hst as [(a & Ha & _)|(e' & He & Hg)]; [discriminate|]. inversion He; subst. right. eauto.
  - destruct Hst as [(a & Ha & _)|(e' & He & Hg)]; discriminate.
  - destruct (Hi _ Hl) as (? & ? & ?). repeat (split; [assumption|]). eexists. split; [reflexivity|]. split; [exact Ht|].
    destruct Hst as [(a & Ha & E)|(e' & He & Hg)]; [|discriminate]. subst a. inversion Ha; subst. now left.
  - destruct Hst as [(a' & Ha & E)|(e' & He & Hg)]; [subst a'|]; discriminate.
  - destruct Hst as [(a' & Ha & E)|(e' & He & Hg)]; [subst a'|]; discriminate.
Qed.

Lemma close_all_gone l : Forall io_sender l -> gone (close_all l) (eq (Ok tt)).
Proof.
  induction 1 as [|p l Hp _ IH]; cbn [close_all]; [now apply gone_ret|]. destruct p; try contradiction. cbn [motion_close].
  eapply gone_bind with (P := eq (Ok tt)); [eapply gone_bind; [apply gone_close|]; intros _ _; now apply gone_ret|]. intros ? <-. exact IH.
Qed.
Lemma junction_unwired j spy tr st : junction_ready j -> jn_inputs j = [] -> exec (junction_start j spy) tr st -> ends_at_once (Ok 0) tr st.
Proof.
  intros (Hs & Hn & Ho & _ & _) Hin HX. unfold junction_start, initialize_stdin in HX. rewrite Hs, Hin, Hn in HX. cbn in HX.
  rewrite iter_eq in HX. eapply gone_ends; [|exact HX]. unfold junction_body, junction_iteration. cbn [groups_loop]. rewrite bind_ret. cbn [ps_finished rev remove_all]. rewrite bind_ret.
  cbn [remove_vec_vec]. eapply gone_bind with (P := eq (inr (Ok 0))).
  - eapply gone_bind with (P := fun x => fst x = Ok (true, 0)).
    + change (remove_vec_vec []) with (@nil (list pull)). eapply gone_bind; [apply (close_all_gone _ Ho)|]. intros ? <-. now apply gone_ret.
    + intros [r st'] E. cbn in E. subst r. now apply gone_ret.
  - intros ? <-. now apply gone_ret.
Qed.

Definition no_way_out : junction := junction_add_input junction_new (PlReceiver (PJ 1 0) 1) 0.
Lemma unwired_ok : exists r f j tr, rg_stdin r = None /\ rg_stdout r = None /\ exec (regulator_start r None) [] (Done (Ok 0)) /\
  unconnected_faucet f /\ exec (faucet_start f None) [] (Done (Ok 0)) /\
  junction_ready j /\ jn_stdout j = [] /\ exec (junction_start j None) tr (Done (Ok 1)) /\ taken (CData 1) tr <> [] /\ ~ saw_end (CData 1) tr.
Proof.
  exists regulator_new, (faucet_new "x"), no_way_out. eexists.
  split; [reflexivity|]. split; [reflexivity|]. split; [eapply drive_sound with (fuel := 9) (answers := []); vm_compute; reflexivity|].
  split; [constructor|]. split; [eapply drive_sound with (fuel := 9) (answers := []); vm_compute; reflexivity|].
  split; [repeat split; repeat constructor; cbn; intuition discriminate|]. split; [reflexivity|].
  split; [eapply drive_sound with (fuel := 50) (answers := [AMsg (VData ["a"%char]); AOk]); vm_compute; reflexivity|]. split; [discriminate|].
  intros [H|H]; cbn in H; intuition discriminate.
Qed.
