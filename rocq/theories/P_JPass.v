(** * P_JPass: single passes, starvation, back-off *)
From Coq Require Import Ascii String List Bool Arith Lia ZArith.
From Verif Require Import M_Prog P_Prog P_Exec M_Motion M_BackOff M_Utils M_Junction S_Trace S_Lines S_Motion S_Junction
  P_Split P_Read P_Motion P_Worker P_Flow P_Utils P_Ask P_Pass P_Junction P_JStart.
Import ListNotations.

Section Pass.
Variables (groups : list (list pull)) (outs : list push) (spy : option nat) (bo : back_off).
Hypothesis Hrecv : Forall (Forall receiver) groups.
Hypothesis Houts : Forall io_sender outs.

Definition PN (h : trace) (e : eff) : Prop :=
  match e with ETryRecv c => exists n, c = CData n /\ prefix (asked h ++ [n]) (map pl_chan (concat groups)) | _ => True end.

Definition PQ (h : trace) (r : mres (bool * nat) * junction_state) : Prop :=
  match fst r with Ok _ => prefix (map pl_chan (hd [] groups)) (asked h) | Err _ => True end.

Lemma drop_pull_quiet p h (N : trace -> eff -> Prop) :
  (forall h' e, match e with EClose _ | EDropFd _ => True | _ => False end -> N h' e) -> sat h (drop_pull p) N (fun h' _ => asked h' = asked h).
Proof.
  intro HN. destruct p; cbn; try (now apply sat_ret); unfold drop_fd, close; (apply sat_vis; [now apply HN|]);
    intros a Ha; destruct a; try discriminate Ha; apply sat_ret; rewrite asked_app; cbn; apply app_nil_r.
Qed.

Lemma remove_all_quiet : forall fins stdin h, sat h (remove_all fins stdin) PN (fun h' _ => asked h' = asked h).
Proof.
  induction fins as [|[i0 i1] fins IH]; intros stdin h; cbn [remove_all]; [now apply sat_ret|].
  destruct (remove_vec_vec_index stdin i0 i1) as [[p|] stdin']; [|apply IH].
  apply sat_bind. eapply sat_conseq; [apply (drop_pull_quiet p h PN)|auto|].
  - intros h' e He. destruct e; try contradiction; exact I.
  - intros h' u E. eapply sat_conseq; [apply IH|auto|]. cbn. intros h2 v E2. congruence.
Qed.

Lemma pass_sat : sat [] (junction_iteration (groups, outs, bo) spy) PN PQ.
Proof.
  unfold junction_iteration. apply sat_bind. eapply sat_conseq; [apply (groups_sat outs spy Houts groups 0 [] [] [] 0 PN Hrecv)| auto |].
  - repeat split; constructor.
  - intros pre g post a p b w l' E1 E2 Ha _ _ _. cbn. exists (pl_chan p). split; [reflexivity|].
    destruct (vains_quiet (chans (concat pre))) as (_ & _ & Q & _). rewrite asked_app, Q, Ha, E1, E2.
    exists (chans b ++ chans (concat post)). rewrite concat_app. cbn [concat]. unfold chans. rewrite !map_app. cbn [map].
    rewrite <- !app_assoc. reflexivity.
  - intros w e Hb _. assert (HE : match e with ESend _ _ | EWrite _ _ => True | _ => False end).
    { destruct Hb as [(l & _ & H)|(l & d & done & rest & os & _ & [H|(p & rest' & _ & H)])].
      - now destruct e. - now destruct e. - now destruct p; inversion H. }
    destruct e; try contradiction; exact I.
  - intros h1 [[r g1] p1] (r0 & w & E & -> & Hac & HP). inversion E; subst. cbn beta iota. destruct r0 as [ps|e]; [|now apply sat_ret].
    assert (HF : prefix (map pl_chan (hd [] groups)) (asked w)).
    { destruct HP as (l' & _ & _ & [(_ & _ & ->)|(_ & pre & g & post & res & w' & HG & -> & _ & _ & Haw & _)]).
      - destruct (vains_quiet (chans (concat groups))) as (_ & _ & Q & _). rewrite Q. destruct groups as [|g gs]; [now exists []|].
        cbn [hd concat]. exists (chans (concat gs)). now rewrite chans_app.
      - destruct (vains_quiet (chans (concat pre))) as (_ & _ & Q & _). rewrite asked_app, Q, Haw, HG. destruct pre as [|x pre]; cbn [hd concat app].
        + exists []. now rewrite app_nil_r.
        + exists (chans (concat pre) ++ chans g). now rewrite chans_app, <- app_assoc. }
    apply sat_bind. eapply sat_conseq; [apply remove_all_quiet|auto|]. intros h2 stdin2 E2. cbn [app] in E2.
    destruct (remove_vec_vec stdin2) as [|x xs].
    + apply sat_bind. eapply sat_conseq; [apply (close_all_senders PN outs h2 Houts)|auto|].
      * intros. exact I.
      * intros h3 r (-> & ->). apply sat_ret. unfold PQ. cbn [fst]. destruct (closings_quiet (map ps_chan outs)) as (_ & _ & Q & _).
        now rewrite asked_app, Q, app_nil_r, E2.
    + apply sat_bind. destruct (ps_any_read ps).
      * apply sat_ret. apply sat_ret. unfold PQ. cbn [fst]. now rewrite E2.
      * unfold back_off_wait. apply sat_bind. unfold sleep. apply sat_vis; [exact I|]. intros a Ha. destruct a; try discriminate Ha.
        apply sat_ret. apply sat_ret. apply sat_ret. unfold PQ. cbn [fst]. rewrite asked_app, E2. cbn. now rewrite app_nil_r.
Qed.

Lemma last_ask tr : asked tr = [] \/ exists a n x b, tr = a ++ (ETryRecv (CData n), x) :: b /\ asked tr = asked a ++ [n].
Proof.
  induction tr as [|ev tr IH] using rev_ind; [now left|]. rewrite asked_app.
  assert (E : asked [ev] = [] \/ exists n x, ev = (ETryRecv (CData n), x)).
  { destruct ev as [[ |[]| | | | | | | | | | | | | | | | ] x]; cbn; eauto. }
  destruct E as [E|(n & x & ->)].
  - rewrite E, app_nil_r. destruct IH as [IH|(a & n & x & b & -> & E2)]; [now left|]. right. exists a, n, x, (b ++ [ev]).
    split; [now rewrite <- app_assoc|exact E2].
  - right. exists tr, n, x, []. split; reflexivity.
Qed.

Lemma pass_asks tr st : exec (junction_iteration (groups, outs, bo) spy) tr st ->
  prefix (asked tr) (map pl_chan (concat groups)) /\
  (forall v s, st = Done (Ok v, s) -> prefix (map pl_chan (hd [] groups)) (asked tr)).
Proof.
  intro HX. split.
  - destruct (last_ask tr) as [->|(a & n & x & b & -> & ->)]; [now eexists|].
    destruct (pass_sat _ _ (exec_prefix _ _ _ HX _ _ _ _ eq_refl)) as (m & E & H). inversion E; subst. exact H.
  - intros v s ->. exact (pass_sat _ _ HX).
Qed.

Lemma pass_once tr st : exec (junction_iteration (groups, outs, bo) spy) tr st ->
  NoDup (map pl_chan (concat groups)) -> NoDup (asked tr).
Proof. intros HX HN. destruct (pass_asks _ _ HX) as ((c & E) & _). rewrite E in HN. exact (nodup_app_l _ _ HN). Qed.
End Pass.

(** ** Starvation *)
Lemma exec_iter_step {I R} (body : I -> prog (I + R)) i i' tr1 tr2 st :
  exec (body i) tr1 (Done (inl i')) -> exec (iter body i') tr2 st -> exec (iter body i) (tr1 ++ tr2) st.
Proof. intros H1 H2. rewrite iter_eq. eapply exec_bind_intro; [exact H1|]. now constructor. Qed.

Definition busy3 : junction :=
  Junction 8 false [PsIoSender (J 0 (Some POut) 9 Terminate) 9] []
    [(PlReceiver (PJ 1 0) 1, 0%Z); (PlReceiver (PJ 2 0) 2, 1%Z); (PlReceiver (PJ 3 0) 3, 1%Z)].
Definition turn3 (d : bytes) : trace :=
  [vain 1; (ETryRecv (CData 2), AMsg (VData d)); (ESend (CData 9) (VData d), AOk)].

Lemma turn3_run d bo count :
  exec (junction_body None ((groups0 busy3, jn_stdout busy3, bo), count)) (turn3 d) (Done (inl ((groups0 busy3, jn_stdout busy3, 0), count + 1))).
Proof.
  replace (count + 1) with (count + (0 + 0 + 1)) by lia.
  eapply drive_sound with (fuel := 100) (answers := [AEmpty; AMsg (VData d); AOk]). reflexivity.
Qed.

Lemma starve k d : forall bo count, exists c, exec (iter (junction_body None) ((groups0 busy3, jn_stdout busy3, bo), count)) (concat (repeat (turn3 d) k)) (At (ETryRecv (CData 1))) /\ c = 0.
Proof.
  induction k as [|k IH]; intros bo count; exists 0; (split; [|reflexivity]).
  - cbn [repeat concat]. eapply drive_sound with (fuel := 100) (answers := []). reflexivity.
  - cbn [repeat concat]. eapply exec_iter_step; [apply turn3_run|]. destruct (IH 0 (count + 1)) as (_ & H & _). exact H.
Qed.

Lemma starved k d : exec (junction_start busy3 None) (concat (repeat (turn3 d) k)) (At (ETryRecv (CData 1))).
Proof.
  change (junction_start busy3 None) with (iter (junction_body None) ((groups0 busy3, jn_stdout busy3, 0), 0)).
  destruct (starve k d 0 0) as (_ & H & _). exact H.
Qed.

Lemma busy3_ready : junction_ready busy3.
Proof. repeat split; repeat constructor; cbn; intuition discriminate. Qed.

Lemma turns_asked k d : asked (concat (repeat (turn3 d) k)) = concat (repeat [1; 2] k).
Proof. induction k as [|k IH]; [reflexivity|]. cbn [repeat concat]. rewrite asked_app, IH. reflexivity. Qed.

(** ** Back-off *)
Definition bo_step (k : nat) (o : bool) : nat := if o then S k else 0.

Lemma back_off_run : forall ops k b tr st, b = Nat.min 51 k -> exec (use_back_off ops b) tr st ->
  match st with
  | At e => exists done rest, ops = done ++ true :: rest /\ length (delays tr) = length (filter id done) /\
      e = ESleep (Nat.min 51 (fold_left bo_step done k) * Nat.min 51 (fold_left bo_step done k))
  | Done _ => length (delays tr) = length (filter id ops)
  | Panicked _ => False
  end.
Proof.
  induction ops as [|[] ops IH]; intros k b tr st Hb HX; cbn [use_back_off] in HX.
  - inversion HX; subst. reflexivity.
  - unfold back_off_wait in HX.
    destruct (exec_bind_inv _ _ _ _ HX) as [(t1 & t2 & [v b'] & -> & H1 & H2)|[(e & -> & H1)|(s & -> & H1)]];
    destruct (exec_bind_inv _ _ _ _ H1) as [(t3 & t4 & [] & -> & H3 & H4)|[(e' & E & H3)|(s' & E & H3)]];
    destruct (sleep_inv _ _ _ H3) as [(-> & E3)|(-> & E3)]; try discriminate E3; try discriminate E.
    + apply exec_ret_inv in H4. destruct H4 as (-> & E4). inversion E4; subst v b'. clear E4.
      specialize (IH (S k) (if b <=? 50 then S b else b) t2 st).
      assert (HB : (if b <=? 50 then S b else b) = Nat.min 51 (S k)) by (destruct (Nat.leb_spec b 50); lia).
      specialize (IH HB H2). destruct st as [e| |s]; [|change (S (length (delays t2)) = S (length (filter id ops))); now rewrite IH|exact IH].
      destruct IH as (done & rest & -> & H5 & H6). exists (true :: done), rest. split; [reflexivity|]. split; [change (S (length (delays t2)) = S (length (filter id done))); now rewrite H5|exact H6].
    + apply exec_ret_inv in H4. destruct H4 as (_ & E4). discriminate E4.
    + inversion E3. inversion E. subst. exists [], ops. split; [reflexivity|]. split; [reflexivity|]. reflexivity.
    + apply exec_ret_inv in H4. destruct H4 as (_ & E4). discriminate E4.
  - specialize (IH 0 0 tr st eq_refl HX). destruct st as [e| |s]; [|exact IH|exact IH].
    destruct IH as (done & rest & -> & H5 & H6). exists (false :: done), rest. split; [reflexivity|]. split; [exact H5|exact H6].
Qed.

Lemma back_off_delay ops tr e : exec (use_back_off ops back_off_new) tr (At e) ->
  exists done rest, ops = done ++ true :: rest /\ length (delays tr) = length (filter id done) /\
    e = ESleep (Nat.min 51 (waits_since_reset done) * Nat.min 51 (waits_since_reset done)).
Proof. intro HX. exact (back_off_run ops 0 0 tr _ eq_refl HX). Qed.

Lemma naps_bound tr : naps tr <= 51.
Proof.
  unfold naps. change (fold_left nap_step tr 0 <= 51). assert (G : forall k, k <= 51 -> fold_left nap_step tr k <= 51); [|apply (G 0); lia].
  induction tr as [|[e a] tr IH]; intros k Hk; [exact Hk|]. cbn [fold_left]. apply IH. destruct e; cbn [nap_step]; try lia; destruct a; lia.
Qed.

Lemma sleeps_idle_bound j spy : junction_ready j -> forall tr ms, exec (junction_start j spy) tr (At (ESleep ms)) ->
  (ms = naps tr * naps tr /\ ms <= 2601) /\ exists a b, tr = a ++ map vain b /\ forall n, In n (in_chans j) -> ~ closed_by (CData n) tr -> In n b.
Proof.
  intros Hr tr ms HX. destruct (sleeps_idle j spy Hr tr ms HX) as (E & H). split; [|exact H]. split; [exact E|].
  pose proof (naps_bound tr). change 2601 with (51 * 51). rewrite E. now apply Nat.mul_le_mono.
Qed.

Lemma releases_inputs j spy : junction_ready j -> forall tr r, exec (junction_start j spy) tr (Done r) ->
  forall m, In m (in_chans j) -> closed_by (CData m) tr.
Proof.
  intros Hr tr [n|e] HX m Hm.
  - destruct (ends_properly j spy Hr tr n HX) as (_ & pre & -> & _ & H). apply in_or_app. left. now apply H.
  - destruct (fails_how j spy Hr tr e HX) as (_ & H & _). now apply H.
Qed.

Lemma equal_priorities_starve : exists j n m z,
  junction_ready j /\ priority j n z /\ priority j m z /\ n <> m /\
  forall k, exists tr e, exec (junction_start j None) tr (At e) /\ length (taken (CData n) tr) = k /\ ~ In m (asked tr).
Proof.
  exists busy3, 2, 3, 1%Z. split; [exact busy3_ready|]. split; [eexists; split; [right; left; reflexivity|reflexivity]|].
  split; [eexists; split; [right; right; left; reflexivity|reflexivity]|]. split; [discriminate|].
  intro k. exists (concat (repeat (turn3 []) k)), (ETryRecv (CData 1)). split; [apply starved|]. split.
  - induction k as [|k IH]; [reflexivity|]. cbn [repeat concat]. rewrite taken_app, app_length, IH. reflexivity.
  - rewrite turns_asked. induction k as [|k IH]; cbn; [tauto|]. intuition discriminate.
Qed.

Lemma nodup_insert_mid (a b : list nat) n : NoDup (a ++ b) -> ~ In n (a ++ b) -> NoDup (a ++ n :: b).
Proof. intros H1 H2. apply NoDup_Add with (a := n) (l := a ++ b); [apply Add_app|auto]. Qed.

Lemma junction_adding : forall j port brk src dst n p priority,
  junction_ready j -> receiver p -> ~ In n (in_chans j ++ out_chans j) -> ~ In (pl_chan p) (in_chans j ++ out_chans j) ->
  junction_ready junction_new /\
  junction_ready (fst (junction_add_output j port brk src dst n)) /\ junction_ready (junction_add_input j p priority).
Proof.
  intros j port brk src dst n p priority (H1 & H2 & H3 & H4 & H5) Hp Hn Hc. split; [repeat split; constructor|]. split.
  - split; [exact H1|]. split; [exact H2|]. split; [apply Forall_app; split; [exact H3|repeat constructor]|]. split; [exact H4|].
    unfold out_chans in *. cbn. rewrite map_app. cbn. unfold in_chans in *. cbn. rewrite app_assoc.
    apply (nodup_insert_mid _ []); rewrite app_nil_r; assumption.
  - split; [exact H1|]. split; [exact H2|]. split; [exact H3|]. split; [apply Forall_app; split; [exact H4|constructor; [exact Hp|constructor]]|].
    unfold out_chans, in_chans in *. cbn. rewrite map_app. cbn. rewrite <- app_assoc. cbn. now apply nodup_insert_mid.
Qed.
