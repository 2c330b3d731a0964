(** * P_Soft: why a component failed *)
From Coq Require Import Ascii String List Bool Arith Lia ZArith.
From Verif Require Import M_Prog P_Prog P_Exec M_Motion M_BackOff M_Regulator M_Faucet M_Drain M_Buffer M_Launch M_Junction M_Join S_Trace S_Lines S_Motion S_World S_Launch S_Regulator S_Drain S_Buffer S_Junction S_Network S_Net S_Soft
  P_Reach P_Split P_Read P_Motion P_Worker P_Flow P_Utils P_Ask P_Pass P_Copy P_World P_Launch P_Regulator P_Control P_Drain P_Buffer P_BufferJoint P_BufferRun P_Link P_Phase P_Junction P_JStart P_Calm.
Import ListNotations.

(** The reasons an ending copy can have for its error. *)
Definition cause (pl : pull) (mon : notifications) (ps : push) (h : trace) (e : merror) : Prop :=
  (exists k j f sc, pl = PlBytes k j f sc /\ e = ReadIOError j /\ hurt h) \/
  (exists k j f, ps = PsBytes k j f /\ (e = CloseIOError j \/ exists d, e = WriteIOError j d) /\ hurt h) \/
  (exists j d, push_journey ps = Some j /\ j_brk j = Terminate /\ e = OutputClosed j (match ps with PsBytes _ _ _ => BrokenPipe | _ => ChannelClosed end) d /\ match ps with PsBytes _ _ _ => hurt h | _ => True end) \/
  (exists m v, (mon_read mon = Some m \/ mon_written mon = Some m) /\ In (ESend (CMon m) v, AClosed) h).
Definition same_source (pl pl' : pull) : Prop :=
  match pl, pl' with
  | PlBytes k j f _, PlBytes k' j' f' _ => k = k' /\ j = j' /\ f = f'
  | PlReceiver j n, PlReceiver j' n' => j = j' /\ n = n'
  | PlMock _ _, PlMock _ _ => True
  | PlNone, PlNone => True
  | _, _ => False
  end.
Lemma same_source_refl pl : same_source pl pl.
Proof. destruct pl; cbn; auto. Qed.
Lemma cause_source pl pl' mon ps h e : same_source pl pl' -> cause pl' mon ps h e -> cause pl mon ps h e.
Proof.
  intros HS [(k & j & f & sc & -> & -> & HH)|H]; [left|now right]. destruct pl as [k1 j1 f1 s1| | |]; cbn in HS; try contradiction. destruct HS as (-> & -> & ->). eauto 8.
Qed.
Lemma same_source_trans a b c : same_source a b -> same_source b c -> same_source a c.
Proof. destruct a, b, c; cbn; try tauto; [intros (-> & -> & ->); auto|intros (-> & ->); auto]. Qed.
Lemma hurt_in h h' : (forall x, In x h -> In x h') -> hurt h -> hurt h'.
Proof. intros HI (x & a & H & H'). exists x, a. auto. Qed.
Lemma cause_in pl mon ps h h' e : (forall x, In x h -> In x h') -> cause pl mon ps h e -> cause pl mon ps h' e.
Proof.
  intros HI [(k & j & f & sc & E & E' & H)|[(k & j & f & E & E' & H)|[(j & d & H1 & H2 & H3 & H)|(m & v & H1 & H2)]]]; [left|right; left|right; right; left|right; right; right].
  - exists k, j, f, sc. eauto using hurt_in.
  - exists k, j, f. eauto using hurt_in.
  - exists j, d. split; [exact H1|]. split; [exact H2|]. split; [exact H3|]. destruct ps; auto. exact (hurt_in _ _ HI H).
  - exists m, v. auto.
Qed.
Lemma cause_more pl mon ps h t e : cause pl mon ps h e -> cause pl mon ps (h ++ t) e.
Proof. apply cause_in. intros x H. apply in_or_app. now left. Qed.
Definition unmocked (ps : push) : Prop := match ps with PsMock _ _ => False | _ => True end.

Lemma done_bind {A B} (p : prog A) (k : A -> prog B) tr b : exec (bind p k) tr (Done b) -> exists t1 t2 x, tr = t1 ++ t2 /\ exec p t1 (Done x) /\ exec (k x) t2 (Done b).
Proof. intro HX. destruct (exec_bind_inv _ _ _ _ HX) as [(t1 & t2 & x & -> & H1 & H2)|[(e & K & _)|(s & K & _)]]; try discriminate K. eauto 7. Qed.

Lemma read_loop_hurt f splits tr : forall ov n ov', exec (read_loop f splits ov n) tr (Done (None, ov')) -> In (ERead f, AErr) tr.
Proof.
  induction tr as [|[x a] tr IH]; intros ov n ov' HX; rewrite read_loop_eq in HX; destruct (scan splits (skipn n ov) n n) as [n' [e|]].
  - apply exec_ret_inv in HX. destruct HX as [_ K]. discriminate K.
  - inversion HX.
  - apply exec_ret_inv in HX. destruct HX as [_ K]. discriminate K.
  - apply exec_vis_inv in HX. destruct HX as [[K _]|(a' & tr' & E & _ & HX)]; [discriminate K|]. injection E as -> -> ->. destruct a'; try (apply exec_panic_inv in HX; destruct HX as [_ K]; discriminate K).
    + left. reflexivity.
    + destruct d as [|b d]; [apply exec_ret_inv in HX; destruct HX as [_ K]; discriminate K|]. right. exact (IH _ _ _ HX).
Qed.
Lemma read_source pl tr r pl' : exec (motion_read pl false) tr (Done (r, pl')) ->
  same_source pl pl' /\ forall e, r = Err e -> exists k j f sc, pl = PlBytes k j f sc /\ e = ReadIOError j /\ hurt tr.
Proof.
  destruct pl as [k j f sc|j n|j q|]; cbn; intro HX.
  - unfold motion_read_buffer in HX. apply done_bind in HX. destruct HX as (t1 & t2 & [x sc'] & -> & H1 & H2).
    apply done_bind in H1. destruct H1 as (u1 & u2 & [y ov] & -> & H0 & H1). apply exec_ret_inv in H1. destruct H1 as [-> K]. injection K as -> ->.
    destruct y as [v|]; apply exec_ret_inv in H2; destruct H2 as [-> E]; injection E as -> ->; (split; [cbn; auto|]); intros e K; [discriminate K|injection K as <-]. exists k, j, f, sc. split; [reflexivity|]. split; [reflexivity|].
    exists (ERead f), AErr. split; [rewrite !app_nil_r; exact (read_loop_hurt _ _ _ _ _ _ H0)|]. split; [reflexivity|now left].
  - apply done_bind in HX. destruct HX as (t1 & t2 & x & -> & _ & H2). destruct x as [v|]; apply exec_ret_inv in H2; destruct H2 as [_ E]; injection E as -> ->; (split; [cbn; auto|]); intros e K; discriminate K.
  - destruct q as [|d q]; apply exec_ret_inv in HX; destruct HX as [_ E]; injection E as -> ->; (split; [exact Logic.I|]); intros e K; discriminate K.
  - apply exec_ret_inv in HX; destruct HX as [_ E]; injection E as -> ->; (split; [exact Logic.I|]); intros e K; discriminate K.
Qed.
Definition broken_out (ps : push) (h : trace) (e : merror) : Prop :=
  exists j d, push_journey ps = Some j /\ e = OutputClosed j (match ps with PsBytes _ _ _ => BrokenPipe | _ => ChannelClosed end) d /\ match ps with PsBytes _ _ _ => hurt h | _ => True end.
Definition unwritten (ps : push) (h : trace) (e : merror) : Prop := exists k j f d, ps = PsBytes k j f /\ e = WriteIOError j d /\ hurt h.
Lemma write_out ps d t rr p' : unmocked ps -> exec (motion_write ps d) t (Done (rr, p')) -> p' = ps /\ forall e, rr = Err e -> broken_out ps t e \/ unwritten ps t e.
Proof.
  intros HU H. destruct ps as [j q|k j f|j n|j n|]; cbn in H; try contradiction HU.
  - unfold write_all in H. rewrite bind_eq in H. apply exec_vis_inv in H. destruct H as [[_ K]|(a & tr' & -> & _ & HX)]; [discriminate K|].
    destruct a; unfold ill in HX; try (rewrite bind_eq in HX); try (apply exec_panic_inv in HX; destruct HX as [_ K]; discriminate K); apply exec_ret_inv in HX; destruct HX as [-> E]; injection E as -> ->; (split; [reflexivity|]); intros e K; try discriminate K; injection K as <-.
    + left. exists j, d. split; [reflexivity|]. split; [reflexivity|]. exists (EWrite f d), ABroken. split; [now left|]. split; [reflexivity|now right].
    + right. exists k, j, f, d. split; [reflexivity|]. split; [reflexivity|]. exists (EWrite f d), AErr. split; [now left|]. split; [reflexivity|now left].
  - apply done_bind in H. destruct H as (t1 & t2 & y & -> & _ & H). apply exec_ret_inv in H. destruct H as [_ E]. injection E as -> ->. split; [reflexivity|]. intros e K. destruct y; try discriminate K; injection K as <-; left; exists j, d; auto.
  - apply done_bind in H. destruct H as (t1 & t2 & y & -> & _ & H). apply exec_ret_inv in H. destruct H as [_ E]. injection E as -> ->. split; [reflexivity|]. intros e K. destruct y; try discriminate K; injection K as <-; left; exists j, d; auto.
  - apply exec_ret_inv in H. destruct H as [_ E]. injection E as -> ->. split; [reflexivity|]. intros e K. discriminate K.
Qed.
Lemma write_cause x ps tr r ps' : unmocked ps -> exec (worker_write x ps) tr (Done (r, ps')) -> ps' = ps /\ forall e pl mon, r = Err e -> cause pl mon ps tr e.
Proof.
  intros HU HX.
  assert (HF : forall r0, r0 = Ok false -> exec (Ret (r0, ps)) tr (Done (r, ps')) -> ps' = ps /\ forall e pl mon, r = Err e -> cause pl mon ps tr e).
  { intros r0 -> H. apply exec_ret_inv in H. destruct H as [_ E]. injection E as -> ->. split; [reflexivity|]. intros e pl mon K. discriminate K. }
  assert (HC : forall e pl mon h, (broken_out ps h e -> push_brk ps = Terminate) -> broken_out ps h e \/ unwritten ps h e -> cause pl mon ps h e).
  { intros e pl mon h HT [H|(k & j & f & d & E1 & E2 & E3)]; [|right; left; exists k, j, f; split; [exact E1|]; split; [right; now exists d|exact E3]]. specialize (HT H). destruct H as (j & d & E1 & E2 & E3). right; right; left. exists j, d. split; [exact E1|]. split; [|split; [exact E2|exact E3]]. unfold push_brk in HT. now rewrite E1 in HT. }
  unfold worker_write in HX. destruct (push_brk ps) eqn:EB; destruct x as [d| |]; try (apply (HF _ eq_refl HX));
    apply done_bind in HX; destruct HX as (t1 & t2 & [y p'] & -> & H1 & H2); apply exec_ret_inv in H2; destruct H2 as [-> E]; injection E as -> ->; destruct (write_out _ _ _ _ _ HU H1) as [-> HE]; rewrite app_nil_r; (split; [reflexivity|]); intros e pl mon K.
  - destruct y as [u|e1]; [discriminate K|]. injection K as ->. apply HC; [reflexivity|]. now apply HE.
  - destruct y as [u|e1]; [discriminate K|]. destruct e1; try discriminate K; injection K as <-; apply HC; try (now apply HE); intros (j1 & d1 & _ & K1 & _); discriminate K1.
  - destruct y as [u|e1]; [discriminate K|]. destruct e1; try discriminate K; injection K as <-; apply HC; try (now apply HE); intros (j1 & d1 & _ & K1 & _); discriminate K1.
Qed.
Lemma notify_cause m v pl onerr tr x : exec (notify m v pl onerr) tr (Done x) -> forall e, x = Err e -> exists n, m = Some n /\ In (ESend (CMon n) v, AClosed) tr.
Proof.
  intros HX e ->. destruct (notify_inv _ _ _ _ _ _ HX) as [[_ K]|(c & E & [[_ K]|(-> & _)])]; try discriminate K. exists c. split; [exact E|now left].
Qed.
Lemma worker_cause pl mon ps tr r pl' pushs : unmocked ps -> exec (motion_worker pl mon [ps] None false) tr (Done (r, pl', pushs)) ->
  pushs = [ps] /\ same_source pl pl' /\ forall e, r = Err e -> cause pl mon ps tr e.
Proof.
  intros HU HX. unfold motion_worker in HX. apply done_bind in HX. destruct HX as (t1 & t2 & [x pl1] & -> & H1 & H2). destruct (read_source _ _ _ _ H1) as [HS HE].
  assert (HK : forall x1, exec (bind (notify (mon_read mon) VRead pl1 (fun j => MonitorReadError (pj_src j))) (fun nr => match nr with Err e => Ret (Err e, pl1, [ps]) | Ok _ =>
      bind (worker_pushes None x1 [ps] (List.length [ps])) (fun y => let '(wr, pushs') := y in match wr with Err e => Ret (Err e, pl1, pushs') | Ok unfinished =>
        bind (notify (mon_written mon) VWrote pl1 MonitorWriteError) (fun nw => match nw with Err e => Ret (Err e, pl1, pushs') | Ok _ => Ret (Ok (WR (if unfinished =? 0 then true else is_finished x1) true), pl1, pushs') end) end) end)) t2 (Done (r, pl', pushs)) ->
    pushs = [ps] /\ same_source pl pl' /\ forall e, r = Err e -> cause pl mon ps (t1 ++ t2) e).
  { intros x1 H. apply done_bind in H. destruct H as (u1 & u2 & nr & -> & N1 & H). pose proof (notify_cause _ _ _ _ _ _ N1) as HN1. destruct nr as [u|e1].
    2:{ apply exec_ret_inv in H. destruct H as [-> E]. injection E as -> -> ->. split; [reflexivity|]. split; [exact HS|]. intros e K. injection K as <-. destruct (HN1 _ eq_refl) as (n & E & Hin). right; right; right. exists n, VRead. split; [now left|]. rewrite !in_app_iff. auto. }
    apply done_bind in H. destruct H as (u3 & u4 & [wr pushs'] & -> & P1 & H). cbn [worker_pushes] in P1. apply done_bind in P1. destruct P1 as (v1 & v2 & [wr1 ps1] & -> & W1 & P1). destruct (write_cause _ _ _ _ _ HU W1) as [-> HW].
    assert (HP : pushs' = [ps] /\ forall e, wr = Err e -> wr1 = Err e).
    { destruct wr1 as [dec|e1]; [|apply exec_ret_inv in P1; destruct P1 as [_ E]; injection E as -> ->; split; [reflexivity|]; intros e K; now injection K as ->]. cbn [worker_spy] in P1. rewrite bind_ret in P1. cbn [worker_pushes] in P1. rewrite bind_ret in P1. apply exec_ret_inv in P1. destruct P1 as [_ E]. injection E as -> ->. split; [reflexivity|]. intros e K. discriminate K. }
    destruct HP as [-> HP]. destruct wr as [unf|e1].
    2:{ apply exec_ret_inv in H. destruct H as [-> E]. injection E as -> -> ->. split; [reflexivity|]. split; [exact HS|]. intros e K. injection K as <-. apply (cause_in _ _ _ v1); [intros z Hz; rewrite !in_app_iff; auto|]. apply HW. now apply HP. }
    apply done_bind in H. destruct H as (u5 & u6 & nw & -> & N2 & H). pose proof (notify_cause _ _ _ _ _ _ N2) as HN2. destruct nw as [u'|e1]; apply exec_ret_inv in H; destruct H as [-> E]; injection E as -> -> ->; (split; [reflexivity|]); (split; [exact HS|]); intros e K; [discriminate K|].
    injection K as <-. destruct (HN2 _ eq_refl) as (n & E & Hin). right; right; right. exists n, VWrote. split; [now right|]. rewrite !in_app_iff. auto 8. }
  destruct x as [[d| |]|e1].
  - exact (HK _ H2).
  - exact (HK _ H2).
  - apply exec_ret_inv in H2. destruct H2 as [-> E]. injection E as -> -> ->. split; [reflexivity|]. split; [exact HS|]. intros e K. discriminate K.
  - apply exec_ret_inv in H2. destruct H2 as [-> E]. injection E as -> -> ->. split; [reflexivity|]. split; [exact HS|]. intros e K. injection K as <-. left. destruct (HE _ eq_refl) as (k & j & f & sc & E1 & E2 & E3). exists k, j, f, sc. rewrite app_nil_r. auto.
Qed.
Lemma close_cause ps tr x : exec (close_all [ps]) tr (Done x) -> forall e, x = Err e -> exists k j f, ps = PsBytes k j f /\ e = CloseIOError j /\ hurt tr.
Proof.
  intros HX e ->. cbn [close_all] in HX. apply done_bind in HX. destruct HX as (t1 & t2 & y & -> & H1 & H2). destruct y as [u|e1]; apply exec_ret_inv in H2; destruct H2 as [_ E]; [discriminate E|]. injection E as ->.
  destruct ps as [j q|k j f|j n|j n|]; cbn in H1; try (apply exec_ret_inv in H1; destruct H1 as [_ K]; discriminate K).
  - unfold flush in H1. rewrite bind_eq in H1. apply exec_vis_inv in H1. destruct H1 as [[_ K]|(a & tr' & -> & _ & HX)]; [discriminate K|].
    destruct a; unfold ill in HX; try (rewrite bind_eq in HX); try (apply exec_panic_inv in HX; destruct HX as [_ K]; discriminate K); apply exec_ret_inv in HX; destruct HX as [-> E]; try discriminate E. injection E as ->.
    exists k, j, f. split; [reflexivity|]. split; [reflexivity|]. exists (EFlush f), AErr. split; [now left|]. split; [reflexivity|now left].
  - apply done_bind in H1. destruct H1 as (u1 & u2 & y & -> & _ & H1). apply exec_ret_inv in H1. destruct H1 as [_ K]. discriminate K.
  - apply done_bind in H1. destruct H1 as (u1 & u2 & y & -> & _ & H1). apply exec_ret_inv in H1. destruct H1 as [_ K]. discriminate K.
Qed.
Definition ends_well (pl : pull) (mon : notifications) (ps : push) (h : trace) (x : mres nat * pull * list push) : Prop := forall e, fst (fst x) = Err e -> cause pl mon ps h e.
Lemma motion_cause pl mon ps tr e : unmocked ps -> exec (motion pl mon None ps) tr (Done (Err e)) -> cause pl mon ps tr e.
Proof.
  intros HU HX. unfold motion in HX. apply done_bind in HX. destruct HX as (t1 & t2 & [[r pl'] pushs'] & -> & H1 & H2).
  assert (r = Err e) as ->. { apply done_bind in H2. destruct H2 as (u1 & u2 & x & -> & _ & H2). apply done_bind in H2. destruct H2 as (u3 & u4 & x1 & -> & _ & H2). apply done_bind in H2. destruct H2 as (u5 & u6 & x2 & -> & _ & H2). apply done_bind in H2. destruct H2 as (u7 & u8 & x3 & -> & _ & H2). apply exec_ret_inv in H2. destruct H2 as [_ E]. now injection E as ->. }
  apply cause_more.
  assert (HT : tsat [] (iter (motion_body mon None) (pl, [ps], 0)) (fun _ _ => True) (ends_well pl mon ps)).
  { apply (tsat_iter _ (fun h (s : motion_state) => let '(pl1, pushs, n) := s in pushs = [ps] /\ same_source pl pl1)); [|split; [reflexivity|apply same_source_refl]].
    intros h [[pl1 pushs] n] [-> HS] tr st HB. destruct st as [e1|x|s]; try exact Logic.I. unfold motion_body in HB. apply done_bind in HB. destruct HB as (u1 & u2 & [[r1 pl2] ps2] & -> & W & HB). destruct (worker_cause _ _ _ _ _ _ _ HU W) as (-> & HS2 & HE).
    destruct r1 as [wr|e1].
    - destruct (wr_finished wr).
      + apply done_bind in HB. destruct HB as (u3 & u4 & y & -> & C & HB). pose proof (close_cause _ _ _ C) as HC. destruct y as [u|e1].
        * apply done_bind in HB. destruct HB as (u5 & u6 & y & -> & _ & HB). apply done_bind in HB. destruct HB as (u7 & u8 & y1 & -> & _ & HB). apply exec_ret_inv in HB. destruct HB as [_ E]. injection E as ->. intros e1 K. discriminate K.
        * apply exec_ret_inv in HB. destruct HB as [_ E]. injection E as ->. intros e2 K. injection K as <-. destruct (HC _ eq_refl) as (k & j & f & E1 & E2 & E3). right; left. exists k, j, f. split; [exact E1|]. split; [now left|]. revert E3. apply hurt_in. intros z Hz. rewrite !in_app_iff. auto.
      + apply exec_ret_inv in HB. destruct HB as [_ E]. injection E as ->. split; [reflexivity|]. exact (same_source_trans _ _ _ HS HS2).
    - apply exec_ret_inv in HB. destruct HB as [-> E]. injection E as ->. intros e2 K. injection K as <-. rewrite app_nil_r. apply (cause_source _ pl1 _ _ _ _ HS).
      apply (cause_in _ _ _ u1); [intros z Hz; apply in_or_app; now right|now apply HE]. }
  exact (HT _ _ H1 e eq_refl).
Qed.
Lemma gate_cause pl ps ctl tr e : unmocked ps -> exec (start_secret false (Some pl) (Some ps) ctl None) tr (Done (Err e)) -> cause pl mn_empty ps tr e.
Proof.
  intros HU HX. unfold start_secret in HX. apply done_bind in HX. destruct HX as (t1 & t2 & [[r pl'] pushs'] & -> & H1 & H2).
  assert (r = Err e) as ->. { apply done_bind in H2. destruct H2 as (u1 & u2 & x & -> & _ & H2). apply done_bind in H2. destruct H2 as (u3 & u4 & x1 & -> & _ & H2). apply exec_ret_inv in H2. destruct H2 as [_ E]. now injection E as ->. }
  apply cause_more.
  assert (HT : tsat [] (iter (gate_body ctl None (push_brk ps)) (pl, [ps], 0)) (fun _ _ => True) (ends_well pl mn_empty ps)).
  { apply (tsat_iter _ (fun h (s : motion_state) => let '(pl1, pushs, n) := s in pushs = [ps] /\ same_source pl pl1)); [|split; [reflexivity|apply same_source_refl]].
    intros h [[pl1 pushs] n] [-> HS] tr st HB. destruct st as [e1|x|s]; try exact Logic.I. unfold gate_body in HB. apply done_bind in HB. destruct HB as (u1 & u2 & [[r1 pl2] ps2] & -> & W & HB). destruct (worker_cause _ _ _ _ _ _ _ HU W) as (-> & HS2 & HE).
    pose proof (same_source_trans _ _ _ HS HS2) as HS3.
    assert (HK : forall e1, r1 = Err e1 -> cause pl mn_empty ps (h ++ u1 ++ u2) e1).
    { intros e1 K. apply (cause_source _ pl1 _ _ _ _ HS). apply (cause_in _ _ _ u1); [intros z Hz; rewrite !in_app_iff; auto|now apply HE]. }
    assert (HG : forall n1, exec (bind (control ctl) (fun _ => Ret (inl (pl2, [ps], n1)))) u2 (Done x) -> match x with inl i' => let '(pl1, pushs, n) := i' in pushs = [ps] /\ same_source pl pl1 | inr r => ends_well pl mn_empty ps (h ++ u1 ++ u2) r end).
    { intros n1 H. apply done_bind in H. destruct H as (u3 & u4 & y & _ & _ & H). apply exec_ret_inv in H. destruct H as [_ E]. injection E as ->. auto. }
    destruct r1 as [wr|e1].
    - destruct (wr_finished wr); [|exact (HG _ HB)]. apply done_bind in HB. destruct HB as (u3 & u4 & y & -> & _ & HB). apply exec_ret_inv in HB. destruct HB as [_ E]. injection E as ->. intros e1 K. discriminate K.
    - destruct e1; try (apply exec_ret_inv in HB; destruct HB as [_ E]; injection E as ->; intros e2 K; injection K as <-; now apply HK).
      destruct (push_brk ps); [|apply exec_ret_inv in HB; destruct HB as [_ E]; injection E as ->; intros e2 K; discriminate K|exact (HG _ HB)].
      apply exec_ret_inv in HB; destruct HB as [_ E]; injection E as ->; intros e2 K; injection K as <-; now apply HK. }
  exact (HT _ _ H1 e eq_refl).
Qed.
