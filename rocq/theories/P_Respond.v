(** * P_Respond: programs that always go on when answered *)
From Coq Require Import Ascii String List Bool Arith Lia ZArith.
From Verif Require Import M_Prog P_Prog P_Exec M_Motion M_BackOff M_Utils M_Regulator M_Faucet M_Drain M_Junction M_Buffer M_Launch S_Trace S_Lines S_Motion S_Regulator S_Drain P_Split P_Machine P_Phase P_JPass.
Import ListNotations.

(** It gets to its next effect or its end, at first and after every fitting answer. *)
Definition starts {A} (p : prog A) : Prop := exists st, exec p [] st.
Definition responds {A} (p : prog A) : Prop :=
  starts p /\ forall tr e a, exec p tr (At e) -> wt e a = true -> exists st, exec p (tr ++ [(e, a)]) st.

Lemma resp_ret {A} (a : A) : responds (Ret a).
Proof. split; [eexists; constructor|]. intros tr e x H. apply exec_ret_inv in H. destruct H as [_ H]. discriminate H. Qed.
Lemma resp_panic {A} s : responds (@Panic A s).
Proof. split; [eexists; constructor|]. intros tr e x H. apply exec_panic_inv in H. destruct H as [_ H]. discriminate H. Qed.
Lemma resp_vis {A} e (k : ans -> prog A) : (forall a, wt e a = true -> responds (k a)) -> responds (Vis e k).
Proof.
  intro HK. split; [eexists; constructor|]. intros tr e' a' H Hw. apply exec_vis_inv in H. destruct H as [[-> E]|(a & tr' & -> & Hwt & H)].
  - injection E as ->. destruct (proj1 (HK a' Hw)) as [st K]. exists st. cbn. now constructor.
  - destruct (proj2 (HK a Hwt) _ _ _ H Hw) as [st K]. exists st. cbn. now constructor.
Qed.
Lemma resp_tau {A} (p : prog A) : responds p -> responds (Tau p).
Proof.
  intros [[st H] HK]. split; [exists st; now constructor|]. intros tr e a HX Hw. inversion HX; subst. destruct (HK _ _ _ H1 Hw) as [st' K]. exists st'. now constructor.
Qed.
Lemma start_bind {A B} (p : prog A) (k : A -> prog B) : starts p -> (forall a, exec p [] (Done a) -> starts (k a)) -> starts (bind p k).
Proof.
  intros [st H] HK. destruct st as [e|a|s].
  - exists (At e). now apply exec_bind_at.
  - destruct (HK _ H) as [st K]. exists st. exact (exec_bind_intro _ _ _ _ H _ _ K).
  - exists (Panicked s). now apply exec_bind_panic.
Qed.
Lemma resp_bind {A B} (p : prog A) (k : A -> prog B) : responds p -> (forall tr a, exec p tr (Done a) -> responds (k a)) -> responds (bind p k).
Proof.
  intros Hp HK. split; [apply start_bind; [apply Hp|]; intros a H; exact (proj1 (HK _ _ H))|].
  intros tr e a HX Hw. destruct (exec_bind_inv _ _ _ _ HX) as [(t1 & t2 & x & -> & H1 & H2)|[(e' & E & H1)|(s & E & _)]]; [| |discriminate E].
  - destruct (proj2 (HK _ _ H1) _ _ _ H2 Hw) as [st K]. exists st. rewrite <- app_assoc. exact (exec_bind_intro _ _ _ _ H1 _ _ K).
  - injection E as <-. destruct (proj2 Hp _ _ _ H1 Hw) as [st K]. destruct st as [e'|x|s].
    + eexists. apply exec_bind_at, K.
    + destruct (proj1 (HK _ _ K)) as [st K']. exists st. rewrite <- (app_nil_r (tr ++ _)). exact (exec_bind_intro _ _ _ _ K _ _ K').
    + eexists. apply exec_bind_panic, K.
Qed.
Lemma exec_iter_inv {I R} (body : I -> prog (I + R)) i tr st : exec (iter body i) tr st ->
  (exists t1 t2 i', tr = t1 ++ t2 /\ exec (body i) t1 (Done (inl i')) /\ exec (iter body i') t2 st) \/
  (exists r, st = Done r /\ exec (body i) tr (Done (inr r))) \/ (exists e, st = At e /\ exec (body i) tr (At e)) \/ (exists s, st = Panicked s /\ exec (body i) tr (Panicked s)).
Proof.
  rewrite iter_eq. intro HX. destruct (exec_bind_inv _ _ _ _ HX) as [(t1 & t2 & x & -> & H1 & H2)|[(e' & E & H1)|(s & E & H1)]]; [|eauto 6|eauto 6].
  destruct x as [i'|r].
  - inversion H2; subst. left. eauto 6.
  - apply exec_ret_inv in H2. destruct H2 as [-> ->]. right; left. exists r. rewrite app_nil_r. auto.
Qed.
(** A loop, each turn of which does something. *)
Lemma resp_iter {I R} (body : I -> prog (I + R)) (Inv : I -> Prop) :
  (forall i, Inv i -> responds (body i)) -> (forall i tr i', Inv i -> exec (body i) tr (Done (inl i')) -> Inv i' /\ tr <> []) ->
  forall i, Inv i -> responds (iter body i).
Proof.
  intros HB HI.
  assert (S0 : forall i, Inv i -> starts (iter body i)).
  { intros i Hi. destruct (proj1 (HB i Hi)) as [st H]. rewrite iter_eq. destruct st as [e|[i'|r]|s].
    - eexists. apply exec_bind_at, H.
    - destruct (HI _ _ _ Hi H) as [_ K]. congruence.
    - eexists. rewrite <- (app_nil_r []). eapply exec_bind_intro; [exact H|]. constructor.
    - eexists. apply exec_bind_panic, H. }
  intros i Hi. split; [now apply S0|]. intros tr. remember (length tr) as n eqn:En. revert i Hi tr En. induction n as [n IH] using lt_wf_ind. intros i Hi tr En e a HX Hw.
  destruct (exec_iter_inv _ _ _ _ HX) as [(t1 & t2 & i' & -> & H1 & H2)|[(r & E & _)|[(e' & E & H1)|(s & E & _)]]]; try discriminate E.
  - destruct (HI _ _ _ Hi H1) as [Hi' Hne]. assert (length t2 < n) by (subst n; rewrite app_length; destruct t1; [congruence|cbn; lia]).
    destruct (IH _ H i' Hi' t2 eq_refl _ _ H2 Hw) as [st K]. exists st. rewrite <- app_assoc. eapply exec_iter_step; eassumption.
  - injection E as <-. destruct (proj2 (HB i Hi) _ _ _ H1 Hw) as [st K]. destruct st as [e'|[i'|r]|s].
    + eexists. rewrite iter_eq. apply exec_bind_at, K.
    + destruct (HI _ _ _ Hi K) as [Hi' _]. destruct (S0 _ Hi') as [st K']. exists st. rewrite <- (app_nil_r (tr ++ _)). eapply exec_iter_step; eassumption.
    + eexists. rewrite iter_eq, <- (app_nil_r (tr ++ _)). eapply exec_bind_intro; [exact K|]. constructor.
    + eexists. rewrite iter_eq. apply exec_bind_panic, K.
Qed.

(** ** The building blocks *)
Ltac resp_effect := apply resp_vis; let a := fresh in let Hw := fresh in intros a Hw; destruct a; try discriminate Hw; try apply resp_ret.
Lemma resp_send c v : responds (send c v).
Proof. unfold send. resp_effect. Qed.
Lemma resp_close c : responds (close c).
Proof. unfold close. resp_effect. Qed.
Lemma resp_drop_fd f : responds (drop_fd f).
Proof. unfold drop_fd. resp_effect. Qed.
Lemma resp_sleep n : responds (sleep n).
Proof. unfold sleep. resp_effect. Qed.
Lemma resp_recv_data n : responds (recv_data n).
Proof. unfold recv_data. resp_effect. destruct v; try discriminate H0. apply resp_ret. Qed.
Lemma resp_try_recv c : responds (try_recv c).
Proof. unfold try_recv. resp_effect. Qed.
Lemma resp_write_all f d : responds (write_all f d).
Proof. unfold write_all. resp_effect. Qed.
Lemma resp_flush f : responds (flush f).
Proof. unfold flush. resp_effect. Qed.
Lemma resp_drop_pull p : responds (drop_pull p).
Proof. destruct p; try apply resp_ret; [apply resp_drop_fd|apply resp_close]. Qed.
Lemma resp_drop_push p : responds (drop_push p).
Proof. destruct p; try apply resp_ret; [apply resp_drop_fd|apply resp_close|apply resp_close]. Qed.
Lemma resp_drop_pulls l : responds (drop_pulls l).
Proof. induction l as [|p l IH]; [apply resp_ret|]. apply resp_bind; [apply resp_drop_pull|]. intros; exact IH. Qed.
Lemma resp_drop_pushes l : responds (drop_pushes l).
Proof. induction l as [|p l IH]; [apply resp_ret|]. apply resp_bind; [apply resp_drop_push|]. intros; exact IH. Qed.
Lemma resp_close_mon m : responds (close_mon m).
Proof. destruct m; [apply resp_close|apply resp_ret]. Qed.

Lemma resp_read_loop f splits ov start : responds (read_loop f splits ov start).
Proof.
  assert (E : forall ov start, read_loop f splits ov start = match scan splits (skipn start ov) start start with
    | (_, Some e) => Ret (Some (firstn e ov), skipn e ov)
    | (start', None) => Vis (ERead f) (fun a => match a with AData [] => Ret (Some ov, []) | AData d => read_loop f splits (ov ++ d) start' | AErr => Ret (None, ov) | _ => ill end)
    end) by apply read_loop_eq.
  assert (S0 : forall ov start, starts (read_loop f splits ov start)).
  { intros o s. rewrite E. destruct (scan _ _ _ _) as [s' [e|]]; eexists; constructor. }
  split; [apply S0|]. intro tr. revert ov start. induction tr as [|[e0 a0] tr IH]; intros ov start e a HX Hw; rewrite E in HX |- *; destruct (scan _ _ _ _) as [s' [x|]].
  - apply exec_ret_inv in HX. destruct HX as [_ HX]. discriminate HX.
  - apply exec_vis_inv in HX. destruct HX as [[_ HX]|(a' & tr' & HX & _)]; [|discriminate HX]. injection HX as ->.
    assert (K : starts (match a with AData [] => Ret (Some ov, []) | AData d => read_loop f splits (ov ++ d) s' | AErr => Ret (None, ov) | _ => ill end)).
    { destruct a; try discriminate Hw; [eexists; constructor|]. destruct d; [eexists; constructor|apply S0]. }
    destruct K as [st K]. exists st. cbn. now constructor.
  - apply exec_ret_inv in HX. destruct HX as [_ HX]. discriminate HX.
  - apply exec_vis_inv in HX. destruct HX as [[HX _]|(a' & tr' & HX & Hw' & HX')]; [discriminate HX|]. injection HX as -> -> ->.
    destruct a'; try discriminate Hw'; [apply exec_ret_inv in HX'; destruct HX' as [_ HX']; discriminate HX'|].
    destruct d; [apply exec_ret_inv in HX'; destruct HX' as [_ HX']; discriminate HX'|].
    destruct (IH _ _ _ _ HX' Hw) as [st K]. exists st. cbn. constructor; [exact Hw'|exact K].
Qed.
Lemma resp_read p t : responds (motion_read p t).
Proof.
  destruct p as [k j f sc|j n|j q|], t; cbn [motion_read]; try apply resp_panic; try apply resp_ret.
  - unfold motion_read_buffer. apply resp_bind; [apply resp_bind; [apply resp_read_loop|]|]; intros tr [x y] _; [apply resp_ret|]. destruct x; apply resp_ret.
  - apply resp_bind; [apply resp_try_recv|]. intros tr x HX. apply try_recv_inv in HX. destruct HX as [[_ HX]|[(v & _ & E & Hf)|[(_ & E)|(_ & E)]]]; try discriminate HX; injection E as ->; try apply resp_ret.
    destruct v; try discriminate Hf. apply resp_ret.
  - apply resp_bind; [apply resp_recv_data|]. intros tr [x|] _; apply resp_ret.
  - destruct q; apply resp_ret.
  - destruct q; apply resp_ret.
Qed.
Lemma resp_write p d : responds (motion_write p d).
Proof.
  destruct p; cbn [motion_write]; try apply resp_ret; (apply resp_bind; [first [apply resp_send|apply resp_write_all]|intros tr [] _; apply resp_ret]).
Qed.
Lemma resp_motion_close p : responds (motion_close p).
Proof. destruct p; cbn [motion_close]; try apply resp_ret; (apply resp_bind; [first [apply resp_close|apply resp_flush]|intros tr [] _; apply resp_ret]). Qed.
Lemma resp_close_all l : responds (close_all l).
Proof. induction l as [|p l IH]; [apply resp_ret|]. cbn. apply resp_bind; [apply resp_motion_close|]. intros tr [x|x] _; [exact IH|apply resp_ret]. Qed.
Lemma resp_worker_write x p : responds (worker_write x p).
Proof.
  unfold worker_write. destruct (push_brk p), x; try apply resp_ret; (apply resp_bind; [apply resp_write|]; intros tr [r p'] _; apply resp_ret).
Qed.
Lemma resp_spy spy x p : responds (worker_spy spy x p).
Proof.
  unfold worker_spy. destruct spy; [|apply resp_ret]. destruct (push_journey p) as [[s [port|] d b]|]; try apply resp_ret. apply resp_bind; [apply resp_send|]. intros; apply resp_ret.
Qed.
Lemma resp_pushes spy x l : forall n, responds (worker_pushes spy x l n).
Proof.
  induction l as [|p l IH]; intro n; [apply resp_ret|]. cbn. apply resp_bind; [apply resp_worker_write|]. intros tr [[r|r] p'] _; [|apply resp_ret].
  apply resp_bind; [apply resp_spy|]. intros tr' [s|s] _; [|apply resp_ret]. apply resp_bind; [apply IH|]. intros tr'' [r' rest'] _. apply resp_ret.
Qed.
Lemma resp_notify m v p f : responds (notify m v p f).
Proof.
  destruct m; [|apply resp_ret]. cbn. apply resp_bind; [apply resp_send|]. intros tr [] _; [apply resp_ret|]. destruct (pull_journey p); [apply resp_ret|apply resp_panic].
Qed.
Lemma resp_worker pl mon ps spy t : responds (motion_worker pl mon ps spy t).
Proof.
  unfold motion_worker. apply resp_bind; [apply resp_read|]. intros tr [[x|x] pl'] _; [|apply resp_ret].
  assert (K : responds (nr <- notify (mon_read mon) VRead pl' (fun j => MonitorReadError (pj_src j)) ;;
    match nr with Err e => Ret (Err e, pl', ps) | Ok _ =>
      ' (wr, pushs') <- worker_pushes spy x ps (length ps) ;;
      match wr with Err e => Ret (Err e, pl', pushs') | Ok unfinished =>
        nw <- notify (mon_written mon) VWrote pl' MonitorWriteError ;;
        match nw with Err e => Ret (Err e, pl', pushs') | Ok _ => Ret (Ok (WR (if unfinished =? 0 then true else is_finished x) true), pl', pushs') end
      end end)).
  { apply resp_bind; [apply resp_notify|]. intros tr1 [n1|n1] _; [|apply resp_ret]. apply resp_bind; [apply resp_pushes|]. intros tr2 [[wr|wr] ps'] _; [|apply resp_ret].
    apply resp_bind; [apply resp_notify|]. intros tr3 [n3|n3] _; apply resp_ret. }
  destruct x; [exact K|exact K|apply resp_ret].
Qed.

(** ** Copying loops whose every turn does something *)
Definition busy_ends (pl : pull) (ps : push) : Prop :=
  match pl with PlReceiver _ _ | PlNone => True | PlBytes _ _ _ _ => real_push ps | _ => False end.

Lemma exec_bind_nil {A B} (p : prog A) (k : A -> prog B) b : exec (bind p k) [] (Done b) -> exists a, exec p [] (Done a) /\ exec (k a) [] (Done b).
Proof.
  intro HX. destruct (exec_bind_inv _ _ _ _ HX) as [(t1 & t2 & x & E & H1 & H2)|[(e & E & _)|(s & E & _)]]; try discriminate E.
  destruct t1; [|discriminate E]. cbn in E. subst t2. eauto.
Qed.
Lemma vis_not_nil {A} e (k : ans -> prog A) b : ~ exec (Vis e k) [] (Done b).
Proof. intro H. inversion H. Qed.
Lemma silent_finished spy mon pl ps r n : exec (' (wr, pushs') <- worker_pushes spy Finished [ps] n ;;
      match wr with
      | Err e => Ret (Err e, pl, pushs')
      | Ok unfinished =>
        nw <- notify (mon_written mon) VWrote pl MonitorWriteError ;;
        match nw with
        | Err e => Ret (Err e, pl, pushs')
        | Ok _ => Ret (Ok (WR (if unfinished =? 0 then true else true) true), pl, pushs')
        end
      end) [] (Done r) -> exists pl' ps', r = (Ok (WR true true), pl', ps').
Proof.
  intro H. apply exec_bind_nil in H. destruct H as ([wr ps'] & H1 & H2). cbn [worker_pushes] in H1. apply exec_bind_nil in H1. destruct H1 as ([x p'] & H0 & H1).
  unfold worker_write in H0. assert (E : x = Ok false) by (destruct (push_brk ps); apply exec_ret_inv in H0; destruct H0 as [_ H0]; injection H0 as ->; reflexivity). subst x.
  apply exec_bind_nil in H1. destruct H1 as (s & H3 & H4).
  assert (Es : s = Ok tt).
  { unfold worker_spy in H3. destruct spy as [sp|]; [|apply exec_ret_inv in H3; destruct H3 as [_ H3]; injection H3 as ->; reflexivity].
    destruct (push_journey p') as [[a [port|] b c]|]; try (apply exec_ret_inv in H3; destruct H3 as [_ H3]; injection H3 as ->; reflexivity).
    apply exec_bind_nil in H3. destruct H3 as (q & H3 & _). exfalso. exact (vis_not_nil _ _ _ H3). }
  subst s. rewrite bind_ret in H4. apply exec_ret_inv in H4. destruct H4 as [_ H4]. injection H4 as -> ->.
  apply exec_bind_nil in H2. destruct H2 as (nw & H5 & H6).
  assert (En : nw = Ok tt).
  { unfold notify in H5. destruct (mon_written mon); [|apply exec_ret_inv in H5; destruct H5 as [_ H5]; injection H5 as ->; reflexivity].
    apply exec_bind_nil in H5. destruct H5 as (q & H5 & _). exfalso. exact (vis_not_nil _ _ _ H5). }
  subst nw. apply exec_ret_inv in H6. destruct H6 as [_ H6]. injection H6 as ->. do 2 eexists. destruct (n =? 0); reflexivity.
Qed.
Lemma notify_nil m v pl f x : exec (notify m v pl f) [] (Done x) -> x = Ok tt.
Proof.
  unfold notify. destruct m; intro H5; [|apply exec_ret_inv in H5; destruct H5 as [_ H5]; injection H5 as ->; reflexivity].
  apply exec_bind_nil in H5. destruct H5 as (q & H5 & _). exfalso. exact (vis_not_nil _ _ _ H5).
Qed.
(** A turn in which nothing is done is the last. *)
Lemma silent_worker pl mon ps spy r : busy_ends pl ps -> exec (motion_worker pl mon [ps] spy false) [] (Done r) -> exists pl' ps', r = (Ok (WR true true), pl', ps').
Proof.
  intros HB HX. unfold motion_worker in HX. apply exec_bind_nil in HX. destruct HX as ([x pl'] & H1 & H2).
  destruct pl as [k j f sc|j n|j q|]; try contradiction HB.
  - cbn [motion_read] in H1. apply exec_bind_nil in H1. destruct H1 as ([y sc'] & H0 & H1). unfold motion_read_buffer in H0. apply exec_bind_nil in H0. destruct H0 as ([z ov'] & H0 & H3).
    rewrite read_loop_eq in H0. destruct (scan _ _ _ _) as [s' [e|]]; [|exfalso; exact (vis_not_nil _ _ _ H0)].
    apply exec_ret_inv in H0. destruct H0 as [_ H0]. injection H0 as -> ->. apply exec_ret_inv in H3. destruct H3 as [_ H3]. injection H3 as -> ->.
    apply exec_ret_inv in H1. destruct H1 as [_ H1]. injection H1 as -> ->.
    destruct (firstn e (overflow sc)) as [|c d]; cbn [do_match_stuff] in H2.
    + apply exec_bind_nil in H2. destruct H2 as (nr & H3 & H4). apply notify_nil in H3. subst nr. eapply silent_finished. exact H4.
    + apply exec_bind_nil in H2. destruct H2 as (nr & H3 & H4). apply notify_nil in H3. subst nr. apply exec_bind_nil in H4. destruct H4 as ([wr ps'] & H4 & _).
      cbn [worker_pushes] in H4. apply exec_bind_nil in H4. destruct H4 as ([u p'] & H4 & _). unfold worker_write in H4. cbn in HB.
      exfalso. destruct (push_brk ps); (apply exec_bind_nil in H4; destruct H4 as ([v q] & H4 & _); destruct ps; try contradiction HB; cbn [motion_write] in H4; apply exec_bind_nil in H4; destruct H4 as (w & H4 & _); exact (vis_not_nil _ _ _ H4)).
  - cbn [motion_read] in H1. apply exec_bind_nil in H1. destruct H1 as (y & H1 & _). exfalso. exact (vis_not_nil _ _ _ H1).
  - cbn [motion_read] in H1. apply exec_ret_inv in H1. destruct H1 as [_ H1]. injection H1 as -> ->.
    apply exec_bind_nil in H2. destruct H2 as (nr & H3 & H4). apply notify_nil in H3. subst nr. eapply silent_finished. exact H4.
Qed.
Lemma busy_like pl ps pl' ps' : busy_ends pl ps -> like pl pl' -> likep ps ps' -> busy_ends pl' ps'.
Proof. destruct pl, pl'; cbn; try tauto. intros H _ HL. destruct ps, ps'; cbn in *; try contradiction; try discriminate; auto. Qed.

Lemma resp_motion_body mon spy s : responds (motion_body mon spy s).
Proof.
  destruct s as [[pl ps] n]. cbn. apply resp_bind; [apply resp_worker|]. intros tr [[[w|w] pl'] ps'] _; [|apply resp_ret]. destruct (wr_finished w); [|apply resp_ret].
  apply resp_bind; [apply resp_close_all|]. intros tr' [x|x] _; [|apply resp_ret]. apply resp_bind; [apply resp_close_mon|]. intros. apply resp_bind; [apply resp_close_mon|]. intros. apply resp_ret.
Qed.
Lemma resp_motion pl mon spy ps : busy_ends pl ps -> responds (motion pl mon spy ps).
Proof.
  intro HB. unfold motion. apply resp_bind.
  - apply (resp_iter _ (fun s => exists p', snd (fst s) = [p'] /\ busy_ends (fst (fst s)) p')); [intros; apply resp_motion_body| |exists ps; auto].
    intros [[pl1 ps1] n] tr [[pl2 ps2] m] (p' & E & HB1) HX. cbn [fst snd] in *. subst ps1. unfold motion_body in HX.
    destruct (exec_bind_inv _ _ _ _ HX) as [(t1 & t2 & [[r pl3] ps3] & -> & H1 & H2)|[(e & E & _)|(s & E & _)]]; try discriminate E.
    destruct r as [w|e]; [|apply exec_ret_inv in H2; destruct H2 as [_ H2]; discriminate H2].
    assert (HF : wr_finished w = false /\ pl2 = pl3 /\ ps2 = ps3).
    { destruct (wr_finished w) eqn:Ew; [exfalso|apply exec_ret_inv in H2; destruct H2 as [_ H2]; injection H2 as -> -> ->; auto].
      destruct (exec_bind_inv _ _ _ _ H2) as [(t3 & t4 & c & -> & H3 & H4)|[(e & E & _)|(s & E & _)]]; try discriminate E.
      destruct c as [c|c]; [|apply exec_ret_inv in H4; destruct H4 as [_ H4]; discriminate H4].
      destruct (exec_bind_inv _ _ _ _ H4) as [(t5 & t6 & c' & -> & H5 & H6)|[(e & E & _)|(s & E & _)]]; try discriminate E.
      destruct (exec_bind_inv _ _ _ _ H6) as [(t7 & t8 & c'' & -> & H7 & H8)|[(e & E & _)|(s & E & _)]]; try discriminate E.
      apply exec_ret_inv in H8. destruct H8 as [_ H8]. discriminate H8. }
    destruct HF as (Hf & -> & ->).
    pose proof (works_worker (fun _ => True) pl1 mon spy [p'] false (fun _ _ => I) pl1 [p'] (like_refl _) ltac:(constructor; [apply likep_refl|constructor]) _ _ H1) as [_ HW]. cbn [fst snd] in HW.
    destruct HW as [HL HP]. inversion HP as [|? q ? ? HL2 HP2]; subst. inversion HP2; subst. split; [exists q; split; [reflexivity|eapply busy_like; eassumption]|].
    intro Et. apply app_eq_nil in Et. destruct Et as [-> _]. destruct (silent_worker _ _ _ _ _ HB1 H1) as (a & b & Er). injection Er as -> _ _. discriminate Hf.
  - intros tr [[r pl'] ps'] _. apply resp_bind; [apply resp_drop_pull|]. intros. apply resp_bind; [apply resp_drop_pushes|]. intros. apply resp_bind; [apply resp_close_mon|]. intros.
    apply resp_bind; [apply resp_close_mon|]. intros. apply resp_ret.
Qed.
Lemma resp_gate_body spy brk s : responds (gate_body None spy brk s).
Proof.
  destruct s as [[pl ps] n]. cbn. apply resp_bind; [apply resp_worker|]. intros tr [[[w|w] pl'] ps'] _.
  - destruct (wr_finished w); (apply resp_bind; [apply resp_ret|intros; apply resp_ret]).
  - destruct w; try apply resp_ret. destruct brk; try apply resp_ret. apply resp_bind; [apply resp_ret|]. intros. apply resp_ret.
Qed.
Lemma resp_gate pl spy ps : busy_ends pl ps -> responds (start_secret false (Some pl) (Some ps) None spy).
Proof.
  intro HB. unfold start_secret. apply resp_bind.
  - apply (resp_iter _ (fun s => exists p', snd (fst s) = [p'] /\ busy_ends (fst (fst s)) p')); [intros; apply resp_gate_body| |exists ps; auto].
    intros [[pl1 ps1] n] tr [[pl2 ps2] m] (p' & E & HB1) HX. cbn [fst snd] in *. subst ps1. unfold gate_body in HX.
    destruct (exec_bind_inv _ _ _ _ HX) as [(t1 & t2 & [[r pl3] ps3] & -> & H1 & H2)|[(e & E & _)|(s & E & _)]]; try discriminate E.
    assert (HF : (forall a, r <> Ok (WR true a)) /\ pl2 = pl3 /\ ps2 = ps3).
    { cbn [control close_ctl] in H2. rewrite !bind_ret in H2. destruct r as [[[|] rd]|e].
      - apply exec_ret_inv in H2. destruct H2 as [_ H2]. discriminate H2.
      - apply exec_ret_inv in H2. destruct H2 as [_ H2]. injection H2 as -> -> ->. split; [discriminate|auto].
      - destruct e; try (apply exec_ret_inv in H2; destruct H2 as [_ H2]; discriminate H2). destruct (push_brk ps); apply exec_ret_inv in H2; destruct H2 as [_ H2]; try discriminate H2.
        injection H2 as -> -> ->. split; [discriminate|auto]. }
    destruct HF as (Hf & -> & ->).
    pose proof (works_worker (fun _ => True) pl1 mn_empty spy [p'] false (fun _ _ => I) pl1 [p'] (like_refl _) ltac:(constructor; [apply likep_refl|constructor]) _ _ H1) as [_ HW]. cbn [fst snd] in HW.
    destruct HW as [HL HP]. inversion HP as [|? q ? ? HL2 HP2]; subst. inversion HP2; subst. split; [exists q; split; [reflexivity|eapply busy_like; eassumption]|].
    intro Et. apply app_eq_nil in Et. destruct Et as [-> _]. destruct (silent_worker _ _ _ _ _ HB1 H1) as (a & b & Er). injection Er as -> _ _. exact (Hf _ eq_refl).
  - intros tr [[r pl'] ps'] _. apply resp_bind; [apply resp_drop_pushes|]. intros. apply resp_bind; [apply resp_drop_pull|]. intros. apply resp_ret.
Qed.

(** ** The counter of a buffer *)
Lemma resp_is_empty c : responds (is_empty c).
Proof. unfold is_empty. resp_effect. Qed.
Lemma resp_is_closed c : responds (is_closed c).
Proof. unfold is_closed. resp_effect. Qed.
Lemma resp_count_body sender mi mo s : responds (count_body sender mi mo s).
Proof.
  unfold count_body. apply resp_bind.
  { unfold look_in. apply resp_bind; [apply resp_try_recv|]. intros tr [v| |] _; try apply resp_ret. destruct v; try apply resp_panic; apply resp_ret. }
  intros tr [moved size] _. apply resp_bind.
  { unfold look_out. apply resp_bind; [apply resp_try_recv|]. intros tr' [v| |] _; try apply resp_ret. destruct v; try apply resp_panic.
    apply resp_bind; [unfold minus_one; destruct size; [apply resp_panic|apply resp_ret]|]. intros. apply resp_ret. }
  intros tr1 [moved' size'] _. apply resp_bind.
  { unfold report_size. destruct sender; [|apply resp_ret]. destruct (negb _); [|apply resp_ret]. apply resp_bind; [apply resp_send|]. intros. apply resp_ret. }
  intros tr2 [last|] _; [|apply resp_ret]. apply resp_bind.
  { unfold both_over. apply resp_bind; [apply resp_is_empty|]. intros t [] _; cbn [negb]; [|apply resp_ret]. apply resp_bind; [apply resp_is_closed|]. intros t' [] _; cbn [negb]; [|apply resp_ret].
    apply resp_bind; [apply resp_is_empty|]. intros t'' [] _; cbn [negb]; [|apply resp_ret]. apply resp_is_closed. }
  intros tr3 [] _; [apply resp_ret|]. destruct moved'; [apply resp_ret|]. apply resp_bind; [|intros t [] _; apply resp_ret].
  unfold back_off_wait. apply resp_bind; [apply resp_sleep|]. intros. apply resp_ret.
Qed.
Lemma resp_total sender mi mo : responds (total_in_buffer sender mi mo).
Proof.
  unfold total_in_buffer. apply resp_bind.
  - apply (resp_iter _ (fun _ => True)); [intros; apply resp_count_body| |exact I]. intros s tr s' _ HX. split; [exact I|]. intros ->.
    unfold count_body in HX. apply exec_bind_nil in HX. destruct HX as (x & HX & _). unfold look_in in HX. apply exec_bind_nil in HX. destruct HX as (y & HX & _). exact (vis_not_nil _ _ _ HX).
  - intros. apply resp_bind; [apply resp_close|]. intros. apply resp_bind; [apply resp_close|]. intros. apply resp_bind; [destruct sender; [apply resp_close|apply resp_ret]|]. intros. apply resp_ret.
Qed.

(** ** Launches, faucets, drains *)
Lemma resp_spawn cwd vars la : responds (launch_spawn cwd vars la).
Proof. unfold launch_spawn. destruct (la_launched la); [apply resp_panic|]. resp_effect. apply resp_panic. Qed.
Lemma resp_finish la spy r1 r2 r3 : responds (launch_finish la spy r1 r2 r3).
Proof.
  unfold launch_finish. destruct (la_exit_status la) as [[j n]|]; [|apply resp_ret]. apply resp_bind; [|intros tr [x|x] _; apply resp_ret].
  apply (resp_iter _ (fun _ => True)); [|intros i tr i' _ HX; split; [exact I|]; intros ->; exact (vis_not_nil _ _ _ HX)|exact I].
  intros [] _. unfold exit_body. apply resp_vis. intros a Hw. destruct (exit_message a).
  - apply resp_bind; [apply resp_send|]. intros tr [] _; cbn [negb]; [|apply resp_ret].
    assert (K : responds (close (CData n) ;;; Ret (@inr unit (mres unit) (Ok tt)))) by (apply resp_bind; [apply resp_close|intros; apply resp_ret]).
    destruct spy; [|exact K]. destruct (j_port j); [|exact K]. apply resp_bind; [apply resp_send|]. intros t [] _; cbn [negb]; [exact K|apply resp_ret].
  - apply resp_bind; [apply resp_sleep|]. intros. apply resp_ret.
Qed.
Lemma resp_faucet f name ps spy : faucet_ready f name ps -> fc_control f = None -> responds (faucet_start f spy).
Proof.
  intros (H1 & H2 & H3 & H4 & H5) HC. unfold faucet_start. apply resp_bind.
  - unfold faucet_source. destruct (fc_pull_journey f); [|apply resp_ret]. destruct (fc_read_location f); [|apply resp_ret]. destruct (string_dec _ _); resp_effect.
  - intros tr [pl|e] HX; [|apply resp_ret]. rewrite H1, H3, HC. apply resp_gate. unfold faucet_source in HX. rewrite H2 in HX. destruct (fc_pull_journey f); [|contradiction].
    destruct (string_dec _ _); apply exec_vis_inv in HX; destruct HX as [[_ HX]|(a & tr' & _ & Hw & HX)]; try discriminate HX; destruct a; try discriminate Hw; apply exec_ret_inv in HX; destruct HX as [_ HX]; try discriminate HX; injection HX as ->; exact H4.
Qed.
Lemma resp_drain d pj i name : drain_ready d (PlReceiver pj i) name -> responds (drain_start d None).
Proof.
  intros (H1 & H2 & _). unfold drain_start. rewrite H1, H2. apply resp_bind.
  - unfold drain_destination. cbn [pull_journey]. repeat (destruct (string_dec _ _); [first [apply resp_ret|resp_effect]|]). resp_effect.
  - intros tr [ps|e] _; [apply resp_motion; exact I|]. apply resp_bind; [apply resp_drop_pull|]. intros. apply resp_ret.
Qed.
