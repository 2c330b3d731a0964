(** * P_Patient: nobody gives up before its input has ended, unless something went wrong *)
From Coq Require Import Ascii String List Bool Arith Lia.
From Verif Require Import M_Prog P_Prog P_Exec M_Motion M_Regulator S_Trace S_Motion P_Split P_Phase P_Conduit P_Cost.
Import ListNotations.

(** Something went wrong: an error, a broken pipe, or a channel found closed by a sender. *)
Definition amiss (ev : event) : bool :=
  match ev with (EStatus, AErr) => false | (_, AErr) | (_, ABroken) | (ESend _ _, AClosed) => true | _ => false end.
Definition fault (tr : trace) : Prop := exists ev, In ev tr /\ amiss ev = true.
Lemma fault_app a b : fault a -> fault (a ++ b).
Proof. intros (ev & H1 & H2). exists ev. split; [apply in_or_app; now left|exact H2]. Qed.
Lemma fault_last a ev : amiss ev = true -> fault (a ++ [ev]).
Proof. intro H. exists ev. split; [apply in_or_app; right; now left|exact H]. Qed.

Definition sure {A} (h : trace) (p : prog A) (Q : trace -> A -> Prop) : Prop := tsat h p (fun _ _ => True) Q.
Lemma sure_ret {A} h (x : A) (Q : trace -> A -> Prop) : Q h x -> sure h (Ret x) Q.
Proof. apply tsat_ret. Qed.
Lemma sure_bind {A B} h (p : prog A) (k : A -> prog B) (Q : trace -> B -> Prop) : sure h p (fun h' x => sure h' (k x) Q) -> sure h (bind p k) Q.
Proof. apply tsat_bind. Qed.
Lemma sure_conseq {A} h (p : prog A) (Q Q' : trace -> A -> Prop) : sure h p Q -> (forall h' x, Q h' x -> Q' h' x) -> sure h p Q'.
Proof. apply tsat_conseq. Qed.
Lemma sure_vis {A} h e (k : ans -> prog A) (Q : trace -> A -> Prop) : (forall a, wt e a = true -> sure (h ++ [(e, a)]) (k a) Q) -> sure h (Vis e k) Q.
Proof.
  intros H tr st HX. apply exec_vis_inv in HX. destruct HX as [[-> ->]|(a & tr' & -> & Hw & HX)]; [exact I|].
  pose proof (H a Hw _ _ HX) as K. rewrite <- app_assoc in K. exact K.
Qed.
Lemma sure_panic {A} h s (Q : trace -> A -> Prop) : sure h (Panic s) Q.
Proof. intros tr st HX. inversion HX; subst. exact I. Qed.
Lemma tsat_sure {A} h (p : prog A) (N : trace -> eff -> Prop) (P : eff -> Prop) (Q : A -> Prop) (Q' : trace -> A -> Prop) :
  works P Q p -> (forall h e, P e -> N h e) -> sure h p Q' -> tsat h p N (fun h' x => Q x /\ Q' h' x).
Proof. intros HW HN HS tr st HX. destruct (HW _ _ HX) as [_ H1]. pose proof (HS _ _ HX) as H2. destruct st; auto. Qed.

Definition pull_end (pl : pull) (tr : trace) : Prop := match pl with PlReceiver _ n => saw_end (CData n) tr | _ => True end.
Lemma pull_end_app pl a b : pull_end pl a -> pull_end pl (a ++ b).
Proof. destruct pl; cbn; auto. intros [H|H]; [left|right]; apply in_or_app; now left. Qed.

Definition ext (h h' : trace) : Prop := exists t, h' = h ++ t.
Lemma sure_ext {A} h (p : prog A) (Q : trace -> A -> Prop) : sure h p Q -> sure h p (fun h' x => ext h h' /\ Q h' x).
Proof. intros H tr st HX. pose proof (H _ _ HX) as K. destruct st; auto. split; [now exists tr|exact K]. Qed.
Lemma ext_end pl h h' : ext h h' -> pull_end pl h -> pull_end pl h'.
Proof. intros [t ->]. apply pull_end_app. Qed.

(** ** A turn of the loop *)
Lemma read_sure pl h : sure h (motion_read pl false) (fun h' x => (fault h -> fault h') /\ match fst x with Ok Finished => pull_end pl h' | Err _ => fault h' | _ => True end).
Proof.
  destruct pl as [k j f sc|j n|j q|]; cbn [motion_read].
  - unfold motion_read_buffer. apply sure_bind, sure_bind.
    assert (K : forall p tr st, exec p tr st -> forall ov start h, p = read_loop f (split_at sc) ov start -> (fault h -> fault (h ++ tr)) /\ forall ov', st = Done (None, ov') -> fault (h ++ tr)).
    { clear. intros p tr st HX. induction HX as [x0|s|e k|p' tr' st' HX' IH|e k a tr' st' Hwt HX' IH]; intros ov start h Hp; rewrite read_loop_eq in Hp; destruct (scan (split_at sc) (skipn start ov) start start) as [s' [n|]]; try discriminate Hp.
      - inversion Hp; subst. split; [apply fault_app|]. intros ov' E. injection E as E _. discriminate E.
      - split; [apply fault_app|discriminate].
      - split; [apply fault_app|]. inversion Hp; subst. destruct a as [v| | | | | |d| | | |]; try discriminate Hwt.
        + intros. apply (fault_app (h ++ [(ERead f, AErr)]) tr') in H || idtac. replace (h ++ (ERead f, AErr) :: tr') with ((h ++ [(ERead f, AErr)]) ++ tr') by now rewrite <- app_assoc. apply fault_app, fault_last. reflexivity.
        + replace (h ++ (ERead f, AData d) :: tr') with ((h ++ [(ERead f, AData d)]) ++ tr') by now rewrite <- app_assoc. destruct d as [|x d].
          * apply exec_ret_inv in HX'. destruct HX' as [-> ->]. discriminate.
          * apply (IH _ _ _ eq_refl). }
    intros tr st HX. destruct (K _ _ _ HX (overflow sc) 0 h eq_refl) as [K1 K2]. destruct st as [e|[[m|] ov']|s]; try exact I.
    + apply sure_ret, sure_ret. cbn [fst]. split; [exact K1|]. now destruct m.
    + apply sure_ret, sure_ret. cbn [fst]. split; [exact K1|]. eauto.
  - unfold recv_data. apply sure_bind, sure_vis. intros a Hw. destruct a as [v| | | | | | | | | |]; try discriminate Hw.
    + destruct v; try discriminate Hw. apply sure_ret, sure_ret. split; [apply fault_app|exact I].
    + apply sure_ret, sure_ret. split; [apply fault_app|]. cbn. left. apply in_or_app. right. now left.
  - destruct q; apply sure_ret; cbn; auto.
  - apply sure_ret. cbn; auto.
Qed.
Lemma write_sure p d h : sure h (motion_write p d) (fun h' x => (fault h -> fault h') /\ match fst x with Err _ => fault h' | _ => True end).
Proof.
  destruct p; cbn [motion_write]; try (apply sure_ret; cbn; auto); apply sure_bind; unfold send, write_all; apply sure_vis; intros a Hw; destruct a; try discriminate Hw; apply sure_ret, sure_ret; (split; [apply fault_app|]); cbn; try exact I; now apply fault_last.
Qed.
Lemma wwrite_sure data p h : sure h (worker_write data p) (fun h' x => (fault h -> fault h') /\ match fst x with Err _ | Ok true => fault h' | _ => True end).
Proof.
  unfold worker_write. destruct (push_brk p), data as [d| |]; try (apply sure_ret; cbn; auto); apply sure_bind; (eapply sure_conseq; [apply (write_sure p d h)|]); intros h' [r p'] [H1 H2]; apply sure_ret; (split; [exact H1|]); cbn [fst] in *; destruct r as [|[]]; cbn; auto.
Qed.
Lemma pushes_sure data p h : sure h (worker_pushes None data [p] 1) (fun h' x => (fault h -> fault h') /\ match fst x with Err _ | Ok 0 => fault h' | _ => True end).
Proof.
  cbn [worker_pushes]. apply sure_bind. eapply sure_conseq; [apply (wwrite_sure data p h)|]. intros h' [r p'] [H1 H2]. cbn [fst] in H2.
  destruct r as [dec|e]; [|apply sure_ret; cbn; auto]. cbn [worker_spy]. apply sure_bind, sure_ret. apply sure_bind, sure_ret. apply sure_ret. split; [exact H1|]. cbn. destruct dec; auto.
Qed.
Lemma notify_sure m v p onerr h : sure h (notify m v p onerr) (fun h' x => (fault h -> fault h') /\ match x with Err _ => fault h' | _ => True end).
Proof.
  destruct m as [m|]; cbn [notify]; [|apply sure_ret; auto]. apply sure_bind. unfold send. apply sure_vis. intros a Hw. destruct a; try discriminate Hw; apply sure_ret.
  - destruct (pull_journey p); [apply sure_ret; split; [apply fault_app|now apply fault_last]|apply sure_panic].
  - apply sure_ret. split; [apply fault_app|exact I].
Qed.
Lemma worker_sure pl mon p h : sure h (motion_worker pl mon [p] None false) (fun h' x => let '(r, _, _) := x in (fault h -> fault h') /\ match r with Ok w => wr_finished w = true -> pull_end pl h' \/ fault h' | Err _ => fault h' end).
Proof.
  unfold motion_worker. apply sure_bind. eapply sure_conseq; [apply (read_sure pl h)|]. intros h1 [r pl'] [F1 H1]. cbn [fst] in H1.
  destruct r as [data|e]; [|apply sure_ret; auto].
  assert (K : data <> Skipped -> sure h1 (nr <- notify (mon_read mon) VRead pl' (fun j => MonitorReadError (pj_src j)) ;;
    match nr with
    | Err e => Ret (Err e, pl', [p])
    | Ok _ =>
      ' (wr, pushs') <- worker_pushes None data [p] (length [p]) ;;
      match wr with
      | Err e => Ret (Err e, pl', pushs')
      | Ok unfinished =>
        nw <- notify (mon_written mon) VWrote pl' MonitorWriteError ;;
        match nw with
        | Err e => Ret (Err e, pl', pushs')
        | Ok _ => Ret (Ok (WR (if unfinished =? 0 then true else is_finished data) true), pl', pushs')
        end
      end
    end) (fun h' x => let '(r, _, _) := x in (fault h -> fault h') /\ match r with Ok w => wr_finished w = true -> pull_end pl h' \/ fault h' | Err _ => fault h' end)).
  { intro Hs. apply sure_bind. eapply sure_conseq; [apply sure_ext, notify_sure|]. intros h2 [u|e] [E2 [F2 H2]]; [|apply sure_ret; auto].
    apply sure_bind. eapply sure_conseq; [apply sure_ext, pushes_sure|]. intros h3 [wr pushs'] [E3 [F3 H3]]. cbn [fst] in H3. destruct wr as [un|e]; [|apply sure_ret; auto].
    apply sure_bind. eapply sure_conseq; [apply sure_ext, notify_sure|]. intros h4 [u'|e] [E4 [F4 H4]]; [|apply sure_ret; auto]. apply sure_ret. split; [auto|]. cbn [wr_finished].
    destruct un as [|un]; cbn [Nat.eqb]; [auto|]. destruct data; try discriminate. intros _. left. exact (ext_end _ _ _ E4 (ext_end _ _ _ E3 (ext_end _ _ _ E2 H1))). }
  destruct data; try (apply K; discriminate). apply sure_ret. split; [auto|discriminate].
Qed.

(** ** Motions *)
Definition leave (pl : pull) (ps : push) (h : trace) (e : eff) : Prop :=
  match e with EClose (CData n) => (In n (push_chans ps) \/ saw_end (CData n) h \/ fault h) /\ (pull_end pl h \/ fault h) | _ => True end.
Definition leavable (pl : pull) (h : trace) : Prop := pull_end pl h \/ fault h.
Lemma leavable_app pl a b : leavable pl a -> leavable pl (a ++ b).
Proof. intros [H|H]; [left; now apply pull_end_app|right; now apply fault_app]. Qed.
Lemma leave_end pl mon ps h e : end_eff pl mon [ps] e -> leavable pl h -> leave pl ps h e.
Proof.
  intros [H|[(q & [<-|[]] & H)|(m & _ & ->)]] HL; [| |exact I].
  - destruct pl; try contradiction H; subst e; [exact I|]. cbn. split; [right|]; exact HL.
  - destruct ps; try contradiction H; [destruct H as [->| ->]; exact I|subst e; split; [left; now left|exact HL]..].
Qed.
Lemma lift_leave {A} pl mon ps (Q : A -> Prop) p h (F : Prop) : works (end_eff pl mon [ps]) Q p -> leavable pl h -> (F -> fault h) ->
  tsat h p (leave pl ps) (fun h' x => leavable pl h' /\ (F -> fault h') /\ Q x).
Proof.
  intros HW HL HF tr st HX. destruct (HW _ _ HX) as [_ H]. destruct st; [|split; [now apply leavable_app|]; split; [intro K; apply fault_app; auto|exact H]|exact I].
  apply (leave_end pl mon); [exact H|now apply leavable_app].
Qed.
Lemma close_sure l h : sure h (close_all l) (fun h' x => match x with Err _ => fault h' | Ok _ => True end).
Proof.
  revert h. induction l as [|p l IH]; intro h; cbn [close_all]; [now apply sure_ret|]. apply sure_bind.
  assert (K : sure h (motion_close p) (fun h' x => match x with Err _ => fault h' | Ok _ => True end)).
  { destruct p; cbn [motion_close]; try (now apply sure_ret); apply sure_bind; unfold flush, close; apply sure_vis; intros a Hw; destruct a; try discriminate Hw; apply sure_ret, sure_ret; try exact I; now apply fault_last. }
  eapply sure_conseq; [exact K|]. intros h' [u|e] H; [apply IH|now apply sure_ret].
Qed.
Lemma worker_leave pl0 mon ps0 pl ps h : like pl0 pl -> likep ps0 ps ->
  tsat h (motion_worker pl mon [ps] None false) (leave pl0 ps0) (fun h' x => let '(r, pl', ps') := x in like pl0 pl' /\ (exists ps1, ps' = [ps1] /\ likep ps0 ps1) /\ match r with Ok w => wr_finished w = true -> leavable pl0 h' | Err _ => fault h' end).
Proof.
  intros HL HP tr st HX. pose proof (works_worker (fun e => ~ closing_eff e) pl0 mon None [ps0] false (work_not_closing _ _ _ _ _) pl [ps] HL (Forall2_cons _ _ HP (Forall2_nil _)) _ _ HX) as [_ H1].
  pose proof (worker_sure pl mon ps h _ _ HX) as H2. destruct st as [e|[[r pl'] ps']|s]; [|cbn [fst snd] in *|exact I].
  - destruct e; cbn in *; try exact I. now destruct H1.
  - destruct H1 as [K1 K2]. destruct H2 as [_ H2]. split; [exact K1|]. split.
    + inversion K2 as [|? q ? ? Q1 Q2]; subst. inversion Q2; subst. now exists q.
    + destruct r as [w|e]; [|exact H2]. intro E. destruct (H2 E) as [K|K]; [left|now right]. destruct pl0, pl; cbn in HL, K |- *; try contradiction; auto. destruct HL as [_ ->]. exact K.
Qed.
Definition loop_post (pl : pull) (ps : push) (h : trace) (x : mres nat * pull * list push) : Prop :=
  let '(r, pl', ps') := x in leavable pl h /\ ((exists e, r = Err e) -> fault h) /\ like pl pl' /\ (exists ps1, ps' = [ps1] /\ likep ps ps1).
Lemma motion_leave pl mon ps : tsat [] (motion pl mon None ps) (leave pl ps) (fun h r => (exists e, r = Err e) -> fault h).
Proof.
  unfold motion. apply tsat_bind. eapply tsat_conseq.
  - apply (tsat_iter _ (fun _ s => like pl (fst (fst s)) /\ exists ps1, snd (fst s) = [ps1] /\ likep ps ps1) (leave pl ps) (loop_post pl ps)).
    + intros h [[pl' ps'] n] [H1 (ps1 & H2 & H3)]. cbn [fst snd] in H1, H2. subst ps'. unfold motion_body. apply tsat_bind. eapply tsat_conseq; [apply worker_leave; eassumption|].
      intros h' [[r pl2] ps2] (K1 & K2 & K3). destruct r as [w|e].
      2:{ apply tsat_ret. split; [now right|]. auto. }
      destruct (wr_finished w); [|apply tsat_ret; cbn; auto]. apply tsat_bind.
      assert (HC : tsat h' (close_all ps2) (leave pl ps) (fun h2 x => leavable pl h2 /\ match x with Err _ => fault h2 | Ok _ => True end)).
      { intros tr st HX. pose proof (close_sure ps2 h' _ _ HX) as S1. destruct K2 as (q & -> & Hq).
        pose proof (lift_leave pl mon ps (fun _ => True) (close_all [q]) h' False (works_close_all _ pl mon [ps] (fun e H => H) [ps] [q] (incl_refl _) (Forall2_cons _ _ Hq (Forall2_nil _))) (K3 eq_refl) (fun x => match x with end) _ _ HX) as S2.
        destruct st; auto. split; [apply S2|exact S1]. }
      eapply tsat_conseq; [exact HC|]. intros h2 [u|e] [L1 L2]; [|apply tsat_ret; split; [now right|]; auto].
      apply tsat_bind. eapply tsat_conseq; [apply (lift_leave pl mon ps (fun _ => True) _ _ False); [eapply works_close_mon; [intros e H; exact H|now left]|exact L1|intros []]|]. intros h3 _ (M1 & _).
      apply tsat_bind. eapply tsat_conseq; [apply (lift_leave pl mon ps (fun _ => True) _ _ False); [eapply works_close_mon; [intros e H; exact H|now right]|exact M1|intros []]|]. intros h4 _ (N1 & _).
      apply tsat_ret. split; [exact N1|]. split; [intros [e E]; discriminate E|auto].
    + split; [apply like_refl|]. exists ps. split; [reflexivity|apply likep_refl].
  - intros h [[r pl'] ps'] (H1 & H2 & H3 & ps1 & -> & H4).
    apply tsat_bind. eapply tsat_conseq; [apply (lift_leave pl mon ps (fun _ => True) _ _ (exists e, r = Err e)); [eapply works_drop_pull; [intros e H; exact H|exact H3]|exact H1|exact H2]|]. intros h1 _ (K1 & K2 & _).
    apply tsat_bind. eapply tsat_conseq; [apply (lift_leave pl mon ps (fun _ => True) _ _ (exists e, r = Err e)); [eapply works_drop_pushes with (qs := [ps]); [intros e H; exact H|apply incl_refl|constructor; [exact H4|constructor]]|exact K1|exact K2]|]. intros h2 _ (L1 & L2 & _).
    apply tsat_bind. eapply tsat_conseq; [apply (lift_leave pl mon ps (fun _ => True) _ _ (exists e, r = Err e)); [eapply works_close_mon; [intros e H; exact H|now left]|exact L1|exact L2]|]. intros h3 _ (M1 & M2 & _).
    apply tsat_bind. eapply tsat_conseq; [apply (lift_leave pl mon ps (fun _ => True) _ _ (exists e, r = Err e)); [eapply works_close_mon; [intros e H; exact H|now right]|exact M1|exact M2]|]. intros h4 _ (N1 & N2 & _).
    apply tsat_ret. exact N2.
Qed.
Lemma gate_leave pl ps : tsat [] (start_secret false (Some pl) (Some ps) None None) (leave pl ps) (fun h r => (exists e, r = Err e) -> fault h).
Proof.
  unfold start_secret. apply tsat_bind. eapply tsat_conseq.
  - apply (tsat_iter _ (fun _ s => like pl (fst (fst s)) /\ exists ps1, snd (fst s) = [ps1] /\ likep ps ps1) (leave pl ps) (loop_post pl ps)).
    + intros h [[pl' ps'] n] [H1 (ps1 & H2 & H3)]. cbn [fst snd] in H1, H2. subst ps'. unfold gate_body. apply tsat_bind. eapply tsat_conseq; [apply worker_leave; eassumption|].
      intros h' [[r pl2] ps2] (K1 & K2 & K3). destruct r as [w|e].
      * destruct (wr_finished w); cbn; apply tsat_bind, tsat_ret, tsat_ret; [|cbn; auto]. split; [auto|]. split; [intros [e E]; discriminate E|auto].
      * assert (HR : forall x, tsat h' (Ret (inr (x, pl2, ps2))) (leave pl ps) (fun h'0 (lr : motion_state + mres nat * pull * list push) => match lr with inl i' => like pl (fst (fst i')) /\ (exists ps1, snd (fst i') = [ps1] /\ likep ps ps1) | inr r => loop_post pl ps h'0 r end)).
        { intro x. apply tsat_ret. split; [now right|]. auto. }
        destruct e; try apply HR. destruct (push_brk ps); [apply HR|apply HR|]. apply tsat_bind, tsat_ret, tsat_ret. cbn. auto.
    + split; [apply like_refl|]. exists ps. split; [reflexivity|apply likep_refl].
  - intros h [[r pl'] ps'] (H1 & H2 & H3 & ps1 & -> & H4).
    apply tsat_bind. eapply tsat_conseq; [apply (lift_leave pl mn_empty ps (fun _ => True) _ _ (exists e, r = Err e)); [eapply works_drop_pushes with (qs := [ps]); [intros e H; exact H|apply incl_refl|constructor; [exact H4|constructor]]|exact H1|exact H2]|]. intros h2 _ (L1 & L2 & _).
    apply tsat_bind. eapply tsat_conseq; [apply (lift_leave pl mn_empty ps (fun _ => True) _ _ (exists e, r = Err e)); [eapply works_drop_pull; [intros e H; exact H|exact H3]|exact L1|exact L2]|]. intros h1 _ (K1 & K2 & _).
    apply tsat_ret. exact K2.
Qed.
