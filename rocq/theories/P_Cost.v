(** * P_Cost: how much a copying loop does for every message it is given *)
From Coq Require Import Ascii String List Bool Arith Lia.
From Verif Require Import M_Prog P_Prog P_Exec M_Motion M_Regulator S_Trace S_Motion P_Split P_Exec.
Import ListNotations.

(** What an event brings: a message, or some bytes. *)
Definition value (ev : event) : nat :=
  match ev with (ERecv (CData _), AMsg _) | (ETryRecv (CData _), AMsg _) => 1 | (ERead _, AData d) => length d | _ => 0 end.
Definition income (tr : trace) : nat := list_sum (map value tr).
Lemma income_cons ev tr : income (ev :: tr) = value ev + income tr.
Proof. reflexivity. Qed.
Lemma income_app a b : income (a ++ b) = income a + income b.
Proof. unfold income. rewrite map_app, list_sum_app. reflexivity. Qed.

(** With [b] to spend and five more for everything that comes in, the program always has enough; [Q] says what
    is left. *)
Definition cost {A} (b : nat) (p : prog A) (Q : nat -> A -> Prop) : Prop :=
  forall tr st, exec p tr st -> length tr <= b + 5 * income tr /\ match st with Done x => Q (b + 5 * income tr - length tr) x | _ => True end.

Lemma cost_ret {A} b (x : A) (Q : nat -> A -> Prop) : Q b x -> cost b (Ret x) Q.
Proof. intros H tr st HX. apply exec_ret_inv in HX. destruct HX as [-> ->]. cbn. rewrite Nat.add_0_r, Nat.sub_0_r. split; [lia|exact H]. Qed.
Lemma cost_panic {A} b s (Q : nat -> A -> Prop) : cost b (Panic s) Q.
Proof. intros tr st HX. inversion HX; subst. cbn. split; [lia|exact I]. Qed.
Lemma cost_vis {A} b e (k : ans -> prog A) (Q : nat -> A -> Prop) : (forall a, wt e a = true -> 1 <= b + 5 * value (e, a) /\ cost (b + 5 * value (e, a) - 1) (k a) Q) -> cost b (Vis e k) Q.
Proof.
  intros H tr st HX. apply exec_vis_inv in HX. destruct HX as [[-> ->]|(a & tr' & -> & Hw & HX)]; [cbn; split; [lia|exact I]|].
  destruct (H a Hw) as [H1 H2]. destruct (H2 _ _ HX) as [H3 H4]. rewrite income_cons. cbn [length]. split; [lia|]. destruct st; try exact I.
  revert H4. match goal with |- Q ?n _ -> Q ?m _ => replace n with m; [auto|] end. lia.
Qed.
Lemma cost_bind {A B} b (p : prog A) (k : A -> prog B) (Q : nat -> B -> Prop) : cost b p (fun b' x => cost b' (k x) Q) -> cost b (bind p k) Q.
Proof.
  intros H tr st HX. destruct (exec_bind_inv _ _ _ _ HX) as [(t1 & t2 & x & -> & H1 & H2)|[(e & -> & H1)|(s & -> & H1)]].
  - destruct (H _ _ H1) as [H3 H4]. destruct (H4 _ _ H2) as [H5 H6]. rewrite income_app, app_length. split; [lia|]. destruct st; try exact I.
    revert H6. match goal with |- Q ?n _ -> Q ?m _ => replace n with m; [auto|] end. lia.
  - destruct (H _ _ H1). auto.
  - destruct (H _ _ H1). auto.
Qed.
Lemma cost_conseq {A} b (p : prog A) (Q Q' : nat -> A -> Prop) : cost b p Q -> (forall b' x, Q b' x -> Q' b' x) -> cost b p Q'.
Proof. intros H HQ tr st HX. destruct (H _ _ HX) as [H1 H2]. split; [exact H1|]. destruct st; auto. Qed.
Lemma cost_iter {I R} (body : I -> prog (I + R)) (Inv : nat -> I -> Prop) (Q : nat -> R -> Prop) :
  (forall b i, Inv b i -> cost b (body i) (fun b' lr => match lr with inl i' => Inv b' i' | inr r => Q b' r end)) ->
  forall b i, Inv b i -> cost b (iter body i) Q.
Proof.
  intros Hbody b i Hi tr st HX.
  set (kk := fun lr : I + R => match lr with inl i' => Tau (iter body i') | inr r => Ret r end) in *.
  set (W := fun (h : trace) (q : prog (I + R)) => forall t st, exec q t st -> length (h ++ t) <= b + 5 * income (h ++ t) /\
    match st with Done (inl i') => Inv (b + 5 * income (h ++ t) - length (h ++ t)) i' | Done (inr r) => Q (b + 5 * income (h ++ t) - length (h ++ t)) r | _ => True end).
  assert (G : forall p tr st, exec p tr st -> forall q h, p = bind q kk -> W h q ->
       length (h ++ tr) <= b + 5 * income (h ++ tr) /\ match st with Done x => Q (b + 5 * income (h ++ tr) - length (h ++ tr)) x | _ => True end).
  { clear - Hbody. intros p tr st HX.
    induction HX as [x0|s|e k|p' tr' st' HX' IH|e k a tr' st' Hwt HX' IH]; intros q h Hq Hs; rewrite bind_eq in Hq; destruct q as [x|s'|q'|e' f]; try discriminate.
    - destruct x as [i'|r]; cbn in Hq; [discriminate|]. inversion Hq; subst. exact (Hs _ _ (X_ret _)).
    - destruct x as [i'|r]; cbn in Hq; discriminate.
    - inversion Hq; subst. exact (Hs _ _ (X_panic _)).
    - destruct x as [i'|r]; cbn in Hq; discriminate.
    - inversion Hq; subst. exact (Hs _ _ (X_at _ _)).
    - destruct x as [i'|r]; cbn in Hq; [|discriminate]. inversion Hq; subst. apply (IH (body i') h); [apply iter_eq|].
      destruct (Hs _ _ (X_ret _)) as [Hh HI]. rewrite app_nil_r in Hh, HI. intros t st HX. destruct (Hbody _ _ HI _ _ HX) as [H1 H2]. rewrite app_length, income_app.
      split; [lia|]. replace (b + 5 * (income h + income t) - (length h + length t)) with (b + 5 * income h - length h + 5 * income t - length t) by lia. now destruct st as [e|[i2|r]|m].
    - inversion Hq; subst. apply (IH q' h eq_refl). intros t2 s2 H2. exact (Hs _ _ (X_tau _ _ _ H2)).
    - destruct x as [i'|r]; cbn in Hq; discriminate.
    - inversion Hq; subst. change ((e', a) :: tr') with ([(e', a)] ++ tr'). rewrite app_assoc. apply (IH (f a) _ eq_refl). intros t st HX. rewrite <- app_assoc. exact (Hs _ _ (X_vis e' f a _ _ Hwt HX)). }
  apply (G _ _ _ HX (body i) []); [apply iter_eq|]. intros t st' HX'. destruct (Hbody _ _ Hi _ _ HX') as [H1 H2]. split; [exact H1|]. now destruct st' as [e|[i2|r]|m].
Qed.

(** ** Reading *)
Definition hoard (pl : pull) : nat := match pl with PlBytes _ _ _ sc => 4 * length (overflow sc) | PlMock _ q => 4 * length q | _ => 0 end.
Lemma loop_cost f splits c : forall p tr st, exec p tr st -> forall ov start b, p = read_loop f splits ov start -> 4 * length ov + 1 + c <= b ->
  length tr <= b + 5 * income tr /\ match st with
  | Done (Some [], ov') => c <= b + 5 * income tr - length tr
  | Done (Some m, ov') => 4 * length ov' + 4 + c <= b + 5 * income tr - length tr
  | Done (None, _) => c <= b + 5 * income tr - length tr
  | _ => True end.
Proof.
  intros p tr st HX. induction HX as [x0|s|e k|p' tr' st' HX' IH|e k a tr' st' Hwt HX' IH]; intros ov start b Hp Hb; rewrite read_loop_eq in Hp; destruct (scan splits (skipn start ov) start start) as [s' [n|]]; try discriminate Hp.
  - inversion Hp; subst. cbn [income map list_sum fold_right length]. split; [lia|]. assert (HL : length (firstn n ov) + length (skipn n ov) = length ov) by (rewrite <- app_length, firstn_skipn; reflexivity).
    destruct (firstn n ov) as [|x m]; cbn [length] in HL; lia.
  - cbn. split; [lia|exact I].
  - inversion Hp; subst. destruct a as [v| | | | | |d| | | |]; try discriminate Hwt.
    + apply exec_ret_inv in HX'. destruct HX' as [-> ->]. cbn [income map list_sum fold_right length value]. lia.
    + destruct d as [|x d].
      * apply exec_ret_inv in HX'. destruct HX' as [-> ->]. cbn [income map list_sum fold_right length value]. split; [lia|]. destruct ov as [|y ov]; cbn [length] in *; lia.
      * destruct (IH (ov ++ x :: d) s' (b + 5 * S (length d) - 1) eq_refl) as [H1 H2]; [rewrite app_length; cbn [length]; lia|]. rewrite income_cons. cbn [value length]. split; [lia|].
        destruct st' as [e|[[[|y m]|] ov']|m]; try exact I; lia.
Qed.
Definition goes (r : mres worker_result) : bool := match r with Ok w => negb (wr_finished w) | Err (OutputClosed _ _ _) => true | _ => false end.
Lemma read_cost pl c b : hoard pl + 1 + c <= b ->
  cost b (motion_read pl false) (fun b' x => match fst x with Ok (IOData _) => hoard (snd x) + 4 + c <= b' | Ok Skipped => False | Ok Finished => c <= b' | Err e => c <= b' /\ goes (Err e) = false end).
Proof.
  intro Hb. destruct pl as [k j f sc|j n|j q|]; cbn [motion_read].
  - unfold motion_read_buffer. apply cost_bind, cost_bind. intros tr st HX. destruct (loop_cost f (split_at sc) c _ _ _ HX (overflow sc) 0 b eq_refl Hb) as [H1 H2]. split; [exact H1|].
    destruct st as [e|[[m|] ov']|m]; try exact I; apply cost_ret; apply cost_ret; cbn [fst snd hoard overflow]; [|split; [exact H2|reflexivity]]. destruct m as [|x m]; exact H2.
  - unfold recv_data. apply cost_bind, cost_vis. intros a Hw. destruct a as [v| | | | | | | | | |]; try discriminate Hw.
    + cbn [value]. split; [lia|]. destruct v; try discriminate Hw. apply cost_ret, cost_ret. cbn in *. lia.
    + cbn [value] in *. split; [cbn in Hb; lia|]. apply cost_ret, cost_ret. cbn in *. lia.
  - destruct q as [|d q]; apply cost_ret; cbn in *; lia.
  - apply cost_ret. cbn in *. repeat split; lia.
Qed.

(** ** Writing, telling and closing: one event each, at most *)
Ltac one_event := apply cost_vis; let a := fresh "a" in let Hw := fresh "Hw" in intros a Hw; (split; [cbn [value]; lia|]); destruct a; try discriminate Hw; repeat apply cost_ret; cbn [value]; try lia.
Lemma write_cost p d c b : c + 1 <= b -> cost b (motion_write p d) (fun b' _ => c <= b').
Proof.
  intro Hb. destruct p; cbn [motion_write]; try (apply cost_ret; lia); apply cost_bind.
  - unfold write_all. one_event.
  - unfold send. one_event.
  - unfold send. one_event.
Qed.

Lemma wwrite_cost d p c b : c + 1 <= b -> cost b (worker_write (IOData d) p) (fun b' x => c <= b').
Proof.
  intro Hb. unfold worker_write. destruct (push_brk p); apply cost_bind; (eapply cost_conseq; [apply (write_cost p d c b Hb)|]); intros b' [r p'] H; apply cost_ret; exact H.
Qed.
Lemma pushes_cost d p c b n : c + 1 <= b -> cost b (worker_pushes None (IOData d) [p] n) (fun b' x => c <= b' /\ length (snd x) = 1).
Proof.
  intro Hb. cbn [worker_pushes]. apply cost_bind. eapply cost_conseq; [apply (wwrite_cost d p c b Hb)|]. intros b' [r p'] H1.
  destruct r as [dec|e]; [|apply cost_ret; cbn; now split].
  cbn [worker_spy bind]. apply cost_bind, cost_ret. apply cost_bind, cost_ret. apply cost_ret. cbn. now split.
Qed.
Lemma last_pushes p b : cost b (worker_pushes None Finished [p] 1) (fun b' x => b' = b /\ x = (Ok 1, [p])).
Proof.
  cbn [worker_pushes]. apply cost_bind. unfold worker_write. destruct (push_brk p); apply cost_ret; apply cost_bind; cbn [worker_spy]; apply cost_ret; apply cost_bind, cost_ret, cost_ret; now split.
Qed.
Lemma notify_cost m v p onerr c b : c + 1 <= b -> cost b (notify m v p onerr) (fun b' x => c <= b' /\ forall e, x = Err e -> exists j, e = onerr j).
Proof.
  intro Hb. destruct m as [m|]; cbn [notify]; [|apply cost_ret; split; [lia|discriminate]]. apply cost_bind. unfold send. apply cost_vis. intros a Hw. split; [cbn [value]; lia|].
  destruct a; try discriminate Hw; apply cost_ret; cbn [value].
  - destruct (pull_journey p); [apply cost_ret; split; [lia|]; intros e E; injection E as <-; eauto|apply cost_panic].
  - apply cost_ret. split; [lia|discriminate].
Qed.
Lemma worker_cost pl mon p c b : hoard pl + 3 + c <= b ->
  cost b (motion_worker pl mon [p] None false) (fun b' x => let '(r, pl', pushs') := x in length pushs' = 1 /\ c <= b' /\ (goes r = true -> hoard pl' + 3 + c <= b')).
Proof.
  intro Hb. unfold motion_worker. apply cost_bind. eapply cost_conseq; [apply (read_cost pl (2 + c)); lia|]. intros b1 [r pl'] H. cbn [fst snd] in H. cbn beta iota.
  destruct r as [[d| |]|e]; [| |contradiction H|].
  - apply cost_bind. eapply cost_conseq; [apply (notify_cost _ _ _ _ (hoard pl' + 5 + c)); lia|]. intros b2 [u|e] [H2 He]; [|apply cost_ret; split; [reflexivity|]; split; [lia|]; destruct (He _ eq_refl) as (j & ->); discriminate].
    apply cost_bind. eapply cost_conseq; [apply (pushes_cost _ _ (hoard pl' + 4 + c)); lia|]. intros b3 [[n|e] pushs'] [H3 H4]; cbn [snd] in H4; [|apply cost_ret; split; [exact H4|]; split; intros; lia].
    apply cost_bind. eapply cost_conseq; [apply (notify_cost _ _ _ _ (hoard pl' + 3 + c)); lia|]. intros b4 [u'|e] [H5 He5]; apply cost_ret; (split; [exact H4|]); split; intros; lia.
  - apply cost_bind. eapply cost_conseq; [apply (notify_cost _ _ _ _ (1 + c)); lia|]. intros b2 [u|e] [H2 He]; [|apply cost_ret; split; [reflexivity|]; split; [lia|]; destruct (He _ eq_refl) as (j & ->); discriminate].
    apply cost_bind. eapply cost_conseq; [apply last_pushes|]. intros b3 x [-> ->]. apply cost_bind. eapply cost_conseq; [apply (notify_cost _ _ _ _ c); lia|].
    intros b4 [u'|e] [H5 He5]; apply cost_ret; (split; [reflexivity|]); (split; [exact H5|]); [discriminate|]. destruct (He5 _ eq_refl) as (j & ->). discriminate.
  - apply cost_ret. split; [reflexivity|]. destruct H as [H ->]. split; [lia|]. discriminate.
Qed.

Lemma close_mon_cost m c b : c + 1 <= b -> cost b (close_mon m) (fun b' _ => c <= b').
Proof. intro Hb. destruct m; cbn [close_mon]; [unfold close; one_event|apply cost_ret; lia]. Qed.
Lemma drop_pull_cost p c b : c + 1 <= b -> cost b (drop_pull p) (fun b' _ => c <= b').
Proof. intro Hb. destruct p; cbn [drop_pull]; [unfold drop_fd|unfold close| |]; try one_event; apply cost_ret; lia. Qed.
Lemma drop_push_cost p c b : c + 1 <= b -> cost b (drop_push p) (fun b' _ => c <= b').
Proof. intro Hb. destruct p; cbn [drop_push]; try (unfold drop_fd, close; one_event); apply cost_ret; lia. Qed.
Lemma drop_pushes_cost l c b : length l = 1 -> c + 1 <= b -> cost b (drop_pushes l) (fun b' _ => c <= b').
Proof.
  destruct l as [|p [|q l]]; try discriminate. intros _ Hb. cbn [drop_pushes]. apply cost_bind. eapply cost_conseq; [apply (drop_push_cost p c b Hb)|]. intros b' [] H. apply cost_ret. exact H.
Qed.
Lemma close_cost p c b : c + 1 <= b -> cost b (motion_close p) (fun b' _ => c <= b').
Proof. intro Hb. destruct p; cbn [motion_close]; try (apply cost_ret; lia); apply cost_bind; unfold flush, close; one_event. Qed.
Lemma close_all_cost l c b : length l = 1 -> c + 1 <= b -> cost b (close_all l) (fun b' _ => c <= b').
Proof.
  destruct l as [|p [|q l]]; try discriminate. intros _ Hb. cbn [close_all]. apply cost_bind. eapply cost_conseq; [apply (close_cost p c b Hb)|]. intros b' [u|e] H; apply cost_ret; exact H.
Qed.
Lemma motion_cost pl mon ps b : hoard pl + 11 <= b -> cost b (motion pl mon None ps) (fun _ _ => True).
Proof.
  intro Hb. unfold motion. apply cost_bind.
  apply (cost_iter (motion_body mon None) (fun b s => let '(pl, pushs, _) := s in length pushs = 1 /\ hoard pl + 11 <= b)); [|now split].
  clear. intros b [[pl pushs] n] [HL Hb]. destruct pushs as [|p [|q l]]; try discriminate. unfold motion_body. apply cost_bind. eapply cost_conseq; [apply (worker_cost pl mon p 8); lia|].
  assert (End : forall (r : mres nat) pl' pushs' b', length pushs' = 1 -> 4 <= b' -> cost b' (drop_pull pl' ;;; drop_pushes pushs' ;;; close_mon (mon_read mon) ;;; close_mon (mon_written mon) ;;; Ret r) (fun _ _ => True)).
  { clear. intros r pl' pushs' b HL Hb. apply cost_bind. eapply cost_conseq; [apply (drop_pull_cost _ 3); lia|]. intros b1 u1 H1; cbv beta in H1. apply cost_bind. eapply cost_conseq; [apply (drop_pushes_cost _ 2); [exact HL|lia]|].
    intros b2 u2 H2; cbv beta in H2. apply cost_bind. eapply cost_conseq; [apply (close_mon_cost _ 1); lia|]. intros b3 u3 H3; cbv beta in H3. apply cost_bind. eapply cost_conseq; [apply (close_mon_cost _ 0); lia|]. intros b4 u4 H4; cbv beta in H4. now apply cost_ret. }
  intros b1 [[r pl'] pushs'] (H1 & H2 & H3). destruct r as [w|e].
  - cbn [goes] in H3. destruct (wr_finished w).
    + apply cost_bind. eapply cost_conseq; [apply (close_all_cost _ 7); [exact H1|lia]|]. intros b2 [u|e] H4; cbv beta in H4; [|apply cost_ret; apply End; [exact H1|lia]].
      apply cost_bind. eapply cost_conseq; [apply (close_mon_cost _ 6); lia|]. intros b3 u3 H5; cbv beta in H5. apply cost_bind. eapply cost_conseq; [apply (close_mon_cost _ 5); lia|]. intros b4 u4 H6; cbv beta in H6. apply cost_ret. apply End; [exact H1|lia].
    + apply cost_ret. split; [exact H1|]. specialize (H3 eq_refl). lia.
  - apply cost_ret. apply End; [exact H1|lia].
Qed.
Lemma gate_cost pl ps b : hoard pl + 5 <= b -> cost b (start_secret false (Some pl) (Some ps) None None) (fun _ _ => True).
Proof.
  intro Hb. cbn [start_secret]. apply cost_bind.
  apply (cost_iter (gate_body None None (push_brk ps)) (fun b s => let '(pl, pushs, _) := s in length pushs = 1 /\ hoard pl + 5 <= b)); [|now split].
  generalize (push_brk ps). clear. intros brk b [[pl pushs] n] [HL Hb]. destruct pushs as [|p [|q l]]; try discriminate. unfold gate_body. apply cost_bind. eapply cost_conseq; [apply (worker_cost pl mn_empty p 2); lia|].
  assert (End : forall (r : mres nat) pl' pushs' b', length pushs' = 1 -> 2 <= b' -> cost b' (drop_pushes pushs' ;;; drop_pull pl' ;;; Ret r) (fun _ _ => True)).
  { clear. intros r pl' pushs' b HL Hb. apply cost_bind. eapply cost_conseq; [apply (drop_pushes_cost _ 1); [exact HL|lia]|]. intros b2 u2 H2; cbv beta in H2. apply cost_bind. eapply cost_conseq; [apply (drop_pull_cost _ 0); lia|]. intros b1 u1 H1; cbv beta in H1. now apply cost_ret. }
  intros b1 [[r pl'] pushs'] (H1 & H2 & H3). destruct r as [w|e].
  - cbn [goes] in H3. destruct (wr_finished w); cbn [close_ctl control].
    + apply cost_bind, cost_ret, cost_ret. now apply End.
    + apply cost_bind, cost_ret, cost_ret. split; [exact H1|]. specialize (H3 eq_refl). lia.
  - destruct e; try (apply cost_ret; now apply End). destruct brk; try (apply cost_ret; now apply End). cbn [control]. apply cost_bind, cost_ret, cost_ret. split; [exact H1|]. specialize (H3 eq_refl). lia.
Qed.
