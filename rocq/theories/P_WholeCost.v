(** * P_WholeCost: how much is done in a pipeline with controllers, apart from looking and waiting *)
From Coq Require Import Ascii String List Bool Arith Lia.
From Verif Require Import M_Prog P_Prog P_Exec M_Motion M_BackOff M_Utils M_Regulator M_Manager M_Faucet M_Drain M_Buffer M_Junction M_Launch M_Join M_Waiter S_Trace S_Lines S_Motion S_World S_Launch S_Regulator S_Drain S_Buffer S_Junction S_Network S_Net M_Start S_Start S_Watch S_Delay S_Lasting
  P_Phase P_Reach P_Read P_Split P_World P_Counter P_Buffer P_BufferRun P_Cost P_NetCost P_NetMoves P_Net P_WatchRun P_WatchMarks P_Link P_Delay P_Network P_Manager P_Skim P_Control P_Prefix P_Conduit P_Whole P_Act.
Import ListNotations.

Definition fwds (tr : trace) : nat := length (filter forward tr).
Lemma fwds_app a b : fwds (a ++ b) = fwds a + fwds b.
Proof. unfold fwds. now rewrite filter_app, app_length. Qed.
Lemma fwds_cons ev tr : fwds (ev :: tr) = (if forward ev then 1 else 0) + fwds tr.
Proof. unfold fwds. cbn [filter]. now destruct (forward ev). Qed.
Lemma fwds_uses tr : fwds tr <= uses tr.
Proof. induction tr as [|ev tr IH]; [reflexivity|]. rewrite fwds_cons, uses_cons. unfold forward. destruct (useful ev); cbn [andb]; [|lia]. match goal with |- (if ?x then _ else _) + _ <= _ => destruct x end; lia. Qed.

(** ** A gate that is told to pause *)
Lemma calm_worker_cost pl p c b : hoard pl + 3 + c <= b ->
  cost b (motion_worker pl mn_empty [p] None false) (fun b' x => let '(r, pl', pushs') := x in length pushs' = 1 /\ c <= b' /\ (goes r = true -> hoard pl' + 5 + c <= b')).
Proof.
  intro Hb. unfold motion_worker. apply cost_bind. eapply cost_conseq; [apply (read_cost pl (2 + c)); lia|]. intros b1 [r pl'] H. cbn [fst snd] in H. cbn beta iota.
  destruct r as [[d| |]|e]; [| |contradiction H|].
  - cbn [mn_empty mon_read mon_written notify bind]. apply cost_bind, cost_ret. apply cost_bind. eapply cost_conseq; [apply (pushes_cost _ _ (hoard pl' + 5 + c)); lia|]. intros b3 [[n|e] pushs'] [H3 H4]; cbn [snd] in H4; [|apply cost_ret; split; [exact H4|]; split; intros; lia].
    apply cost_bind, cost_ret, cost_ret. split; [exact H4|]. split; intros; lia.
  - cbn [mn_empty mon_read mon_written notify bind]. apply cost_bind, cost_ret. apply cost_bind. eapply cost_conseq; [apply last_pushes|]. intros b3 x [-> ->]. apply cost_bind, cost_ret, cost_ret. split; [reflexivity|]. split; [lia|discriminate].
  - apply cost_ret. split; [reflexivity|]. destruct H as [H ->]. split; [lia|]. discriminate.
Qed.
Lemma control_cost ctl c b : c + 2 <= b -> cost b (control ctl) (fun b' _ => c <= b').
Proof.
  intro Hb. destruct ctl as [x|]; cbn [control]; [|apply cost_ret; lia]. apply cost_bind. unfold try_recv. apply cost_vis. intros a Hw. split; [cbn [value]; lia|].
  destruct a; try discriminate Hw; apply cost_ret; cbn [value]; try (apply cost_ret; lia).
  apply cost_bind. unfold recv. apply cost_vis. intros a Hw'. split; [cbn [value]; lia|]. destruct a; try discriminate Hw'; apply cost_ret; apply cost_ret; cbn [value]; lia.
Qed.
Lemma ruled_cost pl ps ctl b : hoard pl + 6 <= b -> cost b (start_secret false (Some pl) (Some ps) ctl None) (fun _ _ => True).
Proof.
  intro Hb. cbn [start_secret]. apply cost_bind.
  apply (cost_iter (gate_body ctl None (push_brk ps)) (fun b s => let '(pl, pushs, _) := s in length pushs = 1 /\ hoard pl + 6 <= b)); [|now split].
  generalize (push_brk ps). clear. intros brk b [[pl pushs] n] [HL Hb]. destruct pushs as [|p [|q l]]; try discriminate. unfold gate_body. apply cost_bind. eapply cost_conseq; [apply (calm_worker_cost pl p 3); lia|].
  assert (End : forall (r : mres nat) pl' pushs' b', length pushs' = 1 -> 2 <= b' -> cost b' (drop_pushes pushs' ;;; drop_pull pl' ;;; Ret r) (fun _ _ => True)).
  { clear. intros r pl' pushs' b HL Hb. apply cost_bind. eapply cost_conseq; [apply (drop_pushes_cost _ 1); [exact HL|lia]|]. intros b2 u2 H2; cbv beta in H2. apply cost_bind. eapply cost_conseq; [apply (drop_pull_cost _ 0); lia|]. intros b1 u1 H1; cbv beta in H1. now apply cost_ret. }
  intros b1 [[r pl'] pushs'] (H1 & H2 & H3). destruct r as [w|e].
  - cbn [goes] in H3. destruct (wr_finished w).
    + apply cost_bind. eapply cost_conseq with (Q := fun b' _ => 2 <= b'); [|intros b2 [] H; apply cost_ret; now apply End].
      destruct ctl; cbn [close_ctl]; [unfold close; one_event|apply cost_ret; lia].
    + specialize (H3 eq_refl). apply cost_bind. eapply cost_conseq; [apply (control_cost _ (hoard pl' + 6)); lia|]. intros b2 [] H. apply cost_ret. now split.
  - destruct e; try (apply cost_ret; apply End; [exact H1|lia]). specialize (H3 eq_refl). destruct brk; try (apply cost_ret; apply End; [exact H1|lia]).
    apply cost_bind. eapply cost_conseq; [apply (control_cost _ (hoard pl' + 6)); lia|]. intros b2 [] H. apply cost_ret. now split.
Qed.
Lemma ruled_length pl ps ctl tr st : hoard pl = 0 -> exec (start_secret false (Some pl) (Some ps) ctl None) tr st -> length tr <= 6 + 5 * income tr.
Proof. intros Hp HX. destruct (ruled_cost pl ps ctl 6 ltac:(lia) _ _ HX) as [H _]. exact H. Qed.

(** ** The counter of a buffer that is watched *)
Definition pending (t : tplace) : nat := match t with TOut size _ _ l => if l =? size then 0 else 1 | TRep _ _ _ _ => 1 | _ => 0 end.
Definition shutting (t : tplace) : nat := match t with TDropI _ => 1 | TDropS _ => 2 | TDone _ | TBad _ => 3 | _ => 0 end.
Lemma telling_uses s mi mo tr t : mi <> mo -> treach (Some s) mi mo tr t -> uses tr + pending t <= 2 * (length (taken (CMon mi) tr) + length (taken (CMon mo) tr)) + shutting t.
Proof.
  intro Hm. induction 1 as [|tr t e a H IH He Hw]; [unfold uses; cbn; lia|]. rewrite uses_app, !taken_app, !app_length. pose proof (counter_inv (Some s) mi mo Hm _ _ H) as [_ HI].
  assert (K : uses [(e, a)] + pending (tnext (Some s) t a) + shutting t <= 2 * (length (taken (CMon mi) [(e, a)]) + length (taken (CMon mo) [(e, a)])) + pending t + shutting (tnext (Some s) t a)); [|lia].
  assert (HM : forall m, length (taken (CMon m) [(ETryRecv (CMon m), a)]) = match a with AMsg _ => 1 | _ => 0 end) by (intro m; destruct a; cbn; try reflexivity; now rewrite Nat.eqb_refl).
  assert (HU : forall m, wt (ETryRecv (CMon m)) a = true -> uses [(ETryRecv (CMon m), a)] = match a with AMsg _ => 1 | _ => 0 end) by (intros m Hm'; destruct a; try discriminate Hm'; reflexivity).
  assert (HP : forall size moved back last, pending (go_rep (Some s) size moved back last) = if last =? size then 0 else 1) by (intros; unfold go_rep; now destruct (_ =? _)).
  assert (HP' : forall size moved back last, pending (go_turn size moved back last) = 0 /\ shutting (go_turn size moved back last) = 0) by (intros; unfold go_turn; now destruct moved).
  assert (HP2 : forall size moved back last, shutting (go_rep (Some s) size moved back last) = 0) by (intros; unfold go_rep; now destruct (_ =? _)).
  destruct t as [size back last|size moved back last|size moved back last|size moved back last|size moved back last|size moved back last|size moved back last|size back last|r|r|r|r|m]; cbn [tstat] in He; try discriminate He; injection He as <-.
  - rewrite (HU _ Hw), HM. destruct HI as (_ & _ & _ & _ & HI). specialize (HI ltac:(discriminate)). subst last. cbn [shutting pending].
    destruct a as [v| | | | | | | | | |]; try discriminate Hw; cbn [tnext pending shutting]; rewrite ?Nat.eqb_refl; try lia.
    destruct v; cbn [pending shutting]; try lia. destruct (size =? S size); lia.
  - rewrite (HU _ Hw), HM. cbn [shutting pending].
    destruct a as [v| | | | | | | | | |]; try discriminate Hw; cbn [tnext]; rewrite ?HP, ?HP2; try lia.
    destruct v; cbn [pending shutting]; try lia. destruct size; cbn [pending shutting]; [lia|]. rewrite HP, HP2. destruct (last =? size); lia.
  - pose proof (uses_le [(ESend (CSize s) (VSize size), a)]) as L. cbn [length] in L. cbn [pending shutting]. destruct a; try discriminate Hw; cbn [tnext pending shutting]; lia.
  - destruct a as [| | | | | | |v| | | ]; try discriminate Hw; destruct v; cbn [tnext]; destruct (HP' size moved back last) as [E1 E2]; rewrite ?E1, ?E2; cbn; lia.
  - destruct a as [| | | | | | |v| | | ]; try discriminate Hw; destruct v; cbn [tnext]; destruct (HP' size moved back last) as [E1 E2]; rewrite ?E1, ?E2; cbn; lia.
  - destruct a as [| | | | | | |v| | | ]; try discriminate Hw; destruct v; cbn [tnext]; destruct (HP' size moved back last) as [E1 E2]; rewrite ?E1, ?E2; cbn; lia.
  - destruct a as [| | | | | | |v| | | ]; try discriminate Hw; destruct v; cbn [tnext]; destruct (HP' size moved back last) as [E1 E2]; rewrite ?E1, ?E2; cbn; lia.
  - cbn. lia.
  - pose proof (uses_le [(EClose (CMon mo), a)]) as L. cbn [length] in L. cbn [pending shutting tnext]. lia.
  - pose proof (uses_le [(EClose (CMon mi), a)]) as L. cbn [length] in L. cbn [pending shutting tnext go_dropS]. lia.
  - pose proof (uses_le [(EClose (CSize s), a)]) as L. cbn [length] in L. cbn [pending shutting tnext go_dropS]. lia.
Qed.

(** ** Controllers: how often they close something *)
Definition closes (h : trace) : nat := length (filter (fun ev => match fst ev with EClose _ => true | _ => false end) h).
Lemma closes_app a b : closes (a ++ b) = closes a + closes b.
Proof. unfold closes. now rewrite filter_app, app_length. Qed.
Lemma tsat_vis {A} h e (k : ans -> prog A) (N : trace -> eff -> Prop) (Q : trace -> A -> Prop) :
  N h e -> (forall a, wt e a = true -> tsat (h ++ [(e, a)]) (k a) N Q) -> tsat h (Vis e k) N Q.
Proof.
  intros HN HK tr st HX. apply exec_vis_inv in HX. destruct HX as [[-> ->]|(a & tr' & -> & Hw & HX)]; [now rewrite app_nil_r|].
  pose proof (HK a Hw _ _ HX) as H. rewrite <- app_assoc in H. exact H.
Qed.
Section Closes.
Variable M : nat.
Notation within := (fun (h : trace) (_ : eff) => closes h <= M).
Lemma poll_closes ms : forall h i rm total reads, closes h <= M -> tsat h (poll_monitors ms i rm total reads) within (fun h' x => closes h' = closes h /\ length (fst (fst (fst x))) = length ms).
Proof.
  induction ms as [|m ms IH]; intros h i rm total reads Hh; cbn [poll_monitors]; [now apply tsat_ret|]. apply tsat_bind. unfold try_recv. apply tsat_vis; [exact Hh|]. intros a Hw.
  assert (E : closes (h ++ [(ETryRecv (CSize (bm_chan m)), a)]) = closes h) by (rewrite closes_app; cbn; lia).
  destruct a as [v| | | | | | | | | |]; try discriminate Hw; apply tsat_ret.
  - destruct v; try discriminate Hw. apply tsat_bind. eapply tsat_conseq; [apply IH; lia|]. intros h' [[[ms' rm'] tot'] rd'] [H1 H2]. apply tsat_ret. cbn in *. split; lia.
  - apply tsat_bind. eapply tsat_conseq; [apply IH; lia|]. intros h' [[[ms' rm'] tot'] rd'] [H1 H2]. apply tsat_ret. cbn in *. split; lia.
  - apply tsat_bind. eapply tsat_conseq; [apply IH; lia|]. intros h' [[[ms' rm'] tot'] rd'] [H1 H2]. apply tsat_ret. cbn in *. split; lia.
Qed.
Lemma vec_remove_some {A} i (l : list A) x l' : vec_remove i l = (Some x, l') -> length l = S (length l').
Proof.
  revert l l'. induction i as [|i IH]; intros [|y l] l' H; cbn in H; try discriminate H.
  - injection H as _ <-. reflexivity.
  - destruct (vec_remove i l) as [o l1] eqn:E. injection H as -> <-. cbn. now rewrite (IH _ _ E).
Qed.
Lemma remove_closes idx : forall h ms, closes h + length ms <= M -> tsat h (remove_monitors idx ms) within (fun h' ms' => closes h' + length ms' = closes h + length ms).
Proof.
  induction idx as [|i idx IH]; intros h ms E; cbn [remove_monitors]; [now apply tsat_ret|]. destruct (vec_remove i ms) as [[m|] ms'] eqn:EV.
  - apply tsat_bind. unfold close. apply tsat_vis; [lia|]. intros a Hw. destruct a; try discriminate Hw. apply tsat_ret. apply vec_remove_some in EV.
    assert (E' : closes (h ++ [(EClose (CSize (bm_chan m)), AOk)]) = closes h + 1) by now rewrite closes_app.
    eapply tsat_conseq; [apply IH; lia|]. intros h' ms2 H. cbv beta in H. lia.
  - intros tr st HX. apply exec_panic_inv in HX. destruct HX as [_ ->]. exact I.
Qed.
Lemma signal_closes c h : closes h <= M -> tsat h (rc_pause c) within (fun h' _ => closes h' = closes h) /\ tsat h (rc_resume c) within (fun h' _ => closes h' = closes h).
Proof.
  intro Hh. unfold rc_pause, rc_resume. split; destruct (rc_paused c); cbn [negb]; try now apply tsat_ret.
  all: apply tsat_bind; unfold send; apply tsat_vis; [exact Hh|]; intros a Hw; destruct a; try discriminate Hw; apply tsat_ret, tsat_ret; rewrite closes_app; cbn; lia.
Qed.
Lemma manage_closes low high c chans : M = length chans + 1 -> tsat [] (manage_regulator low high c chans) within (fun h _ => closes h <= M).
Proof.
  intro EM. unfold manage_regulator. apply (tsat_iter _ (fun h s => closes h + length (ms_monitors s) = length chans)).
  2:{ cbn. now rewrite map_length. }
  intros h s Hs. unfold manage_body. apply tsat_bind. eapply tsat_conseq; [apply poll_closes; lia|]. intros h1 [[[ms1 rm] total] reads] [H1 H2]. cbn [fst] in H2.
  apply tsat_bind. unfold pause_if. eapply tsat_conseq with (Q := fun h' _ => closes h' = closes h1).
  { destruct (_ && _); [|now apply tsat_ret]. apply tsat_bind. eapply tsat_conseq; [apply (signal_closes (ms_control s) h1); lia|]. intros h2 [x c'] H. now apply tsat_ret. }
  intros h2 [c1 shut1] H3. apply tsat_bind. unfold resume_if. eapply tsat_conseq with (Q := fun h' _ => closes h' = closes h2).
  { destruct (_ && _); [|now apply tsat_ret]. apply tsat_bind. eapply tsat_conseq; [apply (signal_closes c1 h2); lia|]. intros h4 [x c'] H. now apply tsat_ret. }
  intros h3 [c2 shut2] H4. apply tsat_bind. eapply tsat_conseq; [apply remove_closes; lia|]. intros h4 ms2 H5. cbv beta in *.
  destruct ms2 as [|m ms2].
  - apply tsat_bind. unfold close. cbn [length] in H5. apply tsat_vis; [lia|]. intros a Hw. destruct a; try discriminate Hw. apply tsat_ret, tsat_ret. rewrite closes_app. cbn. lia.
  - destruct (reads =? 0); [|apply tsat_ret; cbn [ms_monitors]; lia]. unfold back_off_wait. apply tsat_bind, tsat_bind. unfold sleep. apply tsat_vis; [lia|]. intros a Hw. destruct a; try discriminate Hw.
    apply tsat_ret, tsat_ret, tsat_ret. cbn [ms_monitors]. rewrite closes_app. change (closes [_]) with 0. lia.
Qed.
End Closes.
Lemma controller_closes cp tr st : rc_paused (cp_control cp) = false -> NoDup (cp_monitors cp) -> exec (controller cp) tr st -> closes tr <= length (cp_monitors cp) + 1.
Proof.
  intros HP HD HX. unfold controller in HX. assert (HM := manage_closes _ (cp_low cp) (cp_high cp) (cp_control cp) (cp_monitors cp) eq_refl).
  destruct (exec_bind_inv _ _ _ _ HX) as [(t1 & t2 & x & -> & H1 & H2)|[(e & -> & H1)|(s & -> & H1)]].
  - apply exec_ret_inv in H2. destruct H2 as [-> _]. rewrite app_nil_r. exact (HM _ _ H1).
  - exact (HM _ _ H1).
  - exfalso. destruct (cp_control cp) as [pa ct]. cbn in HP. subst pa. exact (manager_no_panic _ _ _ _ HD _ _ H1).
Qed.

(** ** The whole pipeline *)
Lemma data_own net l t : t / 4 < length net -> own t (data_part net l) = skim (own t l).
Proof.
  intro Ht. unfold data_part, skim, own. induction l as [|[i [e a]] l IH]; [reflexivity|]. cbn [filter map fst snd]. destruct (Nat.eqb_spec i t) as [->|Hne].
  - replace (t / 4 <? length net) with true by (symmetry; apply Nat.ltb_lt; exact Ht). cbn [andb map filter fst snd]. destruct (negb (control_eff e)); [|exact IH]. cbn [filter fst]. rewrite Nat.eqb_refl. cbn [map snd]. now rewrite IH.
  - destruct ((i / 4 <? length net) && negb (control_eff e)); [|exact IH]. cbn [filter fst]. destruct (Nat.eqb_spec i t) as [->|_]; [contradiction|]. exact IH.
Qed.
Lemma own_uses l t : uses (own t l) <= useful_count l.
Proof.
  unfold own, useful_count, uses, all_of. induction l as [|[i ev] l IH]; [cbn; lia|]. cbn [filter map fst snd]. destruct (i =? t); cbn [map filter snd]; destruct (useful ev); cbn [length]; lia.
Qed.
Lemma income_uses tr : (forall s a, ~ In (ERead s, a) tr) -> income tr <= uses (skim tr).
Proof.
  induction tr as [|[e a] tr IH]; intro H; [cbn; lia|]. rewrite income_cons. assert (IH' := IH (fun s b Hin => H s b (or_intror Hin))). unfold skim in *. cbn [filter fst].
  assert (K : value (e, a) <= (if negb (control_eff e) then if useful (e, a) then 1 else 0 else 0)).
  { destruct e as [[]|[]|c v|c|c|c| | | | | | | | | | | |]; cbn; try lia; destruct a; cbn; try lia; exfalso; eapply H; left; reflexivity. }
  destruct (negb (control_eff e)); [rewrite uses_cons|]; lia.
Qed.
Lemma taken_uses c tr : control_chan c = false -> length (taken c tr) <= uses (skim tr).
Proof.
  intro Hc. induction tr as [|[e a] tr IH]; [cbn; lia|]. change ((e, a) :: tr) with ([(e, a)] ++ tr) at 1. rewrite taken_app, app_length. unfold skim in *. cbn [filter fst].
  assert (K : length (taken c [(e, a)]) <= (if negb (control_eff e) then if useful (e, a) then 1 else 0 else 0)).
  { destruct e as [c'|c'|c' v|c'|c'|c'| | | | | | | | | | | |]; cbn; try lia; destruct a; cbn; try lia; destruct (chan_eqb c c') eqn:E; cbn; try lia; apply chan_eqb_eq in E; subst c'; rewrite Hc; cbn; destruct c; cbn; lia. }
  destruct (negb (control_eff e)); [rewrite uses_cons|]; lia.
Qed.
Lemma taken_among c (l : list nevent) ts : (forall i e a, In (i, (e, a)) l -> is_take c e -> In i ts) -> length (taken c (all_of l)) <= list_sum (map (fun t => uses (own t l)) ts).
Proof.
  induction l as [|[i [e a]] l IH]; intro H; [cbn; lia|].
  change (all_of ((i, (e, a)) :: l)) with ([(e, a)] ++ all_of l). change ((i, (e, a)) :: l) with ([(i, (e, a))] ++ l). rewrite taken_app, app_length.
  assert (E : list_sum (map (fun t => uses (own t ([(i, (e, a))] ++ l))) ts) = list_sum (map (fun t => uses (own t [(i, (e, a))])) ts) + list_sum (map (fun t => uses (own t l)) ts)).
  { rewrite <- list_sum_plus. f_equal. apply map_ext. intro t. now rewrite own_app, uses_app. }
  rewrite E. specialize (IH (fun i' e' a' Hin => H i' e' a' (or_intror Hin))).
  assert (K : length (taken c [(e, a)]) <= list_sum (map (fun t => uses (own t [(i, (e, a))])) ts)); [|lia].
  destruct (taken c [(e, a)]) as [|v r] eqn:Et; [cbn; lia|].
  assert (Hc : is_take c e /\ length (v :: r) <= uses [(e, a)]).
  { rewrite <- Et. unfold is_take. destruct e as [c'|c'|c' v'|c'|c'|c'| | | | | | | | | | | |]; cbn in Et; try discriminate Et; destruct a; try discriminate Et; (destruct (chan_eqb c c') eqn:Ec; [|discriminate Et]);
      apply chan_eqb_eq in Ec; subst c'; (split; [auto|]); unfold uses; cbn; rewrite chan_eqb_refl; destruct c; cbn; lia. }
  destruct Hc as [Hc Hu]. pose proof (list_sum_in (fun t => uses (own t [(i, (e, a))])) _ _ (H i e a (or_introl eq_refl) Hc)) as HS. cbv beta in HS. rewrite own1, Nat.eqb_refl in HS. cbv iota in HS. etransitivity; [exact Hu|exact HS].
Qed.
Lemma fwds_sum l n : (forall i ev, In (i, ev) l -> i < n) -> fwds (all_of l) <= list_sum (map (fun t => fwds (own t l)) (seq 0 n)).
Proof.
  induction l as [|[i ev] l IH]; intro H; [cbn; lia|]. change (all_of ((i, ev) :: l)) with ([ev] ++ all_of l). change ((i, ev) :: l) with ([(i, ev)] ++ l). rewrite fwds_app.
  assert (E : list_sum (map (fun t => fwds (own t ([(i, ev)] ++ l))) (seq 0 n)) = list_sum (map (fun t => fwds (own t [(i, ev)])) (seq 0 n)) + list_sum (map (fun t => fwds (own t l)) (seq 0 n))).
  { rewrite <- list_sum_plus. f_equal. apply map_ext. intro t. now rewrite own_app, fwds_app. }
  rewrite E. specialize (IH (fun i' ev' Hin => H i' ev' (or_intror Hin))).
  assert (Hi : In i (seq 0 n)) by (apply in_seq; pose proof (H i ev (or_introl eq_refl)); lia).
  pose proof (list_sum_in (fun t => fwds (own t [(i, ev)])) _ _ Hi) as HS. cbv beta in HS. rewrite own1, Nat.eqb_refl in HS. lia.
Qed.
Lemma list_sum_le {A} (f : A -> nat) X ts : (forall t, In t ts -> f t <= X) -> list_sum (map f ts) <= length ts * X.
Proof.
  induction ts as [|t ts IH]; intro H; [cbn; lia|]. specialize (IH (fun x Hx => H x (or_intror Hx))). pose proof (H t (or_introl eq_refl)). cbn [map list_sum fold_right length]. unfold list_sum in IH. lia.
Qed.
Lemma total_takes (f : nat -> nat) tr ns : (forall n, In n ns -> length (taken (CSize n) tr) <= f n) -> list_sum (map (fun n => length (taken (CSize n) tr)) ns) <= list_sum (map f ns).
Proof. induction ns as [|n ns IH]; intro H; [cbn; lia|]. specialize (IH (fun x Hx => H x (or_intror Hx))). pose proof (H n (or_introl eq_refl)). cbn [map list_sum fold_right]. unfold list_sum in IH. lia. Qed.
Lemma controller_fwds cp tr : (forall e a, In (e, a) tr -> rules_may cp e /\ wt e a = true) ->
  fwds tr <= list_sum (map (fun n => length (taken (CSize n) tr)) (cp_monitors cp)) + length (sent (CCtl (rc_control (cp_control cp))) tr) + closes tr.
Proof.
  induction tr as [|[e a] tr IH]; intro H; [cbn; lia|]. specialize (IH (fun e' a' Hin => H e' a' (or_intror Hin))). destruct (H e a (or_introl eq_refl)) as [H0 HW].
  rewrite fwds_cons. change ((e, a) :: tr) with ([(e, a)] ++ tr). rewrite sent_app', app_length, closes_app.
  assert (E : list_sum (map (fun n => length (taken (CSize n) ([(e, a)] ++ tr))) (cp_monitors cp)) =
    list_sum (map (fun n => length (taken (CSize n) [(e, a)])) (cp_monitors cp)) + list_sum (map (fun n => length (taken (CSize n) tr)) (cp_monitors cp))).
  { rewrite <- list_sum_plus. f_equal. apply map_ext. intro n. now rewrite taken_app, app_length. }
  rewrite E.
  assert (K : (if forward (e, a) then 1 else 0) <= list_sum (map (fun n => length (taken (CSize n) [(e, a)])) (cp_monitors cp)) + length (sent (CCtl (rc_control (cp_control cp))) [(e, a)]) + closes [(e, a)]); [|lia].
  destruct (forward (e, a)) eqn:EF; [|lia]. destruct e as [[]|[n0|n0|n0|n0|n0]|[] v|[]|[]|[]| | | | | | | | | | | |]; cbn in H0; try contradiction H0; try discriminate EF; try (cbn [closes filter fst length]; unfold closes; cbn; lia).
  - destruct a; try discriminate EF; try discriminate HW. pose proof (list_sum_in (fun n => length (taken (CSize n) [(ETryRecv (CSize n0), AMsg v)])) _ _ H0) as HS. cbv beta in HS.
    assert (E1 : length (taken (CSize n0) [(ETryRecv (CSize n0), AMsg v)]) = 1) by (cbn; now rewrite Nat.eqb_refl). rewrite E1 in HS. etransitivity; [exact HS|]. rewrite <- !Nat.add_assoc. apply Nat.le_add_r.
  - subst. destruct a; try discriminate EF; try discriminate HW. cbn. rewrite Nat.eqb_refl. cbn. lia.
Qed.

Section Bound.
Variables (net : list comp) (cs : list capture) (w0 : world) (l : list nevent) (w : world) (ocs : nat -> S_Net.outcome) (B : nat).
Hypothesis HN : net_wired (map plain_comp net).
Hypothesis HO : overseen net cs.
Hypothesis HX : free_run net cs w0 l w ocs.
Hypothesis HF : forall f s, In (NFaucet f s) net -> fc_control f = None.
Hypothesis HB : useful_count (data_part net l) <= B.
Notation K := (length net).
Notation X := (6 + 5 * B).

Lemma skim_uses t : t / 4 < K -> uses (skim (own t l)) <= B.
Proof. intro Ht. rewrite <- (data_own net l t Ht). pose proof (own_uses (data_part net l) t). lia. Qed.
Lemma loud_uses t : t / 4 < K -> (forall e a, In (t, (e, a)) l -> control_eff e = false) -> uses (own t l) <= B.
Proof.
  intros Ht H. pose proof (skim_uses t Ht) as HS. replace (skim (own t l)) with (own t l) in HS; [exact HS|]. symmetry. unfold skim.
  assert (H' : forall e a, In (e, a) (own t l) -> control_eff e = false) by (intros e a Hin; apply P_Link.in_own in Hin; eauto).
  clear - H'. induction (own t l) as [|[e a] tr IH]; [reflexivity|]. cbn [filter fst]. rewrite (H' e a) by now left. cbn. f_equal. apply IH. intros; eapply H'; right; eassumption.
Qed.
Lemma comp_uses t : t / 4 < K -> uses (own t l) <= X.
Proof.
  intro Ht. destruct (nth_error net (t / 4)) as [c|] eqn:Hk; [|apply nth_error_None in Hk; lia]. pose proof (nth_error_In _ _ Hk) as Hi. pose proof (ready_of _ HN _ Hi) as HR.
  assert (Hm4 : t mod 4 < 4) by (apply Nat.mod_upper_bound; lia). assert (Et : t = 4 * (t / 4) + t mod 4) by apply task_of.
  assert (HL : (forall n, In n (comp_control c) -> False) -> (t mod 4 = 3 -> forall n, In n (comp_monitor c) -> False) -> uses (own t l) <= X).
  { intros H1 H3. assert (uses (own t l) <= B); [|lia]. apply (loud_uses t Ht). intros e a Hin. destruct (who_may _ _ _ _ _ _ HN HO HX _ _ _ Hin) as [(c' & Hc & _ & [H|[(n & H & _)|(E & n & H & _)]])|(m & c' & -> & _)].
    - exact (may_loud _ _ _ H).
    - rewrite Hk in Hc. injection Hc as <-. destruct (H1 n H).
    - rewrite Hk in Hc. injection Hc as <-. destruct (H3 E n H).
    - rewrite P_Whole.div4 in Ht. lia. }
  pose proof (fr_comps _ _ _ _ _ _ HX _ _ Hk) as HC. destruct c as [f s|r|b u mi mo|j|cwd vars la|d s].
  - apply HL; cbn; [rewrite (HF _ _ Hi); intros n []|intros _ n []].
  - destruct HR as (_ & pj & i & j & o & HR). assert (HR' : regulator_ready r (PlReceiver pj i) (PsIoSender j o)) by exact HR. destruct HC as (st0 & (Hidle & st & -> & HC) & _).
    destruct (Nat.eq_dec (t mod 4) 0) as [E0|E0].
    + rewrite (own_seen _ 0) in HC by lia. replace (4 * (t / 4) + 0) with t in HC by lia. rewrite (regulator_gate _ _ _ _ HR') in HC.
      pose proof (ruled_length (PlReceiver pj i) _ _ _ _ eq_refl HC) as HLn.
      assert (HI : income (own t l) <= B).
      { etransitivity; [apply income_uses|apply (skim_uses t Ht)]. intros s a Hin. pose proof (all_gate_ctl _ _ _ _ _ _ _ HC Hin) as HG.
        destruct HG as [[HG|[(q & d & [<-|[]] & HG)|[(c & HG & _)|[(c & HG & _)|(c & v & HG & _)]]]]|[[HG|[(q & [<-|[]] & HG)|(c & _ & HG)]]|[(c & _ & [HG|HG])|(c & _ & HG)]]]; discriminate HG. }
      assert (HU : forall tr, uses tr <= length tr) by (intro tr; unfold uses; induction tr as [|ev tr IH]; [reflexivity|cbn [filter]; destruct (useful ev); cbn [length]; lia]). pose proof (HU (own t l)). lia.
    + assert (Hq : forall q, q < 4 -> q <> 0 -> In q [1; 2; 3]) by (intros; cbn; lia). pose proof (Hidle (t mod 4) (Hq _ Hm4 E0)) as E. rewrite own_seen in E by exact Hm4. rewrite <- Et in E. rewrite E. cbn. lia.
  - destruct (Nat.eq_dec (t mod 4) 3) as [E3|E3]; [|apply HL; [intros n []|intro E; contradiction]]. destruct (bf_monitor b) as [s|] eqn:EM; [|apply HL; [intros n []|cbn; rewrite EM; intros _ n []]].
    destruct HR as (_ & pj & i & j & o & HR). assert (HR' : buffer_wired b (PlReceiver pj i) (PsIoSender j o) u mi mo) by exact HR. destruct HC as (st & HC & _).
    destruct (buffer_parts _ _ _ _ _ _ _ _ _ HR' HC) as (sa & sb & sc & _ & _ & Hc & _). rewrite EM, (own_seen _ 3) in Hc by lia. replace (4 * (t / 4) + 3) with t in Hc by lia.
    destruct (total_reach _ _ _ _ _ Hc) as (tp & HT & _). destruct HR' as (_ & _ & _ & _ & _ & Hne & _). apply (telling_uses _ _ _ _ _ Hne) in HT.
    pose proof (taken_uses (CMon mi) (own t l) eq_refl). pose proof (taken_uses (CMon mo) (own t l) eq_refl). pose proof (skim_uses t Ht). assert (shutting tp <= 3) by (destruct tp; cbn; lia). lia.
  - apply HL; cbn; [intros n []|intros _ n []].
  - apply HL; cbn; [intros n []|intros _ n []].
  - apply HL; cbn; [intros n []|intros _ n []].
Qed.
Lemma comp_among : list_sum (map (fun t => uses (own t l)) (seq 0 (4 * K))) <= 4 * K * X.
Proof.
  etransitivity; [apply (list_sum_le _ X)|rewrite seq_length; lia]. intros t Ht. apply comp_uses. apply in_seq in Ht. apply Nat.div_lt_upper_bound; lia.
Qed.
Lemma size_takes m cp n : nth_error cs m = Some cp -> In n (cp_monitors cp) -> length (taken (CSize n) (all_of l)) <= 4 * K * X.
Proof.
  intros Hm Hn. pose proof (fifo (CSize n) _ _ _ (fr_world _ _ _ _ _ _ HX)) as HQ. destruct (mw_new _ _ (fr_made _ _ _ _ _ _ HX) (CSize n)) as (cap & E). rewrite E in HQ. apply (f_equal (@length _)) in HQ. rewrite !app_length in HQ. cbn in HQ.
  pose proof (sent_among (CSize n) l (seq 0 (4 * K))) as HS. specialize (HS ltac:(intros i v a Hin; destruct (who_may _ _ _ _ _ _ HN HO HX _ _ _ Hin) as [(c' & Hc & _)|(m' & c' & -> & _ & H)]; [|contradiction H];
    apply in_seq; assert (i / 4 < K) by (apply nth_error_Some; congruence); pose proof (task_of i); assert (i mod 4 < 4) by (apply Nat.mod_upper_bound; lia); lia)).
  pose proof comp_among. lia.
Qed.
Lemma ctl_sends m cp : nth_error cs m = Some cp -> length (sent (CCtl (rc_control (cp_control cp))) (all_of l)) <= 4 * K * X + 1.
Proof.
  intros Hm. set (x := rc_control (cp_control cp)). destruct (told_of _ _ HO m cp Hm) as (k & c & Hk & Hx). fold x in Hx.
  pose proof (fr_world _ _ _ _ _ _ HX) as HW. pose proof (mw_controls _ _ (fr_made _ _ _ _ _ _ HX) _ _ (nth_error_In _ _ Hk) Hx) as E.
  pose proof (within (CCtl x) _ _ _ 1 HW ltac:(now rewrite E) ltac:(rewrite E; cbn; lia)) as HL.
  pose proof (fifo (CCtl x) _ _ _ HW) as HQ. rewrite E in HQ. apply (f_equal (@length _)) in HQ. rewrite !app_length in HQ. cbn in HQ.
  pose proof (taken_among (CCtl x) l (seq 0 (4 * K))) as HS. specialize (HS ltac:(intros i e a Hin Ht; rewrite (ctl_taker _ _ _ _ _ _ HN HO HX k c x i e a Hk Hx Hin Ht); apply in_seq; assert (k < K) by (apply nth_error_Some; congruence); lia)).
  pose proof comp_among. lia.
Qed.
Lemma sent_own c t : length (sent c (own t l)) <= length (sent c (all_of l)).
Proof.
  clear. induction l as [|[i ev] r IH]; [cbn; lia|]. change (all_of ((i, ev) :: r)) with ([ev] ++ all_of r). change ((i, ev) :: r) with ([(i, ev)] ++ r). rewrite own_app, !sent_app', !app_length, own1.
  destruct (i =? t); cbn [app]; [lia|]. change (sent c []) with (@nil val). cbn [length]. lia.
Qed.
Definition most_monitors : nat := list_sum (map (fun cp => length (cp_monitors cp)) cs).
Lemma task_fwds t : t < 4 * (K + length cs) -> fwds (own t l) <= X + most_monitors * (4 * K * X) + (4 * K * X + 1) + (most_monitors + 1).
Proof.
  intro Ht. destruct (le_lt_dec (4 * K) t) as [H4|H4].
  - destruct (own t l) as [|ev tr] eqn:EO; [cbn; lia|]. rewrite <- EO. assert (Hin : In (t, ev) l) by (destruct ev; apply P_Link.in_own; rewrite EO; now left).
    destruct ev as [e a]. destruct (who_may _ _ _ _ _ _ HN HO HX _ _ _ Hin) as [(c' & Hc & _)|(m & cp & E & Hm & _)].
    { assert (t / 4 < K) by (apply nth_error_Some; congruence). pose proof (task_of t). assert (t mod 4 < 4) by (apply Nat.mod_upper_bound; lia). lia. }
    destruct (fr_controllers _ _ _ _ _ _ HX _ _ Hm) as (st & HE & _). rewrite <- E in HE. pose proof (nth_error_In _ _ Hm) as Hi.
    pose proof (monitors_once _ _ HO _ Hi) as Hnd. pose proof (ov_running _ _ HO _ Hi) as Hrun.
    pose proof (controller_fwds cp _ (fun e' a' Hin' => conj (controller_may cp _ _ Hnd Hrun HE e' a' Hin') (exec_wt _ _ _ HE e' a' Hin'))) as H1. pose proof (controller_closes cp _ _ Hrun Hnd HE) as H2. pose proof (ctl_sends m cp Hm) as H3. pose proof (sent_own (CCtl (rc_control (cp_control cp))) t) as H5.
    pose proof (list_sum_in (fun cp => length (cp_monitors cp)) cs cp Hi) as H6. cbv beta in H6. fold most_monitors in H6.
    assert (H7 : list_sum (map (fun n => length (taken (CSize n) (own t l))) (cp_monitors cp)) <= length (cp_monitors cp) * (4 * K * X)).
    { apply list_sum_le. intros n Hn. pose proof (size_takes m cp n Hm Hn). pose proof (taken_own (CSize n) t l). lia. }
    assert (H8 : length (cp_monitors cp) * (4 * K * X) <= most_monitors * (4 * K * X)) by (apply Nat.mul_le_mono_r; exact H6). lia.
  - pose proof (comp_uses t ltac:(apply Nat.div_lt_upper_bound; lia)). pose proof (fwds_uses (own t l)). lia.
Qed.
Definition most_fwds : nat := 4 * (K + length cs) * (X + most_monitors * (4 * K * X) + (4 * K * X + 1) + (most_monitors + 1)).
Lemma whole_fwds : fwds (all_of l) <= most_fwds.
Proof.
  etransitivity; [apply (fwds_sum l (4 * (K + length cs)))|].
  - intros i [e a] Hin. destruct (who_may _ _ _ _ _ _ HN HO HX _ _ _ Hin) as [(c' & Hc & _)|(m & cp & -> & Hm & _)].
    + assert (i / 4 < K) by (apply nth_error_Some; congruence). pose proof (task_of i). assert (i mod 4 < 4) by (apply Nat.mod_upper_bound; lia). lia.
    + assert (m < length cs) by (apply nth_error_Some; congruence). lia.
  - unfold most_fwds. etransitivity; [apply list_sum_le|rewrite seq_length; reflexivity]. intros t Ht. apply in_seq in Ht. apply task_fwds. lia.
Qed.
End Bound.

(** However much is done: with so much to read at most so much is done, apart from looking and waiting. *)
Theorem whole_bound net cs N : net_wired (map plain_comp net) -> acyclic (map plain_comp net) -> overseen net cs -> roomy net -> (forall f s, In (NFaucet f s) net -> fc_control f = None) ->
  exists B, forall w0 l w ocs, free_run net cs w0 l w ocs -> bytes_read (data_part net l) <= N -> fwds (all_of l) <= B.
Proof.
  intros HN HA HO HR HF. destruct (net_bound _ HN HA N) as (B & HB). exists (most_fwds net cs B). intros w0 l w ocs HX Hb. destruct (delays _ _ _ _ _ _ HN HO HR HX) as (w' & ocs' & HX' & _).
  exact (whole_fwds net cs w0 l w ocs B HN HO HX HF (HB _ _ _ _ HX' Hb)).
Qed.
