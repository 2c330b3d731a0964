(** * P_NetCost: how many useful events a component can have, for what it is given *)
From Coq Require Import Ascii String List Bool Arith Lia.
From Verif Require Import M_Prog P_Prog P_Exec M_Motion M_Regulator M_Faucet M_Drain M_Buffer M_Junction M_Launch M_Join S_Trace S_Lines S_Motion S_World S_Launch S_Regulator S_Drain S_Buffer S_Junction S_Network S_Net
  P_World P_Link P_Network P_NetComp P_NetMoves P_NetEnd P_Cost P_Net P_Read P_Copy P_Launch P_Buffer P_BufferJoint P_BufferRun P_Control P_Drain P_Ask P_Junction P_JStart P_JPass P_Phase P_Conduit P_Respond P_JIdle.
Import ListNotations.

Definition uses (tr : trace) : nat := length (filter useful tr).
Lemma uses_app a b : uses (a ++ b) = uses a + uses b.
Proof. unfold uses. now rewrite filter_app, app_length. Qed.
Lemma uses_le tr : uses tr <= length tr.
Proof. induction tr as [|ev tr IH]; [reflexivity|]. unfold uses in *. cbn [filter]. destruct (useful ev); cbn [length]; lia. Qed.
Lemma uses_cons ev tr : uses (ev :: tr) = (if useful ev then 1 else 0) + uses tr.
Proof. unfold uses. cbn [filter]. now destruct (useful ev). Qed.

(** ** What a component is given: messages on its inputs, and bytes *)
Definition bytes_of (tr : trace) : nat := list_sum (map (fun ev => match ev with (ERead _, AData d) => length d | _ => 0 end) tr).
Definition gain (ns : list nat) (tr : trace) : nat := list_sum (map (fun n => length (taken (CData n) tr)) ns) + bytes_of tr.
Lemma list_sum_le {A} (f g : A -> nat) l : (forall x, In x l -> f x <= g x) -> list_sum (map f l) <= list_sum (map g l).
Proof. induction l as [|x l IH]; intro H; [reflexivity|]. cbn. pose proof (H x (or_introl eq_refl)). specialize (IH (fun y Hy => H y (or_intror Hy))). unfold list_sum in IH. lia. Qed.
Lemma list_sum_in {A} (f : A -> nat) l x : In x l -> f x <= list_sum (map f l).
Proof. induction l as [|y l IH]; intros []; cbn; [subst; lia|]. specialize (IH H). unfold list_sum in IH. lia. Qed.
Lemma list_sum_plus {A} (f g : A -> nat) l : list_sum (map (fun x => f x + g x) l) = list_sum (map f l) + list_sum (map g l).
Proof. induction l as [|x l IH]; [reflexivity|]. cbn. unfold list_sum in IH. lia. Qed.
Lemma bytes_app a b : bytes_of (a ++ b) = bytes_of a + bytes_of b.
Proof. unfold bytes_of. now rewrite map_app, list_sum_app. Qed.
Lemma gain_cons ns ev tr : gain ns (ev :: tr) = list_sum (map (fun n => length (taken (CData n) [ev])) ns) + bytes_of [ev] + gain ns tr.
Proof.
  unfold gain. assert (EB : bytes_of (ev :: tr) = bytes_of [ev] + bytes_of tr) by exact (bytes_app [ev] tr). rewrite EB.
  assert (E : list_sum (map (fun n => length (taken (CData n) (ev :: tr))) ns) = list_sum (map (fun n => length (taken (CData n) [ev])) ns) + list_sum (map (fun n => length (taken (CData n) tr)) ns)); [|lia].
  rewrite <- list_sum_plus. f_equal. apply map_ext. intro n. change (ev :: tr) with ([ev] ++ tr). now rewrite taken_app, app_length.
Qed.
Lemma income_gain ns tr : (forall e a n, In (e, a) tr -> e = ERecv (CData n) \/ e = ETryRecv (CData n) -> In n ns) -> income tr <= gain ns tr.
Proof.
  induction tr as [|[e a] tr IH]; intro H; [unfold income; cbn; lia|]. rewrite income_cons, gain_cons.
  assert (K : value (e, a) <= list_sum (map (fun n => length (taken (CData n) [(e, a)])) ns) + bytes_of [(e, a)]).
  { assert (HT : forall n, In n ns -> length (taken (CData n) [(e, a)]) = 1 -> 1 <= list_sum (map (fun n => length (taken (CData n) [(e, a)])) ns)) by (intros n Hn <-; exact (list_sum_in (fun n => length (taken (CData n) [(e, a)])) ns n Hn)).
    destruct e as [c|c|c v|c|c|c| | | | | | | | | | | |]; cbn [value]; try lia.
    - destruct c as [n| | | |]; try lia. destruct a; try lia. specialize (HT n (H _ _ n (or_introl eq_refl) (or_introl eq_refl))). cbn [taken flat_map chan_eqb] in HT |- *. rewrite Nat.eqb_refl in HT. specialize (HT eq_refl). lia.
    - destruct c as [n| | | |]; try lia. destruct a; try lia. specialize (HT n (H _ _ n (or_introl eq_refl) (or_intror eq_refl))). cbn [taken flat_map chan_eqb] in HT |- *. rewrite Nat.eqb_refl in HT. specialize (HT eq_refl). lia.
    - destruct a; try lia. assert (EB : bytes_of [(ERead f, AData d)] = length d + 0) by reflexivity. lia. }
  assert (IH' : income tr <= gain ns tr) by (apply IH; intros e' a' n Hin; apply (H e' a' n); now right). exact (Nat.add_le_mono _ _ _ _ K IH').
Qed.

(** ** Junctions *)
Section Junction.
Variables (j : junction).
Hypothesis HR : junction_ready j.
Lemma junction_once : forall tr st, exec (junction_start j None) tr st ->
  (NoDup (ends tr) /\ incl (ends tr) (in_chans j)) /\ NoDup (closes tr) /\ incl (closes tr) (in_chans j ++ out_chans j).
Proof.
  induction tr as [|[e a] tr IH] using rev_ind; intros st HX; [repeat split; try constructor; intros x []|].
  pose proof (exec_prefix _ _ _ HX tr e a [] eq_refl) as HP. destruct (IH _ HP) as ((H1 & H2) & H3 & H4). pose proof (start_at _ _ HR _ _ HP) as HN. rewrite ends_app, closes_app.
  assert (NS : forall (l : list nat) x, NoDup l -> ~ In x l -> NoDup (l ++ [x])).
  { intros l x Hl Hx. apply P_Junction.NoDup_app_intro; [exact Hl|repeat constructor; intros []|]. intros y Hy [<-|[]]. exact (Hx Hy). }
  assert (Same : ends [(e, a)] = [] -> closes [(e, a)] = [] -> (NoDup (ends tr ++ ends [(e, a)]) /\ incl (ends tr ++ ends [(e, a)]) (in_chans j)) /\ NoDup (closes tr ++ closes [(e, a)]) /\ incl (closes tr ++ closes [(e, a)]) (in_chans j ++ out_chans j)).
  { intros E1 E2. rewrite E1, E2, !app_nil_r. auto. }
  destruct e as [c|c|c v|c|c|c| | | | | | | | | | | |]; try (apply Same; reflexivity).
  - cbn in HN. destruct HN as (n & -> & _ & Hn & _ & Hf & _). destruct a; try (apply Same; reflexivity). cbn [ends closes flat_map app]. rewrite app_nil_r. split; [split|auto].
    + apply NS; assumption.
    + apply incl_app; [exact H2|]. intros x [<-|[]]. exact Hn.
  - cbn in HN. destruct HN as (n & -> & HN). cbn [ends closes flat_map app]. rewrite app_nil_r. split; [auto|]. destruct HR as (_ & _ & _ & _ & HD).
    destruct HN as [(Hn & Hf & _)|(done & p & rest & pre & E & -> & -> & _ & Hi & Hall)].
    + split; [now apply NS|]. apply incl_app; [exact H4|]. intros x [<-|[]]. apply in_or_app. now left.
    + assert (HO : In (ps_chan p) (out_chans j)) by (unfold out_chans; rewrite E; apply in_map, in_or_app; right; now left).
      split.
      * apply NS; [exact H3|]. rewrite closes_app. destruct (closings_quiet (map ps_chan done)) as (_ & _ & _ & -> & _). intro K. apply in_app_or in K.
        unfold out_chans in HD. rewrite E, map_app in HD. cbn [map] in HD. destruct K as [K|K].
        -- apply Hi in K. apply (nodup_app_disj _ _ (ps_chan p) HD K). apply in_or_app. right. now left.
        -- apply nodup_app_r in HD. apply (nodup_app_disj _ _ (ps_chan p) HD K). now left.
      * apply incl_app; [exact H4|]. intros x [<-|[]]. apply in_or_app. now right.
Qed.

Definition sends_to (n : nat) (tr : trace) : nat := length (datas (offered (CData n) tr)).
Lemma sends_app n a b : sends_to n (a ++ b) = sends_to n a + sends_to n b.
Proof. unfold sends_to. rewrite offered_app. unfold datas. now rewrite flat_map_app, app_length. Qed.
Lemma junction_count tr : (forall ev, In ev tr -> wt (fst ev) (snd ev) = true) -> (forall e a, In (e, a) tr -> comp_may (NJunction j) 0 e) -> (forall e a, In (e, a) tr -> match e with ETryRecv (CData _) | ESend (CData _) _ | EClose (CData _) | ESleep _ => True | _ => False end) ->
  uses tr <= length (arrivals tr) + length (ends tr) + length (closes tr) + list_sum (map (fun n => sends_to n tr) (out_chans j)).
Proof.
  induction tr as [|[e a] tr IH]; intros Hw Hm Hk; [unfold uses; cbn; lia|].
  assert (H0 : uses tr <= length (arrivals tr) + length (ends tr) + length (closes tr) + list_sum (map (fun n => sends_to n tr) (out_chans j))).
  { apply IH; intros; [apply Hw|eapply Hm|eapply Hk]; right; eassumption. } clear IH.
  specialize (Hw _ (or_introl eq_refl)). specialize (Hm _ _ (or_introl eq_refl)). specialize (Hk _ _ (or_introl eq_refl)). cbn [fst snd] in Hw.
  change ((e, a) :: tr) with ([(e, a)] ++ tr). rewrite uses_app, arrivals_app, ends_app, closes_app, !app_length.
  assert (E : list_sum (map (fun n => sends_to n ([(e, a)] ++ tr)) (out_chans j)) = list_sum (map (fun n => sends_to n [(e, a)]) (out_chans j)) + list_sum (map (fun n => sends_to n tr) (out_chans j))).
  { rewrite <- list_sum_plus. f_equal. apply map_ext. intro n. apply sends_app. }
  rewrite E. assert (K : uses [(e, a)] <= length (arrivals [(e, a)]) + length (ends [(e, a)]) + length (closes [(e, a)]) + list_sum (map (fun n => sends_to n [(e, a)]) (out_chans j))); [|lia].
  destruct e as [c|c|c v|c|c|c| | | | | | | | | | | |]; try contradiction Hk.
  - destruct c as [n| | | |]; try contradiction Hk. destruct a as [v| | | | | | | | | |]; try discriminate Hw; [destruct v; try discriminate Hw|..]; unfold uses; cbn [filter useful length arrivals ends flat_map app]; lia.
  - destruct c as [n| | | |]; try contradiction Hk. cbn in Hm. destruct v; try contradiction Hm. rewrite app_nil_r in Hm.
    pose proof (list_sum_in (fun n0 => sends_to n0 [(ESend (CData n) (VData d), a)]) (out_chans j) n Hm) as HS. assert (E1 : sends_to n [(ESend (CData n) (VData d), a)] = 1) by (unfold sends_to; cbn [offered flat_map chan_eqb]; now rewrite Nat.eqb_refl).
    cbv beta in HS. rewrite E1 in HS. pose proof (uses_le [(ESend (CData n) (VData d), a)]) as HU. cbn [length] in HU. lia.
  - destruct c as [n| | | |]; try contradiction Hk. pose proof (uses_le [(EClose (CData n), a)]) as HU. cbn [length closes flat_map app] in *. lia.
  - destruct a; cbn; lia.
Qed.
Lemma arrivals_income tr : length (arrivals tr) <= income tr.
Proof.
  induction tr as [|[e a] tr IH]; [reflexivity|]. rewrite income_cons. change ((e, a) :: tr) with ([(e, a)] ++ tr). rewrite arrivals_app, app_length.
  assert (K : length (arrivals [(e, a)]) <= value (e, a)); [|lia]. destruct e as [c|[]|c v|c|c|c| | | | | | | | | | | |]; cbn; try lia. destruct a as [[]| | | | | | | | | |]; cbn; lia.
Qed.
Lemma junction_uses tr st : exec (junction_start j None) tr st -> (forall e a, In (e, a) tr -> comp_may (NJunction j) 0 e) ->
  uses tr <= 2 * (length (in_chans j) + length (out_chans j)) + (1 + length (out_chans j)) * income tr.
Proof.
  intros HX Hm. destruct (junction_once _ _ HX) as ((H1 & H2) & H3 & H4). pose proof (NoDup_incl_length H1 H2) as L1. pose proof (NoDup_incl_length H3 H4) as L2. rewrite app_length in L2.
  pose proof (arrivals_income tr) as LA.
  assert (LS : list_sum (map (fun n => sends_to n tr) (out_chans j)) <= length (out_chans j) * length (arrivals tr)).
  { unfold out_chans. rewrite map_map, map_length. assert (HS : forall p, In p (jn_stdout j) -> sends_to (ps_chan p) tr <= length (arrivals tr)).
    { intros p Hp. destruct (always_near _ _ HR _ _ _ HX Hp) as ((x & E) & _). apply (f_equal (@length _)) in E. rewrite map_length, app_length in E.
      destruct HR as (_ & _ & HS & _). rewrite Forall_forall in HS. specialize (HS _ Hp). destruct p; try contradiction HS. cbn [offered_to] in E. unfold sends_to. cbn [ps_chan]. lia. }
    clear - HS. induction (jn_stdout j) as [|p l IH]; [cbn; lia|]. pose proof (HS p (or_introl eq_refl)). specialize (IH (fun q Hq => HS q (or_intror Hq))). cbn [map list_sum fold_right length]. unfold list_sum in IH. lia. }
  assert (HW := exec_wt _ _ _ HX). rewrite Forall_forall in HW. destruct (junction_tame _ HR _ _ HX) as [HT _]. unfold within_eff in HT. rewrite Forall_forall in HT.
  pose proof (junction_count tr HW Hm) as LC.
  assert (HK : forall e a, In (e, a) tr -> match e with ETryRecv (CData _) | ESend (CData _) _ | EClose (CData _) | ESleep _ => True | _ => False end).
  { intros e a Hin. pose proof (HT _ Hin) as HT'. cbn [fst] in HT'. apply in_split in Hin. destruct Hin as (t1 & t2 & E). pose proof (start_at _ _ HR _ _ (exec_prefix _ _ _ HX t1 e a t2 E)) as HN.
    assert (HB : busy (jn_stdout j) t1 e -> match e with ESend _ _ | EWrite _ _ => True | _ => False end).
    { intros [(l & _ & H)|(l & d & done & rest & os & _ & [H|(p & rest' & _ & H)])]; [now destruct e|now destruct e|now destruct p; inversion H]. }
    assert (HB2 : busy (jn_stdout j) t1 e -> match e with EWrite _ _ => False | _ => True end).
    { intros [(l & _ & H)|(l & d & done & rest & os & (_ & _ & _ & EO & _) & [H|(p & rest' & -> & H)])]; [now destruct e|now destruct e|].
      destruct HR as (_ & _ & HS & _). rewrite EO in HS. apply Forall_app in HS. destruct HS as [_ HS]. apply Forall_inv in HS. destruct p; try contradiction HS. now inversion H. }
    destruct e; try contradiction HT'; try exact I; try (now destruct HT' as (n & ->)); try (now destruct HT' as (n & d & -> & ->)); cbn in HN; try (destruct HN as [HN _]; contradiction (HB HN)); destruct HN as [HN _]; contradiction (HB2 HN). }
  specialize (LC HK). nia.
Qed.
End Junction.

(** ** The counter of a buffer *)
Definition closings (t : tplace) : nat := match t with TDropI _ => 1 | TDropS _ | TDone _ | TBad _ => 2 | _ => 0 end.
Lemma counter_uses mi mo tr t : treach None mi mo tr t -> uses tr <= length (taken (CMon mi) tr) + length (taken (CMon mo) tr) + closings t.
Proof.
  induction 1 as [|tr t e a H IH He Hw]; [unfold uses; cbn; lia|]. rewrite uses_app, !taken_app, !app_length.
  assert (K : uses [(e, a)] + closings t <= length (taken (CMon mi) [(e, a)]) + length (taken (CMon mo) [(e, a)]) + closings (tnext None t a)); [|lia].
  assert (HM : forall m, length (taken (CMon m) [(ETryRecv (CMon m), a)]) = match a with AMsg _ => 1 | _ => 0 end) by (intro m; destruct a; cbn; try reflexivity; now rewrite Nat.eqb_refl).
  assert (HU : forall m, wt (ETryRecv (CMon m)) a = true -> uses [(ETryRecv (CMon m), a)] = match a with AMsg _ => 1 | _ => 0 end) by (intros m Hm; destruct a; try discriminate Hm; reflexivity).
  destruct t as [size back last|size moved back last|size moved back last|size moved back last|size moved back last|size moved back last|size moved back last|size back last|r|r|r|r|m]; cbn [tstat] in He; try discriminate He; injection He as <-.
  - rewrite (HU _ Hw), HM. cbn [closings]. lia.
  - rewrite (HU _ Hw), HM. cbn [closings]. lia.
  - cbn. lia.
  - cbn. lia.
  - cbn. lia.
  - cbn. lia.
  - cbn. lia.
  - pose proof (uses_le [(EClose (CMon mo), a)]) as L. cbn [length] in L. cbn [closings tnext]. lia.
  - pose proof (uses_le [(EClose (CMon mi), a)]) as L. cbn [length] in L. cbn [closings tnext go_dropS]. lia.
Qed.

(** ** The end of a launch *)
Lemma exit_uses j n tr st : exec (iter (exit_body None j n) tt) tr st -> uses tr <= 3.
Proof.
  intro HX.
  assert (K : sat [] (iter (exit_body None j n) tt) (fun h _ => uses h <= 3) (fun h _ => uses h <= 3)).
  { apply (sat_iter (exit_body None j n) (fun h _ => uses h = 0)); [|reflexivity]. intros h [] Hh. unfold exit_body. apply sat_vis; [lia|]. intros a Hw.
    assert (HS : uses (h ++ [(EStatus, a)]) <= 1) by (rewrite uses_app; pose proof (uses_le [(EStatus, a)]) as L; cbn [length] in L; lia).
    destruct (exit_message a) as [m|] eqn:Em.
    - apply sat_bind. unfold send. apply sat_vis; [lia|]. intros b Hb.
      assert (HS2 : uses ((h ++ [(EStatus, a)]) ++ [(ESend (CData n) (VData m), b)]) <= 2) by (rewrite uses_app; pose proof (uses_le [(ESend (CData n) (VData m), b)]) as L; cbn [length] in L; lia).
      destruct b; try discriminate Hb; apply sat_ret; cbn [negb]; [apply sat_ret; lia|]. apply sat_bind. unfold close. apply sat_vis; [lia|]. intros d Hd.
      destruct d; try discriminate Hd. apply sat_ret, sat_ret. rewrite uses_app. pose proof (uses_le [(EClose (CData n), AOk)]) as L. cbn [length] in L. lia.
    - apply sat_bind. unfold sleep. apply sat_vis; [lia|]. intros b Hb. destruct b; try discriminate Hb. apply sat_ret, sat_ret. rewrite !uses_app.
      destruct a; try discriminate Hw; [unfold uses; cbn; unfold uses in Hh; lia|]. destruct code; discriminate Em. }
  pose proof (K _ _ HX) as H. cbn [app] in H. destruct st as [e|r|s]; [exact H|exact H|contradiction].
Qed.
Lemma finish_uses la a b c tr st : exec (launch_finish la None a b c) tr st -> uses tr <= 3.
Proof.
  unfold launch_finish. destruct (la_exit_status la) as [[j n]|]; intro HX; [|apply exec_ret_inv in HX; destruct HX as [-> _]; unfold uses; cbn; lia].
  destruct (exec_bind_inv _ _ _ _ HX) as [(t1 & t2 & x & -> & H1 & H2)|[(e & _ & H1)|(s & _ & H1)]]; try exact (exit_uses _ _ _ _ H1).
  destruct x; apply exec_ret_inv in H2; destruct H2 as [-> _]; rewrite app_nil_r; exact (exit_uses _ _ _ _ H1).
Qed.

(** ** Every component *)
Lemma motion_recv pl mon ps e : motion_eff pl mon None ps e -> match e with ERecv (CData n) => match pl with PlReceiver _ m => m = n | _ => False end | ETryRecv _ => False | ESend (CData n) _ => In n (push_chans ps) | ESend (CMon m) _ => mon_read mon = Some m \/ mon_written mon = Some m | _ => True end.
Proof.
  intros [[H|[(q & d & [<-|[]] & H)|[(m & H & ->)|[(m & H & ->)|(s & v & H & _)]]]]|[H|[(q & [<-|[]] & H)|(m & H & ->)]]]; try discriminate H; auto.
  - destruct pl; try discriminate H; injection H as <-; exact I || reflexivity.
  - destruct ps; try discriminate H; injection H as <-; cbn; auto.
  - destruct pl; try contradiction H; subst e; exact I.
  - destruct ps; try contradiction H; [destruct H as [->| ->]; exact I|subst e; exact I..].
Qed.
Definition uses_all (L : list nevent) : nat := uses (own 0 L) + uses (own 1 L) + uses (own 2 L) + uses (own 3 L).
Definition gain_all (ns : list nat) (L : list nevent) : nat := gain ns (own 0 L) + gain ns (own 1 L) + gain ns (own 2 L) + gain ns (own 3 L).
Definition inner_ok (c : comp) (L : list nevent) : Prop :=
  match c with
  | NBuffer _ u mi mo => length (taken (CData u) (own 2 L)) <= length (sent (CData u) (own 1 L)) /\
      length (taken (CMon mi) (own 3 L)) <= length (sent (CMon mi) (own 1 L)) /\ length (taken (CMon mo) (own 3 L)) <= length (sent (CMon mo) (own 2 L))
  | _ => True
  end.
Lemma motion_uses pl mon ps tr st : hoard pl = 0 -> exec (motion pl mon None ps) tr st -> uses tr <= 11 + 5 * income tr.
Proof. intros Hp HX. destruct (motion_cost pl mon ps 11 ltac:(lia) _ _ HX) as [H _]. pose proof (uses_le tr). lia. Qed.
Lemma gate_uses pl ps tr st : hoard pl = 0 -> exec (start_secret false (Some pl) (Some ps) None None) tr st -> uses tr <= 11 + 5 * income tr.
Proof. intros Hp HX. destruct (gate_cost pl ps 5 ltac:(lia) _ _ HX) as [H _]. pose proof (uses_le tr). lia. Qed.
Lemma sent_uses c tr : length (sent c tr) <= uses tr.
Proof.
  induction tr as [|[e a] tr IH]; [cbn; lia|]. rewrite uses_cons. change ((e, a) :: tr) with ([(e, a)] ++ tr). rewrite sent_app', app_length.
  assert (K : length (sent c [(e, a)]) <= if useful (e, a) then 1 else 0); [|lia]. destruct e as [c'|c'|c' v|c'|c'|c'| | | | | | | | | | | |]; cbn; try lia.
  destruct a; cbn; try lia. destruct (chan_eqb c c'); cbn; lia.
Qed.
Lemma alone_uses p L st : alone p L st -> exists s, exec p (own 0 L) s /\ uses_all L = uses (own 0 L).
Proof. intros (HI & s & _ & HX). exists s. split; [exact HX|]. unfold uses_all. rewrite (HI 1), (HI 2), (HI 3) by (cbn; auto). cbn. lia. Qed.

Lemma buffer_zero b u mi mo pl ps L st : buffer_wired b pl ps u mi mo -> push_journey ps <> None -> buffer_start b None u mi mo L st -> own 0 L = [].
Proof.
  intros HR Hj HX. assert (EE : buffer_ends b = Ret (inr (pl, ps))) by (destruct HR as (E1 & E2 & _); unfold buffer_ends; rewrite E1, E2; now destruct (push_journey ps)).
  unfold buffer_start in HX. rewrite EE in HX. destruct HX as [L e Hi HX|L s Hi HX|L r Hi HX|L0 L x a b' c K0 K1 HX HA HB HZ|L0 L L1 x a b' c st K0 K1 K2 HX HA HB HZ HF];
    apply exec_ret_inv in HX; destruct HX as [HX E]; try discriminate E.
  - now rewrite own_app, HX, (K1 0) by now left.
  - apply exec_ret_inv in HF. destruct HF as [HF _]. now rewrite !own_app, HX, HF, (K1 0) by now left.
Qed.
Definition fixed (c : comp) : nat := 200 + 2 * (length (comp_ins c) + length (comp_outs c)).
Definition each (c : comp) : nat := 100 + length (comp_outs c).
Lemma comp_uses c L oc : comp_ready c -> comp_runs c L oc -> inner_ok c L -> uses_all L <= fixed c + each c * gain_all (comp_ins c) L.
Proof.
  intros HR HX HI.
  assert (HG : comp_stores c = [] -> forall t, t < 4 -> income (own t L) <= gain (comp_ins c) (own t L)).
  { intros Es t Ht. apply income_gain. intros e a n Hin [-> | ->]; apply (in_own t) in Hin; pose proof (comp_within c L oc HR HX t _ _ Ht Hin) as H; cbn in H; [rewrite Es, app_nil_r in H|]; apply H. }
  assert (Alone : comp_stores c = [] -> (exists s, uses_all L <= 12 + 5 * income (own 0 L) + s /\ s = 0) -> uses_all L <= fixed c + each c * gain_all (comp_ins c) L).
  { intros Es (s & H & ->). pose proof (HG Es 0 ltac:(lia)). unfold fixed, each, gain_all. nia. }
  destruct c as [f name|r|b u mi mo|j|cwd vars la|d name].
  - apply Alone; [reflexivity|]. exists 0. split; [|reflexivity]. destruct HR as (HC & j & o & HR). destruct HX as (st & HX & _). destruct (alone_uses _ _ _ HX) as (s & HY & ->).
    destruct (faucet_run _ _ _ _ _ _ HR HY) as [[-> _]|[(j' & _ & -> & _)|(fd & rest & k & j' & E & HZ)]]; [unfold uses; cbn; lia|pose proof (uses_le [(source_eff name, AErr)]) as HU; cbn [length] in HU; lia|].
    rewrite HC in HZ. pose proof (gate_uses (PlBytes k j' fd split_control_new) _ _ _ eq_refl HZ). rewrite E, uses_cons, income_cons. destruct (useful _); lia.
  - apply Alone; [reflexivity|]. exists 0. split; [|reflexivity]. destruct HR as (HC & pj & i & j & o & HR). destruct HX as (st & HX & _). destruct (alone_uses _ _ _ HX) as (s & HY & ->).
    rewrite (regulator_gate _ _ _ _ HR), HC in HY. pose proof (gate_uses (PlReceiver pj i) _ _ _ eq_refl HY). lia.
  - pose proof (comp_within _ _ _ HR HX) as HM. destruct HX as (st & HX & _ & _). destruct HR as (HC & pj & i & j & o & HR). pose proof (buffer_zero _ _ _ _ _ _ _ _ HR ltac:(discriminate) HX) as H0.
    destruct (buffer_parts _ _ _ _ _ _ _ _ _ HR HX) as (sa & sb & sc & Ha & Hb & Hc & _). rewrite HC in Hc. destruct (total_reach _ _ _ _ _ Hc) as (tp & HT & _). apply counter_uses in HT.
    pose proof (motion_uses (PlReceiver pj i) _ _ _ _ eq_refl Ha) as U1. pose proof (motion_uses (PlReceiver (PJ 0 0) u) _ _ _ _ eq_refl Hb) as U2. destruct HI as (I1 & I2 & I3).
    pose proof (sent_uses (CData u) (own 1 L)) as S1. pose proof (sent_uses (CMon mi) (own 1 L)) as S2. pose proof (sent_uses (CMon mo) (own 2 L)) as S3.
    assert (HCl : closings tp <= 2) by (destruct tp; cbn; lia).
    assert (Ei : comp_ins (NBuffer b u mi mo) = [i]) by (destruct HR as (E1 & _); cbn; now rewrite E1).
    assert (N1 : income (own 1 L) <= gain [i] (own 1 L)).
    { apply income_gain. intros e a n Hin Hn. pose proof (all_motion _ _ _ _ _ _ _ Ha Hin) as K. apply motion_recv in K. destruct Hn as [-> | ->]; cbn in K; [|contradiction K]. left. congruence. }
    assert (N2 : income (own 2 L) <= gain [u] (own 2 L)).
    { apply income_gain. intros e a n Hin Hn. pose proof (all_motion _ _ _ _ _ _ _ Hb Hin) as K. apply motion_recv in K. destruct Hn as [-> | ->]; cbn in K; [|contradiction K]. left. congruence. }
    assert (N3 : gain [u] (own 2 L) <= length (taken (CData u) (own 2 L)) + gain [i] (own 2 L)) by (unfold gain; cbn [map list_sum fold_right]; lia).
    rewrite Ei. unfold uses_all. rewrite H0. change (uses []) with 0. unfold fixed, each, gain_all. nia.
  - destruct HX as (st & HX & E). pose proof HX as HX'. destruct (alone_uses _ _ _ HX) as (s & HY & ->).
    pose proof (junction_uses _ HR _ _ HY) as H. assert (Hm : forall e a, In (e, a) (own 0 L) -> comp_may (NJunction j) 0 e).
    { intros e a Hin. apply (in_own 0) in Hin. eapply (comp_within (NJunction j) L oc HR); [exists st; auto|lia|exact Hin]. }
    specialize (H Hm). pose proof (HG eq_refl 0 ltac:(lia)). unfold fixed, each, gain_all. cbn [comp_ins comp_outs] in *. nia.
  - destruct HX as (st & HX & Hmo & E). pose proof (launch_parts _ _ _ _ _ _ (proj1 (proj1 HR)) HX) as HP.
    pose proof (HG eq_refl 0 ltac:(lia)). pose proof (HG eq_refl 1 ltac:(lia)). pose proof (HG eq_refl 2 ltac:(lia)). pose proof (HG eq_refl 3 ltac:(lia)).
    assert (K : uses_all L <= 4 + 33 + 5 * (income (own 1 L) + income (own 2 L) + income (own 3 L))); [|unfold fixed, each, gain_all; nia].
    assert (M : forall fin fout ferr sa sb sc, let x := launch_relays la fin fout ferr in exec (relay (rl_in x) None) (own 1 L) sa -> exec (relay (rl_out x) None) (own 2 L) sb -> exec (relay (rl_err x) None) (own 3 L) sc ->
      uses (own 1 L) + uses (own 2 L) + uses (own 3 L) <= 33 + 5 * (income (own 1 L) + income (own 2 L) + income (own 3 L))).
    { intros fin fout ferr sa sb sc x Ha Hb Hc. destruct HR as (_ & Hs & _). subst x.
      assert (U1 : uses (own 1 L) <= 11 + 5 * income (own 1 L)) by (eapply motion_uses; [|exact Ha]; cbn; destruct (la_stdin la) as [pl|]; [destruct (Hs _ eq_refl) as (pj & i & ->)|]; reflexivity).
      assert (U2 : uses (own 2 L) <= 11 + 5 * income (own 2 L)) by (eapply motion_uses; [|exact Hb]; cbn; destruct (la_stdout la); reflexivity).
      assert (U3 : uses (own 3 L) <= 11 + 5 * income (own 3 L)) by (eapply motion_uses; [|exact Hc]; cbn; destruct (la_stderr la); reflexivity). lia. }
    unfold uses_all. destruct st as [s|sa sb sc|s].
    + destruct HP as (HID & HP). rewrite (HID 1), (HID 2), (HID 3) by (cbn; auto). change (uses []) with 0. destruct HP as [[-> _]|[-> _]]; [cbn; lia|]. pose proof (uses_le [(ESpawn (launch_spawning cwd vars la), AErr)]) as HU. cbn [length] in HU. lia.
    + destruct HP as (fin & fout & ferr & E0 & H1' & H2' & H3'). pose proof (M _ _ _ _ _ _ H1' H2' H3'). rewrite E0. pose proof (uses_le [(ESpawn (launch_spawning cwd vars la), AChild fin fout ferr)]) as HU. cbn [length] in HU. lia.
    + destruct HP as (fin & fout & ferr & a1 & b1 & c1 & tr & E0 & H1' & H2' & H3' & H4'). pose proof (M _ _ _ _ _ _ H1' H2' H3'). rewrite E0, uses_app. pose proof (finish_uses _ _ _ _ _ _ H4').
      pose proof (uses_le [(ESpawn (launch_spawning cwd vars la), AChild fin fout ferr)]) as HU. cbn [length] in HU. lia.
  - apply Alone; [reflexivity|]. exists 0. split; [|reflexivity]. destruct HR as (pj & i & HR). destruct HX as (st & HX & _). destruct (alone_uses _ _ _ HX) as (s & HY & ->).
    destruct (drain_run _ _ _ _ _ HR HY) as [(_ & H)|(e' & E & H)]; [pose proof (motion_uses (PlReceiver pj i) _ _ _ _ eq_refl H); lia|].
    destruct H as [(-> & _)|[(f & rest & k & pj' & -> & Ej & H)|(rest & pj' & -> & Ej & H)]]; [unfold uses; cbn; lia| |].
    + pose proof (motion_uses (PlReceiver pj i) _ _ _ _ eq_refl H). rewrite uses_cons, income_cons. destruct (useful _); lia.
    + assert (W : cost 1 (drop_pull (PlReceiver pj i) ;;; Ret (Err (A := nat) (OpenIOError pj'))) (fun _ _ => True)).
      { apply cost_bind. eapply cost_conseq; [apply (drop_pull_cost _ 0); lia|]. intros b' x Hb'. now apply cost_ret. }
      destruct (W _ _ H) as [HL _]. pose proof (uses_le rest). rewrite uses_cons, income_cons. destruct (useful _); lia.
Qed.

(** ** The network *)
Lemma own1 i t ev : own t [(i, ev)] = if i =? t then [ev] else [].
Proof. unfold own. cbn. now destruct (i =? t). Qed.
Lemma sent_only c (l : list nevent) t : (forall i v a, In (i, (ESend c v, a)) l -> i = t) -> sent c (all_of l) = sent c (own t l).
Proof.
  induction l as [|[i [e a]] l IH]; intro H; [reflexivity|].
  change (all_of ((i, (e, a)) :: l)) with ([(e, a)] ++ all_of l). change ((i, (e, a)) :: l) with ([(i, (e, a))] ++ l). rewrite own_app, !sent_app', IH by (intros; eapply H; right; eassumption). f_equal.
  rewrite own1. destruct (Nat.eqb_spec i t) as [->|Hne]; [reflexivity|]. destruct e as [c'|c'|c' v|c'|c'|c'| | | | | | | | | | | |]; cbn; try reflexivity.
  destruct a; try reflexivity. destruct (chan_eqb c c') eqn:E; [|reflexivity]. apply chan_eqb_eq in E. subst c'. exfalso. apply Hne. apply (H i v AOk). now left.
Qed.
Lemma sent_among c (l : list nevent) ts : (forall i v a, In (i, (ESend c v, a)) l -> In i ts) -> length (sent c (all_of l)) <= list_sum (map (fun t => uses (own t l)) ts).
Proof.
  induction l as [|[i [e a]] l IH]; intro H; [cbn; lia|].
  change (all_of ((i, (e, a)) :: l)) with ([(e, a)] ++ all_of l). change ((i, (e, a)) :: l) with ([(i, (e, a))] ++ l). rewrite sent_app', app_length.
  assert (E : list_sum (map (fun t => uses (own t ([(i, (e, a))] ++ l))) ts) = list_sum (map (fun t => uses (own t [(i, (e, a))])) ts) + list_sum (map (fun t => uses (own t l)) ts)).
  { rewrite <- list_sum_plus. f_equal. apply map_ext. intro t. now rewrite own_app, uses_app. }
  rewrite E. specialize (IH (fun i' v a' Hin => H i' v a' (or_intror Hin))).
  assert (K : length (sent c [(e, a)]) <= list_sum (map (fun t => uses (own t [(i, (e, a))])) ts)); [|lia].
  destruct e as [c'|c'|c' v|c'|c'|c'| | | | | | | | | | | |]; cbn [sent flat_map length app]; try lia. destruct a; try apply Nat.le_0_l. destruct (chan_eqb c c') eqn:Ec; cbn [length app]; [|lia].
  apply chan_eqb_eq in Ec. subst c'. pose proof (list_sum_in (fun t => uses (own t [(i, (ESend c v, AOk))])) ts i (H _ _ _ (or_introl eq_refl))) as HS. cbv beta in HS.
  rewrite own1, Nat.eqb_refl in HS. exact HS.
Qed.
Lemma taken_own c t l : length (taken c (own t l)) <= length (taken c (all_of l)).
Proof.
  induction l as [|[i ev] l IH]; [cbn; lia|]. change (all_of ((i, ev) :: l)) with ([ev] ++ all_of l). change ((i, ev) :: l) with ([(i, ev)] ++ l). rewrite own_app, !taken_app, !app_length, own1.
  destruct (i =? t); cbn [app]; [lia|]. change (taken c []) with (@nil val). cbn [length]. lia.
Qed.
Lemma bytes_own t l : bytes_of (own t l) <= bytes_read l.
Proof.
  change (bytes_read l) with (bytes_of (all_of l)).
  induction l as [|[i ev] l IH]; [cbn; lia|]. change (all_of ((i, ev) :: l)) with ([ev] ++ all_of l). change ((i, ev) :: l) with ([(i, ev)] ++ l). rewrite own_app, !bytes_app, own1.
  destruct (i =? t); [lia|]. change (bytes_of []) with 0. lia.
Qed.
Lemma uses_sum l n : (forall i ev, In (i, ev) l -> i < n) -> useful_count l <= list_sum (map (fun t => uses (own t l)) (seq 0 n)).
Proof.
  change (useful_count l) with (uses (all_of l)).
  induction l as [|[i ev] l IH]; intro H; [cbn; lia|]. change (all_of ((i, ev) :: l)) with ([ev] ++ all_of l). change ((i, ev) :: l) with ([(i, ev)] ++ l). rewrite uses_app.
  assert (E : list_sum (map (fun t => uses (own t ([(i, ev)] ++ l))) (seq 0 n)) = list_sum (map (fun t => uses (own t [(i, ev)])) (seq 0 n)) + list_sum (map (fun t => uses (own t l)) (seq 0 n))).
  { rewrite <- list_sum_plus. f_equal. apply map_ext. intro t. now rewrite own_app, uses_app. }
  rewrite E. specialize (IH (fun i' ev' Hin => H i' ev' (or_intror Hin))).
  assert (Hi : In i (seq 0 n)) by (apply in_seq; pose proof (H i ev (or_introl eq_refl)); lia).
  pose proof (list_sum_in (fun t => uses (own t [(i, ev)])) _ _ Hi) as HS. cbv beta in HS. rewrite own1, Nat.eqb_refl in HS. lia.
Qed.
Lemma nth_unique {A} (f : A -> list nat) (net : list A) k k' c c' n : NoDup (flat_map f net) -> nth_error net k = Some c -> nth_error net k' = Some c' -> In n (f c) -> In n (f c') -> k = k'.
Proof.
  revert k k'. induction net as [|x net IH]; intros [|k] [|k'] HD Hk Hk' Hn Hn'; try discriminate; cbn in HD; cbn [nth_error] in Hk, Hk'.
  - reflexivity.
  - exfalso. injection Hk as ->. apply (nodup_app_disj _ _ n HD Hn). apply in_flat_map. exists c'. split; [exact (nth_error_In _ _ Hk')|exact Hn'].
  - exfalso. injection Hk' as ->. apply (nodup_app_disj _ _ n HD Hn'). apply in_flat_map. exists c. split; [exact (nth_error_In _ _ Hk)|exact Hn].
  - f_equal. apply (IH k k'); try assumption. now apply nodup_app_r in HD.
Qed.

Section Bound.
Variables (net : list comp) (w0 : world).
Hypothesis HN : net_wired net.
Section Run.
Variables (l : list nevent) (w : world) (ocs : nat -> outcome).
Hypothesis HX : net_run net w0 l w ocs.

Lemma taken_sent c : length (taken c (all_of l)) <= length (sent c (all_of l)).
Proof.
  pose proof (fifo c _ _ _ (nr_world _ _ _ _ _ HX)) as H. destruct (nr_new _ _ _ _ _ HX c) as (cap & E). rewrite E in H. apply (f_equal (@length _)) in H. rewrite !app_length in H. cbn in H. lia.
Qed.
(** Whoever writes a channel is the component it comes from, or the buffer in which it is. *)
Lemma data_writer i n v a : In (i, (ESend (CData n) v, a)) l -> exists c, nth_error net (i / 4) = Some c /\ In n (comp_outs c ++ comp_stores c).
Proof. intro Hin. destruct (event_may net w0 HN _ _ _ HX _ _ _ Hin) as (c & Hc & Hm). exists c. split; [exact Hc|]. cbn in Hm. destruct v; try contradiction Hm. exact Hm. Qed.
Lemma writer_unique k c k' c' n : nth_error net k = Some c -> nth_error net k' = Some c' -> In n (comp_outs c ++ comp_stores c) -> In n (comp_outs c' ++ comp_stores c') -> k = k'.
Proof.
  intros Hk Hk' Hn Hn'. pose proof (nw_outs _ HN) as HD.
  assert (HO : forall m x, nth_error net m = Some x -> In n (comp_outs x) -> In n (flat_map comp_outs net)) by (intros m x Hm Hx; apply in_flat_map; exists x; split; [exact (nth_error_In _ _ Hm)|exact Hx]).
  assert (HS : forall m x, nth_error net m = Some x -> In n (comp_stores x) -> In n (flat_map comp_stores net)) by (intros m x Hm Hx; apply in_flat_map; exists x; split; [exact (nth_error_In _ _ Hm)|exact Hx]).
  apply in_app_or in Hn, Hn'. destruct Hn as [Hn|Hn], Hn' as [Hn'|Hn'].
  - exact (nth_unique comp_outs _ _ _ _ _ _ (nodup_app_l _ _ HD) Hk Hk' Hn Hn').
  - destruct (nodup_app_disj _ _ n HD (HO _ _ Hk Hn) (HS _ _ Hk' Hn')).
  - destruct (nodup_app_disj _ _ n HD (HO _ _ Hk' Hn') (HS _ _ Hk Hn)).
  - exact (nth_unique comp_stores _ _ _ _ _ _ (nodup_app_r _ _ HD) Hk Hk' Hn Hn').
Qed.
Lemma task_of i : i = 4 * (i / 4) + i mod 4.
Proof. apply Nat.div_mod. lia. Qed.
Lemma inner_fine k c : nth_error net k = Some c -> inner_ok c (seen_by k l).
Proof.
  intro Hk. destruct c as [| |b u mi mo| | |]; try exact I. pose proof (nr_comps _ _ _ _ _ HX _ _ Hk) as HC. pose proof (nw_ready _ HN _ (nth_error_In _ _ Hk)) as HR.
  destruct HC as (st & HC & _ & _). destruct HR as (Hmon & pj & i & j & o & HR). pose proof (buffer_zero _ _ _ _ _ _ _ _ HR ltac:(discriminate) HC) as H0.
  destruct (buffer_parts _ _ _ _ _ _ _ _ _ HR HC) as (sa & sb & sc & Ha & Hb & Hc & _). rewrite Hmon in Hc. destruct (total_reach _ _ _ _ _ Hc) as (tp & HT & _). apply t_traces in HT. rewrite Forall_forall in HT.
  assert (Eo : comp_outs (NBuffer b u mi mo) = [o]) by (destruct HR as (_ & E2 & _); cbn; now rewrite E2).
  assert (Huo : u <> o).
  { intros ->. apply (nodup_app_disj _ _ o (nw_outs _ HN)); apply in_flat_map; eexists; (split; [exact (nth_error_In _ _ Hk)|]); [rewrite Eo|]; now left. }
  assert (Hmm : mi <> mo).
  { intros ->. pose proof (nw_counts _ HN) as HD. apply nth_error_In, in_split in Hk. destruct Hk as (n1 & n2 & E). rewrite E, flat_map_app in HD. cbn in HD. apply nodup_app_r in HD. inversion HD as [|x y HD1]. apply HD1. now left. }
  cbn [inner_ok]. rewrite !own_seen in * by lia.
  assert (Fin : forall c t t', (forall i' v a, In (i', (ESend c v, a)) l -> i' = 4 * k + t) -> length (taken c (own (4 * k + t') l)) <= length (sent c (own (4 * k + t) l))).
  { intros c t t' H. rewrite <- (sent_only _ _ _ H). pose proof (taken_own c (4 * k + t') l). pose proof (taken_sent c). lia. }
  assert (Who : forall i' e a, In (i', (e, a)) l -> i' / 4 = k -> (i' = 4 * k + 1 /\ motion_eff (PlReceiver pj i) (MN None (Some mi)) None (PsSender (J 0 None 0 (push_brk (PsIoSender j o))) u) e) \/
     (i' = 4 * k + 2 /\ motion_eff (PlReceiver (PJ 0 0) u) (MN (Some mo) None) None (PsIoSender j o) e) \/ (i' = 4 * k + 3 /\ does_t None mi mo e)).
  { intros i' e a Hin Ek. assert (Hlt : i' mod 4 < 4) by (apply Nat.mod_upper_bound; lia). pose proof (task_of i') as Ei. rewrite Ek in Ei. apply in_own in Hin. rewrite Ei in Hin. rewrite Ei.
    destruct (i' mod 4) as [|[|[|[|x]]]]; [|left|right; left|right; right|lia].
    - rewrite Nat.add_0_r in *. rewrite H0 in Hin. destruct Hin.
    - split; [reflexivity|]. exact (all_motion _ _ _ _ _ _ _ Ha Hin).
    - split; [reflexivity|]. exact (all_motion _ _ _ _ _ _ _ Hb Hin).
    - split; [reflexivity|]. exact (HT _ Hin). }
  assert (Mon : forall i' m v a, In m [mi; mo] -> In (i', (ESend (CMon m) v, a)) l -> i' / 4 = k).
  { intros i' m v a Hm Hin. destruct (event_may net w0 HN _ _ _ HX _ _ _ Hin) as (c & Hc' & Hm'). cbn in Hm'. destruct v; try contradiction Hm'; apply (nth_unique comp_counts net _ _ _ _ m (nw_counts _ HN) Hc' Hk Hm' Hm). }
  repeat split.
  - apply (Fin (CData u) 1 2). intros i' v a Hin. destruct (data_writer _ _ _ _ Hin) as (c' & Hc' & Hn).
    assert (Ek : i' / 4 = k) by (apply (writer_unique _ _ _ _ u Hc' Hk Hn); apply in_or_app; right; now left).
    destruct (Who _ _ _ Hin Ek) as [[E _]|[[_ E]|[_ E]]]; [exact E| |destruct E]. apply motion_recv in E. cbn in E. destruct E as [E|[]]. congruence.
  - apply (Fin (CMon mi) 1 3). intros i' v a Hin. destruct (Who _ _ _ Hin (Mon _ mi _ _ (or_introl eq_refl) Hin)) as [[E _]|[[_ E]|[_ E]]]; [exact E| |destruct E].
    apply motion_recv in E. cbn in E. destruct E as [E|E]; congruence.
  - apply (Fin (CMon mo) 2 3). intros i' v a Hin. destruct (Who _ _ _ Hin (Mon _ mo _ _ (or_intror (or_introl eq_refl)) Hin)) as [[_ E]|[[E _]|[_ E]]]; [|exact E|destruct E].
    apply motion_recv in E. cbn in E. destruct E as [E|E]; congruence.
Qed.

(** What component [k] uses. *)
Definition uses_of (k : nat) : nat := uses_all (seen_by k l).
Lemma fed n k c : nth_error net k = Some c -> In n (comp_outs c) -> length (taken (CData n) (all_of l)) <= uses_of k.
Proof.
  intros Hk Hn. pose proof (taken_sent (CData n)) as H. etransitivity; [exact H|]. clear H.
  etransitivity; [apply (sent_among (CData n) l [4 * k + 0; 4 * k + 1; 4 * k + 2; 4 * k + 3])|unfold uses_of, uses_all; rewrite !own_seen by lia; cbn [map list_sum fold_right]; lia].
  intros i v a Hin. destruct (data_writer _ _ _ _ Hin) as (c' & Hc' & Hn'). assert (Ek : i / 4 = k) by (apply (writer_unique _ _ _ _ n Hc' Hk Hn'); apply in_or_app; now left).
  pose proof (task_of i) as Ei. rewrite Ek in Ei. assert (Hlt : i mod 4 < 4) by (apply Nat.mod_upper_bound; lia). cbn [In]. lia.
Qed.
Lemma gain_bound k c B N : nth_error net k = Some c -> bytes_read l <= N -> (forall n, In n (comp_ins c) -> length (taken (CData n) (all_of l)) <= B) ->
  uses_of k <= fixed c + each c * (4 * (length (comp_ins c) * B + N)).
Proof.
  intros Hk HB HT. pose proof (comp_uses c (seen_by k l) _ (nw_ready _ HN _ (nth_error_In _ _ Hk)) (nr_comps _ _ _ _ _ HX _ _ Hk) (inner_fine _ _ Hk)) as H. fold (uses_of k) in H.
  assert (G : forall t, t < 4 -> gain (comp_ins c) (own t (seen_by k l)) <= length (comp_ins c) * B + N).
  { intros t Ht. rewrite own_seen by exact Ht. unfold gain. pose proof (bytes_own (4 * k + t) l).
    assert (K : list_sum (map (fun n => length (taken (CData n) (own (4 * k + t) l))) (comp_ins c)) <= length (comp_ins c) * B); [|lia].
    clear - HT. induction (comp_ins c) as [|n ns IH]; [cbn; lia|]. specialize (IH (fun m Hm => HT m (or_intror Hm))). pose proof (HT n (or_introl eq_refl)). pose proof (taken_own (CData n) (4 * k + t) l).
    cbn [map list_sum fold_right length]. unfold list_sum in IH. lia. }
  unfold gain_all in H. pose proof (G 0 ltac:(lia)). pose proof (G 1 ltac:(lia)). pose proof (G 2 ltac:(lia)). pose proof (G 3 ltac:(lia)). nia.
Qed.
End Run.
End Bound.

Section Total.
Variable net : list comp.
Hypothesis HN : net_wired net.
Hypothesis HA : acyclic net.
Lemma rank_bound N rank : (forall k c k' c' n, nth_error net k = Some c -> nth_error net k' = Some c' -> In n (comp_outs c) -> In n (comp_ins c') -> rank k < rank k') ->
  forall d, exists B, forall w0 l w ocs k, net_run net w0 l w ocs -> bytes_read l <= N -> k < length net -> rank k < d -> uses_of l k <= B.
Proof.
  intro HR. induction d as [|d [B IH]]; [exists 0; intros; lia|].
  exists (B + list_sum (map (fun c => fixed c + each c * (4 * (length (comp_ins c) * B + N))) net)). intros w0 l w ocs k HX Hb Hk Hd.
  destruct (nth_error net k) as [c|] eqn:Ec; [|apply nth_error_None in Ec; lia].
  pose proof (gain_bound net w0 HN l w ocs HX k c B N Ec Hb) as H. etransitivity; [apply H|].
  - intros n Hn. destruct (writer_of net HN k c n Ec Hn) as (k' & c' & Hk' & Hn'). etransitivity; [exact (fed net w0 HN l w ocs HX n k' c' Hk' Hn')|].
    apply (IH w0 l w ocs k' HX Hb); [apply nth_error_Some; congruence|]. pose proof (HR _ _ _ _ _ Hk' Ec Hn' Hn). lia.
  - pose proof (list_sum_in (fun c => fixed c + each c * (4 * (length (comp_ins c) * B + N))) net c (nth_error_In _ _ Ec)) as HS. cbv beta in HS. lia.
Qed.
Theorem net_bound N : exists B, forall w0 l w ocs, net_run net w0 l w ocs -> bytes_read l <= N -> useful_count l <= B.
Proof.
  destruct HA as (rank & HR). destruct (rank_bound N rank HR (S (list_max (map rank (seq 0 (length net)))))) as (B & H). exists (length net * B). intros w0 l w ocs HX Hb.
  etransitivity; [apply (uses_sum l (length net * 4))|].
  - intros i ev Hin. pose proof (nr_only _ _ _ _ _ HX _ _ Hin) as K. apply Nat.div_lt_upper_bound in K || (pose proof (task_of i); assert (i mod 4 < 4) by (apply Nat.mod_upper_bound; lia); lia).
  - assert (HK : forall k, k < length net -> uses_of l k <= B) by (intros k Hk; apply (H w0 l w ocs k HX Hb Hk); pose proof (rank_le net rank k Hk); lia).
    clear - HK. revert HK. generalize (length net). induction n as [|n IH]; intro HK; [cbn; lia|]. specialize (IH (fun k Hk => HK k (Nat.lt_lt_succ_r _ _ Hk))).
    replace (S n * 4) with (n * 4 + 4) by lia. rewrite seq_app, map_app, list_sum_app. pose proof (HK n (Nat.lt_succ_diag_r _)) as Hn. unfold uses_of, uses_all in Hn. rewrite !own_seen in Hn by lia.
    cbn [Nat.add seq map list_sum fold_right]. replace (n * 4) with (4 * n + 0) in * by lia. replace (S (4 * n + 0)) with (4 * n + 1) by lia. replace (S (4 * n + 1)) with (4 * n + 2) by lia. replace (S (4 * n + 2)) with (4 * n + 3) by lia. lia.
Qed.
End Total.
