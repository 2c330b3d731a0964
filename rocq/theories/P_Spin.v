(** * P_Spin: pipelines in which somebody looks and waits for ever, for examples *)
From Coq Require Import Ascii String List Bool Arith Lia.
From Verif Require P_Network.
From Verif Require Import M_Prog P_Prog P_Exec M_Motion M_Config M_Regulator M_Faucet M_Drain M_Buffer M_Junction M_Launch M_Manager M_Waiter M_Join M_Poll S_Trace S_Motion S_World S_Buffer S_Network S_Net M_Start S_Start S_Lasting P_World P_Play P_Crowd P_Ask P_BufferPoll P_Later P_Prefix P_Fair P_Whole P_Link.
Import ListNotations.

(** ** Beginnings of runs *)
Lemma list_end {A} (l : list A) : l = [] \/ exists a x, l = a ++ [x].
Proof. destruct l as [|y l]; [now left|right]. destruct (exists_last (l := y :: l)) as (a & x & E); [discriminate|]. eauto. Qed.
Lemma rounds_run net cs w0 l p w : in_rounds net cs w0 l p w -> wrun w0 l w.
Proof.
  induction 1 as [|l p w t ev w' _ IH Hp HW|l p w t _ IH _ _]; [constructor| |exact IH]. apply wrun_app. exists w. split; [exact IH|]. econstructor; [exact HW|constructor].
Qed.
Lemma rounds_before net cs w0 l p w : in_rounds net cs w0 l p w -> forall a b, l = a ++ b -> exists p1 w1, in_rounds net cs w0 a p1 w1.
Proof.
  induction 1 as [|l p w t ev w' H IH Hp HW|l p w t H IH Hp HR]; intros a b E.
  - symmetry in E. apply app_eq_nil in E. destruct E as [-> _]. exists 0, w0. constructor.
  - destruct (list_end b) as [->|(b' & x & ->)].
    + rewrite app_nil_r in E. subst a. exists p, w'. econstructor; eassumption.
    + rewrite app_assoc in E. apply app_inj_tail in E. destruct E as [-> _]. exact (IH _ _ eq_refl).
  - exact (IH _ _ E).
Qed.
Theorem whole_before net cs w0 a b w ocs : whole_run net cs w0 (a ++ b) w ocs -> exists w1 ocs1, whole_run net cs w0 a w1 ocs1 /\ wrun w1 b w.
Proof.
  intros [HF (p & HR)]. destruct (free_before _ _ _ _ _ _ _ HF) as (w1 & o1 & H1 & H2). exists w1, o1. split; [|exact H2]. split; [exact H1|].
  destruct (rounds_before _ _ _ _ _ _ HR _ _ eq_refl) as (p1 & w2 & H3). exists p1. pose proof (wrun_det _ _ _ (rounds_run _ _ _ _ _ _ H3) _ (fr_world _ _ _ _ _ _ H1)). subst w2. exact H3.
Qed.
Lemma rounds_place net cs w0 l p w : in_rounds net cs w0 l p w -> poll_order net cs <> [] -> p < length (poll_order net cs).
Proof.
  intros H Ho. assert (K : 0 < length (poll_order net cs)) by (destruct (poll_order net cs); [congruence|cbn; lia]).
  induction H as [|l p w t ev w' _ IH _ _|l p w t _ IH _ _]; auto. unfold next_place. destruct (Nat.ltb_spec (S p) (length (poll_order net cs))); auto.
Qed.

(** ** Again and again *)
Fixpoint again {A} (n : nat) (c : list A) : list A := match n with O => [] | S n' => again n' c ++ c end.
Lemma again_length {A} n (c : list A) : length (again n c) = n * length c.
Proof. induction n as [|n IH]; [reflexivity|]. cbn [again]. rewrite app_length, IH. cbn. lia. Qed.
Lemma again_more {A} (c : list A) n m : again (n + m) c = again n c ++ again m c.
Proof. induction m as [|m IH]; [now rewrite Nat.add_0_r, app_nil_r|]. rewrite Nat.add_succ_r. cbn [again]. rewrite IH. now rewrite app_assoc. Qed.
Lemma again_in {A} (c : list A) n x : In x (again n c) -> In x c.
Proof. induction n as [|n IH]; [intros []|]. cbn [again]. intro H. apply in_app_or in H. destruct H; auto. Qed.

(** First [l], then [c] for ever. *)
Definition for_ever (l c : list nevent) (n : nat) : nevent := nth n (l ++ again (S n) c) (0, (ESleep 0, AOk)).
Section Ever.
Variables l c : list nevent.
Hypothesis Hc : c <> [].
Lemma c_some : 0 < length c.
Proof. destruct c; [congruence|cbn; lia]. Qed.
Lemma ever_nth n m : n < m -> for_ever l c n = nth n (l ++ again m c) (0, (ESleep 0, AOk)).
Proof.
  intro H. unfold for_ever. replace m with (S n + (m - S n)) at 1 by lia. rewrite again_more, app_assoc. symmetry. apply app_nth1. rewrite app_length, again_length. pose proof c_some. nia.
Qed.
Lemma ever_so_far n m : n <= m -> so_far (for_ever l c) n = firstn n (l ++ again m c).
Proof.
  intro H. assert (HL : n <= length (l ++ again m c)) by (rewrite app_length, again_length; pose proof c_some; nia).
  revert H HL. induction n as [|n IH]; intros H HL; [reflexivity|]. rewrite so_far_S, IH by lia. rewrite (ever_nth n m) by lia.
  clear - HL. revert n HL. induction (l ++ again m c) as [|x y IH]; intros n HL; cbn [length] in HL; [lia|]. destruct n as [|n]; [reflexivity|]. cbn [firstn nth app]. rewrite IH by lia. reflexivity.
Qed.
Lemma ever_round q : so_far (for_ever l c) (length l + q * length c) = l ++ again q c.
Proof.
  pose proof c_some as K. rewrite (ever_so_far _ (q + (length l + q * length c))) by lia. rewrite again_more, app_assoc.
  assert (E : length l + q * length c = length (l ++ again q c)) by (rewrite app_length, again_length; reflexivity). rewrite E, firstn_app, Nat.sub_diag, firstn_O, app_nil_r. apply firstn_all2. lia.
Qed.
Lemma ever_late n : length l <= n -> exists s, so_far (for_ever l c) n = l ++ s /\ forall x, In x s -> In x c.
Proof.
  intro H. exists (firstn (n - length l) (again n c)). rewrite (ever_so_far n n) by lia. rewrite firstn_app. split; [f_equal; apply firstn_all2; lia|].
  intros x Hx. apply (again_in _ n). rewrite <- (firstn_skipn (n - length l) (again n c)). apply in_or_app. now left.
Qed.
Lemma ever_in q x : In x c -> exists m, length l + q * length c <= m /\ for_ever l c m = x.
Proof.
  intro H. apply In_nth_error in H. destruct H as (j & Hj). assert (Hl : j < length c) by (apply nth_error_Some; congruence). exists (length l + q * length c + j). split; [lia|].
  rewrite (ever_nth _ (q + S (length l + q * length c + j))) by lia. rewrite app_nth2 by lia. replace (length l + q * length c + j - length l) with (q * length c + j) by lia.
  rewrite again_more, app_nth2; rewrite again_length; [|lia]. replace (q * length c + j - q * length c) with j by lia.
  change (S (length l + q * length c + j)) with (1 + (length l + q * length c + j)). rewrite again_more. cbn [again app]. rewrite app_nth1 by exact Hl. apply nth_error_nth. exact Hj.
Qed.
Lemma ever_event n : length l <= n -> In (for_ever l c n) c.
Proof.
  intro H. rewrite (ever_nth n (S n)) by lia. rewrite app_nth2 by lia. apply (again_in _ (S n)). apply nth_In. rewrite again_length. pose proof c_some. nia.
Qed.
End Ever.

(** ** Looking and waiting *)
Definition dawdling (ev : event) : bool :=
  match ev with (ETryRecv _, AEmpty) | (ETryRecv (CMon _), AClosed) | (ESleep _, AOk) | (EIsEmpty _, ABool _) | (EIsClosed _, ABool _) => true | _ => false end.
Lemma dawdling_useless ev : dawdling ev = true -> useful ev = false.
Proof. destruct ev as [e a]. destruct e as [c|c|c v|c|c|c| | | | | | | | | | | |]; destruct a; try discriminate; try reflexivity; destruct c; try discriminate; reflexivity. Qed.
Lemma dawdling_run l : forall w w', (forall x, In x l -> dawdling (snd x) = true) -> wrun w l w' -> w' = w.
Proof.
  induction l as [|x l IH]; intros w w' H HW; inversion HW as [|? ? w1 ? ? HS HR]; subst; [reflexivity|]. pose proof (useless_same _ _ _ (dawdling_useless _ (H _ (or_introl eq_refl))) HS). subst w1. apply (IH w w'); [intros; apply H; now right|exact HR].
Qed.
Lemma dawdling_bytes l : (forall x, In x l -> dawdling (snd x) = true) -> bytes_read l = 0.
Proof.
  unfold bytes_read, all_of. induction l as [|x l IH]; intro H; [reflexivity|]. cbn [map list_sum fold_right]. change (fold_right Nat.add 0 ?y) with (list_sum y). rewrite IH by (intros; apply H; now right).
  specialize (H x (or_introl eq_refl)). destruct x as [i [e a]]. cbn [snd] in *. destruct e; try reflexivity. destruct a; discriminate H.
Qed.
Lemma bytes_app a b : bytes_read (a ++ b) = bytes_read a + bytes_read b.
Proof. unfold bytes_read, all_of. now rewrite !map_app, list_sum_app. Qed.

Fixpoint each {A} (P : A -> Prop) (l : list A) : Prop := match l with [] => True | x :: r => P x /\ each P r end.
Lemma each_in {A} (P : A -> Prop) l x : each P l -> In x l -> P x.
Proof. induction l as [|y l IH]; intros H Hin; [destruct Hin|]. destruct H as [H1 H2], Hin as [->|Hin]; auto. Qed.
Lemma stuck_stays {O : outside} {Z : pausing} fuel t w : stuck_t t w = true -> tact fuel [] t w = ([], t, w, []).
Proof.
  assert (K : forall A (p : prog A), stuck_b p w = true -> act fuel true [] p w = ([], p, w, [])).
  { intros A p H. destruct fuel; [reflexivity|]. destruct p as [a|s|q|e k]; try reflexivity; cbn [stuck_b act] in *; [discriminate H|]. rewrite andb_false_r.
    assert (E : kind_answer [] w e = None); [|now rewrite E]. destruct (on_chan e) eqn:Eo; [|discriminate H]. destruct (answer kind_world w e) eqn:Ea; [discriminate H|].
    destruct e; try discriminate Eo; cbn [kind_answer]; match type of Ea with ?x = None => match goal with |- match ?y with _ => _ end = None => change y with x end end; now rewrite Ea. }
  destruct t as [p|p]; cbn [stuck_t tact]; intro H; now rewrite (K _ _ H).
Qed.

(** ** From some time on, everybody looks and waits or cannot go on *)
Section Spin.
Context {O : outside} {Z : pausing}.
Variables (net : list comp) (cs : list capture).
Hypothesis HP : forallb playable net = true.
Notation ord := (poll_order net cs).
Notation stood L ts := (forall t, tleaves (seat net cs t) (own t L) (ts t)).
Notation within_order L := (forall t ev, In (t, ev) L -> In t ord).
Variables (w0 : world) (l : list nevent) (ts : tasks) (w : world) (p0 : nat).
Hypothesis HS : stood l ts.
Hypothesis HO : within_order l.
Hypothesis HA : all_settled net cs ts = true.
Hypothesis HR : in_rounds net cs w0 l p0 w.
Hypothesis HM : made_world net w0.

(** What [t] does in its turn. *)
Definition turn (t : nat) : trace := fst (fst (fst (tact 99 [] (ts t) w))).
Definition lap : list nevent := concat (map (fun t => map (pair t) (turn t)) ord).
Variable wheels : list nat.
Hypothesis H1 : each (fun t => snd (fst (fst (tact 99 [] (ts t) w))) = ts t) wheels.
Hypothesis H2 : forallb (fun t => rested net ts w t && forallb dawdling (turn t) && (if existsb (Nat.eqb t) wheels then negb (is_nil (turn t)) else stuck_t (ts t) w)) ord = true.
Hypothesis H3 : is_nil lap = false.

Lemma turn_stays t : In t ord -> snd (fst (fst (tact 99 [] (ts t) w))) = ts t.
Proof.
  intro Hin. rewrite forallb_forall in H2. specialize (H2 t Hin). apply andb_prop in H2. destruct H2 as [_ H]. destruct (existsb (Nat.eqb t) wheels) eqn:E.
  - apply existsb_exists in E. destruct E as (t' & Ht & E). apply Nat.eqb_eq in E. subst t'. exact (each_in _ _ _ H1 Ht).
  - now rewrite (stuck_stays _ _ _ H).
Qed.
Lemma turn_back t : In t ord -> tleaves (ts t) (turn t) (ts t) /\ wrun w (map (pair t) (turn t)) w.
Proof.
  intro Hin. pose proof (turn_stays t Hin) as K1. unfold turn in *. destruct (tact 99 [] (ts t) w) as [[[tr t'] w1] rs] eqn:E. cbn [fst snd] in *. subst t'.
  destruct (tact_sound _ _ _ _ _ _ _ _ E) as [T1 T2]. split; [exact T1|]. specialize (T2 t). rewrite forallb_forall in H2. specialize (H2 t Hin). rewrite E in H2. cbn [fst] in H2.
  apply andb_prop in H2. destruct H2 as [H _]. apply andb_prop in H. destruct H as [_ H]. rewrite forallb_forall in H.
  assert (K : w1 = w) by (apply (dawdling_run (map (pair t) tr)); [|exact T2]; intros x Hx; apply in_map_iff in Hx; destruct Hx as (ev & <- & Hx); exact (H _ Hx)). rewrite K in T2. exact T2.
Qed.
Lemma turn_rests t : In t ord -> rested net ts w t = true.
Proof. intro Hin. rewrite forallb_forall in H2. specialize (H2 t Hin). apply andb_prop in H2. destruct H2 as [H _]. apply andb_prop in H. tauto. Qed.
Lemma turn_dawdles t ev : In t ord -> In ev (turn t) -> dawdling ev = true.
Proof. intros Hin He. rewrite forallb_forall in H2. specialize (H2 t Hin). apply andb_prop in H2. destruct H2 as [H _]. apply andb_prop in H. destruct H as [_ H]. rewrite forallb_forall in H. auto. Qed.
Lemma turn_stuck t : In t ord -> turn t = [] -> stuck_t (ts t) w = true.
Proof. intros Hin He. rewrite forallb_forall in H2. specialize (H2 t Hin). apply andb_prop in H2. destruct H2 as [_ H]. rewrite He in H. destruct (existsb _ _); [discriminate H|exact H]. Qed.
Lemma lap_in t ev : In (t, ev) lap -> In t ord /\ In ev (turn t).
Proof. unfold lap. intro H. apply in_concat in H. destruct H as (x & Hx & H). apply in_map_iff in Hx. destruct Hx as (t' & <- & Ht). apply in_map_iff in H. destruct H as (ev' & [= <- <-] & H). auto. Qed.
Lemma lap_has t ev : In t ord -> In ev (turn t) -> In (t, ev) lap.
Proof. intros Ht He. unfold lap. apply in_concat. exists (map (pair t) (turn t)). split; [apply in_map_iff; eauto|]. now apply in_map. Qed.
Lemma lap_some : lap <> [].
Proof. intro E. rewrite E in H3. discriminate H3. Qed.
Lemma ord_some : ord <> [].
Proof. intro E. apply lap_some. unfold lap. now rewrite E. Qed.

Lemma stood_turn L t : stood L ts -> In t ord -> stood (L ++ map (pair t) (turn t)) ts.
Proof.
  intros H Hin i. rewrite own_app, own_map. destruct (Nat.eqb_spec t i) as [->|Hn]; [|rewrite app_nil_r; apply H]. eapply tleaves_app; [apply H|exact (proj1 (turn_back _ Hin))].
Qed.
Lemma within_turn L t : within_order L -> In t ord -> within_order (L ++ map (pair t) (turn t)).
Proof. intros H Hin i ev Hi. apply in_app_or in Hi. destruct Hi as [Hi|Hi]; [exact (H _ _ Hi)|]. apply in_map_iff in Hi. destruct Hi as (x & [= <- _] & _). exact Hin. Qed.
Lemma to_front L : stood L ts -> within_order L -> forall d p, length ord = p + d -> 0 < d -> in_rounds net cs w0 L p w -> in_rounds net cs w0 L 0 w.
Proof.
  intros SL OL. induction d as [|d IH]; intros p E Hd H; [lia|]. destruct (nth_error ord p) as [t|] eqn:Et; [|apply nth_error_None in Et; lia].
  assert (K : in_rounds net cs w0 L (next_place ord p) w).
  { eapply IR_pass; [exact H|exact Et|]. apply (rested_sound net cs HP _ ts); auto; [eapply nth_error_In; exact Et|apply turn_rests; eapply nth_error_In; exact Et]. }
  unfold next_place in K. destruct (Nat.ltb_spec (S p) (length ord)) as [Hlt|Hge]; [|exact K]. apply (IH (S p)); [lia|lia|exact K].
Qed.
Lemma one_lap s : forall pre L, ord = pre ++ s -> s <> [] -> stood L ts -> within_order L -> in_rounds net cs w0 L (length pre) w ->
  stood (L ++ concat (map (fun t => map (pair t) (turn t)) s)) ts /\ within_order (L ++ concat (map (fun t => map (pair t) (turn t)) s)) /\ in_rounds net cs w0 (L ++ concat (map (fun t => map (pair t) (turn t)) s)) 0 w.
Proof.
  induction s as [|t s IH]; intros pre L E Hs SL OL H; [congruence|]. cbn [map concat].
  assert (Hin : In t ord) by (rewrite E; apply in_or_app; right; now left).
  assert (Et : nth_error ord (length pre) = Some t) by (rewrite E, nth_error_app2, Nat.sub_diag by lia; reflexivity).
  pose proof (rounds_by net cs w0 _ _ _ _ _ _ H Et (proj2 (turn_back _ Hin))) as K. pose proof (stood_turn _ _ SL Hin) as SL'. pose proof (within_turn _ _ OL Hin) as OL'.
  assert (K2 : in_rounds net cs w0 (L ++ map (pair t) (turn t)) (next_place ord (length pre)) w).
  { eapply IR_pass; [exact K|exact Et|]. apply (rested_sound net cs HP _ ts); auto. now apply turn_rests. }
  rewrite app_assoc. unfold next_place in K2. destruct s as [|t2 s].
  - cbn [map concat]. rewrite !app_nil_r. split; [exact SL'|]. split; [exact OL'|]. rewrite E, app_length in K2. cbn [length] in K2. destruct (Nat.ltb_spec (S (length pre)) (length pre + 1)); [lia|exact K2].
  - apply (IH (pre ++ [t])); [rewrite <- app_assoc; exact E|discriminate|exact SL'|exact OL'|]. rewrite E, !app_length in K2. cbn [length] in K2. destruct (Nat.ltb_spec (S (length pre)) (length pre + S (S (length s)))); [|lia].
    rewrite app_length. cbn [length]. rewrite Nat.add_1_r. exact K2.
Qed.
Lemma many_laps q : stood (l ++ again q lap) ts /\ within_order (l ++ again q lap) /\ in_rounds net cs w0 (l ++ again q lap) 0 w.
Proof.
  induction q as [|q (S1 & S2 & S3)]; cbn [again].
  - rewrite app_nil_r. split; [exact HS|]. split; [exact HO|]. pose proof (rounds_place _ _ _ _ _ _ HR ord_some) as K. apply (to_front l HS HO (length ord - p0) p0); [lia|lia|exact HR].
  - rewrite app_assoc. exact (one_lap ord [] _ eq_refl ord_some S1 S2 S3).
Qed.
Lemma laps_run q : whole_run net cs w0 (l ++ again q lap) w (seat_outcome net ts).
Proof.
  destruct (many_laps q) as (S1 & S2 & S3). split; [|eauto]. apply (stood_free net cs HP); auto. exact (rounds_run _ _ _ _ _ _ S3).
Qed.

Definition spun : nat -> nevent := for_ever l lap.
Theorem spun_endless : whole_endless net cs w0 spun.
Proof.
  intro n. pose proof (laps_run n) as H. unfold spun. rewrite (ever_so_far _ _ lap_some n n) by lia. rewrite <- (firstn_skipn n (l ++ again n lap)) in H. destruct (whole_before _ _ _ _ _ _ _ H) as (w1 & o1 & K & _). eauto.
Qed.
Lemma stuck_could L t : stood L ts -> wrun w0 L w -> stuck_t (ts t) w = true -> ~ whole_could net cs w0 L t.
Proof.
  intros SL HW HK (ev & l' & w' & ocs & HX). destruct ev as [e a]. pose proof (fr_world _ _ _ _ _ _ HX) as HV. apply wrun_app in HV. destruct HV as (w1 & K1 & K2). pose proof (wrun_det _ _ _ K1 _ HW). subst w1. inversion K2 as [|? ? w1 ? ? HT _]; subst.
  pose proof (P_Whole.free_next net cs HP _ _ _ _ _ _ _ _ HX) as HE. specialize (SL t).
  destruct (seat net cs t) as [p|p], (ts t) as [p'|p']; cbn in SL, HK, HE; try contradiction; exact (stuck_sound _ _ _ _ _ SL HK HE _ _ HT).
Qed.
Theorem spun_fair : whole_fair net cs w0 spun.
Proof.
  intros i n. destruct (many_laps n) as (S1 & _ & S3). assert (Hn : n <= length l + n * length lap) by (pose proof (c_some lap lap_some); nia).
  destruct (in_dec Nat.eq_dec i ord) as [Hin|Hout].
  - destruct (turn i) as [|ev r] eqn:E.
    + exists (length l + n * length lap). split; [exact Hn|]. right. unfold spun. rewrite (ever_round _ _ lap_some). apply (stuck_could _ _ S1 (rounds_run _ _ _ _ _ _ S3)). now apply turn_stuck.
    + destruct (ever_in l lap lap_some n (i, ev)) as (m & Hm & Em); [apply lap_has; [exact Hin|rewrite E; now left]|]. exists m. split; [lia|]. left. unfold spun. now rewrite Em.
  - exists n. split; [lia|]. right. intros (ev & l' & w' & ocs & HX). apply Hout. apply (fr_only _ _ _ _ _ _ HX i ev). apply in_or_app. right. now left.
Qed.
Lemma spun_late n : length l <= n -> exists s, so_far spun n = l ++ s /\ forall x, In x s -> In x lap.
Proof. apply ever_late. exact lap_some. Qed.
Lemma lap_dawdles x : In x lap -> dawdling (snd x) = true.
Proof. destruct x as [t ev]. intro H. apply lap_in in H. destruct H as [H4 H5]. exact (turn_dawdles _ _ H4 H5). Qed.
Theorem spun_limited : limited spun.
Proof.
  exists (bytes_read l). intro n. destruct (Nat.le_gt_cases (length l) n) as [Hn|Hn].
  - destruct (spun_late n Hn) as (s & -> & Hs). rewrite bytes_app, (dawdling_bytes s); [lia|]. intros x Hx. apply lap_dawdles. auto.
  - unfold spun. rewrite (ever_so_far _ _ lap_some n n) by lia. rewrite firstn_app. replace (n - length l) with 0 by lia. rewrite firstn_O, app_nil_r. rewrite <- (firstn_skipn n l) at 2. rewrite bytes_app. lia.
Qed.
Theorem spun_statuses : statuses_come spun.
Proof. exists (length l). intros n Hn E. pose proof (lap_dawdles _ (ever_event l lap lap_some n Hn)) as K. unfold spun in E. rewrite E in K. discriminate K. Qed.
Theorem spun_willing : willing l -> forall n, willing (so_far spun n).
Proof.
  intros HW n e a Hin. unfold spun in Hin. rewrite (ever_so_far _ _ lap_some n n) in Hin by lia.
  assert (K : In (e, a) (all_of (l ++ again n lap))) by (rewrite <- (firstn_skipn n (l ++ again n lap)); unfold all_of in *; rewrite map_app; apply in_or_app; now left). unfold all_of in K. rewrite map_app in K. apply in_app_or in K. destruct K as [K|K]; [exact (HW _ _ K)|].
  apply in_map_iff in K. destruct K as (x & E & K). apply again_in in K. apply lap_dawdles in K. rewrite E in K. clear -K. destruct a; destruct e as [c9|c9|c9 v9|c9|c9|c9| | | | | | | | | | | |]; try discriminate K; try (destruct c9; try discriminate K); split; discriminate.
Qed.
Lemma spun_same n w' ocs : length l <= n -> whole_run net cs w0 (so_far spun n) w' ocs -> w' = w.
Proof.
  intros Hn [HF _]. destruct (spun_late n Hn) as (s & E & Hs). rewrite E in HF. pose proof (fr_world _ _ _ _ _ _ HF) as HV. apply wrun_app in HV. destruct HV as (w1 & K1 & K2).
  pose proof (wrun_det _ _ _ K1 _ (rounds_run _ _ _ _ _ _ HR)). subst w1. apply (dawdling_run s); [|exact K2]. intros x Hx. apply lap_dawdles. auto.
Qed.
Lemma spun_own n t : length l <= n -> turn t = [] -> own t (so_far spun n) = own t l.
Proof.
  intros Hn Ht. destruct (spun_late n Hn) as (s & -> & Hs). rewrite own_app. replace (own t s) with (@nil event); [apply app_nil_r|].
  destruct (own t s) as [|[e a] r] eqn:E; [reflexivity|exfalso]. assert (K : In (e, a) (own t s)) by (rewrite E; now left). apply in_own in K. apply Hs, lap_in in K. rewrite Ht in K. destruct K as [_ []].
Qed.
End Spin.

(** Played out. *)
Lemma played_rounds {O : outside} {Z : pausing} net cs fuel sched rs w0 : forallb playable net = true -> round_and_round net cs fuel sched rs (seat net cs) w0 0 = true ->
  (exists p, in_rounds net cs w0 (fst (fst (crowd fuel sched rs (seat net cs) w0))) p (snd (crowd fuel sched rs (seat net cs) w0))) /\
  (forall t ev, In (t, ev) (fst (fst (crowd fuel sched rs (seat net cs) w0))) -> In t (poll_order net cs)) /\
  forall t, tleaves (seat net cs t) (own t (fst (fst (crowd fuel sched rs (seat net cs) w0)))) (snd (fst (crowd fuel sched rs (seat net cs) w0)) t).
Proof.
  intros HP HR. destruct (crowd_run fuel sched rs (seat net cs) w0) as [HW HS].
  destruct (rounds_sound net cs HP w0 fuel sched rs (seat net cs) w0 [] 0) as (p & P1 & P2); auto; try (intro t; apply tleaves_nil); try (intros ? ? []); [constructor|]. cbn [app] in P1, P2. eauto.
Qed.
Lemma dawdling_looks ev : dawdling ev = true -> forward ev = false.
Proof. intro H. unfold forward. now rewrite (dawdling_useless _ H). Qed.
Theorem played_spins {O : outside} {Z : pausing} net cs fuel sched rs w0 wheels (r : list nevent * tasks * world) : r = crowd fuel sched rs (seat net cs) w0 ->
  forallb playable net = true -> round_and_round net cs fuel sched rs (seat net cs) w0 0 = true -> made_world net w0 -> willing (fst (fst r)) ->
  all_settled net cs (snd (fst r)) = true ->
  each (fun t => snd (fst (fst (tact 99 [] (snd (fst r) t) (snd r)))) = snd (fst r) t) wheels ->
  forallb (fun t => rested net (snd (fst r)) (snd r) t && forallb dawdling (turn (snd (fst r)) (snd r) t) && (if existsb (Nat.eqb t) wheels then negb (is_nil (turn (snd (fst r)) (snd r) t)) else stuck_t (snd (fst r) t) (snd r))) (poll_order net cs) = true ->
  is_nil (lap net cs (snd (fst r)) (snd r)) = false ->
  exists f, whole_endless net cs w0 f /\ whole_fair net cs w0 f /\ limited f /\ statuses_come f /\ (forall n, willing (so_far f n)) /\ so_far f (length (fst (fst r))) = fst (fst r) /\
    whole_run net cs w0 (fst (fst r)) (snd r) (seat_outcome net (snd (fst r))) /\
    (forall n, length (fst (fst r)) <= n -> forward (snd (f n)) = false /\ (forall w ocs, whole_run net cs w0 (so_far f n) w ocs -> w = snd r) /\
      forall t, stuck_t (snd (fst r) t) (snd r) = true -> own t (so_far f n) = own t (fst (fst r))).
Proof.
  intros Er HP HR HM HW HA H1 H2 H3. destruct (played_rounds net cs fuel sched rs w0 HP HR) as ((p & P1) & P2 & P3). rewrite <- Er in P1, P2, P3. destruct r as [[l ts] w]. cbn [fst snd] in *. clear Er HR.
  pose proof (lap_some net cs ts w H3) as HL.
  exists (spun net cs l ts w). split; [eapply spun_endless; eassumption|]. split; [eapply spun_fair; eassumption|]. split; [eapply spun_limited; eassumption|]. split; [eapply spun_statuses; eassumption|]. split; [eapply spun_willing; eassumption|].
  split; [pose proof (ever_round l (lap net cs ts w) HL 0) as K; cbn [again] in K; rewrite Nat.mul_0_l, Nat.add_0_r, app_nil_r in K; exact K|].
  split; [assert (K : whole_run net cs w0 (l ++ again 0 (lap net cs ts w)) w (seat_outcome net ts)) by (eapply laps_run; eassumption); cbn [again] in K; rewrite app_nil_r in K; exact K|].
  intros n Hn. split; [apply dawdling_looks; apply (lap_dawdles net cs ts w wheels H2); apply ever_event; [exact HL|exact Hn]|]. split; [intros w' ocs HX; eapply spun_same; eassumption|].
  intros t Ht. apply (spun_own net cs l ts w H3 n t Hn). unfold turn. now rewrite (stuck_stays _ _ _ Ht).
Qed.
Lemma played_at {O : outside} {Z : pausing} net cs fuel sched rs w0 (r : list nevent * tasks * world) t p : r = crowd fuel sched rs (seat net cs) w0 -> seat net cs t = TM p -> settled_m (snd (fst r) t) = true ->
  exec p (own t (fst (fst r))) (mstatus (snd (fst r) t)).
Proof. intros -> Ep Hs. destruct (crowd_run fuel sched rs (seat net cs) w0) as [_ HS]. specialize (HS t). rewrite Ep in HS. exact (crowd_m _ _ _ HS Hs). Qed.
(** A drain that waits in the end has waited all the time. *)
Lemma still_going net cs w0 l d s m n w ocs k e : nth_error net k = Some (NDrain d s) -> exec (drain_start d None) (own (4 * k) (l ++ m)) (At e) -> whole_run net cs w0 l w ocs -> n = length l -> ocs k = Going.
Proof.
  intros Hk HX [HF _] _. pose proof (fr_comps _ _ _ _ _ _ HF _ _ Hk) as HC. cbn [comp_runs] in HC. destruct HC as (st & HC & ->). destruct HC as (_ & s1 & -> & X). rewrite P_Network.own_seen, Nat.add_0_r in X by lia. rewrite own_app in HX. cbn [outcome_of].
  destruct s1 as [e1|a|m1]; [reflexivity| |]; exfalso.
  - destruct (done_last _ _ _ X _ _ HX) as [_ K]. discriminate K.
  - pose proof (panic_last _ _ _ X _ _ HX) as K. rewrite K, app_nil_r in HX. pose proof (exec_det _ _ _ HX _ X) as E. discriminate E.
Qed.
