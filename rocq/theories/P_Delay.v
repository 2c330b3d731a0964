(** * P_Delay: a regulated pipeline does what it would do unregulated, later *)
From Coq Require Import Ascii String List Bool Arith Lia Permutation.
From Verif Require Import M_Prog P_Prog P_Exec M_Motion M_Config M_Regulator M_Faucet M_Drain M_Buffer M_Junction M_Launch M_Manager M_Waiter M_Join S_Trace S_Lines S_Motion S_World S_Launch S_Regulator S_Drain S_Buffer S_Junction S_Network S_Net M_Start S_Start S_Watch S_Delay
  P_World P_Ask P_Control P_Manager P_BufferRun P_BufferEnd P_Link P_Phase P_Conduit P_Network P_NetComp P_Whole P_Prefix P_NetCost P_WatchRun P_WatchMarks P_Skim.
Import ListNotations.

(** ** A run with some of it left out *)
Inductive thin : list nevent -> list nevent -> Prop :=
| T_nil : thin [] []
| T_keep : forall i e a L L', (i < 4 -> control_eff e = false) -> thin L L' -> thin ((i, (e, a)) :: L) ((i, (e, a)) :: L')
| T_drop : forall i e a L L', (i < 4 -> control_eff e = true) -> thin L L' -> thin ((i, (e, a)) :: L) L'.
Lemma thin_split A : forall B C, thin (A ++ B) C -> exists A' B', C = A' ++ B' /\ thin A A' /\ thin B B'.
Proof.
  induction A as [|x A IH]; intros B C H; [exists [], C; split; [reflexivity|split; [constructor|exact H]]|].
  inversion H as [|i e a L L' He HT|i e a L L' He HT]; subst; destruct (IH _ _ HT) as (A' & B' & -> & H1 & H2).
  - exists ((i, (e, a)) :: A'), B'. split; [reflexivity|]. split; [now constructor|exact H2].
  - exists A', B'. split; [reflexivity|]. split; [now constructor|exact H2].
Qed.
Lemma thin_own L L' i : thin L L' -> i < 4 -> own i L' = skim (own i L).
Proof.
  intros H Hi. induction H as [|j e a L L' He HT IH|j e a L L' He HT IH]; [reflexivity| |].
  - unfold own in *. cbn [filter fst]. destruct (j =? i) eqn:E; [|exact IH]. apply Nat.eqb_eq in E. subst j. cbn [map snd]. rewrite IH. unfold skim. cbn [filter fst]. now rewrite (He Hi).
  - unfold own in *. cbn [filter fst]. destruct (j =? i) eqn:E; [|exact IH]. apply Nat.eqb_eq in E. subst j. cbn [map snd]. rewrite IH. unfold skim. cbn [filter fst]. now rewrite (He Hi).
Qed.
Lemma thin_idle L L' is : thin L L' -> (forall i, In i is -> i < 4) -> idle is L -> idle is L'.
Proof. intros H Hi HI i Hin. rewrite (thin_own _ _ i H (Hi i Hin)), (HI i Hin). reflexivity. Qed.

Lemma may_loud c t e : comp_may c t e -> control_eff e = false.
Proof. destruct e as [[]|[]|[] []|[]|[]|[]| | | | | | | | | | | |]; cbn; tauto. Qed.
(** Nothing of what the components [is] did is left out. *)
Definition loud (L : list nevent) (is : list nat) : Prop := forall i e a, In i is -> In (i, (e, a)) L -> control_eff e = false.
Lemma loud_skim L i : loud L [i] -> skim (own i L) = own i L.
Proof.
  intro H. assert (K : forall e a, In (e, a) (own i L) -> control_eff e = false).
  { intros e a Hin. unfold own in Hin. apply in_map_iff in Hin. destruct Hin as ([j ev] & E & Hin). apply filter_In in Hin. destruct Hin as [Hin Hj]. cbn in *. apply Nat.eqb_eq in Hj. subst. eapply H; [now left|exact Hin]. }
  clear H. induction (own i L) as [|[e a] tr IH]; [reflexivity|]. unfold skim in *. cbn [filter fst]. rewrite (K e a) by now left. cbn. now rewrite IH by (intros; eapply K; right; eassumption).
Qed.
Lemma loud_one L is i : loud L is -> In i is -> loud L [i].
Proof. intros H Hi j e a [<-|[]]. apply (H _ _ _ Hi). Qed.
Lemma loud_app A B is : loud (A ++ B) is -> loud A is /\ loud B is.
Proof. intro H. split; intros i e a Hi Hin; apply (H i e a Hi), in_or_app; auto. Qed.
Lemma same_own L L' i : thin L L' -> i < 4 -> loud L [i] -> own i L' = own i L.
Proof. intros HT Hi HL. rewrite (thin_own _ _ _ HT Hi). now apply loud_skim. Qed.

Lemma joined_thin {X A B C R} pre p1 p2 p3 post L L' (st : jstatus A B C R) : loud L [0; 1; 2; 3] -> thin L L' -> @joined X A B C R pre p1 p2 p3 post L st -> joined pre p1 p2 p3 post L' st.
Proof.
  assert (I3 : forall i, In i [1; 2; 3] -> i < 4) by (cbn; intros; lia). assert (I0 : forall i, In i [0] -> i < 4) by (cbn; intros; lia).
  assert (J0 : In 0 [0; 1; 2; 3]) by (cbn; auto). assert (J1 : In 1 [0; 1; 2; 3]) by (cbn; auto). assert (J2 : In 2 [0; 1; 2; 3]) by (cbn; auto). assert (J3 : In 3 [0; 1; 2; 3]) by (cbn; auto).
  assert (O : forall i M M', In i [0; 1; 2; 3] -> thin M M' -> loud M [0; 1; 2; 3] -> own i M' = own i M) by (intros i M M' Hi HT HL; apply same_own; [exact HT|cbn in Hi; lia|eapply loud_one; eassumption]).
  intros HL HT HX. destruct HX as [L e Hi HX|L s Hi HX|L r Hi HX|L0 L x a b c K0 K1 HX HA HB HZ|L0 L L1 x a b c st K0 K1 K2 HX HA HB HZ HF].
  - apply J_before_at; [eapply thin_idle; eassumption|]. now rewrite (O 0 _ _ J0 HT HL).
  - apply J_before_panic; [eapply thin_idle; eassumption|]. now rewrite (O 0 _ _ J0 HT HL).
  - apply J_before_done; [eapply thin_idle; eassumption|]. now rewrite (O 0 _ _ J0 HT HL).
  - destruct (thin_split _ _ _ HT) as (L0' & L'' & -> & T0 & T1). apply loud_app in HL. destruct HL as [HL0 HL1].
    apply (J_during _ _ _ _ _ _ _ x); [eapply thin_idle; eassumption|eapply thin_idle; eassumption|..].
    + now rewrite (O 0 _ _ J0 T0 HL0).
    + now rewrite (O 1 _ _ J1 T1 HL1).
    + now rewrite (O 2 _ _ J2 T1 HL1).
    + now rewrite (O 3 _ _ J3 T1 HL1).
  - destruct (thin_split _ _ _ HT) as (L0' & L'' & -> & T0 & T12). destruct (thin_split _ _ _ T12) as (M1 & M2 & -> & T1 & T2). apply loud_app in HL. destruct HL as [HL0 HL]. apply loud_app in HL. destruct HL as [HL1 HL2].
    apply (J_after _ _ _ _ _ _ _ _ x a b c); [eapply thin_idle; eassumption|eapply thin_idle; eassumption|eapply thin_idle; eassumption|..].
    + now rewrite (O 0 _ _ J0 T0 HL0).
    + now rewrite (O 1 _ _ J1 T1 HL1).
    + now rewrite (O 2 _ _ J2 T1 HL1).
    + now rewrite (O 3 _ _ J3 T1 HL1).
    + now rewrite (O 0 _ _ J0 T2 HL2).
Qed.

Lemma alone_thin p q L L' oc : skims p q eq -> unrefused (own 0 L) -> thin L L' -> (exists st, alone p L st /\ oc = outcome_of st) ->
  exists oc', (exists st, alone q L' st /\ oc' = outcome_of st) /\ (oc <> Going -> oc' = oc).
Proof.
  intros HS HU HT (st & (HI & s & -> & HX) & ->). destruct (HS _ _ HX HU) as (s' & HX' & Hs). exists (outcome_of (A := mres nat) (B := mres nat) (C := option nat) (Before s')). split.
  - exists (Before s'). split; [|reflexivity]. split; [eapply thin_idle; [exact HT|cbn; intros; lia|exact HI]|]. exists s'. split; [reflexivity|]. now rewrite (thin_own _ _ 0 HT) by lia.
  - cbn. destruct s as [e|r|m]; cbn in Hs; [congruence| |].
    + destruct Hs as (b & -> & <-). reflexivity.
    + now rewrite Hs.
Qed.
Lemma alone_loud p L L' oc : loud L [0; 1; 2; 3] -> thin L L' -> (exists st, alone p L st /\ oc = outcome_of st) -> exists oc', (exists st, alone p L' st /\ oc' = outcome_of st) /\ (oc <> Going -> oc' = oc).
Proof.
  intros HL HT (st & (HI & s & -> & HX) & ->). exists (outcome_of (A := mres nat) (B := mres nat) (C := option nat) (Before s)). split; [|auto]. exists (Before s). split; [|reflexivity].
  split; [eapply thin_idle; [exact HT|cbn; intros; lia|exact HI]|]. exists s. split; [reflexivity|]. rewrite (same_own _ _ 0 HT); [exact HX|lia|]. eapply loud_one; [exact HL|cbn; auto].
Qed.
Lemma buffer_thin b pj i j o u mi mo L L' oc : buffer_wired b (PlReceiver pj i) (PsIoSender j o) u mi mo -> loud L [0; 1; 2] -> unrefused (own 3 L) -> thin L L' ->
  (exists st, buffer_start b None u mi mo L st /\ moved_on st /\ oc = outcome_of st) ->
  exists oc', (exists st, buffer_start (Buffer (bf_stdout_size b) (bf_stdout b) (bf_stdin b) None) None u mi mo L' st /\ moved_on st /\ oc' = outcome_of st) /\ (oc <> Going -> oc' = oc).
Proof.
  intros HW HL HU HT (st & HX & HM & ->). destruct HW as (E1 & E2 & _).
  assert (EE : buffer_ends b = Ret (inr (PlReceiver pj i, PsIoSender j o))) by (unfold buffer_ends; now rewrite E1, E2).
  assert (EE' : buffer_ends (Buffer (bf_stdout_size b) (bf_stdout b) (bf_stdin b) None) = Ret (inr (PlReceiver pj i, PsIoSender j o))) by exact EE.
  assert (I3 : forall i, In i [1; 2; 3] -> i < 4) by (cbn; intros; lia). assert (I0 : forall i, In i [0] -> i < 4) by (cbn; intros; lia).
  assert (J0 : In 0 [0; 1; 2]) by (cbn; auto). assert (J1 : In 1 [0; 1; 2]) by (cbn; auto). assert (J2 : In 2 [0; 1; 2]) by (cbn; auto).
  assert (O : forall i M M', In i [0; 1; 2] -> thin M M' -> loud M [0; 1; 2] -> own i M' = own i M) by (intros k M M' Hi HT' HL'; apply same_own; [exact HT'|cbn in Hi; lia|eapply loud_one; eassumption]).
  unfold buffer_start in *. cbn [bf_monitor]. rewrite EE in HX. rewrite EE'. clear EE EE'.
  destruct HX as [L e Hi HX|L s Hi HX|L r Hi HX|L0 L x a b' c K0 K1 HX HA HB HZ|L0 L L1 x a b' c st K0 K1 K2 HX HA HB HZ HF];
    pose proof HX as HX0; apply exec_ret_inv in HX; destruct HX as [HX E]; try discriminate E.
  - destruct (thin_split _ _ _ HT) as (L0' & L'' & -> & T0 & T1). apply loud_app in HL. destruct HL as [HL0 HL1]. rewrite own_app, (K0 3) in HU by (cbn; auto).
    destruct (skims_total _ _ _ _ _ HZ HU) as (c' & HZ' & Hc).
    assert (HJ : joined (Ret (inr (PlReceiver pj i, PsIoSender j o))) (half_a u mi) (half_b u mo None) (fun _ => total_in_buffer None mi mo) (fun _ r_a r_b total => Ret (buffer_result r_a r_b total)) (L0' ++ L'') (During a b' c')).
    { apply (J_during _ _ _ _ _ _ _ x); [eapply thin_idle; eassumption|eapply thin_idle; eassumption|..].
      + now rewrite (O 0 _ _ J0 T0 HL0).
      + now rewrite (O 1 _ _ J1 T1 HL1).
      + now rewrite (O 2 _ _ J2 T1 HL1).
      + now rewrite (thin_own _ _ 3 T1) by lia. }
    destruct a as [ea|ra|sa], b' as [eb|rb|sb], c' as [ec|rc|sc]; try (eexists; split; [eexists; split; [exact HJ|split; [exact I|reflexivity]]|]; cbn; destruct c as [ec0|rc0|sc0]; cbn in *; try congruence; try (destruct Hc as (? & ? & _); congruence)).
    assert (HJ' : joined (Ret (inr (PlReceiver pj i, PsIoSender j o))) (half_a u mi) (half_b u mo None) (fun _ => total_in_buffer None mi mo) (fun _ r_a r_b total => Ret (buffer_result r_a r_b total)) (L0' ++ L'' ++ []) (After (Done (buffer_result ra rb rc)))).
    { apply (J_after _ _ _ _ _ _ _ _ x ra rb rc); [eapply thin_idle; eassumption|eapply thin_idle; eassumption|intros ? ?; reflexivity|..].
      + now rewrite (O 0 _ _ J0 T0 HL0).
      + now rewrite (O 1 _ _ J1 T1 HL1).
      + now rewrite (O 2 _ _ J2 T1 HL1).
      + now rewrite (thin_own _ _ 3 T1) by lia.
      + constructor. }
    rewrite app_nil_r in HJ'. eexists. split; [eexists; split; [exact HJ'|split; [exact I|reflexivity]]|]. cbn. destruct c as [ec0|rc0|sc0]; cbn in *; congruence.
  - destruct (thin_split _ _ _ HT) as (L0' & L'' & -> & T0 & T12). destruct (thin_split _ _ _ T12) as (M1 & M2 & -> & T1 & T2). apply loud_app in HL. destruct HL as [HL0 HL]. apply loud_app in HL. destruct HL as [HL1 HL2].
    rewrite !own_app, (K0 3), (K2 3), app_nil_r in HU by (cbn; auto). destruct (skims_total _ _ _ _ _ HZ HU) as (c' & HZ' & Hc). cbn in Hc. destruct Hc as (bb & -> & <-).
    eexists. split; [exists (After st); split; [|split; [exact I|reflexivity]]|auto].
    apply (J_after _ _ _ _ _ _ _ _ x a b' c); [eapply thin_idle; eassumption|eapply thin_idle; eassumption|eapply thin_idle; eassumption|..].
    + now rewrite (O 0 _ _ J0 T0 HL0).
    + now rewrite (O 1 _ _ J1 T1 HL1).
    + now rewrite (O 2 _ _ J2 T1 HL1).
    + now rewrite (thin_own _ _ 3 T1) by lia.
    + now rewrite (O 0 _ _ J0 T2 HL2).
Qed.
Lemma comp_thin c L L' oc : comp_ready (plain_comp c) -> thin L L' -> (forall i, i < 4 -> unrefused (own i L)) -> comp_runs c L oc -> exists oc', comp_runs (plain_comp c) L' oc' /\ (oc <> Going -> oc' = oc).
Proof.
  intros HR HT HU HX. pose proof (ruled_within c L oc HR HX) as HM.
  assert (HL : comp_control c = [] -> comp_monitor c = [] -> loud L [0; 1; 2; 3]).
  { intros E1 E2 i e a Hi Hin. assert (Hi' : i < 4) by (cbn in Hi; lia). destruct (HM i e a Hi' Hin) as [H|[(n & H & _)|(_ & n & H & _)]]; [exact (may_loud _ _ _ H)|rewrite E1 in H; destruct H|rewrite E2 in H; destruct H]. }
  destruct c as [f name|r|b u mi mo|j|cwd vars la|d name]; cbn [plain_comp comp_runs] in *.
  - destruct HR as (_ & j & o & HR). assert (HR' : faucet_ready f name (PsIoSender j o)) by exact HR. exact (alone_thin _ _ _ _ _ (skims_faucet f name _ None HR') (HU 0 ltac:(lia)) HT HX).
  - destruct HR as (_ & pj & i & j & o & HR). assert (HR' : regulator_ready r (PlReceiver pj i) (PsIoSender j o)) by exact HR. exact (alone_thin _ _ _ _ _ (skims_regulator r pj i _ None HR') (HU 0 ltac:(lia)) HT HX).
  - destruct HR as (_ & pj & i & j & o & HR). assert (HR' : buffer_wired b (PlReceiver pj i) (PsIoSender j o) u mi mo) by exact HR. eapply buffer_thin; [exact HR'| |exact (HU 3 ltac:(lia))|exact HT|exact HX].
    intros t e a Ht Hin. assert (Ht' : t < 4 /\ t <> 3) by (cbn in Ht; lia). destruct (HM t e a (proj1 Ht') Hin) as [H|[(n & [] & _)|(E & _)]]; [exact (may_loud _ _ _ H)|tauto].
  - exact (alone_loud _ _ _ _ (HL eq_refl eq_refl) HT HX).
  - destruct HX as (st & HX & Hm & ->). exists (outcome_of st). split; [|auto]. exists st. split; [|auto]. unfold launch_start in *. eapply joined_thin; [exact (HL eq_refl eq_refl)|exact HT|exact HX].
  - exact (alone_loud _ _ _ _ (HL eq_refl eq_refl) HT HX).
Qed.

(** ** Sizes are never refused *)
Lemma total_end s mi mo tr st t1 a t2 v x : exec (total_in_buffer (Some s) mi mo) tr st -> tr = t1 ++ (EClose (CSize s), a) :: t2 -> ~ In (ESend (CSize s) v, x) t2.
Proof.
  intros HX E. unfold total_in_buffer in HX.
  assert (HW : forall h z, exec (iter (count_body (Some s) mi mo) (Counter 0 M_BackOff.back_off_new 0)) h z -> within_eff (fun e => e <> EClose (CSize s)) h).
  { intros h z Hh. refine (proj1 (works_iter (fun e => e <> EClose (CSize s)) _ _ _ h z Hh)). intro c. unfold count_body.
    assert (HL : forall {T} (p : prog T), works (fun e => control_eff e = false) (fun _ => True) p -> works (fun e => e <> EClose (CSize s)) (fun _ => True) p) by (intros T p H; eapply works_weak; [exact H| |auto]; intros e He ->; discriminate He).
    eapply works_bind; [apply HL, look_in_loud|]. intros [m n] _. eapply works_bind; [apply HL, look_out_loud|]. intros [m' n'] _.
    eapply works_bind; [|intros [q|] _; [|now apply works_ret]]; [instantiate (1 := fun _ => True); unfold report_size; destruct (negb _); [|now apply works_ret]; eapply works_bind; [apply works_send; discriminate|intros; now apply works_ret]|].
    eapply works_bind; [apply HL, over_loud|]. intros [] _; [now apply works_ret|]. destruct m'; [now apply works_ret|]. eapply works_bind; [apply HL, wait_loud|]. intros [? ?] _. now apply works_ret. }
  assert (HC : forall r, works closing_eff (fun _ : option nat => True) (close (CMon mo) ;;; close (CMon mi) ;;; close (CSize s) ;;; Ret r)).
  { intro r. repeat (eapply works_bind; [apply works_close; exact I|intros _ _]). now apply works_ret. }
  subst tr. destruct (exec_bind_inv _ _ _ _ HX) as [(h1 & h2 & r & E & H1 & H2)|[(e & -> & H1)|(m & -> & H1)]].
  - destruct (HC r _ _ H2) as [K _]. pose proof (HW _ _ H1) as KW.
    assert (Hs : exists h, h2 = h ++ (EClose (CSize s), a) :: t2).
    { clear - E KW. revert h1 E KW. induction t1 as [|y t1 IH]; intros h1 E KW; destruct h1 as [|z h1]; cbn in E.
      - exists []. now symmetry.
      - injection E as E _. subst z. inversion KW; subst. exfalso. now apply H1.
      - exists (y :: t1). now symmetry.
      - injection E as -> E. inversion KW; subst. eapply IH; eassumption. }
    destruct Hs as (h & ->). apply Forall_app in K. destruct K as [_ K]. inversion K as [|? ? _ K2]; subst. intro Hin. rewrite Forall_forall in K2. exact (K2 _ Hin).
  - pose proof (HW _ _ H1) as K. apply Forall_app in K. destruct K as [_ K]. inversion K; subst. exfalso. now apply H2.
  - pose proof (HW _ _ H1) as K. apply Forall_app in K. destruct K as [_ K]. inversion K; subst. exfalso. now apply H2.
Qed.

Section Run.
Variables (net : list comp) (cs : list capture) (w0 : world) (l : list nevent) (w : world) (ocs : nat -> S_Net.outcome).
Hypothesis HN : net_wired (map plain_comp net).
Hypothesis HO : overseen net cs.
Hypothesis HX : free_run net cs w0 l w ocs.

Lemma size_closer t n a : In (t, (EClose (CSize n), a)) l -> (exists k c, nth_error net k = Some c /\ In n (comp_monitor c) /\ t = 4 * k + 3) \/ exists m cp, nth_error cs m = Some cp /\ In n (cp_monitors cp) /\ t = 4 * (length net + m).
Proof.
  intro Hin. destruct (who_may _ _ _ _ _ _ HN HO HX _ _ _ Hin) as [(c' & Hc & Ht & [H|[(n' & Hn' & [H|[H|H]])|(E3 & n' & Hn' & [(v' & H)|H])]])|(m' & c' & -> & Hm' & H)]; try discriminate H; try contradiction H.
  - left. injection H as <-. exists (t / 4), c'. split; [exact Hc|]. split; [exact Hn'|]. pose proof (Nat.div_mod t 4 ltac:(lia)). lia.
  - right. exists m', c'. auto.
Qed.
Theorem never_refused t n v : ~ In (t, (ESend (CSize n) v, AClosed)) l.
Proof.
  intro Hin. pose proof Hin as Hin0. destruct (who_may _ _ _ _ _ _ HN HO HX _ _ _ Hin) as [(c & Hc & Ht & [H|[(n' & Hn' & [H|[H|H]])|(E3 & n' & Hn & [(v' & H)|H])]])|(m' & c' & -> & Hm' & H)]; try discriminate H; try contradiction H.
  injection H as <- <-. set (k := t / 4) in *. assert (Et : t = 4 * k + 3) by (pose proof (Nat.div_mod t 4 ltac:(lia)); fold k in H; lia).
  apply in_split in Hin. destruct Hin as (A & B & E). pose proof (fr_world _ _ _ _ _ _ HX) as HW.
  destruct (first_closing (CSize n) l) as [D|(p & i & z & q & Ep & Hp)].
  - destruct (mw_new _ _ (fr_made _ _ _ _ _ _ HX) (CSize n)) as [cap E0]. assert (Hop : cs_closed (w0 (CSize n)) = false) by now rewrite E0. destruct (open_no_end _ _ _ _ HW D Hop t) as [_ K]. apply (K v). apply in_own. exact Hin0.
  - assert (Hop : cs_closed (w0 (CSize n)) = false) by (destruct (mw_new _ _ (fr_made _ _ _ _ _ _ HX) (CSize n)) as [cap ->]; reflexivity).
    rewrite Ep in HW. destruct (run_before _ _ _ _ HW) as (z1 & W1 & _). pose proof (open_no_end _ _ _ _ W1 Hp Hop) as HP.
    assert (Hi : In (i, (EClose (CSize n), z)) l) by (rewrite Ep; apply in_or_app; right; now left).
    assert (Hord : exists q1 q2, q = q1 ++ (t, (ESend (CSize n) v, AClosed)) :: q2).
    { rewrite Ep in Hin0. apply in_app_iff in Hin0. destruct Hin0 as [K|[K|K]]; [exfalso|discriminate K|apply in_split in K; exact K]. apply (proj2 (HP t) v). now apply in_own. }
    destruct Hord as (q1 & q2 & ->). destruct (size_closer _ _ _ Hi) as [(k' & c' & Hc' & Hn' & Ei)|(m & cp & Hm & Hn' & Ei)].
    + assert (k' = k) by exact (P_NetCost.nth_unique comp_monitor net _ _ _ _ n (one_monitor _ _ HO) Hc' Hc Hn' Hn). subst k'. rewrite Hc in Hc'. injection Hc' as <-.
      pose proof (fr_comps _ _ _ _ _ _ HX _ _ Hc) as HC. pose proof (ready_of _ HN _ (nth_error_In _ _ Hc)) as HR. destruct c as [f name|r|b u mi mo|j|cwd vars la|d name]; cbn in Hn; try contradiction Hn.
      cbn [plain_comp comp_ready] in HR. destruct HR as (_ & pj & ii & j & o & HR). assert (HR' : buffer_wired b (PlReceiver pj ii) (PsIoSender j o) u mi mo) by exact HR.
      destruct HC as (st & HC & _). destruct (buffer_parts _ _ _ _ _ _ _ _ _ HR' HC) as (sa & sb & sc & _ & _ & Hc3 & _). destruct (bf_monitor b) as [s|]; [|destruct Hn]. destruct Hn as [->|[]].
      rewrite own_seen in Hc3 by lia. rewrite <- Et in Hc3. rewrite Ei, <- Et in Ep. rewrite Ep, own_app, own_cons_same, own_app, own_cons_same in Hc3.
      eapply (total_end _ _ _ _ _ (own t p) z (own t q1 ++ (ESend (CSize n) v, AClosed) :: own t q2)); [exact Hc3|reflexivity|]. apply in_or_app. right. now left.
    + destruct (fr_controllers _ _ _ _ _ _ HX _ _ Hm) as (st & Y & _). rewrite <- Ei, Ep, own_app, own_cons_same in Y. pose proof (controller_manages _ _ _ (exec_prefix _ _ _ Y _ _ _ _ eq_refl)) as Y'.
      pose proof (nth_error_In _ _ Hm) as Hi0. rewrite (unpaused cp (ov_running _ _ HO _ Hi0)) in Y'. apply (manager_effects _ _ _ _ (monitors_once _ _ HO _ Hi0)) in Y'.
      unfold gone in Y'. rewrite existsb_exists in Y'. destruct Y' as ([e a] & Hg & Hb). destruct e as [|[]| | | | | | | | | | | | | | | |]; try discriminate Hb. destruct a; try discriminate Hb. apply Nat.eqb_eq in Hb. subst n0.
      apply (proj1 (HP i)). right. exact Hg.
Qed.

(** ** The whole *)
Lemma thin_seen k : k < length net -> thin (seen_by k l) (seen_by k (data_part net l)).
Proof.
  intro Hk. clear HX. induction l as [|[t [e a]] m IH]; [constructor|]. unfold data_part. cbn [filter fst snd]. fold (data_part net m). unfold seen_by at 1. cbn [map fst snd]. fold (seen_by k m).
  destruct (t / 4 =? k) eqn:Ek.
  - apply Nat.eqb_eq in Ek. assert (E : t / 4 <? length net = true) by (apply Nat.ltb_lt; lia). rewrite E. cbn [andb]. destruct (control_eff e) eqn:Ee; cbn [negb].
    + apply T_drop; [auto|exact IH].
    + unfold seen_by at 2. cbn [map fst snd]. rewrite (proj2 (Nat.eqb_eq _ _) Ek). apply T_keep; [auto|exact IH].
  - destruct ((t / 4 <? length net) && negb (control_eff e)) eqn:E.
    + unfold seen_by at 2. cbn [map fst snd]. rewrite Ek. apply T_keep; [lia|exact IH].
    + apply T_drop; [lia|exact IH].
Qed.
End Run.

Definition agree (x y : world) : Prop := forall c, control_chan c = false -> x c = y c.
Lemma step_agree x y ev x' : wstep x ev x' -> control_eff (fst ev) = false -> agree x y -> exists y', wstep y ev y' /\ agree x' y'.
Proof.
  intros H He HA. assert (HU : forall c s, agree (upd x c s) (upd y c s)) by (intros c s c' Hc'; unfold upd; destruct (chan_eqb c c'); [reflexivity|now apply HA]).
  destruct H; cbn [fst] in He; try (assert (E : x c = y c) by (apply HA; exact He)).
  - eexists. split; [apply W_recv; rewrite <- E; eassumption|]. rewrite <- E. apply HU.
  - exists y. split; [apply W_recv_end; rewrite <- E; assumption|exact HA].
  - eexists. split; [apply W_try; rewrite <- E; eassumption|]. rewrite <- E. apply HU.
  - exists y. split; [apply W_try_end; rewrite <- E; assumption|exact HA].
  - exists y. split; [apply W_try_empty; rewrite <- E; assumption|exact HA].
  - eexists. split; [apply W_send; rewrite <- E; assumption|]. rewrite <- E. apply HU.
  - exists y. split; [apply W_send_closed; rewrite <- E; assumption|exact HA].
  - eexists. split; [apply W_close|]. rewrite <- E. apply HU.
  - exists y. split; [rewrite E; apply W_is_empty|exact HA].
  - exists y. split; [rewrite E; apply W_is_closed|exact HA].
  - exists y. split; [now apply W_other|exact HA].
Qed.
Lemma step_control x ev x' : wstep x ev x' -> control_eff (fst ev) = true -> forall y, agree x y -> agree x' y.
Proof.
  intros H He y HA. destruct H; cbn [fst] in He; try exact HA;
    (intros c' Hc'; unfold upd; destruct (chan_eqb c c') eqn:E; [apply chan_eqb_eq in E; subst c'; cbn in He; congruence|now apply HA]).
Qed.
Lemma step_outside x e a x' : wstep x (e, a) x' -> on_chan e = None -> x' = x.
Proof. intros H. inversion H; subst; cbn; intro E; try discriminate E; reflexivity. Qed.
Lemma run_data net x l x' : wrun x l x' -> (forall t e a, In (t, (e, a)) l -> length net <= t / 4 -> control_eff e = true \/ on_chan e = None) ->
  forall y, agree x y -> exists y', wrun y (data_part net l) y' /\ agree x' y'.
Proof.
  induction 1 as [|x i [e a] x1 l x2 H1 H2 IH]; intros Hc y HA; [exists y; split; [constructor|exact HA]|].
  assert (Hc' : forall t e a, In (t, (e, a)) l -> length net <= t / 4 -> control_eff e = true \/ on_chan e = None) by (intros t e' a' Hin; apply (Hc t e' a'); now right).
  unfold data_part. cbn [filter fst snd]. fold (data_part net l). destruct (control_eff e) eqn:Ee.
  - rewrite andb_false_r. apply IH; [exact Hc'|]. eapply step_control; [exact H1|exact Ee|exact HA].
  - rewrite andb_true_r. destruct (i / 4 <? length net) eqn:Ei.
    + destruct (step_agree _ _ _ _ H1 Ee HA) as (y1 & S1 & A1). destruct (IH Hc' _ A1) as (y' & R & A'). exists y'. split; [econstructor; eassumption|exact A'].
    + apply Nat.ltb_ge in Ei. destruct (Hc i e a (or_introl eq_refl) Ei) as [K|K]; [congruence|]. apply (step_outside _ _ _ _ H1) in K. subst x1. now apply IH.
Qed.
Lemma comps_plain {T} (f : comp -> list T) net : (forall c, f (plain_comp c) = f c) -> flat_map f (map plain_comp net) = flat_map f net.
Proof. intro H. induction net as [|c net IH]; [reflexivity|]. cbn. now rewrite H, IH. Qed.
Lemma outs_plain c : comp_outs (plain_comp c) = comp_outs c.
Proof. now destruct c. Qed.

Theorem delays net cs w0 l w ocs : net_wired (map plain_comp net) -> overseen net cs -> roomy net -> free_run net cs w0 l w ocs ->
  exists w' ocs', net_run (map plain_comp net) w0 (data_part net l) w' ocs' /\ (forall k, k < length net -> ocs k <> Going -> ocs' k = ocs k) /\ forall c, control_chan c = false -> w' c = w c.
Proof.
  intros HN HO HR HX.
  destruct (run_data net _ _ _ (fr_world _ _ _ _ _ _ HX)) with (y := w0) as (w' & HW & HA).
  { intros t e a Hin Ht. destruct (who_may _ _ _ _ _ _ HN HO HX _ _ _ Hin) as [(c & Hc & _)|(m & c & _ & _ & H)]; [assert (t / 4 < length net) by (apply nth_error_Some; congruence); lia|].
    destruct e as [|[]|[] []|[]| | | | | | | | | | | | | |]; cbn in H |- *; try contradiction H; auto. }
  { intros c _. reflexivity. }
  destruct (choose_all (fun k c oc => comp_runs (plain_comp c) (seen_by k (data_part net l)) oc /\ (ocs k <> Going -> oc = ocs k)) Going net) as (ocs' & Hocs).
  { intros k c Hk. apply (comp_thin c (seen_by k l)); [exact (ready_of _ HN _ (nth_error_In _ _ Hk))|apply thin_seen; apply nth_error_Some; congruence| |exact (fr_comps _ _ _ _ _ _ HX _ _ Hk)].
    intros i Hi n v Hin. rewrite own_seen in Hin by lia. apply in_own in Hin. exact (never_refused _ _ _ _ _ _ HN HO HX _ _ _ Hin). }
  exists w', ocs'. split; [constructor|split].
  - intros k c Hk. rewrite nth_error_map in Hk. destruct (nth_error net k) as [c0|] eqn:E; [|discriminate Hk]. injection Hk as <-. exact (proj1 (Hocs _ _ E)).
  - exact HW.
  - intros t ev Hin. rewrite map_length. unfold data_part in Hin. apply filter_In in Hin. destruct Hin as [_ Hin]. apply andb_prop in Hin. now apply Nat.ltb_lt.
  - exact (mw_new _ _ (fr_made _ _ _ _ _ _ HX)).
  - intros n Hn. rewrite (comps_plain _ _ outs_plain) in Hn. apply in_flat_map in Hn. destruct Hn as (c & Hc & Hn). rewrite (mw_outs _ _ (fr_made _ _ _ _ _ _ HX) c n Hc Hn).
    assert (H0 : 0 < comp_size c) by (apply HR; [exact Hc|intro E; rewrite E in Hn; destruct Hn]). destruct (comp_size c) as [|s]; [lia|eauto].
  - intros b u mi mo Hb. apply in_map_iff in Hb. destruct Hb as (c & E & Hc). destruct c; try discriminate E. injection E as _ -> -> ->. exact (mw_inside _ _ (fr_made _ _ _ _ _ _ HX) _ _ _ _ Hc).
  - intros k Hk Hg. destruct (nth_error net k) as [c|] eqn:E; [|apply nth_error_None in E; lia]. exact (proj2 (Hocs _ _ E) Hg).
  - intros c Hc. symmetry. now apply HA.
Qed.
