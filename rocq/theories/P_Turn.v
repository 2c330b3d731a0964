(** * P_Turn: networks whose buffers are polled in turn *)
From Coq Require Import Ascii String List Bool Arith Lia.
From Verif Require Import M_Prog P_Prog P_Exec M_Motion M_Regulator M_Faucet M_Drain M_Buffer M_Junction M_Launch M_Join M_Poll S_Trace S_Lines S_Motion S_World S_Launch S_Regulator S_Drain S_Buffer S_Junction S_Network S_Net
  P_Reach P_World P_Utils P_Ask P_Buffer P_BufferJoint P_BufferRun P_BufferEnd P_BufferPoll P_Link P_JStart P_Phase P_Respond P_NetComp P_NetMoves P_Net P_NetCost P_Calm P_Later.
From Verif Require P_Network.
Import ListNotations.

Lemma seen_in k l i ev : In (i, ev) (seen_by k l) -> exists i', In (i', ev) l /\ i = (if i' / 4 =? k then i' mod 4 else 4 + i').
Proof. unfold seen_by. intro H. apply in_map_iff in H. destruct H as ([i' ev'] & E & H). cbn in E. injection E as <- <-. eauto. Qed.

(** ** Turns *)
Section Poll.
Context {A B C : Type}.
Variables (p1 : prog A) (p2 : prog B) (p3 : prog C) (w0 : world).
Lemma polled_by L i s : forall w w', polled p1 p2 p3 w0 L i w -> wrun w (by_task i s) w' -> polled p1 p2 p3 w0 (L ++ by_task i s) i w'.
Proof.
  revert L. induction s as [|ev s IH]; intros L w w' H HW; cbn [by_task map] in HW; inversion HW; subst; [now rewrite app_nil_r|].
  change (by_task i (ev :: s)) with ([(i, ev)] ++ by_task i s). rewrite app_assoc. eapply IH; [|eassumption]. eapply PO_own; eassumption.
Qed.
Lemma polled_others F : forall L i w w', polled p1 p2 p3 w0 L i w -> wrun w F w' -> (forall k ev, In (k, ev) F -> 4 <= k) -> polled p1 p2 p3 w0 (L ++ F) i w'.
Proof.
  induction F as [|[k ev] F IH]; intros L i w w' H HW HF; inversion HW; subst; [now rewrite app_nil_r|]. pose proof (HF k ev (or_introl eq_refl)) as Hk.
  change ((k, ev) :: F) with ([(k, ev)] ++ F). rewrite app_assoc. eapply IH; [|eassumption|intros; eapply HF; right; eassumption]. eapply PO_other; try eassumption; lia.
Qed.
End Poll.

(** The counter of a buffer goes to sleep if it finds nothing to do. *)
Section Counter.
Variables (mi mo : nat).
Notation stat := (tstat None mi mo).
Notation nxt := (tnext None).
Definition idly (s : trace) : Prop := forallb (fun ev => negb (useful ev)) s = true.
Definition settles (w : world) (t : tplace) : Prop := exists s t' w', reach _ _ stat nxt t s t' /\ wrun w (by_task 0 s) w' /\ forallb friendly s = true /\
  (brisk s \/ (idly s /\ w' = w /\ rests (stat t') w)).
Lemma settle_now w t e a w' : stat t = At e -> wt e a = true -> wstep w (e, a) w' -> useful (e, a) = true -> friendly (e, a) = true -> settles w t.
Proof.
  intros He Hw HS HU HB. exists [(e, a)], (nxt t a), w'. split; [apply (R_snoc _ _ _ _ t [] t e a (R_nil _ _ _ _ t) He Hw)|]. split; [econstructor; [exact HS|constructor]|]. split; [cbn [forallb]; now rewrite HB|].
  left. exists [], (e, a). auto.
Qed.
Lemma settle_rest w t : rests (stat t) w -> settles w t.
Proof. intro H. exists [], t, w. split; [constructor|]. split; [constructor|]. split; [reflexivity|]. right. repeat split; auto. Qed.
Lemma settle_then w t e a : stat t = At e -> wt e a = true -> wstep w (e, a) w -> useful (e, a) = false -> friendly (e, a) = true -> settles w (nxt t a) -> settles w t.
Proof.
  intros He Hw HS HU HB (s & t' & w' & HR & HW & HF & HN). exists ((e, a) :: s), t', w'. split; [now apply reach_cons|]. split; [econstructor; eassumption|]. split; [cbn [forallb]; now rewrite HB, HF|].
  destruct HN as [(s0 & ev & -> & H1 & H2)|(H1 & H2)].
  - left. exists ((e, a) :: s0), ev. split; [reflexivity|]. split; [|exact H2]. cbn [forallb]. now rewrite HU, H1.
  - right. split; [|exact H2]. unfold idly in *. cbn [forallb]. now rewrite HU, H1.
Qed.
Variable w : world.
Hypothesis HF : fitting w.
Lemma set_Wait size back last : settles w (TWait size back last).
Proof. apply settle_rest. left. reflexivity. Qed.
Lemma set_dropO r : settles w (TDropO r).
Proof. eapply settle_now with (a := AOk); [reflexivity|reflexivity|apply W_close|reflexivity|reflexivity]. Qed.
Lemma set_dropI r : settles w (TDropI r).
Proof. eapply settle_now with (a := AOk); [reflexivity|reflexivity|apply W_close|reflexivity|reflexivity]. Qed.
Lemma set_C2 size moved back last : settles w (go_turn size moved back last) -> settles w (TC2 size moved back last).
Proof.
  intro HT. eapply settle_then with (a := ABool (cs_closed (w (CMon mo)))); [reflexivity|reflexivity|apply W_is_closed|reflexivity|reflexivity|]. cbn [tnext]. case (cs_closed (w (CMon mo))); [apply set_dropO|exact HT].
Qed.
Lemma set_E2 size moved back last : settles w (go_turn size moved back last) -> settles w (TE2 size moved back last).
Proof.
  intro HT. eapply settle_then with (a := ABool (is_nil (cs_queue (w (CMon mo))))); [reflexivity|reflexivity|apply W_is_empty|reflexivity|reflexivity|]. cbn [tnext]. case (is_nil (cs_queue (w (CMon mo)))); [now apply set_C2|exact HT].
Qed.
Lemma set_C1 size moved back last : settles w (go_turn size moved back last) -> settles w (TC1 size moved back last).
Proof.
  intro HT. eapply settle_then with (a := ABool (cs_closed (w (CMon mi)))); [reflexivity|reflexivity|apply W_is_closed|reflexivity|reflexivity|]. cbn [tnext]. case (cs_closed (w (CMon mi))); [now apply set_E2|exact HT].
Qed.
Lemma set_E1 size moved back last : settles w (go_turn size moved back last) -> settles w (TE1 size moved back last).
Proof.
  intro HT. eapply settle_then with (a := ABool (is_nil (cs_queue (w (CMon mi))))); [reflexivity|reflexivity|apply W_is_empty|reflexivity|reflexivity|]. cbn [tnext]. case (is_nil (cs_queue (w (CMon mi)))); [now apply set_C1|exact HT].
Qed.
Lemma set_Out size moved back last : settles w (go_turn size moved back last) -> settles w (TOut size moved back last).
Proof.
  intro HT. destruct (queue_cases (w (CMon mo))) as [Eo|(v & q & Eo)].
  - destruct (try_mon w mo Eo) as (a' & HS' & Ha'). eapply settle_then with (a := a'); [reflexivity|now destruct Ha'; subst a'|exact HS'|now destruct Ha'; subst a'|now destruct Ha'; subst a'|].
    assert (HN' : nxt (TOut size moved back last) a' = TE1 size moved back last) by (destruct Ha'; subst a'; reflexivity). rewrite HN'. now apply set_E1.
  - eapply settle_now with (a := AMsg v); [reflexivity| |eapply W_try; exact Eo|reflexivity|reflexivity]. cbn [wt]. apply HF. rewrite Eo. now left.
Qed.
Lemma set_In size back last : settles w (TIn size back last).
Proof.
  destruct (queue_cases (w (CMon mi))) as [Ei|(v & q & Ei)].
  - destruct (try_mon w mi Ei) as (a & HS & Ha).
    eapply settle_then with (a := a); [reflexivity|now destruct Ha; subst a|exact HS|now destruct Ha; subst a|now destruct Ha; subst a|].
    assert (HN : nxt (TIn size back last) a = TOut size false back last) by (destruct Ha; subst a; reflexivity). rewrite HN. apply set_Out, set_Wait.
  - eapply settle_now with (a := AMsg v); [reflexivity| |eapply W_try; exact Ei|reflexivity|reflexivity]. cbn [wt]. apply HF. rewrite Ei. now left.
Qed.
Lemma set_turn size moved back last : settles w (go_turn size moved back last).
Proof. destruct moved; [apply set_In|apply set_Wait]. Qed.
Lemma counter_settles tr st : exec (total_in_buffer None mi mo) tr st -> exists s st' w', exec (total_in_buffer None mi mo) (tr ++ s) st' /\ wrun w (by_task 0 s) w' /\ forallb friendly s = true /\
  (brisk s \/ (idly s /\ w' = w /\ rests st' w)).
Proof.
  intro HX. destruct (total_reach _ _ _ _ _ HX) as (t & HR & He & HV).
  assert (HS : settles w t).
  { destruct t; try (apply settle_rest; exact I); [apply set_In|apply set_Out, set_turn|apply set_E1, set_turn|apply set_C1, set_turn|apply set_E2, set_turn|apply set_C2, set_turn|apply set_Wait|apply set_dropO|apply set_dropI]. }
  destruct HS as (s & t' & w' & HR' & HW & H1 & H2). exists s, (stat t'), w'. split; [|auto]. apply reach_total. clear - HR HR'. unfold treach in *. induction HR' as [|s t1 e1 a1 H IH He Hw]; [now rewrite app_nil_r|]. rewrite app_assoc. now constructor.
Qed.
End Counter.

(** A motion that cannot move rests. *)
Lemma motion_useful pl mon ps e a : motion_eff pl mon None ps e -> useful (e, a) = true.
Proof.
  intros [[H|[(q & d & [<-|[]] & H)|[(m & H & ->)|[(m & H & ->)|(s & v & H & _)]]]]|[H|[(q & [<-|[]] & H)|(m & H & ->)]]]; try discriminate H; try reflexivity.
  - destruct pl; try discriminate H; injection H as <-; reflexivity.
  - destruct ps; try discriminate H; injection H as <-; reflexivity.
  - destruct pl; try contradiction H; subst e; reflexivity.
  - destruct ps; try contradiction H; [destruct H as [->| ->]; reflexivity|subst e; reflexivity..].
Qed.
Lemma motion_settles pl mon ps tr st w : responds (motion pl mon None ps) -> fitting w -> exec (motion pl mon None ps) tr st ->
  moves (motion pl mon None ps) tr w \/ rests st w.
Proof.
  intros HR HF HX. destruct st as [e|r|m]; [|right; exact I|right; exact I].
  destruct (step_or_block _ _ _ _ HR HX HF) as [H|[(ch & -> & H1 & H2)|[(ch & v & -> & H1 & H2)|H]]]; [now left| | |].
  - right. right. intros a w' K. inversion K; subst; congruence || discriminate.
  - right. right. intros a w' K. inversion K; subst; try congruence; try discriminate. 
  - exfalso. pose proof (motion_useful pl mon ps e) as HU. pose proof (HU AEmpty (at_motion _ _ _ _ _ HX)) as K. destruct e; try contradiction H; try discriminate K; destruct c; discriminate K.
Qed.

Section Net.
Variables (net : list comp) (w0 : world).
Hypothesis HN : net_wired net.
Section Run.
Variables (l : list nevent) (w : world) (ocs : nat -> outcome).
Hypothesis HX : net_run net w0 l w ocs.

Lemma store_apart k b u mi mo k' c' : nth_error net k = Some (NBuffer b u mi mo) -> nth_error net k' = Some c' -> In u (comp_ins c' ++ comp_outs c' ++ comp_stores c') -> k' = k.
Proof.
  intros Hk Hk' Hin. assert (HO : In u (comp_outs c' ++ comp_stores c') -> k' = k).
  { intro H. refine (writer_unique _ HN _ _ _ _ u Hk' Hk H _). apply in_or_app. right. now left. }
  apply in_app_or in Hin. destruct Hin as [Hin|Hin]; [|auto]. exfalso.
  assert (H : In u (flat_map comp_outs net)) by (apply (nw_ends _ HN), in_flat_map; exists c'; split; [exact (nth_error_In _ _ Hk')|exact Hin]).
  apply (nodup_app_disj _ _ u (nw_outs _ HN) H). apply in_flat_map. eexists. split; [exact (nth_error_In _ _ Hk)|now left].
Qed.
Lemma counts_apart k b u mi mo k' c' m : nth_error net k = Some (NBuffer b u mi mo) -> nth_error net k' = Some c' -> m = mi \/ m = mo -> In m (comp_counts c') -> k' = k.
Proof.
  intros Hk Hk' Hm Hin. apply (nth_unique comp_counts net _ _ _ _ m (nw_counts _ HN) Hk' Hk Hin). cbn. intuition.
Qed.
Lemma net_sealed k b u mi mo : nth_error net k = Some (NBuffer b u mi mo) -> sealed u mi mo (seen_by k l).
Proof.
  intros Hk i e a c Hin He Hc. destruct (seen_in _ _ _ _ Hin) as (i' & Hin' & Ei).
  destruct (event_may net w0 HN _ _ _ HX _ _ _ Hin') as (c' & Hc' & Hm).
  assert (Ek : i' / 4 = k).
  { destruct Hc as [->|Hc].
    - apply (store_apart _ _ _ _ _ _ _ Hk Hc'). rewrite !in_app_iff. destruct e as [x|x|x v|x|x|x| | | | | | | | | | | |]; try discriminate He; injection He as ->; cbn in Hm; try contradiction Hm; try (destruct v; try contradiction Hm); rewrite ?in_app_iff in Hm; tauto.
    - assert (HM : exists m, c = CMon m /\ (m = mi \/ m = mo)) by (destruct Hc as [->| ->]; eauto). destruct HM as (m & -> & Hmm). apply (counts_apart _ _ _ _ _ _ _ _ Hk Hc' Hmm).
      destruct e as [x|x|x v|x|x|x| | | | | | | | | | | |]; try discriminate He; injection He as ->; cbn in Hm; try contradiction Hm; try (destruct v; try contradiction Hm); tauto. }
  rewrite Ek, Nat.eqb_refl in Ei. assert (Hlt : i' mod 4 < 4) by (apply Nat.mod_upper_bound; lia).
  destruct i as [|[|[|[|i]]]]; auto; [|lia]. exfalso.
  pose proof (nr_comps _ _ _ _ _ HX _ _ Hk) as (st & HC & _). destruct (nw_ready _ HN _ (nth_error_In _ _ Hk)) as (_ & pj & x & j & o & HR).
  pose proof (buffer_zero _ _ _ _ _ _ _ _ HR ltac:(discriminate) HC) as H0. apply in_own in Hin. rewrite H0 in Hin. destruct Hin.
Qed.

Theorem in_turn_sound : in_turn net w0 l -> ~ some_broken net ocs.
Proof.
  intros HT (k & b & u & mi & mo & Hk & Hb). pose proof (nr_comps _ _ _ _ _ HX _ _ Hk) as HC. rewrite Hb in HC. destruct HC as (st & HC & _ & Ho).
  destruct (nw_ready _ HN _ (nth_error_In _ _ Hk)) as (_ & pj & x & j & o & HR). pose proof HR as (E1 & E2 & _).
  destruct (HT _ _ _ _ _ _ _ Hk E1 E2) as (i & w' & HP).
  assert (HNP : ~ in_panic st).
  { refine (buffer_counts _ _ _ None _ _ _ HR _ _ _ _ _ HC (nr_inside _ _ _ _ _ HX _ _ _ _ (nth_error_In _ _ Hk)) (net_sealed _ _ _ _ _ Hk) HP _).
    intros f Hin. destruct (buffer_parts _ _ _ _ _ _ _ _ _ HR HC) as (sa & sb & sc & Ha & _). pose proof (all_motion _ _ _ _ _ _ _ Ha Hin) as H.
    destruct H as [[H|[(q & d & [<-|[]] & H)|[(m & H & E)|[(m & H & E)|(s & v & H & _)]]]]|[H|[(q & [<-|[]] & H)|(m & H & E)]]]; discriminate H || discriminate E || idtac. }
  destruct st as [s|sa sb sc|s]; cbn in Ho, HNP.
  - destruct s; try discriminate Ho. now apply HNP.
  - destruct sa; cbn in Ho; [|..]; try (now (apply HNP; left)); destruct sb; cbn in Ho; try (now (apply HNP; right; left)); destruct sc; cbn in Ho; try (now (apply HNP; right; right)); discriminate Ho.
  - destruct s; try discriminate Ho. now apply HNP.
Qed.
End Run.

Theorem in_turn_fine l w ocs : polite net -> net_run net w0 l w ocs -> willing l -> in_turn net w0 l -> forall k, k < length net -> ocs k = Going \/ exists n, ocs k = Ended (Ok n).
Proof.
  intros HP HX HW HT k Hk. destruct (nth_error net k) as [c|] eqn:E; [|apply nth_error_None in E; lia].
  pose proof (nobody_fails net w0 HN HP _ _ _ HX HW _ _ E) as H. destruct (ocs k) as [|[n|e]|] eqn:Eo; eauto; [contradiction H|].
  exfalso. destruct H as (b & u & mi & mo & ->). apply (in_turn_sound _ _ _ HX HT). exists k, b, u, mi, mo. auto.
Qed.
(** Whose turn it is in a buffer. *)
Lemma in_turn_more l w ocs k c t s w' : net_run net w0 l w ocs -> in_turn net w0 l -> nth_error net k = Some c -> t < 4 -> wrun w (by_task t s) w' ->
  (forall b u mi mo pl ps, c = NBuffer b u mi mo -> bf_stdin b = Some pl -> bf_stdout b = Some ps -> exists i w2, buffer_polled b pl ps None u mi mo w0 (seen_by k l ++ by_task t s) i w2) ->
  in_turn net w0 (l ++ by_task (4 * k + t) s).
Proof.
  intros HX HT Hk Ht HW HB k' b u mi mo pl ps Hk' E1 E2. rewrite seen_app. destruct (Nat.eq_dec k' k) as [->|Hne].
  - rewrite seen_mine by exact Ht. rewrite Hk in Hk'. injection Hk' as ->. eauto.
  - destruct (HT _ _ _ _ _ _ _ Hk' E1 E2) as (i & w2 & HP). exists i, w'. eapply polled_others; [exact HP| |].
    + destruct (polled_run _ _ _ _ _ _ _ HP) as [HR _]. rewrite (wrun_det _ _ _ HR _ (P_Network.wrun_seen k' _ _ _ (nr_world _ _ _ _ _ HX))). apply P_Network.wrun_seen. exact (wrun_by _ _ _ _ _ HW).
    + intros x ev Hin. exact (seen_theirs k k' t s Ht Hne x ev Hin).
Qed.

Definition turns_on (l : list nevent) : Prop := exists l' w' ocs', net_run net w0 (l ++ l') w' ocs' /\ in_turn net w0 (l ++ l') /\ existsb useful (all_of l') = true /\ forallb friendly (all_of l') = true.
Lemma turns_later l a : forallb friendly (all_of a) = true -> turns_on (l ++ a) -> turns_on l.
Proof.
  intros Ha (l' & w' & ocs' & H1 & H2 & H3 & H4). exists (a ++ l'), w', ocs'. rewrite app_assoc. rewrite all_of_app, existsb_app, forallb_app, H3, H4, Ha, orb_true_r. auto.
Qed.
(** It is the turn of [t] after at most [d] others. *)
Fixpoint away (d i t : nat) : Prop := match d with 0 => i = t | S d => i = t \/ away d (match i with 1 => 2 | 2 => 3 | _ => 1 end) t end.
Lemma turn_comes d k b u mi mo pl ps : nth_error net k = Some (NBuffer b u mi mo) -> bf_stdin b = Some pl -> bf_stdout b = Some ps -> forall l w ocs i t s w' oc,
  net_run net w0 l w ocs -> in_turn net w0 l -> buffer_polled b pl ps None u mi mo w0 (seen_by k l) i w -> t < 4 ->
  comp_runs (NBuffer b u mi mo) (seen_by k l ++ by_task t s) oc -> wrun w (by_task t s) w' -> brisk s -> forallb friendly s = true -> away d i t -> turns_on l.
Proof.
  intros Hk E1 E2. induction d as [|d IH]; intros l w ocs i t s w' oc HX HT HP Ht HC HW HU HF HD.
  - cbn in HD. subst i. exists (by_task (4 * k + t) s), w', (fun x => if x =? k then oc else ocs x). split; [now apply (net_extend net w0 l w ocs HX k (NBuffer b u mi mo))|].
    split; [|rewrite all_by; auto using brisk_useful]. eapply in_turn_more; [exact HX|exact HT|exact Hk|exact Ht|exact HW|]. intros b0 u0 mi0 mo0 pl0 ps0 Eb F1 F2. injection Eb as <- <- <- <-.
    rewrite E1 in F1. rewrite E2 in F2. injection F1 as <-. injection F2 as <-. exists t, w'. eapply polled_by; eassumption.
  - destruct HD as [->|HD].
    { exists (by_task (4 * k + t) s), w', (fun x => if x =? k then oc else ocs x). split; [now apply (net_extend net w0 l w ocs HX k (NBuffer b u mi mo))|].
      split; [|rewrite all_by; auto using brisk_useful]. eapply in_turn_more; [exact HX|exact HT|exact Hk|exact Ht|exact HW|]. intros b0 u0 mi0 mo0 pl0 ps0 Eb F1 F2. injection Eb as <- <- <- <-.
      rewrite E1 in F1. rewrite E2 in F2. injection F1 as <-. injection F2 as <-. exists t, w'. eapply polled_by; eassumption. }
    destruct (Nat.eq_dec i t) as [->|Hne].
    { exists (by_task (4 * k + t) s), w', (fun x => if x =? k then oc else ocs x). split; [now apply (net_extend net w0 l w ocs HX k (NBuffer b u mi mo))|].
      split; [|rewrite all_by; auto using brisk_useful]. eapply in_turn_more; [exact HX|exact HT|exact Hk|exact Ht|exact HW|]. intros b0 u0 mi0 mo0 pl0 ps0 Eb F1 F2. injection Eb as <- <- <- <-.
      rewrite E1 in F1. rewrite E2 in F2. injection F1 as <-. injection F2 as <-. exists t, w'. eapply polled_by; eassumption. }
    pose proof (nw_ready _ HN _ (nth_error_In _ _ Hk)) as HR. pose proof HR as (HM & pj & x & j & o & HBW). pose proof HBW as (F1 & F2 & _). rewrite E1 in F1. rewrite E2 in F2. injection F1 as ->. injection F2 as ->.
    pose proof (nr_comps _ _ _ _ _ HX _ _ Hk) as HK.
    assert (HG : ocs k = Going).
    { destruct (ocs k) as [|r|] eqn:Eo; [reflexivity| |].
      - exfalso. destruct HU as (s0 & ev & -> & _). destruct (s0 ++ [ev]) as [|ev0 s1] eqn:Es; [now destruct s0|].
        apply (comp_over _ _ _ _ _ _ _ HR HK Ht HC).
      - exfalso. apply (in_turn_sound _ _ _ HX HT). exists k, b, u, mi, mo. auto. }
    rewrite HG in HK. destruct (buffer_tasks _ _ _ _ _ _ _ HBW Logic.I HK) as (sa & sb & sc & La & Lb & Lc & _). rewrite HM in Lc.
    pose proof (net_fitting net w0 HN _ _ _ HX) as HFit.
    assert (Hold : exists s1 w1 oc1, i < 4 /\ comp_runs (NBuffer b u mi mo) (seen_by k l ++ by_task i s1) oc1 /\ wrun w (by_task i s1) w1 /\ forallb friendly s1 = true /\
      (brisk s1 \/ (idly s1 /\ w1 = w /\ buffer_polled b (PlReceiver pj x) (PsIoSender j o) None u mi mo w0 (seen_by k l ++ by_task i s1) (match i with 1 => 2 | 2 => 3 | _ => 1 end) w))).
    { destruct (polled_run _ _ _ _ _ _ _ HP) as [_ [->|[->| ->]]].
      - destruct La as (_ & Ra & Ha & Ga). destruct (motion_settles _ _ _ _ _ _ Ra HFit Ha) as [H|H].
        + destruct (moves_brisk _ _ _ H) as (s1 & st & w1 & K1 & K2 & K3 & K4). destruct (Ga _ _ K1) as (oc1 & K5). exists s1, w1, oc1. split; [lia|]. split; [exact K5|]. split; [exact (wrun_by _ _ _ _ _ K2)|auto].
        + exists [], w, Going. cbn [by_task map]. rewrite app_nil_r. split; [lia|]. split; [exact HK|]. split; [constructor|]. split; [reflexivity|]. right. split; [reflexivity|]. split; [reflexivity|]. eapply PO_pass1; [exact HP|exact Ha|exact H].
      - destruct Lb as (_ & Ra & Ha & Ga). destruct (motion_settles _ _ _ _ _ _ Ra HFit Ha) as [H|H].
        + destruct (moves_brisk _ _ _ H) as (s1 & st & w1 & K1 & K2 & K3 & K4). destruct (Ga _ _ K1) as (oc1 & K5). exists s1, w1, oc1. split; [lia|]. split; [exact K5|]. split; [exact (wrun_by _ _ _ _ _ K2)|auto].
        + exists [], w, Going. cbn [by_task map]. rewrite app_nil_r. split; [lia|]. split; [exact HK|]. split; [constructor|]. split; [reflexivity|]. right. split; [reflexivity|]. split; [reflexivity|]. eapply PO_pass2; [exact HP|exact Ha|exact H].
      - destruct Lc as (_ & Ra & Ha & Ga). destruct (counter_settles mi mo w HFit _ _ Ha) as (s1 & st & w1 & K1 & K2 & K3 & K4). destruct (Ga _ _ K1) as (oc1 & K5). exists s1, w1, oc1.
        split; [lia|]. split; [exact K5|]. split; [exact (wrun_by _ _ _ _ _ K2)|]. split; [exact K3|]. destruct K4 as [K4|(K4 & -> & K6)]; [now left|right]. split; [exact K4|]. split; [reflexivity|].
        eapply PO_pass3; [eapply polled_by; [exact HP|exact (wrun_by _ _ _ _ _ K2)]| |exact K6]. rewrite own_app, own_by_mine, HM. exact K1. }
    destruct Hold as (s1 & w1 & oc1 & Hi & K1 & K2 & K3 & K4).
    assert (HP' : buffer_polled b (PlReceiver pj x) (PsIoSender j o) None u mi mo w0 (seen_by k l ++ by_task i s1) i w1) by (eapply polled_by; [exact HP|exact K2]).
    assert (HT' : in_turn net w0 (l ++ by_task (4 * k + i) s1)).
    { eapply in_turn_more; [exact HX|exact HT|exact Hk|exact Hi|exact K2|]. intros b0 u0 mi0 mo0 pl0 ps0 Eb F1 F2. injection Eb as <- <- <- <-. rewrite E1 in F1. rewrite E2 in F2. injection F1 as <-. injection F2 as <-. eauto. }
    pose proof (net_extend net w0 l w ocs HX k (NBuffer b u mi mo) i s1 w1 oc1 Hk Hi K1 K2) as HX'.
    destruct K4 as [K4|(K4 & -> & K5)].
    + exists (by_task (4 * k + i) s1), w1, (fun x => if x =? k then oc1 else ocs x). split; [exact HX'|]. split; [exact HT'|]. rewrite all_by. auto using brisk_useful.
    + apply (turns_later l (by_task (4 * k + i) s1)); [now rewrite all_by|].
      destruct (comp_later (NBuffer b u mi mo) (seen_by k l) t s oc (by_task i s1) oc1 HR Ht) as (oc2 & K6); [destruct HU as (s0 & ev & -> & _); now destruct s0|exact HC|exact K1|now apply own_by_other|].
      eapply (IH _ _ _ _ t s w' oc2); [exact HX'|exact HT'|rewrite seen_app, seen_mine by exact Hi; exact K5|exact Ht|rewrite seen_app, seen_mine by exact Hi; rewrite <- app_assoc; exact K6|exact HW|exact HU|exact HF|exact HD].
Qed.

Lemma turn_moves l w ocs : net_run net w0 l w ocs -> in_turn net w0 l -> somebody net l w -> turns_on l.
Proof.
  intros HX HT (k & c & Hk & t & s & w' & oc & Ht & HC & HW & HU & HF).
  assert (Hother : ~ (exists b u mi mo, c = NBuffer b u mi mo) -> turns_on l).
  { intro Hn. exists (by_task (4 * k + t) s), w', (fun x => if x =? k then oc else ocs x). split; [now apply (net_extend net w0 l w ocs HX k c)|].
    split; [|rewrite all_by; auto using brisk_useful]. eapply in_turn_more; [exact HX|exact HT|exact Hk|exact Ht|exact HW|]. intros b0 u0 mi0 mo0 pl0 ps0 Eb F1 F2. exfalso. apply Hn. eauto. }
  destruct c as [f name|r|b u mi mo|j|cwd vars la|d name]; try (apply Hother; intros (b' & u' & mi' & mo' & K); discriminate K).
  pose proof (nw_ready _ HN _ (nth_error_In _ _ Hk)) as (HM & pj & x & j & o & HBW). pose proof HBW as (F1 & F2 & _). destruct (HT _ _ _ _ _ _ _ Hk F1 F2) as (i & w2 & HP).
  destruct (polled_run _ _ _ _ _ _ _ HP) as [HR Hi]. rewrite (wrun_det _ _ _ HR _ (P_Network.wrun_seen k _ _ _ (nr_world _ _ _ _ _ HX))) in HP.
  assert (Ht0 : t <> 0).
  { intros ->. destruct HC as (st & HC & _). pose proof (buffer_zero _ _ _ _ _ _ _ _ HBW ltac:(discriminate) HC) as K. rewrite own_app, own_by_mine in K. apply app_eq_nil in K. destruct K as [_ K]. destruct HU as (s0 & ev & -> & _). now destruct s0. }
  eapply (turn_comes 2 k b u mi mo _ _ Hk F1 F2 l w ocs i t s w' oc); try eassumption. destruct t as [|[|[|[|t]]]]; [contradiction| | | |lia]; destruct Hi as [->|[->| ->]]; cbn; auto.
Qed.

(** In a willing world, polled in turn, it goes on until all have succeeded. *)
Lemma ended_or_going ocs : (forall k, k < length net -> ocs k = Going \/ exists n, ocs k = Ended (Ok n)) -> all_succeeded net ocs \/ exists k, k < length net /\ ocs k = Going.
Proof.
  intro H. unfold all_succeeded. induction (length net) as [|n IH]; [left; lia|]. destruct IH as [IH|(k & Hk & E)]; [intros k Hk; apply H; lia| |right; exists k; split; [lia|exact E]].
  destruct (H n ltac:(lia)) as [E|E]; [right; exists n; split; [lia|exact E]|left]. intros k Hk. destruct (Nat.eq_dec k n) as [->|Hne]; [exact E|apply IH; lia].
Qed.
Theorem turn_goes l w ocs : acyclic net -> polite net -> net_run net w0 l w ocs -> willing l -> in_turn net w0 l -> all_succeeded net ocs \/ turns_on l.
Proof.
  intros HA HP HX HW HT. destruct (ended_or_going ocs (in_turn_fine _ _ _ HP HX HW HT)) as [H|(k & Hk & HG)]; [now left|right].
  apply (turn_moves _ _ _ HX HT). apply (somebody_moves net w0 HN _ _ _ HA HX (willing_granted _ HW) (willing_sound _ _ _ _ _ HN HP HX HW (in_turn_sound _ _ _ HX HT)) k Hk HG).
Qed.
Lemma friendly_bytes s : forallb friendly s = true -> bytes_of s = 0.
Proof.
  induction s as [|[e a] s IH]; intro H; [reflexivity|]. cbn [forallb] in H. apply andb_prop in H. destruct H as [H1 H2]. change ((e, a) :: s) with ([(e, a)] ++ s). rewrite bytes_app, (IH H2), Nat.add_0_r.
  destruct e; try reflexivity. destruct a; try reflexivity. destruct d as [|y d]; [reflexivity|discriminate H1].
Qed.
Theorem turn_finishes l w ocs : acyclic net -> polite net -> net_run net w0 l w ocs -> willing l -> in_turn net w0 l ->
  exists l' w' ocs', net_run net w0 (l ++ l') w' ocs' /\ in_turn net w0 (l ++ l') /\ forallb friendly (all_of l') = true /\ all_succeeded net ocs'.
Proof.
  intros HA HP HX HW HT. destruct (net_bound _ HN HA (bytes_read l)) as (B & HB).
  assert (K : forall d l1 w1 ocs1, B - useful_count (l ++ l1) <= d -> net_run net w0 (l ++ l1) w1 ocs1 -> forallb friendly (all_of l1) = true -> in_turn net w0 (l ++ l1) ->
    exists l' w' ocs', net_run net w0 (l ++ l') w' ocs' /\ in_turn net w0 (l ++ l') /\ forallb friendly (all_of l') = true /\ all_succeeded net ocs').
  { induction d as [d IH] using lt_wf_ind. intros l1 w1 ocs1 Hd HX1 HF1 HT1.
    destruct (turn_goes _ _ _ HA HP HX1 (willing_friendly _ _ HW HF1) HT1) as [H|(l2 & w2 & ocs2 & HX2 & HT2 & HU2 & HF2)]; [eauto 10|]. rewrite <- app_assoc in HX2, HT2.
    assert (HF3 : forallb friendly (all_of (l1 ++ l2)) = true) by (now rewrite all_of_app, forallb_app, HF1, HF2).
    assert (Hb : useful_count (l ++ l1 ++ l2) <= B).
    { eapply HB; [exact HX2|]. change (bytes_of (all_of (l ++ l1 ++ l2)) <= bytes_of (all_of l)). rewrite all_of_app, bytes_app, (friendly_bytes _ HF3). lia. }
    assert (Hc : useful_count (l ++ l1) < useful_count (l ++ l1 ++ l2)).
    { change (uses (all_of (l ++ l1)) < uses (all_of (l ++ l1 ++ l2))). rewrite app_assoc, (all_of_app (l ++ l1)), uses_app. apply existsb_exists in HU2. destruct HU2 as (ev & Hin & Hu). apply in_split in Hin. destruct Hin as (a & b & ->).
      rewrite uses_app, uses_cons, Hu. lia. }
    apply (IH (B - useful_count (l ++ l1 ++ l2)) ltac:(lia) (l1 ++ l2) w2 ocs2 (le_n _) HX2 HF3 HT2). }
  apply (K _ [] w ocs (le_n _)); rewrite ?app_nil_r; auto.
Qed.
End Net.
