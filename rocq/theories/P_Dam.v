(** * P_Dam: a network with a buffer in every loop never locks up *)
From Coq Require Import Ascii String List Bool Arith Lia.
From Verif Require Import M_Prog P_Prog P_Exec M_Motion M_Regulator M_Faucet M_Drain M_Buffer M_Junction M_Launch M_Join S_Trace S_Lines S_Motion S_World S_Launch S_Regulator S_Drain S_Buffer S_Junction S_Network S_Net
  P_World P_Copy P_Buffer P_BufferRun P_Link P_Phase P_Network P_NetComp P_NetMoves P_NetEnd P_Net P_Calm P_Turn.
Import ListNotations.

(** ** A buffer takes what comes in, and passes on what it holds unless it waits for room *)
Section Buffer.
Variables (b : buffer) (u mi mo : nat) (L : list nevent) (w : world).
Let c := NBuffer b u mi mo.
Hypothesis HR : comp_ready c.
Hypothesis HX : comp_runs c L Going.
Hypothesis HO : world_ok c L w.

Lemma no_vacant t Y (p : prog Y) tr e : live c L t p tr (At e) -> t <> 3 -> ~ vacant w e.
Proof.
  intros HL Ht HV. pose proof (live_may _ _ _ _ _ _ HR HL) as HM. destruct e as [ch|ch|ch v|ch|ch|ch| | | | |ms| | | | | | |]; try contradiction HV; try (destruct ch; try contradiction HM; cbn in HM; tauto). now apply Ht.
Qed.
Lemma counter_goes_on sc m : live c L 3 (total_in_buffer None mi mo) (own 3 L) sc -> (forall x, sc <> Panicked x) -> (m = mi \/ m = mo) -> full (w (CMon m)) -> can_move c L w.
Proof.
  intros Lc Nc Hm Hf. assert (Hcap : cs_cap (w (CMon m)) = Some 8) by (apply (wo_counts _ _ _ HO); subst c; cbn; intuition).
  pose proof (full_some _ Hcap Hf) as Hq. destruct Lc as (Ht & Hp & Hc & HG). destruct sc as [e|r|x]; [|exfalso|destruct (Nc x eq_refl)].
  - apply (live_moves c L 3 (total_in_buffer None mi mo) (own 3 L) (At e) w); [exact (conj Ht (conj Hp (conj Hc HG)))|]. apply (counter_moves mi mo w (wo_fit _ _ _ HO)) with (e := e); [|exact Hc]. destruct Hm; subst m; auto.
  - destruct (counter_done _ _ _ _ Hc) as [H1 H2]. destruct Hf as [Hf _]. assert (HX' : cs_closed (w (CMon m)) = true) by (apply (wo_closed _ _ _ HO 3); [lia|]; destruct Hm; subst m; assumption). congruence.
Qed.
Lemma buffer_takes n : In n (comp_ins c) -> cs_closed (w (CData n)) = false -> cs_queue (w (CData n)) = [] \/ can_move c L w.
Proof.
  intros Hn Hopen. assert (HR' := HR). destruct HR' as (HC & pj & i & j & o & HW).
  destruct (buffer_tasks _ _ _ _ _ _ _ HW I HX) as (sa & sb & sc & La & _ & Lc & Na & _ & Nc & _). rewrite HC in Lc. fold c in La, Lc.
  assert (Ei : comp_ins c = [i]) by (subst c; cbn; now rewrite (proj1 HW)). rewrite Ei in Hn. destruct Hn as [<-|[]].
  destruct sa as [e|ra|x]; [| |destruct (Na x eq_refl)].
  - destruct (step_or_block _ _ _ _ (proj1 (proj2 La)) (proj1 (proj2 (proj2 La))) (wo_fit _ _ _ HO)) as [H|[(ch & -> & H)|[(ch & v & -> & H)|H]]].
    + right. now apply (live_moves _ _ _ _ _ _ _ La).
    + left. pose proof (at_motion _ _ _ _ _ (proj1 (proj2 (proj2 La)))) as [[K|[(q & d & [<-|[]] & K)|[(m & K & E)|[(m & K & E)|(s & v & K & _)]]]]|[K|[(q & [<-|[]] & K)|(m & K & E)]]]; try discriminate K; try discriminate E.
      injection K as <-. apply H.
    + pose proof (at_motion _ _ _ _ _ (proj1 (proj2 (proj2 La)))) as [[K|[(q & d & [<-|[]] & K)|[(m & K & E)|[(m & K & E)|(s & v' & K & _)]]]]|[K|[(q & [<-|[]] & K)|(m & K & E)]]]; try discriminate K; try discriminate E.
      * injection K as <- <-. exfalso. apply (proj2 H). unfold room. rewrite (wo_store _ _ _ HO u) by (subst c; now left). exact I.
      * injection K as <-. injection E as -> ->. right. exact (counter_goes_on sc mi Lc Nc (or_introl eq_refl) H).
    + exfalso. now apply (no_vacant _ _ _ _ _ La).
  - exfalso. destruct (copy_released (PlReceiver pj i) (MN None (Some mi)) None (PsSender (J 0 None 0 (push_brk (PsIoSender j o))) u) I ltac:(left; discriminate) _ _ (proj1 (proj2 (proj2 La)))) as (K & _).
    apply (wo_closed _ _ _ HO 1) in K; [|lia]. congruence.
Qed.
Lemma buffer_gives : cs_closed (w (CData u)) = false -> cs_queue (w (CData u)) = [] \/ can_move c L w \/ blocked_out c w.
Proof.
  intros Hopen. assert (HR' := HR). destruct HR' as (HC & pj & i & j & o & HW).
  destruct (buffer_tasks _ _ _ _ _ _ _ HW I HX) as (sa & sb & sc & _ & Lb & Lc & _ & Nb & Nc & _). rewrite HC in Lc. fold c in Lb, Lc.
  assert (Eo : comp_outs c = [o]) by (subst c; cbn; now rewrite (proj1 (proj2 HW))).
  destruct sb as [e|ra|x]; [| |destruct (Nb x eq_refl)].
  - destruct (step_or_block _ _ _ _ (proj1 (proj2 Lb)) (proj1 (proj2 (proj2 Lb))) (wo_fit _ _ _ HO)) as [H|[(ch & -> & H)|[(ch & v & -> & H)|H]]].
    + right; left. now apply (live_moves _ _ _ _ _ _ _ Lb).
    + left. pose proof (at_motion _ _ _ _ _ (proj1 (proj2 (proj2 Lb)))) as [[K|[(q & d & [<-|[]] & K)|[(m & K & E)|[(m & K & E)|(s & v & K & _)]]]]|[K|[(q & [<-|[]] & K)|(m & K & E)]]]; try discriminate K; try discriminate E.
      injection K as <-. apply H.
    + pose proof (at_motion _ _ _ _ _ (proj1 (proj2 (proj2 Lb)))) as [[K|[(q & d & [<-|[]] & K)|[(m & K & E)|[(m & K & E)|(s & v' & K & _)]]]]|[K|[(q & [<-|[]] & K)|(m & K & E)]]]; try discriminate K; try discriminate E.
      * injection K as <- <-. right; right. exists o. split; [rewrite Eo; now left|exact H].
      * injection K as <-. injection E as -> ->. right; left. exact (counter_goes_on sc mo Lc Nc (or_intror eq_refl) H).
    + exfalso. now apply (no_vacant _ _ _ _ _ Lb).
  - exfalso. destruct (copy_released (PlReceiver (PJ 0 0) u) (MN (Some mo) None) None (PsIoSender j o) I ltac:(left; discriminate) _ _ (proj1 (proj2 (proj2 Lb)))) as (K & _).
    apply (wo_closed _ _ _ HO 2) in K; [|lia]. congruence.
Qed.
End Buffer.

Lemma buffer_lets_go b u mi mo L w r : comp_ready (NBuffer b u mi mo) -> comp_runs (NBuffer b u mi mo) L (Ended r) -> world_ok (NBuffer b u mi mo) L w -> cs_closed (w (CData u)) = true.
Proof.
  intros (HC & pj & i & j & o & HR) (st & HX & HM & HG) HO. pose proof (buffer_parts _ _ _ _ _ _ _ _ _ HR HX) as (sa & sb & sc & Ha & Hb & Hc & HP).
  destruct st as [s|x y z|s]; [contradiction|cbn in HG; destruct (_ || _); discriminate HG|]. destruct HP as (ra & rb & rc & -> & -> & -> & _).
  destruct (copy_released (PlReceiver pj i) (MN None (Some mi)) None (PsSender (J 0 None 0 (push_brk (PsIoSender j o))) u) I ltac:(left; discriminate) _ _ Ha) as (_ & K & _).
  apply (wo_closed _ _ _ HO 1); [lia|exact K].
Qed.

(** ** The network *)
Lemma finite_or (P : nat -> Prop) (Q : Prop) n : (forall k, k < n -> Q \/ P k) -> Q \/ forall k, k < n -> P k.
Proof.
  induction n as [|n IH]; intro H; [right; lia|]. destruct IH as [K|K]; [intros; apply H; lia|now left|]. destruct (H n); [lia|now left|]. right. intros k Hk. destruct (Nat.eq_dec k n) as [->|]; [assumption|apply K; lia].
Qed.
Section Net.
Variables (net : list comp) (w0 : world).
Hypothesis HN : net_wired net.
Variables (l : list nevent) (w : world) (ocs : nat -> outcome).
Hypothesis HX : net_run net w0 l w ocs.
Hypothesis HG : granted l.
Hypothesis HS : sound_so_far net ocs.
Variable rank : nat -> nat.
Hypothesis HR : forall k c k' c' n, nth_error net k = Some c -> nth_error net k' = Some c' -> In n (comp_outs c) -> In n (comp_ins c') -> is_buffer c' \/ rank k < rank k'.

Lemma full_not_empty k c n : nth_error net k = Some c -> In n (comp_outs c) -> full (w (CData n)) -> cs_queue (w (CData n)) <> [].
Proof.
  intros Hk Hn Hf Hq. destruct (nr_room _ _ _ _ _ HX n) as (cap & E); [apply in_flat_map; exists c; split; [exact (nth_error_In _ _ Hk)|exact Hn]|].
  apply (proj2 Hf). unfold room. rewrite (cap_same _ _ _ _ (nr_world _ _ _ _ _ HX)), E, Hq. cbn. lia.
Qed.
Lemma dam_in : forall d k c, list_max (map rank (seq 0 (length net))) - rank k <= d -> nth_error net k = Some c -> ocs k = Going -> somebody net l w \/ (blocked_in c w /\ ~ blocked_out c w).
Proof.
  assert (HB : forall d k c n, nth_error net k = Some c -> In n (comp_outs c) -> full (w (CData n)) ->
    (forall k' c', rank k < rank k' -> list_max (map rank (seq 0 (length net))) - rank k' <= d -> nth_error net k' = Some c' -> ocs k' = Going -> somebody net l w \/ (blocked_in c' w /\ ~ blocked_out c' w)) ->
    list_max (map rank (seq 0 (length net))) - rank k <= S d -> somebody net l w).
  { intros d k c n Hk Hn Hf IH Hd. destruct (reader_of net HN _ _ _ Hk Hn) as (k' & c' & Hk' & Hn').
    destruct (not_broken net w0 HN l w ocs HX HG HS _ _ Hk') as [Ho'|(r & Ho')].
    - destruct (HR _ _ _ _ _ Hk Hk' Hn Hn') as [HB|Hrk].
      + destruct c' as [| |b u mi mo| | |]; try contradiction HB. pose proof (nr_comps _ _ _ _ _ HX _ _ Hk') as HC. rewrite Ho' in HC.
        destruct (buffer_takes b u mi mo _ w (nw_ready _ HN _ (nth_error_In _ _ Hk')) HC (net_ok net w0 HN _ _ _ HX _ _ Hk') n Hn' (proj1 Hf)) as [K|K].
        * exfalso. exact (full_not_empty _ _ _ Hk Hn Hf K).
        * exists k', (NBuffer b u mi mo). auto.
      + destruct (IH k' c' Hrk ltac:(lia) Hk' Ho') as [K|[[_ K] _]]; [exact K|]. exfalso. exact (full_not_empty _ _ _ Hk Hn Hf (K n Hn' (proj1 Hf))).
    - exfalso. assert (K : cs_closed (w (CData n)) = true) by (eapply (ended_closed net w0 HN); eauto; apply in_or_app; now left). destruct Hf. congruence. }
  induction d as [d IH] using lt_wf_ind. intros k c Hd Hk Ho. pose proof (nr_comps _ _ _ _ _ HX _ _ Hk) as HC. rewrite Ho in HC.
  assert (HO : blocked_out c w -> somebody net l w).
  { intros (n & Hn & Hf). apply (HB d k c n Hk Hn Hf); [|lia]. intros k' c' Hrk Hd' Hk' Ho'.
    assert (Hlt : k' < length net) by (apply nth_error_Some; congruence). pose proof (rank_le net rank _ Hlt).
    apply (IH (list_max (map rank (seq 0 (length net))) - rank k')) with (k := k'); auto; lia. }
  assert (HD : forall n, {full (w (CData n))} + {~ full (w (CData n))}).
  { intro n. unfold full, room. destruct (cs_closed _); [right; intros [E _]; discriminate E|]. destruct (cs_cap _) as [cap|]; [|right; intros [_ E]; now apply E].
    destruct (lt_dec (length (cs_queue (w (CData n)))) cap); [right; tauto|left; tauto]. }
  destruct (Exists_dec (fun n => full (w (CData n))) (comp_outs c) HD) as [E|E].
  - left. apply HO. apply Exists_exists in E. exact E.
  - assert (HNO : ~ blocked_out c w) by (intros (n & K1 & K2); apply E, Exists_exists; eauto).
    destruct (comp_moves c _ w (nw_ready _ HN _ (nth_error_In _ _ Hk)) HC (net_ok net w0 HN _ _ _ HX _ _ Hk)) as [H|[H|H]]; [left; exists k, c; auto|contradiction|right; auto].
Qed.
Lemma dam_rests : somebody net l w \/ (at_rest net w /\ all_listen net w ocs).
Proof.
  assert (H1 : somebody net l w \/ forall k, k < length net -> forall c, nth_error net k = Some c -> ocs k = Going -> (blocked_in c w /\ ~ blocked_out c w) /\ (forall u, In u (comp_stores c) -> cs_closed (w (CData u)) = false -> cs_queue (w (CData u)) = [])).
  { apply finite_or. intros k Hk. destruct (nth_error net k) as [c|] eqn:Ek; [|apply nth_error_None in Ek; lia].
    destruct (ocs k) as [|r|] eqn:Eo; [|right; discriminate|right; discriminate]. destruct (dam_in _ k c (le_n _) Ek Eo) as [H|[H1 H2]]; [now left|].
    pose proof (nr_comps _ _ _ _ _ HX _ _ Ek) as HC. rewrite Eo in HC.
    destruct c as [f nm|g|b u mi mo|j|cwd vars la|d nm]; try (right; intros c' E _; injection E as <-; split; [auto|intros v K; contradiction K]).
    destruct (cs_closed (w (CData u))) eqn:Eu.
    - right. intros c' E _. injection E as <-. split; [auto|]. intros v [<-|[]]. congruence.
    - destruct (buffer_gives b u mi mo _ w (nw_ready _ HN _ (nth_error_In _ _ Ek)) HC (net_ok net w0 HN _ _ _ HX _ _ Ek) Eu) as [K|[K|K]].
      + right. intros c' E _. injection E as <-. split; [auto|]. intros v [<-|[]]. auto.
      + left. exists k, (NBuffer b u mi mo). auto.
      + contradiction. }
  destruct H1 as [H|H]; [now left|right]. split.
  - intros n Hn Hopen. apply in_app_or in Hn. rewrite !in_flat_map in Hn. destruct Hn as [(c & Hc & Hn)|(c & Hc & Hn)]; apply In_nth_error in Hc; destruct Hc as (k & Hk);
      assert (Hlt : k < length net) by (apply nth_error_Some; congruence); destruct (not_broken net w0 HN l w ocs HX HG HS _ _ Hk) as [Ho|(r & Ho)].
    + destruct (H k Hlt c Hk Ho) as (([_ K] & _) & _). auto.
    + assert (K : cs_closed (w (CData n)) = true) by (eapply (ended_closed net w0 HN); eauto; apply in_or_app; now left). congruence.
    + destruct (H k Hlt c Hk Ho) as (_ & K). auto.
    + destruct c as [| |b u mi mo| | |]; try contradiction Hn. destruct Hn as [<-|[]]. pose proof (nr_comps _ _ _ _ _ HX _ _ Hk) as HC. rewrite Ho in HC.
      rewrite (buffer_lets_go _ _ _ _ _ w _ (nw_ready _ HN _ (nth_error_In _ _ Hk)) HC (net_ok net w0 HN _ _ _ HX _ _ Hk)) in Hopen. discriminate Hopen.
  - intros k c Hk Ho. assert (Hlt : k < length net) by (apply nth_error_Some; congruence). destruct (H k Hlt c Hk Ho) as (([(n & K1 & K2 & _) K] & _) & _). split; [eauto|exact K].
Qed.
End Net.

Theorem dam_moves net w0 l w ocs : net_wired net -> dammed net -> net_run net w0 l w ocs -> granted l -> sound_so_far net ocs ->
  (exists l' w' ocs', net_run net w0 (l ++ l') w' ocs' /\ existsb useful (all_of l') = true /\ forallb friendly (all_of l') = true) \/
  (at_rest net w /\ all_listen net w ocs).
Proof.
  intros HN (rank & HR) HX HG HS. destruct (dam_rests net w0 HN l w ocs HX HG HS rank HR) as [(k & c & H1 & H2)|H]; [left|now right]. exact (net_move _ _ _ _ _ HX _ _ H1 H2).
Qed.
Theorem dam_turns net w0 l w ocs : net_wired net -> dammed net -> polite net -> net_run net w0 l w ocs -> willing l -> in_turn net w0 l ->
  (exists l' w' ocs', net_run net w0 (l ++ l') w' ocs' /\ in_turn net w0 (l ++ l') /\ existsb useful (all_of l') = true /\ forallb friendly (all_of l') = true) \/
  (at_rest net w /\ all_listen net w ocs).
Proof.
  intros HN (rank & HR) HP HX HW HT.
  destruct (dam_rests net w0 HN l w ocs HX (willing_granted _ HW) (willing_sound _ _ _ _ _ HN HP HX HW (in_turn_sound _ _ HN _ _ _ HX HT)) rank HR) as [H|H]; [left|now right].
  exact (turn_moves net w0 HN l w ocs HX HT H).
Qed.
(** Whoever brings something in has ended by then. *)
Lemma listen_ins net w ocs k c : all_listen net w ocs -> nth_error net k = Some c -> comp_ins c = [] -> ocs k <> Going.
Proof. intros H Hk E Ho. destruct (H k c Hk Ho) as [(n & Hn & _) _]. rewrite E in Hn. destruct Hn. Qed.
Lemma acyclic_dammed net : acyclic net -> dammed net.
Proof. intros (rank & H). exists rank. intros. right. eauto. Qed.
Theorem dam_locked net w0 l w ocs : net_wired net -> dammed net -> polite net -> net_run net w0 l w ocs -> willing l -> in_turn net w0 l -> locked net w0 l ->
  at_rest net w /\ forall k c, nth_error net k = Some c -> comp_ins c = [] -> ocs k <> Going.
Proof.
  intros HN HD HP HX HW HT HL. destruct (dam_turns _ _ _ _ _ HN HD HP HX HW HT) as [(l' & w' & ocs' & H & _ & HU & _)|[H1 H2]].
  - rewrite (HL _ _ _ H) in HU. discriminate HU.
  - split; [exact H1|]. intros k c. exact (listen_ins net w ocs k c H2).
Qed.
