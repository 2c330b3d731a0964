(** * P_JStart: a junction from its start; the claims *)
From Coq Require Import Ascii String List Bool Arith Lia ZArith Permutation Sorting.Sorted.
From Verif Require Import M_Prog P_Prog P_Exec M_Motion M_BackOff M_Utils M_Junction S_Trace S_Lines S_Motion S_Junction
  P_Split P_Read P_Motion P_Worker P_Flow P_Loop P_Copy P_Fan P_Utils P_Ask P_Pass P_JInit P_Junction.
Import ListNotations.

Lemma exec_wt {A} (p : prog A) tr st : exec p tr st -> Forall (fun ev => wt (fst ev) (snd ev) = true) tr.
Proof. induction 1; auto. Qed.

Lemma closes_closed n tr : Forall (fun ev => wt (fst ev) (snd ev) = true) tr -> In n (closes tr) -> closed_by (CData n) tr.
Proof.
  intros HW HIn. unfold closes in HIn. apply in_flat_map in HIn. destruct HIn as ([e a] & H1 & H2).
  destruct e as [ | | |[]| | | | | | | | | | | | | | ]; cbn in H2; try contradiction. destruct H2 as [<-|[]].
  rewrite Forall_forall in HW. specialize (HW _ H1). destruct a; cbn in HW; try discriminate. exact H1.
Qed.
Lemma ends_saw n tr : In n (ends tr) <-> In (ETryRecv (CData n), AClosed) tr.
Proof.
  unfold ends. rewrite in_flat_map. split.
  - intros ([e a] & H1 & H2). destruct e as [ |[]| | | | | | | | | | | | | | | | ]; cbn in H2; try contradiction. destruct a; cbn in H2; try contradiction.
    destruct H2 as [<-|[]]. exact H1.
  - intro H. eexists. split; [exact H|]. now left.
Qed.

Definition prio_of (inputs : list (pull * Z)) (n : nat) : Z :=
  match find (fun x => pl_chan (fst x) =? n) inputs with Some (_, z) => z | None => 0%Z end.

Lemma prio_of_in inputs p z : NoDup (map (fun x => pl_chan (fst x)) inputs) -> In (p, z) inputs -> prio_of inputs (pl_chan p) = z.
Proof.
  unfold prio_of. induction inputs as [|[q y] l IH]; cbn; [tauto|]. intros HN HIn. inversion HN as [|? ? H1 H2]; subst.
  destruct HIn as [E|HIn].
  - inversion E; subst. now rewrite Nat.eqb_refl.
  - destruct (Nat.eqb_spec (pl_chan q) (pl_chan p)) as [E|_]; [|auto]. exfalso. apply H1. rewrite E. now apply in_map with (f := fun x => pl_chan (fst x)) in HIn.
Qed.

Lemma mem_in n l : mem n l = true <-> In n l.
Proof. unfold mem. rewrite existsb_exists. split; [intros (x & H & E); apply Nat.eqb_eq in E; now subst|intro H; exists n; split; [exact H|apply Nat.eqb_refl]]. Qed.

Lemma nodup_app_l {A} (a b : list A) : NoDup (a ++ b) -> NoDup a.
Proof. induction a; cbn; [constructor|]. intro H. inversion H; subst. constructor; [|auto]. intro K. apply H2, in_or_app. now left. Qed.
Lemma nodup_app_r {A} (a b : list A) : NoDup (a ++ b) -> NoDup b.
Proof. induction a; cbn; [auto|]. intro H. inversion H; subst. auto. Qed.
Lemma nodup_app_disj {A} (a b : list A) x : NoDup (a ++ b) -> In x a -> In x b -> False.
Proof. induction a; cbn; [tauto|]. intros H [->|Ha] Hb; inversion H; subst; [apply H2, in_or_app; now right|auto]. Qed.

Lemma concat_single (l : list (pull * Z)) : concat (map single l) = map fst l.
Proof. induction l as [|x l IH]; cbn; [reflexivity|]. now rewrite IH. Qed.

Section Start.
Variables (j : junction) (spy : option nat).
Hypothesis Hready : junction_ready j.

Let outs := jn_stdout j.
Let ins := in_chans j.
Let prio := prio_of (jn_inputs j).
Let min0 := first_inputs j.

Lemma Houts : Forall io_sender outs.
Proof. apply Hready. Qed.
Lemma Hins : NoDup ins.
Proof. destruct Hready as (_ & _ & _ & _ & H). exact (nodup_app_l _ _ H). Qed.
Lemma Houtc : NoDup (out_chans j).
Proof. destruct Hready as (_ & _ & _ & _ & H). exact (nodup_app_r _ _ H). Qed.

Definition groups0 : list (list pull) := jn_stdin (initialize_stdin j).

Lemma groups0_eq : groups0 = fst (fold_left init_step (sort_inputs (jn_inputs j)) ([], 0%Z)).
Proof.
  unfold groups0, initialize_stdin. destruct Hready as (_ & -> & _).
  destruct (fold_left init_step (sort_inputs (jn_inputs j)) ([], 0%Z)). reflexivity.
Qed.

Lemma filter_split {A} (f g : A -> bool) l : (forall x, In x l -> f x = negb (g x)) -> Permutation l (filter f l ++ filter g l).
Proof.
  induction l as [|x l IH]; intro H; [constructor|]. cbn. rewrite (H x (or_introl eq_refl)).
  specialize (IH (fun y Hy => H y (or_intror Hy))). destruct (g x); cbn.
  - apply Permutation_cons_app. exact IH.
  - constructor. exact IH.
Qed.

(** What [initialize_stdin] makes of the inputs. *)
Lemma groups0_spec : (jn_inputs j = [] /\ groups0 = []) \/
  exists z0 p0, In (p0, z0) (jn_inputs j) /\ (forall x, In x (jn_inputs j) -> (z0 <= snd x)%Z) /\
    min0 = chans (map fst (filter (fun y => (snd y =? z0)%Z) (jn_inputs j))) /\
    groups0 = map fst (filter (fun y => (snd y =? z0)%Z) (jn_inputs j)) :: map single (filter (fun y => (z0 <? snd y)%Z) (sort_inputs (jn_inputs j))).
Proof.
  rewrite groups0_eq. destruct (sort_inputs (jn_inputs j)) as [|[p0 z0] rest] eqn:E.
  - left. split; [|reflexivity]. pose proof (sort_perm (jn_inputs j)) as HP. rewrite E in HP. now apply Permutation_nil in HP.
  - right. exists z0, p0. destruct (sort_min _ _ _ _ E) as (H1 & H2). split; [exact H2|]. split; [exact H1|]. split.
    + unfold min0, first_inputs. rewrite (first_filter _ _ _ _ E). unfold chans. now rewrite map_map.
    + rewrite <- E. apply (init_groups _ _ _ _ E).
Qed.

Lemma groups0_perm : Permutation (concat groups0) (map fst (jn_inputs j)).
Proof.
  destruct groups0_spec as [(E & ->)|(z0 & p0 & _ & HM & _ & ->)]; [rewrite E; constructor|].
  cbn [concat]. rewrite concat_single, <- map_app. apply Permutation_map.
  rewrite <- (sort_stable (jn_inputs j) z0).
  etransitivity; [symmetry; apply filter_split|apply sort_perm].
  intros x Hx. apply (Permutation_in _ (sort_perm _)) in Hx. specialize (HM _ Hx).
  destruct (Z.eqb_spec (snd x) z0), (Z.ltb_spec z0 (snd x)); cbn; auto; lia.
Qed.

Lemma live0_perm : Permutation (live groups0) ins.
Proof. unfold live, chans, ins, in_chans. rewrite groups0_perm, map_map. reflexivity. Qed.

Lemma prio_eq p z : In (p, z) (jn_inputs j) -> prio (pl_chan p) = z.
Proof. apply prio_of_in. exact Hins. Qed.

Lemma tails_sorted (l : list (pull * Z)) : StronglySorted le_pr l -> incl l (jn_inputs j) -> tails prio (map single l).
Proof.
  induction 1 as [|[p z] l HS IH HF]; intro HI; [exact I|]. cbn [map tails]. split; [now exists p|]. split.
  - rewrite concat_single. intros a b [<-|[]] Hb. apply in_map_iff in Hb. destruct Hb as ([q y] & <- & Hq). cbn [fst].
    rewrite Forall_forall in HF. specialize (HF _ Hq).
    rewrite (prio_eq p z), (prio_eq q y); [exact HF|apply HI; now right|apply HI; now left].
  - apply IH. intros x Hx. apply HI. now right.
Qed.

Lemma sorted_filter (f : pull * Z -> bool) l : StronglySorted le_pr l -> StronglySorted le_pr (filter f l).
Proof.
  induction 1 as [|x l HS IH HF]; cbn; [constructor|]. destruct (f x); [|exact IH]. constructor; [exact IH|].
  rewrite Forall_forall in *. intros y Hy. apply HF. now apply filter_In in Hy.
Qed.

Lemma filter_all {A} (f : A -> bool) l : (forall x, In x l -> f x = true) -> filter f l = l.
Proof. induction l as [|x l IH]; intro H; [reflexivity|]. cbn. rewrite (H x (or_introl eq_refl)). f_equal. apply IH. intros; apply H; now right. Qed.

Lemma mlist0 : mlist min0 [] = min0.
Proof. unfold mlist. apply filter_all. reflexivity. Qed.

Lemma start_JI : JI outs ins prio min0 [] groups0 0 0.
Proof.
  constructor.
  - exists []. repeat split; constructor.
  - assert (HR : Forall receiver (concat groups0)).
    { apply Forall_forall. intros p Hp. apply (Permutation_in _ groups0_perm) in Hp. apply in_map_iff in Hp. destruct Hp as (x & <- & Hx).
      destruct Hready as (_ & _ & _ & HR & _). rewrite Forall_forall in HR. now apply HR. }
    clear -HR. induction groups0 as [|g l IH]; constructor; cbn in HR; apply Forall_app in HR; [apply HR|apply IH, HR].
  - eapply Permutation_NoDup; [symmetry; apply live0_perm|apply Hins].
  - intros n Hn. eapply Permutation_in; [apply live0_perm|exact Hn].
  - destruct groups0_spec as [(_ & ->)|(z0 & p0 & H0 & HM & _ & HG)]; [exact I|].
    assert (HP : forall p, In p (concat groups0) -> (z0 <= prio (pl_chan p))%Z).
    { intros p Hp. apply (Permutation_in _ groups0_perm) in Hp. apply in_map_iff in Hp. destruct Hp as ([q y] & <- & Hx). cbn [fst].
      rewrite (prio_eq q y Hx). apply (HM _ Hx). }
    rewrite HG in HP |- *. split.
    + intros p q Hp Hq. specialize (HP q). cbn [concat] in HP. specialize (HP Hq). apply in_map_iff in Hp. destruct Hp as ([p' y] & <- & Hx).
      apply filter_In in Hx. destruct Hx as [Hx Ey]. apply Z.eqb_eq in Ey. cbn in Ey. subst y. cbn [fst]. now rewrite (prio_eq p' z0 Hx).
    + apply tails_sorted; [apply sorted_filter, sort_sorted|]. intros x Hx. apply filter_In in Hx. eapply Permutation_in; [apply sort_perm|apply Hx].
  - intros n Hn. left. eapply Permutation_in; [symmetry; apply live0_perm|exact Hn].
  - intros x [].
  - constructor.
  - intros n _. split; intros [].
  - reflexivity.
  - reflexivity.
  - exists 0. reflexivity.
  - rewrite mlist0. destruct groups0_spec as [(E & _)|(z0 & p0 & H0 & HM & EM & HG)].
    + left. unfold min0, first_inputs. now rewrite E.
    + right. rewrite HG. eexists _, _. split; [reflexivity|]. split; [now rewrite EM|].
      intros n Hn1 Hn2. pose proof (Permutation_NoDup (Permutation_sym live0_perm) Hins) as HN.
      rewrite HG in HN. unfold live in HN. cbn [concat] in HN. rewrite chans_app in HN. apply (nodup_app_disj _ _ n HN); [now rewrite <- EM|exact Hn1].
Qed.

Lemma start_sat : sat [] (junction_start j spy) (JN outs spy ins prio min0) (JQ outs spy ins).
Proof.
  unfold junction_start. destruct Hready as (E & _). rewrite E.
  assert (EO : jn_stdout (initialize_stdin j) = outs).
  { unfold initialize_stdin. now destruct (fold_left init_step (sort_inputs (jn_inputs j)) (jn_stdin j, 0%Z)). }
  rewrite EO. fold groups0. apply run_sat; [apply Houts|]. exact start_JI.
Qed.

Notation JN := (JN outs spy ins prio min0).
Notation JQ := (JQ outs spy ins).

Lemma start_at tr e : exec (junction_start j spy) tr (At e) -> JN tr e.
Proof. intro HX. exact (start_sat _ _ HX). Qed.
Lemma start_done tr r : exec (junction_start j spy) tr (Done r) -> JQ tr r.
Proof. intro HX. exact (start_sat _ _ HX). Qed.
Lemma start_no_panic tr s : ~ exec (junction_start j spy) tr (Panicked s).
Proof. intro HX. exact (start_sat _ _ HX). Qed.

(** ** What each output has been offered *)
Definition hit (p : push) (l : list (eff * bytes * ans)) : list bytes :=
  flat_map (fun x => if hits p (fst (fst x)) then [snd (fst x)] else []) l.
Lemma hit_app p a b : hit p (a ++ b) = hit p a ++ hit p b.
Proof. apply flat_map_app. Qed.

Lemma hit_round p d : forall ps os, Forall io_sender ps -> NoDup (map ps_chan ps) -> length os = length ps -> io_sender p ->
  hit p (round ps d os) = if mem (ps_chan p) (map ps_chan ps) then [d] else [].
Proof.
  induction ps as [|q ps IH]; intros [|o os] HS HN HL Hp; try discriminate; [reflexivity|].
  inversion HS as [|? ? Hq HS']; subst. inversion HN as [|? ? H1 H2]; subst. cbn [round]. rewrite hit_app, IH; auto.
  destruct p as [ | | |jp np| ]; try contradiction. destruct q as [ | | |jq nq| ]; try contradiction. cbn in H1 |- *.
  destruct (Nat.eqb_spec np nq) as [->|Hne]; [|reflexivity]. cbn.
  destruct (mem nq (map ps_chan ps)) eqn:EM; [|reflexivity]. exfalso. apply H1. now apply (mem_in nq).
Qed.

Lemma io_in p : In p outs -> io_sender p.
Proof. pose proof Houts as H. rewrite Forall_forall in H. apply H. Qed.

Lemma hit_rounds p l : In p outs -> Forall (calm outs) l -> hit p (rounds outs l) = map fst l.
Proof.
  intros HIn. induction 1 as [|[d os] l H HF IH]; [reflexivity|].
  change (rounds outs ((d, os) :: l)) with (round outs d os ++ rounds outs l). rewrite hit_app, IH.
  rewrite hit_round; [|apply Houts|apply Houtc|apply (no_fail_len d _ _ H)|now apply io_in].
  replace (mem (ps_chan p) (map ps_chan outs)) with true; [reflexivity|]. symmetry. apply mem_in. now apply in_map.
Qed.

Lemma base_offered h l p : base outs h l -> In p outs -> offered_to p h = map snd (arrivals h).
Proof. intros (H1 & H2 & H3) HIn. rewrite offered_attempts, H1, H2. now apply hit_rounds. Qed.

Lemma prefix_one {A} (l : list A) d (c : bool) : prefix (l ++ if c then [d] else []) (l ++ [d]).
Proof. destruct c; [exists []; now rewrite app_nil_r|exists [d]; now rewrite app_nil_r]. Qed.

Definition near (p : push) (h : trace) : Prop :=
  prefix (offered_to p h) (map snd (arrivals h)) /\ length (arrivals h) <= S (length (offered_to p h)).

Lemma near_mid h l d ps os rest p :
  attempts h = rounds outs l ++ round ps d os -> map snd (arrivals h) = map fst l ++ [d] -> Forall (calm outs) l ->
  outs = ps ++ rest -> length os = length ps -> In p outs -> near p h.
Proof.
  intros H1 H2 H3 H4 H5 HIn. unfold near. rewrite offered_attempts, H1. fold (hit p (rounds outs l ++ round ps d os)).
  rewrite hit_app, hit_rounds by assumption.
  rewrite hit_round; [| | |exact H5|now apply io_in].
  - rewrite H2. split; [apply prefix_one|]. rewrite <- (map_length snd), H2, !app_length. cbn. lia.
  - pose proof Houts as HO. rewrite H4 in HO. apply Forall_app in HO. apply HO.
  - pose proof Houtc as HO. unfold out_chans in HO. fold outs in HO. rewrite H4, map_app in HO. exact (nodup_app_l _ _ HO).
Qed.

Lemma base_near h l p : base outs h l -> In p outs -> near p h.
Proof.
  intros HB HIn. unfold near. rewrite (base_offered _ _ _ HB HIn). split; [exists []; now rewrite app_nil_r|]. rewrite map_length. lia.
Qed.

Lemma stopped_near h e p : stopped outs spy h e -> In p outs -> near p h.
Proof.
  intros [(l & d & done & q & rest & os & jn & H1 & H2 & H3 & H4 & H5 & _)|(_ & [(l & HB)|(l & d & done & rest & os & H1 & H2 & H3 & H4 & H5)])] HIn.
  - assert (EL : length (os ++ [OClosed]) = length (done ++ [q])) by (rewrite !app_length; cbn; rewrite (no_fail_len _ _ _ H3); reflexivity).
    apply (near_mid h l d (done ++ [q]) (os ++ [OClosed]) rest p); auto.
    + rewrite H4. f_equal. apply no_fail_len in H3. clear -H3. revert os H3. induction done as [|x done IH]; intros [|o os] H; try discriminate; cbn; [now rewrite app_nil_r|].
      rewrite <- app_assoc. f_equal. apply IH. cbn in H. lia.
    + now rewrite <- app_assoc.
  - eapply base_near; eauto.
  - apply (near_mid h l d done os rest p); auto. now apply no_fail_len in H5.
Qed.

Lemma busy_near h e p : busy outs h e -> In p outs -> near p h.
Proof.
  intros [(l & HB & _)|(l & d & done & rest & os & (H1 & H2 & H3 & H4 & H5) & _)] HIn; [eapply base_near; eauto|].
  apply (near_mid h l d done os rest p); auto. now apply no_fail_len in H5.
Qed.

Lemma always_near tr st p : exec (junction_start j spy) tr st -> In p outs -> near p tr.
Proof.
  intros HX HIn. destruct st as [e|r|s].
  - pose proof (start_at _ _ HX) as H.
    destruct e; cbn in H; try (eapply busy_near; [apply H|exact HIn]).
    + destruct H as (n & _ & (l & HB) & _). eapply base_near; eauto.
    + destruct H as (n & _ & [(_ & _ & _ & [(_ & l & HB)|(err & HS)])|(done & q & rest & pre & _ & _ & -> & (l & HB) & _)]).
      * eapply base_near; eauto.
      * eapply stopped_near; eauto.
      * eapply base_near; [apply base_cl; exact HB|exact HIn].
    + destruct H as ((l & HB) & _). eapply base_near; eauto.
  - pose proof (start_done _ _ HX) as H. destruct r as [n|e]; cbn in H.
    + destruct H as (pre & l & -> & HB & _). eapply base_near; [apply base_cl; exact HB|exact HIn].
    + destruct H as (HS & _). eapply stopped_near; eauto.
  - destruct (start_no_panic _ _ HX).
Qed.

(** Whenever it asks or sleeps or has ended, every output has been offered everything. *)
Lemma asking_offered tr n p : exec (junction_start j spy) tr (At (ETryRecv (CData n))) -> In p outs ->
  offered_to p tr = map snd (arrivals tr).
Proof. intros HX HIn. destruct (start_at _ _ HX) as (m & _ & (l & HB) & _). eapply base_offered; eauto. Qed.
Lemma done_offered tr n p : exec (junction_start j spy) tr (Done (Ok n)) -> In p outs ->
  offered_to p tr = map snd (arrivals tr).
Proof. intros HX HIn. destruct (start_done _ _ HX) as (pre & l & -> & HB & _). eapply base_offered; [apply base_cl; exact HB|exact HIn]. Qed.

(** An output not found closed has accepted what it was offered. *)
Lemma open_accepted p tr : Forall (fun ev => wt (fst ev) (snd ev) = true) tr -> io_sender p ->
  (forall d, ~ found_closed p d tr) -> accepted_by p tr = offered_to p tr.
Proof.
  intros HW Hp HC. rewrite offered_attempts, accepted_attempts. destruct p as [ | | |jp n| ]; try contradiction.
  assert (HA : forall x, In x (attempts tr) -> hits (PsIoSender jp n) (fst (fst x)) = true -> is_ok (snd x) = true).
  { intros [[e d] a] Hx Hh. pose proof Hx as Hx2. apply P_Ask.in_attempts in Hx2. rewrite Forall_forall in HW. specialize (HW _ Hx2).
    cbn [fst snd] in *. unfold attempts in Hx. apply in_flat_map in Hx. destruct Hx as ([e' a'] & _ & Hx).
    destruct e' as [ | |[] []| | | | | | | | | | | | | | | ]; cbn in Hx; try contradiction; destruct Hx as [Hx|[]]; inversion Hx; subst; clear Hx.
    - cbn in Hh. apply Nat.eqb_eq in Hh. subst n0. destruct a; cbn in HW; try discriminate; [|reflexivity].
      exfalso. apply (HC d). eexists. split; [reflexivity|]. exact Hx2.
    - discriminate Hh. }
  induction (attempts tr) as [|x l IH]; [reflexivity|]. cbn [flat_map]. rewrite IH by (intros; apply HA; [now right|assumption]).
  specialize (HA x (or_introl eq_refl)). destruct (hits (PsIoSender jp n) (fst (fst x))); [|reflexivity]. rewrite (HA eq_refl). reflexivity.
Qed.

(** ** The order of the messages *)
Lemma every_ask tr st n x : exec (junction_start j spy) tr st -> In (ETryRecv (CData n), x) tr -> In n ins.
Proof.
  intros HX HIn. apply in_split in HIn. destruct HIn as (a & b & ->).
  destruct (start_at _ _ (exec_prefix _ _ _ HX _ _ _ _ eq_refl)) as (m & E & _ & Hm & _). inversion E; subst. exact Hm.
Qed.
Lemma never_recv tr st c x : exec (junction_start j spy) tr st -> ~ In (ERecv c, x) tr.
Proof.
  intros HX HIn. apply in_split in HIn. destruct HIn as (a & b & ->).
  pose proof (start_at _ _ (exec_prefix _ _ _ HX _ _ _ _ eq_refl)) as H. cbn in H. destruct H as (H & _).
  destruct H as [(l & _ & H)|(l & d & done & rest & os & _ & [H|(p & rest' & _ & H)])]; [exact H|exact H|]. now destruct p; inversion H.
Qed.

Lemma taken_arrivals n tr : (forall c x, ~ In (ERecv c, x) tr) ->
  datas (taken (CData n) tr) = map snd (filter (fun x => fst x =? n) (arrivals tr)).
Proof.
  induction tr as [|[e a] tr IH]; intro H; [reflexivity|].
  change ((e, a) :: tr) with ([(e, a)] ++ tr). rewrite arrivals_app, filter_app, map_app, <- IH by (intros c x K; apply (H c x); now right).
  unfold taken. rewrite flat_map_app, datas_app. f_equal.
  destruct e as [c|[]| | | | | | | | | | | | | | | | ]; try reflexivity.
  - exfalso. apply (H c a). now left.
  - destruct a as [[]| | | | | | | | | | ]; cbn; try reflexivity; rewrite Nat.eqb_sym; destruct (n0 =? n); reflexivity.
  - destruct a; reflexivity.
  - destruct a; reflexivity.
  - destruct a; reflexivity.
  - destruct a; reflexivity.
Qed.

Lemma interleave_streams (ns : list nat) : NoDup ns -> forall l : list (nat * bytes), (forall x, In x l -> In (fst x) ns) ->
  interleave (map (fun n => map snd (filter (fun x => fst x =? n) l)) ns) (map snd l).
Proof.
  intro HN. induction l as [|[n d] l IH]; intro HI.
  - constructor. apply Forall_forall. intros x Hx. apply in_map_iff in Hx. now destruct Hx as (n & <- & _).
  - specialize (IH (fun x Hx => HI x (or_intror Hx))).
    assert (Hn : In n ns) by (apply (HI (n, d)); now left). apply in_split in Hn. destruct Hn as (a & b & ->).
    assert (Ha : ~ In n a /\ ~ In n b). { apply NoDup_remove_2 in HN. split; intro K; apply HN, in_or_app; auto. }
    assert (EQ : forall c, ~ In n c -> map (fun m => map snd (filter (fun x => fst x =? m) ((n, d) :: l))) c = map (fun m => map snd (filter (fun x => fst x =? m) l)) c).
    { intros c Hc. apply map_ext_in. intros m Hm. cbn [filter fst]. destruct (Nat.eqb_spec n m) as [->|]; [contradiction|reflexivity]. }
    rewrite map_app in *. cbn [map] in *. destruct Ha as (Ha & Hb). rewrite (EQ a Ha), (EQ b Hb). cbn [filter fst]. rewrite Nat.eqb_refl. cbn [map snd].
    now constructor.
Qed.

Lemma arrivals_interleave tr st : exec (junction_start j spy) tr st ->
  interleave (map (fun n => datas (taken (CData n) tr)) (in_chans j)) (map snd (arrivals tr)).
Proof.
  intro HX. rewrite (map_ext _ _ (fun n => taken_arrivals n tr (fun c x => never_recv tr st c x HX))).
  apply interleave_streams; [apply Hins|]. intros [n d] Hx. unfold arrivals in Hx. apply in_flat_map in Hx. destruct Hx as ([e a] & H1 & H2).
  destruct e as [ |[]| | | | | | | | | | | | | | | | ]; cbn in H2; try contradiction. destruct a as [[]| | | | | | | | | | ]; cbn in H2; try contradiction.
  destruct H2 as [H2|[]]. inversion H2; subst. exact (every_ask _ _ _ _ HX H1).
Qed.

(** The messages an output has been offered: one and the same interleaving for all outputs. *)
Lemma outputs_same tr st : exec (junction_start j spy) tr st ->
  exists s, interleave (map (fun n => datas (taken (CData n) tr)) (in_chans j)) s /\
    (forall p, In p (jn_stdout j) -> prefix (offered_to p tr) s /\ length s <= S (length (offered_to p tr))) /\
    (forall p, In p (jn_stdout j) -> (exists n, st = Done (Ok n) \/ st = At (ETryRecv (CData n))) -> offered_to p tr = s) /\
    (forall p, In p (jn_stdout j) -> (forall d, ~ found_closed p d tr) -> accepted_by p tr = offered_to p tr).
Proof.
  intro HX. exists (map snd (arrivals tr)). split; [exact (arrivals_interleave _ _ HX)|]. split; [|split].
  - intros p HIn. destruct (always_near _ _ _ HX HIn) as (H1 & H2). rewrite map_length. auto.
  - intros p HIn (n & [->| ->]); [eapply done_offered|eapply asking_offered]; eauto.
  - intros p HIn HC. apply open_accepted; [exact (exec_wt _ _ _ HX)|now apply io_in|exact HC].
Qed.

(** ** The end *)
Lemma gone_or_end m tr : over outs m tr ->
  saw_end (CData m) tr \/ (forall p, In p (jn_stdout j) -> push_brk p = Finish /\ exists d, found_closed p d tr).
Proof.
  intros [H|[H|H]].
  - left. right. now apply ends_saw.
  - right. unfold outs in H. rewrite H. intros p [].
  - right. exact H.
Qed.

Lemma over_more m h w : over outs m h -> over outs m (h ++ w).
Proof. apply over_app. Qed.

Lemma out_not_in n : In n (out_chans j) -> ~ In n ins.
Proof. intros H1 H2. destruct Hready as (_ & _ & _ & _ & H). exact (nodup_app_disj _ _ n H H2 H1). Qed.

Lemma ends_properly tr n : exec (junction_start j spy) tr (Done (Ok n)) ->
  ((forall m, In m (in_chans j) -> saw_end (CData m) tr) \/
   (forall p, In p (jn_stdout j) -> push_brk p = Finish /\ exists d, found_closed p d tr)) /\
  exists pre, tr = pre ++ map (fun m => (EClose (CData m), AOk)) (out_chans j) /\
    (forall m, In m (out_chans j) -> ~ closed_by (CData m) pre) /\ (forall m, In m (in_chans j) -> closed_by (CData m) pre).
Proof.
  intro HX. pose proof (exec_wt _ _ _ HX) as HW. destruct (start_done _ _ HX) as (pre & l & -> & HB & HC & _ & HO & _).
  assert (HW' : Forall (fun ev => wt (fst ev) (snd ev) = true) pre) by (apply Forall_app in HW; apply HW). split.
  - assert (G : forall ms, incl ms ins -> (forall m, In m ms -> saw_end (CData m) (pre ++ map cl (map ps_chan outs))) \/
        (forall p, In p (jn_stdout j) -> push_brk p = Finish /\ exists d, found_closed p d (pre ++ map cl (map ps_chan outs)))).
    { induction ms as [|m ms IH]; intro HI; [left; intros ? []|].
      destruct (IH (fun x Hx => HI x (or_intror Hx))) as [IH'|IH']; [|now right].
      destruct (gone_or_end m _ (over_more _ _ (map cl (map ps_chan outs)) (proj2 (HO m (HI m (or_introl eq_refl)))))) as [H|H]; [|now right].
      left. intros x [<-|Hx]; [exact H|now apply IH']. }
    apply (G ins). apply incl_refl.
  - exists pre. split; [reflexivity|]. split.
    + intros m Hm HCb. apply closed_by_closes in HCb. apply (out_not_in m Hm). now apply HC.
    + intros m Hm. apply closes_closed; [exact HW'|]. apply HO. exact Hm.
Qed.

(** At no moment is an output closed before every input is done. *)
Lemma closes_outputs_last tr n : exec (junction_start j spy) tr (At (EClose (CData n))) -> In n (out_chans j) ->
  ~ closed_by (CData n) tr /\ forall m, In m (in_chans j) -> closed_by (CData m) tr /\
    (saw_end (CData m) tr \/ (forall p, In p (jn_stdout j) -> push_brk p = Finish /\ exists d, found_closed p d tr)).
Proof.
  intros HX Hn. pose proof (exec_wt _ _ _ HX) as HW. destruct (start_at _ _ HX) as (n' & E & [(H & _)|(done & q & rest & pre & HE & En & -> & HB & HC & HM)]); inversion E; subst n'.
  - destruct (out_not_in n Hn H).
  - split.
    + intro K. apply closed_by_closes in K. rewrite closes_app in K. destruct (closings_quiet (map ps_chan done)) as (_ & _ & _ & QC & _). rewrite QC in K.
      apply in_app_or in K. rewrite <- H0 in K. destruct K as [K|K]; [apply (out_not_in n Hn); now apply HC|].
      pose proof Houtc as HD. unfold out_chans in HD. fold outs in HD. rewrite HE, map_app in HD. cbn in HD. apply NoDup_remove_2 in HD. apply HD.
      apply in_or_app. left. now rewrite <- H0.
    + intros m Hm. destruct (HM m Hm) as (K1 & K2). split.
      * apply closes_closed; [exact HW|]. rewrite closes_app. apply in_or_app. now left.
      * apply gone_or_end. now apply over_more.
Qed.

(** ** Priorities *)
Lemma priority_prio n z : priority j n z -> prio n = z /\ In n ins.
Proof. intros (p & H & <-). split; [now apply prio_eq|]. unfold ins, in_chans. now apply in_map with (f := fun x => pl_chan (fst x)) in H. Qed.

Lemma better_first tr n z m y : exec (junction_start j spy) tr (At (ETryRecv (CData n))) ->
  priority j n z -> priority j m y -> (y < z)%Z -> ~ closed_by (CData m) tr ->
  exists a b, tr = a ++ map vain b /\ In m b.
Proof.
  intros HX Hn Hm Hlt HC. pose proof (exec_wt _ _ _ HX) as HW. destruct (start_at _ _ HX) as (n' & E & _ & _ & _ & _ & HB & _). inversion E; subst n'.
  apply priority_prio in Hn. apply priority_prio in Hm. destruct Hn as (E1 & _), Hm as (E2 & Hm).
  apply HB; [exact Hm|rewrite E1, E2; exact Hlt|]. intro K. apply HC. now apply closes_closed.
Qed.

Lemma asks_live tr n : exec (junction_start j spy) tr (At (ETryRecv (CData n))) ->
  In n (in_chans j) /\ ~ closed_by (CData n) tr /\ ~ saw_end (CData n) tr /\ forall p, In p (out_chans j) -> ~ closed_by (CData p) tr.
Proof.
  intro HX. destruct (start_at _ _ HX) as (n' & E & _ & H1 & H2 & H3 & _ & HI & _). inversion E; subst n'. split; [exact H1|]. split; [|split].
  - intro K. now apply closed_by_closes in K.
  - intros [K|K]; [exact (never_recv _ _ _ _ HX K)|]. now apply ends_saw in K.
  - intros p Hp K. apply closed_by_closes in K. apply (out_not_in p Hp). now apply HI.
Qed.

Lemma first_round_robin tr n : exec (junction_start j spy) tr (At (ETryRecv (CData n))) ->
  robin (asked tr ++ [n]) (still_open (first_inputs j) tr).
Proof. intro HX. destruct (start_at _ _ HX) as (n' & E & _ & _ & _ & _ & _ & _ & H). inversion E; subst n'. exact H. Qed.

(** ** Sleeping *)
Lemma sleeps_idle tr ms : exec (junction_start j spy) tr (At (ESleep ms)) ->
  ms = naps tr * naps tr /\ exists a b, tr = a ++ map vain b /\ forall n, In n (in_chans j) -> ~ closed_by (CData n) tr -> In n b.
Proof.
  intro HX. pose proof (exec_wt _ _ _ HX) as HW. destruct (start_at _ _ HX) as (_ & (a & b & E & H) & -> & _). split; [reflexivity|]. exists a, b. split; [exact E|].
  intros n Hn HC. apply H; [exact Hn|]. intro K. apply HC. now apply closes_closed.
Qed.

(** ** Errors *)
Lemma fails_how tr e : exec (junction_start j spy) tr (Done (Err e)) ->
  ((exists p jp d, In p (jn_stdout j) /\ push_journey p = Some jp /\ j_brk jp = Terminate /\ found_closed p d tr /\ e = OutputClosed jp ChannelClosed d) \/
   (spy <> None /\ exists s dd p m, e = SpyWriteError s dd p m)) /\
  (forall m, In m (in_chans j) -> closed_by (CData m) tr) /\ (forall m, In m (out_chans j) -> ~ closed_by (CData m) tr).
Proof.
  intro HX. pose proof (exec_wt _ _ _ HX) as HW. destruct (start_done _ _ HX) as (HS & HC & _ & HM). split; [|split].
  - destruct HS as [(l & d & done & q & rest & os & jn & H1 & H2 & H3 & H4 & H5 & H6 & H7 & H8)|(H & _)]; [|now right].
    left. exists q, jn, d. assert (HIn : In q outs) by (rewrite H2; apply in_or_app; right; now left).
    split; [exact HIn|]. split; [exact H6|]. split; [exact H7|]. split; [|exact H8].
    pose proof (io_in q HIn) as Hio. destruct q as [ | | |jq nq| ]; try contradiction. eexists. split; [reflexivity|].
    apply P_Ask.in_attempts with (d := d). rewrite H4. apply in_or_app. right. apply in_or_app. right. now left.
  - intros m Hm. apply closes_closed; [exact HW|]. now apply HM.
  - intros m Hm K. apply closed_by_closes in K. apply (out_not_in m Hm). now apply HC.
Qed.

Lemma counts tr n : exec (junction_start j spy) tr (Done (Ok n)) ->
  n = length (arrivals tr) + length (ends tr).
Proof.
  intro HX. destruct (start_done _ _ HX) as (pre & l & -> & _ & _ & _ & _ & ->). destruct (closings_quiet (map ps_chan outs)) as (Q1 & Q2 & _).
  rewrite arrivals_app, ends_app, Q1, Q2, !app_nil_r. reflexivity.
Qed.
End Start.
