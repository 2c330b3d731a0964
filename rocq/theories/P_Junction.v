(** * P_Junction: whole runs of a junction *)
From Coq Require Import Ascii String List Bool Arith Lia ZArith.
From Verif Require Import M_Prog P_Prog P_Exec M_Motion M_BackOff M_Utils M_Junction S_Trace S_Lines S_Motion S_Junction
  P_Split P_Read P_Motion P_Worker P_Flow P_Utils P_Ask P_Pass.
Import ListNotations.

Lemma closings_quiet ns : arrivals (map cl ns) = [] /\ ends (map cl ns) = [] /\ asked (map cl ns) = [] /\ closes (map cl ns) = ns /\ attempts (map cl ns) = [].
Proof. induction ns as [|n ns (I1 & I2 & I3 & I4 & I5)]; [repeat split|]. cbn in *. repeat split; auto. unfold closes in I4. now rewrite I4. Qed.

Definition nap_step (k : nat) (ev : event) : nat :=
  match ev with
  | (ESleep _, _) => Nat.min 51 (S k)
  | (ETryRecv _, AMsg _) | (ETryRecv _, AClosed) => 0
  | _ => k
  end.
Lemma naps_app a b : naps (a ++ b) = fold_left nap_step b (naps a).
Proof. unfold naps. apply fold_left_app. Qed.

Lemma naps_vain ns : forall k, fold_left nap_step (map vain ns) k = k.
Proof. induction ns; cbn; auto. Qed.
Lemma naps_cl ns : forall k, fold_left nap_step (map cl ns) k = k.
Proof. induction ns; cbn; auto. Qed.

Section Junction.
Variables (outs : list push) (spy : option nat) (ins : list nat) (prio : nat -> Z) (min0 : list nat).
Hypothesis Houts : Forall io_sender outs.

Notation base := (base outs).
Notation busy := (busy outs).
Notation over := (over outs).
Notation stopped := (stopped outs spy).

(** ** Order of the groups *)
Definition le_all (a b : list pull) : Prop := forall p q, In p a -> In q b -> (prio (pl_chan p) <= prio (pl_chan q))%Z.
Fixpoint tails (l : list (list pull)) : Prop :=
  match l with [] => True | g :: r => (exists p, g = [p]) /\ le_all g (concat r) /\ tails r end.
Definition shape (l : list (list pull)) : Prop :=
  match l with [] => True | g :: r => le_all g (g ++ concat r) /\ tails r end.

Lemma le_all_incl a b a' b' : le_all a b -> incl a' a -> incl b' b -> le_all a' b'.
Proof. intros H Ha Hb p q Hp Hq. apply H; auto. Qed.

Lemma tails_shape l : tails l -> shape l.
Proof.
  destruct l as [|g r]; cbn; [auto|]. intros ((p & ->) & H1 & H2). split; [|exact H2].
  intros x y [<-|[]] Hy. cbn in Hy. destruct Hy as [<-|Hy]; [lia|]. apply H1; [now left|exact Hy].
Qed.

Lemma tails_split pre g post : tails (pre ++ g :: post) -> (exists p, g = [p]) /\ le_all g (concat post) /\ tails (pre ++ post).
Proof.
  induction pre as [|x pre IH]; cbn; [tauto|]. intros (H1 & H2 & H3). destruct (IH H3) as (I1 & I2 & I3).
  split; [exact I1|]. split; [exact I2|]. split; [exact H1|]. split; [|exact I3].
  eapply le_all_incl; [exact H2|apply incl_refl|]. rewrite !concat_app. cbn. apply incl_app; [apply incl_appl, incl_refl|].
  apply incl_appr, incl_appr, incl_refl.
Qed.

Lemma shape_split pre g post : shape (pre ++ g :: post) -> (pre = [] \/ exists p, g = [p]) /\ le_all g (g ++ concat post).
Proof.
  destruct pre as [|x pre]; cbn; [tauto|]. intros (H1 & H2). destruct (tails_split _ _ _ H2) as ((p & ->) & H3 & _).
  split; [eauto|]. intros a b [<-|[]] Hb. destruct Hb as [<-|Hb]; [lia|]. apply H3; [now left|exact Hb].
Qed.

Lemma tails_nonempty l : tails l -> filter nonempty l = l.
Proof. induction l as [|g l IH]; cbn; [reflexivity|]. intros ((p & ->) & _ & H). cbn. now rewrite IH. Qed.

Lemma unmarked_incl {X} : forall bs (l : list X), incl (unmarked bs l) l.
Proof.
  induction bs as [|[] bs IH]; intros [|x l]; cbn; try apply incl_refl.
  - apply incl_tl, IH. - apply incl_cons; [now left|apply incl_tl, IH].
Qed.

Lemma shape_prune pre bs g post : length bs = length g -> shape (pre ++ g :: post) -> shape (filter nonempty (pre ++ unmarked bs g :: post)).
Proof.
  intros HL H. destruct pre as [|x pre].
  - cbn [app] in *. destruct H as (H1 & H2). cbn [filter]. rewrite (tails_nonempty _ H2).
    destruct (nonempty (unmarked bs g)) eqn:E; [|now apply tails_shape].
    split; [|exact H2]. eapply le_all_incl; [exact H1|apply unmarked_incl|].
    apply incl_app; [apply incl_appl, unmarked_incl|apply incl_appr, incl_refl].
  - destruct H as (H1 & H2). fold (pre ++ g :: post) in *. destruct (tails_split _ _ _ H2) as ((p & ->) & H3 & H4).
    destruct bs as [|b [|]]; try discriminate HL.
    assert (HT : tails (filter nonempty (pre ++ unmarked [b] [p] :: post)) /\ incl (concat (filter nonempty (pre ++ unmarked [b] [p] :: post))) (concat (pre ++ [p] :: post))).
    { destruct b; cbn [unmarked].
      - rewrite filter_app. cbn [filter nonempty]. rewrite <- filter_app, (tails_nonempty _ H4). split; [exact H4|].
        rewrite !concat_app. cbn. apply incl_app; [apply incl_appl, incl_refl|]. apply incl_appr, incl_tl, incl_refl.
      - rewrite (tails_nonempty _ H2). split; [exact H2|apply incl_refl]. }
    destruct HT as (HT & HI). cbn [app filter]. destruct (nonempty x) eqn:E.
    + split; [|exact HT]. eapply le_all_incl; [exact H1|apply incl_refl|].
      apply incl_app; [apply incl_appl, incl_refl|apply incl_appr, HI].
    + now apply tails_shape.
Qed.

(** ** Invariant *)
Definition live (groups : list (list pull)) : list nat := chans (concat groups).

(** Round robin over the first group. *)
Definition mlist (h : trace) : list nat := filter (fun n => negb (mem n (closes h))) min0.

Record JI (h : trace) (groups : list (list pull)) (bo : nat) (count : nat) : Prop := {
  ji_base : exists l, base h l;
  ji_recv : Forall (Forall receiver) groups;
  ji_nodup : NoDup (live groups);
  ji_ins : incl (live groups) ins;
  ji_shape : shape groups;
  ji_gone : forall n, In n ins -> In n (live groups) \/ (In n (closes h) /\ over n h);
  ji_closes : incl (closes h) ins;
  ji_once : NoDup (closes h);
  ji_live : forall n, In n (live groups) -> ~ In n (closes h) /\ ~ In n (ends h);
  ji_count : count = length (arrivals h) + length (ends h);
  ji_bo : bo = naps h;
  ji_rr : exists k, filter (fun n => mem n (mlist h)) (asked h) = concat (repeat (mlist h) k);
  ji_first : mlist h = [] \/ exists g0 rest, groups = g0 :: rest /\ chans g0 = mlist h /\ forall n, In n (live rest) -> ~ In n (mlist h)
}.

Definition better (n : nat) (h : trace) : Prop :=
  forall m, In m ins -> (prio m < prio n)%Z -> ~ In m (closes h) -> exists a b, h = a ++ map vain b /\ In m b.
Definition idle_now (h : trace) : Prop :=
  exists a b, h = a ++ map vain b /\ forall n, In n ins -> ~ In n (closes h) -> In n b.

Definition JN (h : trace) (e : eff) : Prop :=
  match e with
  | ETryRecv c => exists n, c = CData n /\ (exists l, base h l) /\ In n ins /\ ~ In n (closes h) /\ ~ In n (ends h) /\ better n h /\ incl (closes h) ins /\ robin (asked h ++ [n]) (mlist h)
  | ESleep ms => (exists l, base h l) /\ idle_now h /\ ms = naps h * naps h /\ incl (closes h) ins
  | EClose c => exists n, c = CData n /\
      ((In n ins /\ ~ In n (closes h) /\ incl (closes h) ins /\ ((over n h /\ exists l, base h l) \/ exists err, stopped h err)) \/
       (exists done p rest pre, outs = done ++ p :: rest /\ n = ps_chan p /\ h = pre ++ map cl (map ps_chan done) /\
          (exists l, base pre l) /\ incl (closes pre) ins /\ forall m, In m ins -> In m (closes pre) /\ over m pre))
  | _ => busy h e /\ incl (closes h) ins
  end.

Definition JQ (h : trace) (r : mres nat) : Prop :=
  match r with
  | Ok n => exists pre l, h = pre ++ map cl (map ps_chan outs) /\ base pre l /\ incl (closes pre) ins /\ NoDup (closes pre) /\
      (forall m, In m ins -> In m (closes pre) /\ over m pre) /\ n = length (arrivals pre) + length (ends pre)
  | Err e => stopped h e /\ incl (closes h) ins /\ NoDup (closes h) /\ forall m, In m ins -> In m (closes h)
  end.

Lemma base_cl h l ns : base h l -> base (h ++ map cl ns) l.
Proof.
  intros (H1 & H2 & H3). destruct (closings_quiet ns) as (Q1 & _ & _ & _ & Q5).
  split; [|split; [|exact H3]].
  - now rewrite attempts_app, Q5, app_nil_r.
  - now rewrite arrivals_app, Q1, app_nil_r.
Qed.

Lemma stopped_cl h e ns : stopped h e -> stopped (h ++ map cl ns) e.
Proof.
  destruct (closings_quiet ns) as (Q1 & _ & _ & _ & Q5).
  assert (EA : attempts (h ++ map cl ns) = attempts h) by (now rewrite attempts_app, Q5, app_nil_r).
  assert (ER : arrivals (h ++ map cl ns) = arrivals h) by (now rewrite arrivals_app, Q1, app_nil_r).
  intros [(l & d & done & p & rest & os & j & H)|(H & [(l & Hl)|(l & d & done & rest & os & Hl)])].
  - left. exists l, d, done, p, rest, os, j. now rewrite EA, ER.
  - right. split; [exact H|]. left. exists l. now apply base_cl.
  - right. split; [exact H|]. right. exists l, d, done, rest, os. unfold amid in *. now rewrite EA, ER.
Qed.

Lemma busy_JN h e : busy h e -> incl (closes h) ins -> JN h e.
Proof.
  intros H HI. assert (HE : match e with ESend _ _ | EWrite _ _ => True | _ => False end).
  { destruct H as [(l & _ & H)|(l & d & done & rest & os & _ & [H|(p & rest' & _ & H)])].
    - now destruct e. - now destruct e. - now destruct p; inversion H. }
  destruct e; try contradiction; split; assumption.
Qed.

Lemma unmarked_picked_split : forall bs (l : list pull), length bs = length l -> forall x, In x l -> In x (unmarked bs l) \/ In x (picked bs l).
Proof.
  induction bs as [|[] bs IH]; intros [|y l] H x HIn; try discriminate; try contradiction; cbn in *; destruct HIn as [<-|HIn]; auto;
    destruct (IH l ltac:(lia) x HIn); auto.
Qed.
Lemma picked_incl : forall bs (l : list pull), incl (picked bs l) l.
Proof. induction bs as [|[] bs IH]; intros [|x l]; cbn; try apply incl_nil_l; [apply incl_cons; [now left|]|]; apply incl_tl, IH. Qed.

Lemma nodup_chans_inj (l : list pull) x y : NoDup (chans l) -> In x l -> In y l -> pl_chan x = pl_chan y -> x = y.
Proof.
  induction l as [|z l IH]; cbn; [tauto|]. intro H. inversion H as [|? ? H1 H2]; subst.
  assert (G : forall w, In w l -> pl_chan z = pl_chan w -> False). { intros w Hw E. apply H1. rewrite E. apply in_map. exact Hw. }
  intros [<-|Hx] [<-|Hy] E; auto; [destruct (G _ Hy E)|destruct (G _ Hx (eq_sym E))].
Qed.

Lemma unmarked_picked_disj : forall bs (l : list pull), length bs = length l -> NoDup (chans l) ->
  forall n, In n (chans (unmarked bs l)) -> In n (chans (picked bs l)) -> False.
Proof.
  induction bs as [|[] bs IH]; intros [|y l] H HN n H1 H2; try discriminate; cbn in *; try contradiction;
    inversion HN as [|? ? HN1 HN2]; subst.
  - destruct H2 as [<-|H2]; [|eapply (IH l); eauto]. apply HN1. eapply incl_map; [apply unmarked_incl|exact H1].
  - destruct H1 as [<-|H1]; [|eapply (IH l); eauto]. apply HN1. eapply incl_map; [apply picked_incl|exact H2].
Qed.

Lemma picked_nodup : forall bs (l : list pull), NoDup (chans l) -> NoDup (chans (picked bs l)).
Proof.
  induction bs as [|[] bs IH]; intros [|y l] HN; cbn; try constructor; inversion HN as [|? ? HN1 HN2]; subst; auto.
  intro H. apply HN1. eapply incl_map; [apply picked_incl|exact H].
Qed.
Lemma unmarked_nodup : forall bs (l : list pull), NoDup (chans l) -> NoDup (chans (unmarked bs l)).
Proof.
  induction bs as [|[] bs IH]; intros [|y l] HN; cbn; auto; inversion HN as [|? ? HN1 HN2]; subst; auto; try constructor; auto.
  intro H. apply HN1. eapply incl_map; [apply unmarked_incl|exact H].
Qed.

Lemma live_mid pre g post : live (pre ++ g :: post) = live pre ++ chans g ++ live post.
Proof. unfold live. rewrite concat_app. cbn. now rewrite !chans_app. Qed.

Lemma concat_nonempty (l : list (list pull)) : concat (filter nonempty l) = concat l.
Proof. induction l as [|[|x g] l IH]; cbn; auto. now rewrite IH. Qed.

Lemma nodup_sub {A} (a b c b' : list A) : NoDup (a ++ b ++ c) -> NoDup b' -> incl b' b -> NoDup (a ++ b' ++ c).
Proof.
  intros H Hb Hi. induction a as [|x a IH]; cbn in *.
  - induction b' as [|y b' IH]; cbn; [|].
    + clear -H. induction b as [|z b IH]; [exact H|]. inversion H; subst. auto.
    + inversion Hb as [|? ? Hy Hb']; subst. constructor; [|apply IH; [assumption|intros z Hz; apply Hi; now right]].
      intro HIn. apply in_app_or in HIn. destruct HIn as [HIn|HIn]; [contradiction|].
      assert (Hyb : In y b) by (apply Hi; now left). clear -H Hyb HIn. induction b as [|z b IH]; [contradiction|].
      cbn in H. inversion H as [|? ? H1 H2]; subst. destruct Hyb as [<-|Hyb]; [apply H1, in_or_app; now right|auto].
  - inversion H as [|? ? H1 H2]; subst. constructor; [|auto]. intro HIn. apply H1.
    rewrite !in_app_iff in *. destruct HIn as [HIn|[HIn|HIn]]; auto.
Qed.

Lemma NoDup_app_intro {A} (a b : list A) : NoDup a -> NoDup b -> (forall x, In x a -> In x b -> False) -> NoDup (a ++ b).
Proof.
  intros Ha Hb H. induction Ha as [|x a Hx Ha IH]; cbn; [exact Hb|]. constructor.
  - intro HIn. apply in_app_or in HIn. destruct HIn as [HIn|HIn]; [contradiction|]. exact (H x (or_introl eq_refl) HIn).
  - apply IH. intros y Hy. apply H. now right.
Qed.

Lemma naps_acts w : acts w -> forall k, (length (arrivals w) + length (ends w) <> 0 -> fold_left nap_step w k = 0) /\
  (fold_left nap_step w k = k \/ fold_left nap_step w k = 0).
Proof.
  induction 1 as [|[e a] w He _ IH]; intro k; [split; [intro H; exfalso; apply H; reflexivity|now left]|].
  cbn [fold_left]. unfold act in He. cbn [fst] in He.
  assert (D : nap_step k (e, a) = 0 \/ (nap_step k (e, a) = k /\ arrivals ((e, a) :: w) = arrivals w /\ ends ((e, a) :: w) = ends w)).
  { destruct e as [c|c|c v|c|c|c|f|f d|f|f|ms|s|s| | | | | ]; cbn in He; try contradiction.
    - destruct a as [v| | | | | | | | | | ]; try (now left); right; (split; [reflexivity|]); split; destruct c; reflexivity.
    - right. split; [reflexivity|]. split; reflexivity.
    - right. split; [reflexivity|]. split; reflexivity. }
  destruct D as [D|(D & E1 & E2)].
  - rewrite D. destruct (IH 0) as (_ & [I|I]); rewrite I; auto.
  - rewrite D. unfold trace, event in *. rewrite E1, E2. apply IH.
Qed.

Lemma naps_zero h w : acts w -> length (arrivals w) + length (ends w) <> 0 -> naps (h ++ w) = 0.
Proof. intros Ha Hn. rewrite naps_app. now apply (naps_acts w Ha). Qed.

Lemma over_cl n h ns : over n h -> over n (h ++ map cl ns).
Proof. apply over_app. Qed.

Lemma closes_acts h w : acts w -> closes (h ++ w) = closes h.
Proof. intro H. now rewrite closes_app, (acts_closes _ H), app_nil_r. Qed.

Lemma mem_In n l : mem n l = true <-> In n l.
Proof.
  unfold mem. rewrite existsb_exists. split.
  - intros (x & Hx & E). apply Nat.eqb_eq in E. now subst.
  - intro H. exists n. split; [exact H|apply Nat.eqb_refl].
Qed.
Lemma filter_none m l : (forall n, In n l -> ~ In n m) -> filter (fun n => mem n m) l = [].
Proof.
  intro H. induction l as [|x l IH]; cbn; [reflexivity|]. destruct (mem x m) eqn:E.
  - apply mem_In in E. exfalso. apply (H x); [now left|exact E].
  - apply IH. intros n Hn. apply H. now right.
Qed.
Lemma filter_all m l : incl l m -> filter (fun n => mem n m) l = l.
Proof.
  intro H. induction l as [|x l IH]; cbn; [reflexivity|]. replace (mem x m) with true.
  - now rewrite IH; [|intros n Hn; apply H; now right].
  - symmetry. apply mem_In, H. now left.
Qed.
Lemma mlist_app h w : closes w = [] -> mlist (h ++ w) = mlist h.
Proof. intro H. unfold mlist. now rewrite closes_app, H, app_nil_r. Qed.

(** The members of the first group asked in a pass up to a given place. *)
Lemma pass_robin h groups pre g post a b :
  (mlist h = [] \/ exists g0 rest, groups = g0 :: rest /\ chans g0 = mlist h /\ forall n, In n (live rest) -> ~ In n (mlist h)) ->
  groups = pre ++ g :: post -> g = a ++ b ->
  prefix (filter (fun n => mem n (mlist h)) (live pre ++ chans a)) (mlist h) /\
  (b = [] -> filter (fun n => mem n (mlist h)) (live pre ++ chans a) = mlist h).
Proof.
  intros [E|(g0 & rest & EG & E0 & HR)] E1 E2.
  - rewrite E. rewrite filter_none by (intros n _ []). split; [now exists []|reflexivity].
  - destruct pre as [|g0' pre].
    + cbn in E1. rewrite E1 in EG. inversion EG; subst g0 rest. cbn [live concat chans map app].
      rewrite filter_all; [|rewrite <- E0, E2, chans_app; apply incl_appl, incl_refl]. rewrite <- E0, E2, chans_app.
      split; [now exists (chans b)|]. intros ->. now rewrite app_nil_r.
    + cbn in E1. rewrite E1 in EG. inversion EG; subst g0' rest. unfold live. cbn [concat]. rewrite chans_app, <- app_assoc, filter_app.
      rewrite filter_all by (rewrite E0; apply incl_refl).
      rewrite filter_none.
      * rewrite app_nil_r, E0. split; [exists []; now rewrite app_nil_r|reflexivity].
      * intros n Hn. apply HR. rewrite live_mid, E2, chans_app. rewrite !in_app_iff in *. unfold live. tauto.
Qed.

Lemma concat_snoc (m : list nat) k : concat (repeat m (S k)) = concat (repeat m k) ++ m.
Proof. induction k as [|k IH]; [cbn; now rewrite app_nil_r|]. transitivity (m ++ concat (repeat m (S k))); [reflexivity|]. rewrite IH at 1. rewrite app_assoc. reflexivity. Qed.

Lemma ask_JN h groups bo count pre g post a p b w l' : JI h groups bo count ->
  groups = pre ++ g :: post -> g = a ++ p :: b -> asked w = chans a -> (a = [] -> w = []) -> closes w = [] ->
  ends (map vain (chans (concat pre)) ++ w) = ends w -> ~ In (pl_chan p) (ends w) ->
  base (h ++ map vain (chans (concat pre)) ++ w) l' ->
  JN (h ++ map vain (chans (concat pre)) ++ w) (ETryRecv (CData (pl_chan p))).
Proof.
  intros HJ EG Eg Haw Hz Hcw Hew Hne HB. destruct HJ.
  assert (EC : closes (h ++ map vain (chans (concat pre)) ++ w) = closes h).
  { rewrite !closes_app, Hcw. destruct (vains_quiet (chans (concat pre))) as (_ & _ & _ & -> & _). now rewrite !app_nil_r. }
  assert (HL : In (pl_chan p) (live groups)).
  { rewrite EG, live_mid. apply in_or_app; right. apply in_or_app; left. rewrite Eg. apply in_map, in_or_app. right; now left. }
  cbn. exists (pl_chan p). split; [reflexivity|]. rewrite EC, ends_app, Hew. split; [eauto|]. split; [auto|].
  destruct (ji_live0 _ HL) as (HL1 & HL2). split; [exact HL1|].
  split; [intro HIn; apply in_app_or in HIn; tauto|]. split; [|split; [exact ji_closes0|]].
  2:{ destruct ji_rr0 as (k & RK). exists (S k).
      assert (EM : mlist (h ++ map vain (chans (concat pre)) ++ w) = mlist h) by (unfold mlist; now rewrite EC).
      rewrite EM, concat_snoc.
      assert (EA : asked (h ++ map vain (chans (concat pre)) ++ w) ++ [pl_chan p] = asked h ++ (live pre ++ chans (a ++ [p]))).
      { rewrite !asked_app, Haw, chans_app. destruct (vains_quiet (chans (concat pre))) as (_ & _ & -> & _). now rewrite <- !app_assoc. }
      rewrite EA, filter_app, RK.
      destruct (pass_robin h groups pre g post (a ++ [p]) b ji_first0 EG) as ((c & PR) & _); [rewrite Eg, <- app_assoc; reflexivity|].
      exists c. rewrite PR at 2. now rewrite app_assoc. }
  intros m Hm Hlt Hc. rewrite EC in Hc.
  assert (HmL : In m (live groups)) by (destruct (ji_gone0 _ Hm) as [K|[K _]]; [exact K|contradiction]).
  subst groups. destruct (shape_split _ _ _ ji_shape0) as (HP & HLE).
  rewrite live_mid in HmL. apply in_app_or in HmL. destruct HmL as [HmL|HmL].
  - destruct HP as [->|(q & ->)]; [contradiction|].
    assert (a = []) by (destruct a as [|? [|? ?]]; cbn in Eg; [reflexivity|discriminate|discriminate]). subst a.
    rewrite (Hz eq_refl), app_nil_r. exists h, (chans (concat pre)). split; [reflexivity|exact HmL].
  - exfalso. unfold live, chans in HmL. rewrite <- map_app in HmL. apply in_map_iff in HmL. destruct HmL as (q & <- & Hq).
    assert (In p g) by (rewrite Eg; apply in_or_app; right; now left).
    specialize (HLE p q H Hq). lia.
Qed.

(** Asks so far in a pass: an input asked is not asked before. *)
Lemma ends_asked w n : In n (ends w) -> In n (asked w).
Proof.
  unfold ends, asked. rewrite !in_flat_map. intros ([e x] & H1 & H2). exists (e, x). split; [exact H1|].
  destruct e; try contradiction. destruct c; try contradiction. destruct x; try contradiction. exact H2.
Qed.

Lemma iteration_sat h groups bo count : JI h groups bo count ->
  sat h (junction_iteration (groups, outs, bo) spy) JN (fun h' rs =>
    match rs with
    | (Ok (true, n), _) => JQ h' (Ok (count + n))
    | (Ok (false, n), (groups', outs', bo')) => outs' = outs /\ JI h' groups' bo' (count + n)
    | (Err e, (groups', _, _)) => groups' = groups /\ closes h' = closes h /\ stopped h' e
    end).
Proof.
  intros HJ. pose proof HJ as HJ0. destruct HJ. destruct ji_base0 as (l & HB).
  unfold junction_iteration. apply sat_bind.
  eapply sat_conseq.
  { apply (groups_sat outs spy Houts groups 0 h l [] 0 JN ji_recv0 HB).
    - intros pre g post a p b w l' E Eg Ha Hz Hc HB'.
      assert (Hew : ends (map vain (chans (concat pre)) ++ w) = ends w).
      { rewrite ends_app. destruct (vains_quiet (chans (concat pre))) as (_ & -> & _). reflexivity. }
      eapply ask_JN; eauto.
      intro HIn. apply ends_asked in HIn. rewrite Ha in HIn. subst groups g. rewrite live_mid in ji_nodup0.
      clear -ji_nodup0 HIn. rewrite chans_app in ji_nodup0. cbn [chans map] in ji_nodup0. fold (chans b) in ji_nodup0.
      rewrite <- app_assoc in ji_nodup0. cbn [app] in ji_nodup0. rewrite app_assoc in ji_nodup0.
      apply NoDup_remove_2 in ji_nodup0. apply ji_nodup0. apply in_or_app; left. apply in_or_app; now right.
    - intros w e Hb Hc. apply busy_JN; [exact Hb|]. rewrite closes_app, Hc, app_nil_r. exact ji_closes0. }
  { auto. }
  intros h1 r (r0 & w & -> & -> & Hac & HP). cbn beta iota.
  destruct r0 as [ps|e].
  2:{ apply sat_ret. split; [reflexivity|]. split; [now apply closes_acts|exact HP]. }
  destruct HP as (l1 & HB1 & Hcnt & HP). cbn [plus] in Hcnt.
  assert (EC1 : closes (h ++ w) = closes h) by now apply closes_acts.
  destruct HP as [(K1 & K2 & Ew)|(K1 & pre & g & post & res & w' & Eg & Ew & K2 & K3 & K4 & Knz & K5 & K6)].
  - (* nothing read *)
    rewrite K2, K1. cbn [rev remove_all]. apply sat_bind, sat_ret. rewrite remove_vec_vec_spec.
    destruct (vains_quiet (chans (concat groups))) as (Q1 & Q2 & Q3 & Q4 & Q5). rewrite <- Ew in Q1, Q2, Q3, Q4, Q5.
    assert (HG : forall n, In n ins -> ~ In n (closes h) -> In n (live groups)).
    { intros n Hn Hc. destruct (ji_gone0 _ Hn) as [K|[K _]]; [exact K|contradiction]. }
    destruct (filter nonempty groups) as [|g gs] eqn:EF.
    + apply sat_bind.
      assert (HLV : live groups = []). { unfold live. rewrite <- (concat_nonempty groups), EF. reflexivity. }
      assert (HA : forall m, In m ins -> In m (closes (h ++ w)) /\ over m (h ++ w)).
      { intros m Hm. destruct (ji_gone0 _ Hm) as [K|[K1' K2']]; [rewrite HLV in K; contradiction|]. rewrite EC1. split; [exact K1'|now apply over_app]. }
      eapply sat_conseq; [apply (close_all_senders JN outs (h ++ w) Houts)|auto|].
      * intros c1 p c2 E. cbn. exists (ps_chan p). split; [reflexivity|]. right. exists c1, p, c2, (h ++ w).
        repeat split; eauto; try (rewrite EC1; exact ji_closes0); now apply HA.
      * intros h2 r2 (-> & ->). apply sat_ret. exists (h ++ w), l1. rewrite EC1. repeat split; auto; try apply HB1.
        -- now apply HA in H; rewrite EC1 in H. -- now apply HA.
        -- rewrite ji_count0, Hcnt, arrivals_app, ends_app, !app_length. lia.
    + assert (JIG : forall bo', bo' = Nat.min 51 (S (naps h)) -> JI (h ++ w ++ [(ESleep (bo * bo), AOk)]) (g :: gs) bo' (count + ps_count ps)).
      { intros bo' Hbo. assert (EL : live (g :: gs) = live groups). { rewrite <- EF. unfold live. now rewrite concat_nonempty. }
        assert (EQ : closes (h ++ w ++ [(ESleep (bo * bo), AOk)]) = closes h /\ ends (h ++ w ++ [(ESleep (bo * bo), AOk)]) = ends h /\ arrivals (h ++ w ++ [(ESleep (bo * bo), AOk)]) = arrivals h).
        { rewrite !closes_app, !ends_app, !arrivals_app, Q1, Q2, Q4. cbn. rewrite !app_nil_r. auto. }
        destruct EQ as (EQ1 & EQ2 & EQ3).
        constructor; rewrite ?EL, ?EQ1, ?EQ2, ?EQ3; auto.
        - exists l1. rewrite app_assoc. destruct HB1 as (HB1 & HB2 & HB3). split; [|split; [|exact HB3]].
          + rewrite attempts_app, HB1. cbn. now rewrite app_nil_r.
          + rewrite arrivals_app. cbn. now rewrite app_nil_r.
        - rewrite <- EF. clear -ji_recv0. induction ji_recv0 as [|x l Hx _ IH]; cbn; [constructor|]. destruct (nonempty x); auto.
        - rewrite <- EF. clear -ji_shape0. destruct groups as [|x r]; [exact I|]. destruct ji_shape0 as (S1 & S2). cbn [filter].
          rewrite (tails_nonempty _ S2). destruct (nonempty x) eqn:E; [split; assumption|now apply tails_shape].
        - intros n Hn. destruct (ji_gone0 _ Hn) as [K|[K1' K2']]; [now left|right]. split; [exact K1'|now apply over_app].
        - rewrite Hcnt, Q1, Q2. cbn. lia.
        - rewrite naps_app, fold_left_app, Ew, naps_vain. cbn. exact Hbo.
        - assert (EM : mlist (h ++ w ++ [(ESleep (bo * bo), AOk)]) = mlist h) by (unfold mlist; now rewrite EQ1).
          rewrite EM. destruct ji_rr0 as (k & RK).
          assert (EA : asked (h ++ w ++ [(ESleep (bo * bo), AOk)]) = asked h ++ live groups).
          { rewrite !asked_app, Q3. cbn. now rewrite app_nil_r. }
          rewrite EA, filter_app, RK.
          destruct ji_first0 as [E|(g0 & rest & EG & E0 & HR)].
          + exists 0. rewrite E, (filter_none [] (live groups)) by (intros n _ []). rewrite app_nil_r. clear. induction k; cbn; auto.
          + exists (S k). rewrite concat_snoc. f_equal. rewrite EG. unfold live. cbn [concat]. rewrite chans_app, filter_app, (filter_all (mlist h) (chans g0)) by (rewrite E0; apply incl_refl). rewrite (filter_none (mlist h) (chans (concat rest))) by exact HR. now rewrite app_nil_r.
        - assert (EM : mlist (h ++ w ++ [(ESleep (bo * bo), AOk)]) = mlist h) by (unfold mlist; now rewrite EQ1).
          rewrite EM. destruct ji_first0 as [E|(g0 & rest & EG & E0 & HR)]; [now left|].
          destruct g0 as [|p0 g0]; [left; now rewrite <- E0|]. right. rewrite EG in EF. cbn in EF. inversion EF; subst g gs.
          exists (p0 :: g0), (filter nonempty rest). split; [reflexivity|]. split; [exact E0|].
          intros n Hn. apply HR. unfold live in *. now rewrite concat_nonempty in Hn. }
      apply sat_bind. unfold back_off_wait, sleep. apply sat_bind. apply sat_vis.
      * cbn. split; [eauto|]. split; [|split; [|rewrite EC1; exact ji_closes0]].
        -- exists h, (chans (concat groups)). split; [now rewrite Ew|]. intros n Hn Hc. rewrite EC1 in Hc. now apply HG.
        -- rewrite Ew, naps_app, naps_vain. now rewrite ji_bo0.
      * intros a Ha. destruct a; try discriminate Ha. apply sat_ret. apply sat_ret. apply sat_ret. split; [reflexivity|].
        rewrite <- app_assoc. apply JIG. rewrite ji_bo0.
        assert (HLE : naps h <= 51).
        { clear. unfold naps. assert (G : forall h k, k <= 51 -> fold_left nap_step h k <= 51).
          { clear. induction h as [|[e a] h IH]; intros k Hk; [exact Hk|]. cbn [fold_left]. apply IH.
            destruct e; cbn [nap_step]; try exact Hk; [destruct a; lia|lia]. }
          apply G. lia. }
        destruct (Nat.leb_spec (naps h) 50); lia.
  - (* something read *)
    rewrite K3, K1. cbn [app plus]. subst groups.
    assert (Hrg : Forall receiver g). { rewrite Forall_forall in ji_recv0. apply ji_recv0. apply in_or_app; right; now left. }
    assert (Hmk : length (map is_fin res) = length g) by (now rewrite map_length).
    set (bs := map is_fin res) in *.
    pose proof ji_nodup0 as HND. rewrite live_mid in HND.
    assert (HNg : NoDup (chans g)). { clear -HND. induction (live pre) as [|x q IH]; cbn in HND; [|inversion HND; auto]. clear -HND. induction (chans g) as [|x q IH]; constructor; inversion HND; subst; auto. intro K. apply H1, in_or_app. now left. }
    set (pk := rev (picked bs g)).
    assert (Hpk : forall q, In q pk <-> In q (picked bs g)) by (intro q; unfold pk; symmetry; apply in_rev).
    assert (HpkL : forall q, In q pk -> In (pl_chan q) (live (pre ++ g :: post))).
    { intros q Hq. rewrite live_mid. apply in_or_app; right. apply in_or_app; left. apply in_map. apply (picked_incl bs). now apply Hpk. }
    assert (HNpk : NoDup (chans pk)).
    { unfold pk, chans. rewrite map_rev. apply NoDup_rev. now apply picked_nodup. }
    assert (HCL : forall c1 p c2, pk = c1 ++ p :: c2 -> ~ In (pl_chan p) (closes (h ++ w) ++ chans c1)).
    { intros c1 p c2 E HIn. rewrite EC1 in HIn. apply in_app_or in HIn. destruct HIn as [HIn|HIn].
      - destruct (ji_live0 (pl_chan p)) as (X & _); [|contradiction]. apply HpkL. rewrite E. apply in_or_app; right; now left.
      - rewrite E, chans_app in HNpk. cbn [chans map] in HNpk. apply NoDup_remove_2 in HNpk. apply HNpk, in_or_app. now left. }
    assert (HCI : forall c, incl c pk -> incl (closes h ++ chans c) ins).
    { intros c Hc. apply incl_app; [exact ji_closes0|]. intros n Hn. apply in_map_iff in Hn. destruct Hn as (q & <- & Hq). apply ji_ins0, HpkL, Hc, Hq. }
    apply sat_bind. eapply sat_conseq.
    { pose proof (remove_all_sat pre post JN g bs [] (h ++ w) Hmk Hrg) as HRA. rewrite app_nil_r in HRA. apply HRA.
      intros c1 p c2 E. cbn. exists (pl_chan p). split; [reflexivity|]. left.
      destruct (closings_quiet (chans c1)) as (_ & _ & _ & QC & _).
      rewrite closes_app, QC.
      assert (Hp : In p pk) by (unfold pk; rewrite E; apply in_or_app; right; now left).
      split; [apply ji_ins0, HpkL, Hp|]. split; [eapply HCL; exact E|].
      split; [rewrite EC1; apply HCI; unfold pk; rewrite E; apply incl_appl, incl_refl|].
      left. split; [|exists l1; now apply base_cl]. apply over_cl. apply K5. now apply Hpk. }
    { auto. }
    intros h2 stdin2 (-> & ->). cbn beta. rewrite app_nil_r. fold pk. rewrite remove_vec_vec_spec.
    destruct (closings_quiet (chans pk)) as (QC1 & QC2 & QC3 & QC4 & QC5).
    set (h2 := (h ++ w) ++ map cl (chans pk)).
    assert (EC2 : closes h2 = closes h ++ chans pk) by (unfold h2; rewrite closes_app, QC4, EC1; reflexivity).
    assert (EE2 : ends h2 = ends h ++ ends w) by (unfold h2; rewrite ends_app, QC2, ends_app, app_nil_r; reflexivity).
    assert (EA2 : arrivals h2 = arrivals h ++ arrivals w) by (unfold h2; rewrite arrivals_app, QC1, arrivals_app, app_nil_r; reflexivity).
    assert (HB2 : base h2 l1) by (now apply base_cl).
    assert (EM2 : mlist h2 = filter (fun n => negb (mem n (chans pk))) (mlist h)).
    { unfold mlist. rewrite EC2. clear. induction min0 as [|x l IH]; cbn; [reflexivity|].
      assert (E : mem x (closes h ++ chans pk) = mem x (closes h) || mem x (chans pk)) by apply existsb_app. rewrite E.
      destruct (mem x (closes h)); cbn; [exact IH|]. destruct (mem x (chans pk)); cbn; [exact IH|now rewrite IH]. }
    set (groups' := filter nonempty (pre ++ unmarked bs g :: post)).
    assert (EL' : live groups' = live pre ++ chans (unmarked bs g) ++ live post).
    { unfold groups', live. rewrite concat_nonempty. apply live_mid. }
    assert (HJ2 : forall bo', bo' = naps h2 -> JI h2 groups' bo' (count + ps_count ps)).
    { intros bo' Hbo. constructor; rewrite ?EC2, ?EE2, ?EA2; auto.
      - eauto.
      - unfold groups'. apply Forall_forall. intros x Hx. apply filter_In in Hx. destruct Hx as [Hx _]. rewrite Forall_forall in ji_recv0.
        apply in_app_or in Hx. destruct Hx as [Hx|[<-|Hx]].
        + apply ji_recv0, in_or_app. now left.
        + apply Forall_forall. intros y Hy. rewrite Forall_forall in Hrg. apply Hrg. eapply unmarked_incl; exact Hy.
        + apply ji_recv0, in_or_app. right; now right.
      - rewrite EL'. eapply nodup_sub; [exact HND|now apply unmarked_nodup|]. apply incl_map, unmarked_incl.
      - rewrite EL'. intros n Hn. apply ji_ins0. rewrite live_mid. rewrite !in_app_iff in *. destruct Hn as [Hn|[Hn|Hn]]; auto.
        right; left. revert Hn. apply incl_map, unmarked_incl.
      - unfold groups'. now apply shape_prune.
      - intros n Hn. rewrite EL'. destruct (ji_gone0 _ Hn) as [K|[K1' K2']].
        + rewrite live_mid in K. rewrite !in_app_iff in *. destruct K as [K|[K|K]]; auto.
          apply in_map_iff in K. destruct K as (q & <- & Hq). destruct (unmarked_picked_split bs g Hmk q Hq) as [U|U].
          * left; right; left. now apply in_map.
          * right. split; [right; apply in_map; now apply Hpk|]. unfold h2. apply over_app. now apply K5.
        + right. split; [apply in_or_app; now left|]. unfold h2. rewrite <- app_assoc. now apply over_app.
      - apply HCI, incl_refl.
      - apply NoDup_app_intro; auto. intros n H1 H2. apply in_map_iff in H2. destruct H2 as (q & <- & Hq).
        destruct (ji_live0 _ (HpkL _ Hq)) as (X & _). contradiction.
      - intros n Hn. rewrite EL' in Hn.
        assert (HnL : In n (live (pre ++ g :: post))).
        { rewrite live_mid. rewrite !in_app_iff in *. destruct Hn as [Hn|[Hn|Hn]]; auto. right; left. revert Hn. apply incl_map, unmarked_incl. }
        destruct (ji_live0 _ HnL) as (X1 & X2).
        assert (HNP : ~ In n (chans (picked bs g))).
        { intro HP. rewrite !in_app_iff in Hn. assert (HPg : In n (chans g)) by (revert HP; apply incl_map, picked_incl).
          clear -HND HNg Hn HP HPg Hmk. destruct Hn as [Hn|[Hn|Hn]].
          - apply in_split in Hn. destruct Hn as (x & y & E). rewrite E, <- app_assoc in HND. cbn in HND. apply NoDup_remove_2 in HND.
            apply HND. rewrite !in_app_iff. auto.
          - eapply unmarked_picked_disj; eauto.
          - apply in_split in Hn. destruct Hn as (x & y & E). rewrite E, !app_assoc in HND. apply NoDup_remove_2 in HND.
            apply HND. rewrite !in_app_iff. auto. }
        split; rewrite in_app_iff; intros [H|H]; try contradiction.
        + apply HNP. unfold pk, chans in H. rewrite map_rev in H. now apply in_rev in H.
        + apply HNP. now apply K6.
      - rewrite !app_length, Hcnt, ji_count0. lia.
      - rewrite EM2. destruct ji_rr0 as (k & RK). exists (S k). rewrite concat_snoc.
        assert (EAS : asked h2 = asked h ++ (live pre ++ chans g)).
        { unfold h2. rewrite asked_app, QC3, app_nil_r, asked_app, Ew, asked_app, K4.
          destruct (vains_quiet (chans (concat pre))) as (_ & _ & -> & _). reflexivity. }
        rewrite EAS.
        assert (EFF : forall l, filter (fun n => mem n (filter (fun n => negb (mem n (chans pk))) (mlist h))) l
                       = filter (fun n => negb (mem n (chans pk))) (filter (fun n => mem n (mlist h)) l)).
        { clear. induction l as [|x l IH]; cbn; [reflexivity|]. rewrite IH.
          destruct (mem x (mlist h)) eqn:E1; cbn.
          - destruct (mem x (chans pk)) eqn:E2; cbn.
            + replace (mem x (filter _ _)) with false; [reflexivity|]. symmetry. apply not_true_iff_false. rewrite mem_In, filter_In, E2. intros [_ D]; discriminate.
            + replace (mem x (filter _ _)) with true; [reflexivity|]. symmetry. rewrite mem_In, filter_In, E2. split; [now apply mem_In|reflexivity].
          - replace (mem x (filter _ _)) with false; [reflexivity|]. symmetry. apply not_true_iff_false. rewrite mem_In, filter_In, <- mem_In, E1. intros [D _]; discriminate. }
        rewrite EFF, filter_app, RK.
        destruct (pass_robin h _ pre g post g [] ji_first0 eq_refl (eq_sym (app_nil_r g))) as (_ & PR). rewrite (PR eq_refl).
        rewrite filter_app. f_equal. clear. induction k as [|k IH]; cbn; [reflexivity|]. now rewrite filter_app, IH.
      - rewrite EM2. destruct ji_first0 as [E|(g0 & rest & EG & E0 & HR)]; [left; rewrite E; reflexivity|].
        unfold groups'. destruct pre as [|g1 pre].
        + cbn [app] in EG |- *. inversion EG; subst g0 rest.
          assert (EU : chans (unmarked bs g) = filter (fun n => negb (mem n (chans pk))) (chans g)).
          { assert (EPK : forall n, mem n (chans pk) = mem n (chans (picked bs g))).
            { intro n. apply Bool.eq_true_iff_eq. rewrite !mem_In. unfold pk, chans. rewrite map_rev. symmetry. apply in_rev. }
            rewrite (filter_ext _ (fun n => negb (mem n (chans (picked bs g))))) by (intro n; now rewrite EPK).
            clear -Hmk HNg. revert g Hmk HNg. induction bs as [|[] bs IH]; intros [|x g] HL HN; try discriminate; [reflexivity| |]; cbn [chans map unmarked picked] in *; inversion HN as [|? ? HN1 HN2]; subst; fold (chans g) in *.
            - fold (chans (unmarked bs g)) (chans (picked bs g)). rewrite (IH g ltac:(cbn in HL; lia) HN2). cbn [filter].
              replace (mem (pl_chan x) (pl_chan x :: chans (picked bs g))) with true by (symmetry; apply mem_In; now left). cbn [negb].
              apply filter_ext_in. intros n Hn. f_equal. apply Bool.eq_true_iff_eq. rewrite !mem_In. cbn. split; [now right|]. intros [<-|K]; [contradiction|exact K].
            - fold (chans (unmarked bs g)) (chans (picked bs g)). rewrite (IH g ltac:(cbn in HL; lia) HN2). cbn [filter].
              replace (mem (pl_chan x) (chans (picked bs g))) with false; [reflexivity|]. symmetry. apply not_true_iff_false. rewrite mem_In.
              intro K. apply HN1. revert K. apply incl_map, picked_incl. }
          rewrite <- E0, <- EU. cbn [filter]. destruct (unmarked bs g) as [|u us] eqn:EUU; [now left|right]. cbn [nonempty].
          exists (u :: us), (filter nonempty post). split; [reflexivity|]. split; [reflexivity|].
          intros n Hn. unfold live in Hn. rewrite concat_nonempty in Hn. intro K. apply (HR n Hn). rewrite <- E0. revert K. rewrite <- EUU. apply incl_map, unmarked_incl.
        + cbn [app] in EG |- *. inversion EG; subst g1 rest.
          assert (EFM : filter (fun n => negb (mem n (chans pk))) (mlist h) = mlist h).
          { rewrite <- E0. clear -HR E0 Hpk. assert (G : forall n, In n (chans g0) -> mem n (chans pk) = false).
            { intros n Hn. apply not_true_iff_false. rewrite mem_In. intro K. apply in_map_iff in K. destruct K as (q & <- & Hq).
              apply (HR (pl_chan q)); [|now rewrite <- E0]. rewrite live_mid. apply in_or_app; right. apply in_or_app; left. apply in_map. apply (picked_incl bs). now apply Hpk. }
            clear E0. induction (chans g0) as [|x l IH]; cbn; [reflexivity|]. rewrite (G x (or_introl eq_refl)). cbn. f_equal. apply IH. intros n Hn. apply G. now right. }
          rewrite EFM. cbn [filter]. destruct g0 as [|p0 g0]; [left; now rewrite <- E0|right]. cbn [nonempty].
          eexists (p0 :: g0), _. split; [reflexivity|]. split; [exact E0|].
          intros n Hn. apply HR. unfold live in *. rewrite concat_nonempty in Hn. rewrite concat_app in *. cbn [concat] in *. rewrite !chans_app in *. rewrite !in_app_iff in *.
          destruct Hn as [Hn|[Hn|Hn]]; auto. right; left. revert Hn. apply incl_map, unmarked_incl. }
    assert (Hn0 : naps h2 = 0). { unfold h2. rewrite naps_app, naps_cl. now apply naps_zero. }
    destruct groups' as [|g' gs'] eqn:EG.
    + apply sat_bind. destruct (HJ2 0 (eq_sym Hn0)).
      assert (HA : forall m, In m ins -> In m (closes h2) /\ over m h2).
      { intros m Hm. destruct (ji_gone1 _ Hm) as [K|K]; [contradiction|exact K]. }
      eapply sat_conseq; [apply (close_all_senders JN outs h2 Houts)|auto|].
      * intros c1 p c2 E. cbn. exists (ps_chan p). split; [reflexivity|]. right. exists c1, p, c2, h2.
        repeat split; eauto; now apply HA.
      * intros h3 r3 (-> & ->). apply sat_ret. exists h2, l1. repeat split; auto; try apply HB2; try (now apply HA).
    + apply sat_bind, sat_ret. apply sat_ret. split; [reflexivity|]. apply HJ2. cbn. now rewrite Hn0.
Qed.

Lemma body_sat h groups bo count : JI h groups bo count ->
  sat h (junction_body spy ((groups, outs, bo), count)) JN
    (fun h' lr => match lr with
                  | inl ((groups', outs', bo'), count') => outs' = outs /\ JI h' groups' bo' count'
                  | inr r => JQ h' r
                  end).
Proof.
  intro HJ. unfold junction_body. apply sat_bind. eapply sat_conseq; [apply (iteration_sat _ _ _ _ HJ)|auto|].
  intros h1 [r st] HP. cbn beta iota. destruct r as [[[|] n]|e].
  - apply sat_ret. exact HP.
  - apply sat_ret. destruct st as [[groups' outs'] bo']. exact HP.
  - destruct st as [[groups' outs'] bo']. destruct HP as (-> & EC & HS). cbn [fst]. destruct HJ.
    apply sat_bind. eapply sat_conseq; [apply (drop_pulls_recv JN (concat groups) h1)|auto|].
    + clear -ji_recv0. induction ji_recv0; cbn; [constructor|apply Forall_app; split; assumption].
    + intros c1 p c2 E. cbn. exists (pl_chan p). split; [reflexivity|]. left.
      destruct (closings_quiet (chans c1)) as (_ & _ & _ & QC & _). rewrite closes_app, QC, EC.
      assert (HL : live groups = chans c1 ++ pl_chan p :: chans c2) by (unfold live; rewrite E; apply chans_app).
      assert (HpL : In (pl_chan p) (live groups)) by (rewrite HL; apply in_or_app; right; now left).
      split; [auto|]. split; [|split].
      * intro HIn. apply in_app_or in HIn. destruct HIn as [HIn|HIn]; [destruct (ji_live0 _ HpL); contradiction|].
        rewrite HL in ji_nodup0. apply NoDup_remove_2 in ji_nodup0. apply ji_nodup0, in_or_app. now left.
      * apply incl_app; [exact ji_closes0|]. intros n Hn. apply ji_ins0. rewrite HL. apply in_or_app. now left.
      * right. exists e. now apply stopped_cl.
    + intros h2 _ ->. apply sat_ret. cbn. destruct (closings_quiet (chans (concat groups))) as (_ & _ & _ & QC & _).
      rewrite closes_app, QC, EC. split; [now apply stopped_cl|]. split; [apply incl_app; assumption|]. split.
      * apply NoDup_app_intro; auto. intros n H1 H2. destruct (ji_live0 _ H2); contradiction.
      * intros m Hm. apply in_or_app. destruct (ji_gone0 _ Hm) as [K|[K _]]; auto.
Qed.

Lemma run_sat h groups bo count : JI h groups bo count ->
  sat h (iter (junction_body spy) ((groups, outs, bo), count)) JN JQ.
Proof.
  intro HJ. apply sat_iter with (Inv := fun h s => let '((groups, outs', bo), count) := s in outs' = outs /\ JI h groups bo count).
  - intros h0 [[[groups0 outs0] bo0] count0] (-> & HJ0). eapply sat_conseq; [apply (body_sat _ _ _ _ HJ0)|auto|].
    intros h1 [[[[groups1 outs1] bo1] count1]|r]; auto.
  - auto.
Qed.
End Junction.
