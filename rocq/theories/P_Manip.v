(** * P_Manip: preparing a whole configuration *)
From Coq Require Import Ascii String List Bool Arith ZArith Sorted Permutation Lia.
From Verif Require Import M_Prog M_Config M_Connectable M_Parser M_Manip S_Grammar S_Manip P_Map P_Parser P_Pair P_Junctions P_Junctions2.
Import ListNotations.
Local Open Scope string_scope.

(** ** Reading *)
Lemma chain_end_tail l : chain_end l -> chain_tail l.
Proof. induction 1; constructor; auto. Qed.
Lemma text_chain l s : connection_text l s -> chain l.
Proof. intros H. apply load_exact, load_writable in H as [H _]. destruct H; constructor. apply chain_end_tail. assumption. Qed.

Definition chains (m : connmap) : Prop := Forall (fun kv => exists l, snd kv = Connections l /\ chain l) m.

(** [m'] is [m] written out *)
Lemma convert_good m : Forall (fun kv => good_connection (snd kv)) m -> exists m', convert_connections m = Good (m', []) /\ chains m' /\ keys m' = keys m /\
  forall k l, In (k, Connections l) m' <-> reads m k l.
Proof.
  unfold convert_connections. induction 1 as [|[k d] m Hd Hm IH].
  - exists []. split; [reflexivity|]. split; [constructor|]. split; [reflexivity|]. intros k l. split; [easy|]. intros (d & [] & _).
  - destruct IH as (m' & E & Hc & Hk & Hr). cbn [omap].
    assert (A : exists l, convert_one (k, d) = Good ((k, Connections l), []) /\ chain l /\ forall x, (d = Connections x \/ exists s, d = JoinString s /\ connection_text x s) <-> x = l).
    { destruct d as [s|l]; cbn in Hd.
      - destruct Hd as (l & Hl). exists l. split; [|split].
        + unfold convert_one. cbn [snd fst]. pose proof (proj2 (load_exact s l) Hl) as E'. rewrite E'. reflexivity.
        + eapply text_chain; eauto.
        + intros x. split.
          * intros [H|(s' & [= <-] & H)]; [discriminate|]. apply load_exact in H, Hl. congruence.
          * intros ->. right. eauto.
      - exists l. split; [reflexivity|]. split; [exact Hd|]. intros x. split.
        + intros [[= ->]|(s' & H & _)]; [reflexivity|discriminate].
        + intros ->. auto. }
    destruct A as (l & El & Hl & Hx). destruct (omap convert_one m) as [r|] eqn:Er; [|discriminate]. cbn [obind] in *. injection E as E1 E2.
    exists ((k, Connections l) :: m'). rewrite El. cbn [obind map fst flat_map snd]. rewrite E1, E2. split; [reflexivity|].
    split; [constructor; [exists l; auto|exact Hc]|]. split; [unfold keys in *; cbn; f_equal; exact Hk|].
    intros k1 l1. split.
    + intros [[= <- <-]|Hin].
      * exists d. split; [left; reflexivity|]. apply Hx. reflexivity.
      * apply Hr in Hin as (d' & Hin & H). exists d'. split; [right; exact Hin|exact H].
    + intros (d' & [Heq|Hin] & H0).
      * injection Heq as <- <-. left. apply Hx in H0. congruence.
      * right. apply Hr. exists d'. auto.
Qed.

(** ** Pairs *)
Lemma pairs_all m added : pairs_of m added -> all_pairs added.
Proof.
  induction 1 as [|k l m ns ps rest Hs Hf Hlen Hp IH]; [constructor|]. apply Forall_app. split; [|exact IH].
  apply Forall_forall. intros [x p] Hin. apply in_combine_r in Hin. cbn. clear - Hf Hin.
  induction Hf as [|[a c] p' n' ps' Hpair Hf' IHf]; [easy|]. destruct Hin as [<-|Hin]; [|auto].
  destruct Hpair as (x & y & -> & (o & _ & ->) & (i & _ & ->)). cbn. discriminate.
Qed.
Lemma in_combine_ex {A B} (l : list A) (l' : list B) y : List.length l = List.length l' -> In y l' -> exists x, In (x, y) (combine l l').
Proof.
  revert l'. induction l as [|a l IH]; intros [|c l'] H Hy; try discriminate; [easy|]. cbn in H. destruct Hy as [<-|Hy].
  - exists a. left. reflexivity.
  - destruct (IH l') as (x & Hx); auto. exists x. right. exact Hx.
Qed.
Lemma pairs_in m added : pairs_of m added -> forall k l ab, In (k, Connections l) m -> In ab (neighbours l) -> exists k' p, In (k', p) added /\ pair_of ab p.
Proof.
  induction 1 as [|k l m ns ps rest Hs Hf Hlen Hp IH]; intros k1 l1 ab Hin Hab; [easy|]. destruct Hin as [[= <- <-]|Hin].
  - assert (Hex : exists p, In p ps /\ pair_of ab p).
    { clear - Hf Hab. induction Hf as [|z p n' ps' Hpair Hf' IHf]; [easy|]. destruct Hab as [<-|Hab]; [exists p; cbn; auto|].
      destruct (IHf Hab) as (q & Hq & Hpq). exists q. cbn. auto. }
    destruct Hex as (p & Hpp & Hpair). destruct (in_combine_ex (map (numbered k) ns) ps p) as (k' & Hk'); [rewrite map_length; exact Hlen|exact Hpp|].
    exists k', p. split; [apply in_app_iff; left; exact Hk'|exact Hpair].
  - destruct (IH _ _ _ Hin Hab) as (k' & p & Hin' & Hpair). exists k', p. split; [apply in_app_iff; right; exact Hin'|exact Hpair].
Qed.
Lemma in_combine_orig {A B} (R : A -> B -> Prop) (l : list A) (l' : list B) y : Forall2 R l l' -> In y l' -> exists x, In x l /\ R x y.
Proof. induction 1 as [|a c l l' Hr Hf IH]; [easy|]. intros [<-|Hy]; [exists a; cbn; auto|]. destruct (IH Hy) as (x & Hx & HR). exists x. cbn. auto. Qed.
Lemma pairs_from m added : pairs_of m added -> forall k p, In (k, p) added -> exists k0 l ab, In (k0, Connections l) m /\ In ab (neighbours l) /\ pair_of ab p.
Proof.
  induction 1 as [|k l m ns ps rest Hs Hf Hlen Hp IH]; intros k1 p Hin; [easy|]. apply in_app_iff in Hin as [Hin|Hin].
  - apply in_combine_r in Hin. destruct (in_combine_orig _ _ _ _ Hf Hin) as (ab & Hab & Hpair). exists k, l, ab. cbn. auto.
  - destruct (IH _ _ Hin) as (k0 & l0 & ab & H1 & H2 & H3). exists k0, l0, ab. cbn. auto.
Qed.
Lemma neighbours_in {A} (l : list A) a c : In (a, c) (neighbours l) -> In a l /\ In c l.
Proof.
  induction l as [|x l IH]; [easy|]. destruct l as [|y l]; [easy|]. cbn [neighbours]. intros [[= <- <-]|H]; [cbn; auto|].
  apply IH in H as [H1 H2]. split; right; assumption.
Qed.
Lemma tail_next l : chain_tail l -> forall x o, In x l -> output_of x = Some o -> exists y, In (x, y) (neighbours l).
Proof.
  induction 1 as [t n i s|t n i o s l Ht IH]; intros x p Hin Ho.
  - destruct Hin as [<-|[]]. discriminate.
  - destruct l as [|y l]; [inversion Ht|]. destruct Hin as [<-|Hin]; [exists y; left; reflexivity|].
    destruct (IH _ _ Hin Ho) as (z & Hz). exists z. right. exact Hz.
Qed.
Lemma chain_next l x o : chain l -> In x l -> output_of x = Some o -> exists y, In (x, y) (neighbours l).
Proof.
  intros [|t n p s l' Ht] Hin Ho; [easy|]. destruct l' as [|y l']; [inversion Ht|]. destruct Hin as [<-|Hin]; [exists y; left; reflexivity|].
  destruct (tail_next _ Ht _ _ Hin Ho) as (z & Hz). exists z. right. exact Hz.
Qed.

(** What pairing gives: an ordered map of pairs, whose edges are the steps of the lists *)
Lemma paired m : Forall (fun kv => good_connection (snd kv)) m -> exists m1 p added, convert_connections m = Good (m1, []) /\ pair_up m1 = Good p /\ ordered p /\ all_pairs p /\
  pairs_of m1 added /\ (forall k d, In (k, d) p <-> In (k, d) added) /\ (forall k l, In (k, Connections l) m1 <-> reads m k l) /\ chains m1.
Proof.
  intros H. destruct (convert_good m H) as (m1 & E1 & Hc & _ & Hr). destruct (pair_up_spec m1 Hc) as (p & added & E2 & Ho & Hp & Hn & Hi).
  exists m1, p, added. split; [exact E1|]. split; [exact E2|]. split; [exact Ho|]. split; [|auto].
  apply Forall_forall. intros [k d] Hin. apply Hi in Hin. pose proof (pairs_all _ _ Hp) as Ha. unfold all_pairs in Ha. rewrite Forall_forall in Ha. exact (Ha _ Hin).
Qed.
Lemma pair_edge x y o d : pair_of (x, y) d -> output_of x = Some o -> exists i, input_of y = Some i /\ edge_of d = Some (Edge (conn_type x, conn_name x, o) (conn_type y, conn_name y) i).
Proof. intros (a & c & -> & (o' & Ho' & ->) & (i & Hi & ->)) Ho. exists i. split; [exact Hi|]. cbn in *. rewrite Ho in Ho'. injection Ho' as <-. reflexivity. Qed.
Lemma in_edge p k d e : ordered p -> In (k, d) p -> edge_of d = Some e -> edge_at p k = Some e.
Proof. intros Ho Hin He. unfold edge_at. rewrite (in_lookup _ _ _ (ordered_nodup _ Ho) Hin). exact He. Qed.

(** ** Exit connections *)
Lemma set_add_in k l x : In x (set_add k l) <-> x = k \/ In x l.
Proof.
  unfold set_add. destruct (mem k l) eqn:E.
  - apply mem_in in E. split; [auto|]. intros [->|H]; auto.
  - rewrite in_app_iff. cbn. intuition congruence.
Qed.
Lemma set_add_nodup k l : NoDup l -> NoDup (set_add k l).
Proof.
  unfold set_add. destruct (mem k l) eqn:E; [auto|]. apply mem_not in E. intros H. apply nodup_app; [exact H|repeat constructor; easy|].
  intros x Hx [<-|[]]. contradiction.
Qed.

Lemma identify m : ordered m -> all_pairs m -> NoDup (identify_required_spies_for_launch_exits m) /\
  forall n, In n (identify_required_spies_for_launch_exits m) <-> launches_out m n /\ ~ exists k e, edge_at m k = Some e /\ e_src e = exit_of n.
Proof.
  intros Ho Hm. unfold identify_required_spies_for_launch_exits.
  match goal with |- context [mem _ ?x] => set (H := x) end. match goal with |- context [fold_left ?x] => set (F := x) end.
  assert (Hpairs : forall t n o, (exists k e, edge_at m k = Some e /\ e_src e = (t, n, o)) <-> exists s q, In (StartC t n o s, q) (connection_pairs m)).
  { intros t n o. unfold connection_pairs. split.
    - intros (k & e & He & Hs). unfold edge_at in He. destruct (lookup k m) as [d|] eqn:El; [|discriminate]. apply lookup_in in El.
      apply edge_shape in He as (t1 & n1 & o1 & s1 & t2 & n2 & i & s2 & -> & ->). cbn in Hs. injection Hs as <- <- <-.
      exists s1, (EndC t2 n2 i s2). apply in_flat_map. exists (k, Connections [StartC t1 n1 o1 s1; EndC t2 n2 i s2]). cbn. auto.
    - intros (s & q & Hin). apply in_flat_map in Hin as ([k d] & Hin & Hd). cbn in Hd.
      unfold all_pairs in Hm. rewrite Forall_forall in Hm. pose proof (Hm _ Hin) as Hne. cbn in Hne. destruct (edge_of d) as [e|] eqn:Ed; [|congruence].
      pose proof (edge_shape _ _ Ed) as (t1 & n1 & o1 & s1 & t2 & n2 & i & s2 & -> & ->). destruct Hd as [[= <- <- <- <- <-]|[]].
      eexists k, _. split; [eapply in_edge; eauto|reflexivity]. }
  assert (HH : forall n, In n H <-> exists k e, edge_at m k = Some e /\ e_src e = exit_of n).
  { intros n. unfold exit_of. rewrite Hpairs. unfold H. rewrite in_flat_map. split.
    - intros ([a q] & Hin & Hn). cbn in Hn. destruct a as [ | [] n' [] s | ]; try easy. destruct Hn as [<-|[]]. eauto.
    - intros (s & q & Hin). exists (StartC CLaunch n PExit s, q). split; [exact Hin|]. cbn. auto. }
  assert (HA : forall l acc, NoDup acc -> NoDup (fold_left F l acc) /\ forall n, In n (fold_left F l acc) <-> In n acc \/ exists o s q, In (StartC CLaunch n o s, q) l).
  { induction l as [|[a q] l IH]; intros acc Hn; cbn [fold_left].
    - split; [exact Hn|]. intros n. split; [auto|]. intros [Hx|(o & s & q & [])]. exact Hx.
    - assert (Hstep : NoDup (F acc (a, q)) /\ forall n, In n (F acc (a, q)) <-> In n acc \/ exists o s, a = StartC CLaunch n o s).
      { unfold F. cbn [fst]. destruct a as [t0 n0 i0 o0 s0| [] n' o s |t0 n0 i0 s0];
          try (split; [exact Hn|]; intros n; split; [auto|intros [Hx|(o' & s' & Hx)]; [exact Hx|discriminate]]).
        split; [apply set_add_nodup, Hn|]. intros n. rewrite set_add_in. split; [intros [->|Hx]; eauto|]. intros [Hx|(o' & s' & [= <- <- <-])]; auto. }
      destruct Hstep as [Hn1 H1]. destruct (IH _ Hn1) as [Hn2 H2]. split; [exact Hn2|]. intros n. rewrite H2, H1. split.
      + intros [[Hx|(o & s & ->)]|(o & s & q' & Hin)]; [auto|right; exists o, s, q; left; reflexivity|right; exists o, s, q'; right; exact Hin].
      + intros [Hx|(o & s & q' & [[= -> <-]|Hin])]; eauto 8. }
  destruct (HA (connection_pairs m) [] (NoDup_nil _)) as [Hnd Hin]. split; [apply NoDup_filter, Hnd|].
  intros n. rewrite filter_In, Hin, negb_true_iff. rewrite mem_not, HH. unfold launches_out. split.
  - intros [[[]|(o & s & q & Hx)] Hno]. split; [|exact Hno]. destruct (proj2 (Hpairs CLaunch n o)) as (k & e & He & Hs); [eauto|]. exists k, e. rewrite Hs. auto.
  - intros [(k & e & He & Hs) Hno]. split; [|exact Hno]. right. destruct (e_src e) as [[t n'] o] eqn:Es. cbn in Hs. injection Hs as -> ->.
    destruct (proj1 (Hpairs CLaunch n o)) as (s & q & Hx); [eauto|]. eauto.
Qed.

Definition spy_key (x : string * string * string) : string := fst (fst x).
Definition spy_launch (x : string * string * string) : string := snd (fst x).
Definition spy_drain (x : string * string * string) : string := snd x.

Lemma lookup_fresh {V} k (m : list (string * V)) l : (forall x, In x (keys m) -> In x l) -> ~ In k l -> lookup k m = None.
Proof. intros H Hk. apply lookup_none. auto. Qed.

Lemma spies to_add : forall c drains conns, ordered (cf_connection c) -> all_pairs (cf_connection c) ->
  (forall x, In x (keys (cf_drain c)) -> In x drains) -> (forall x, In x (keys (cf_connection c)) -> In x conns) ->
  exists added, map spy_launch added = to_add /\ NoDup (map spy_key added) /\ NoDup (map spy_drain added) /\
  let c' := add_spies c drains conns to_add in
  ordered (cf_connection c') /\ all_pairs (cf_connection c') /\
  cf_faucet c' = cf_faucet c /\ cf_regulator c' = cf_regulator c /\ cf_launch c' = cf_launch c /\
  (forall x, In x added -> ~ In (spy_key x) conns /\ ~ In (spy_drain x) drains /\
     lookup (spy_key x) (cf_connection c') = Some (spy_connection (spy_launch x) (spy_drain x)) /\ lookup (spy_drain x) (cf_drain c') = Some "/dev/null") /\
  (forall k, ~ In k (map spy_key added) -> lookup k (cf_connection c') = lookup k (cf_connection c)) /\
  (forall k, ~ In k (map spy_drain added) -> lookup k (cf_drain c') = lookup k (cf_drain c)).
Proof.
  induction to_add as [|n l IH]; intros c drains conns Ho Hp Hd Hc.
  - exists []. cbn. repeat split; auto; try constructor; easy.
  - cbn [add_spies]. set (dk := generate_new_key "dyn_drain" drains). set (ck := generate_new_key "dyn_connection" conns).
    assert (Fd : ~ In dk drains) by apply new_key_fresh. assert (Fc : ~ In ck conns) by apply new_key_fresh.
    match goal with |- context [add_spies ?x _ _ _] => set (c1 := x) end.
    destruct (IH c1 (dk :: drains) (ck :: conns)) as (added & Hl & Nk & Nd & Ho' & Hp' & F1 & F2 & F3 & Hin & Hk & Hdr).
    + apply ordered_bput. exact Ho.
    + apply all_pairs_bput; [discriminate|exact Hp].
    + intros x Hx. apply lookup_key in Hx. cbn [c1 cf_drain] in Hx. rewrite lookup_hput in Hx. destruct (String.eqb_spec x dk) as [Ex|Ex]; [left; auto|right].
      apply Hd, lookup_key. exact Hx.
    + intros x Hx. apply lookup_key in Hx. cbn [c1 cf_connection] in Hx. rewrite lookup_bput in Hx. destruct (String.eqb_spec x ck) as [Ex|Ex]; [left; auto|right].
      apply Hc, lookup_key. exact Hx.
    + assert (Nck : ~ In ck (map spy_key added)). { intros H. apply in_map_iff in H as (x & Hx & Hi). destruct (Hin _ Hi) as (H1 & _). apply H1. left. auto. }
      assert (Ndk : ~ In dk (map spy_drain added)). { intros H. apply in_map_iff in H as (x & Hx & Hi). destruct (Hin _ Hi) as (_ & H1 & _). apply H1. left. auto. }
      exists ((ck, n, dk) :: added). cbn [map]. split; [cbn; congruence|]. split; [constructor; auto|]. split; [constructor; auto|].
      cbn zeta. split; [exact Ho'|]. split; [exact Hp'|]. split; [exact F1|]. split; [exact F2|]. split; [exact F3|]. split; [|split].
      * intros x [<-|Hx].
        { cbn [spy_key spy_launch spy_drain fst snd]. split; [exact Fc|]. split; [exact Fd|]. rewrite (Hk _ Nck), (Hdr _ Ndk). cbn [c1 cf_connection cf_drain].
          rewrite lookup_bput, lookup_hput, !String.eqb_refl. auto. }
        { destruct (Hin _ Hx) as (H1 & H2 & H3 & H4). split; [intros H; apply H1; right; exact H|]. split; [intros H; apply H2; right; exact H|]. auto. }
      * intros k Hnk. cbn in Hnk. rewrite Hk by tauto. cbn [c1 cf_connection]. rewrite lookup_bput. destruct (String.eqb_spec k ck) as [->|]; [tauto|reflexivity].
      * intros k Hnk. cbn in Hnk. rewrite Hdr by tauto. cbn [c1 cf_drain]. rewrite lookup_hput. destruct (String.eqb_spec k dk) as [->|]; [tauto|reflexivity].
Qed.

(** ** All of it *)
Lemma leaving_old m r js je ks k e : built m js je ks r -> edge_at r k = Some e -> fst (fst (e_src e)) <> CJunction ->
  exists k0 e0, edge_at m k0 = Some e0 /\ e_src e0 = e_src e.
Proof.
  intros B He Hj. destruct (edge_at m k) as [e0|] eqn:E0.
  - exists k, e0. split; [exact E0|]. rewrite (bt_kept _ _ _ _ _ B _ _ E0) in He. injection He as <-. cbn in *. unfold via_src in *.
    destruct (js (e_src e0)); [cbn in Hj; congruence|reflexivity].
  - destruct (bt_made _ _ _ _ _ B _ _ E0 He) as (_ & [(j & Hs & _)|(j & _ & Hs)]).
    + apply (bt_from_s _ _ _ _ _ B). congruence.
    + rewrite Hs in Hj. cbn in Hj. congruence.
Qed.
Lemma still_leaving m r js je ks k e : built m js je ks r -> edge_at m k = Some e -> exists k' e', edge_at r k' = Some e' /\ e_src e' = e_src e.
Proof.
  intros B He. destruct (js (e_src e)) as [j|] eqn:Ej.
  - destruct (bt_start _ _ _ _ _ B _ _ Ej) as (k' & e' & _ & He' & Hs & _). eauto.
  - pose proof (bt_kept _ _ _ _ _ B _ _ He) as Hr. eexists k, _. split; [exact Hr|]. cbn. unfold via_src. rewrite Ej. reflexivity.
Qed.

Record prepared (sh : shuffles) (c c' : config) (p r : connmap) : Prop := Prepared {
  pr_paired : exists m1, convert_connections (cf_connection c) = Good (m1, []) /\ pair_up m1 = Good p;
  pr_joined : add_junctions sh p = Good r;
  pr_faucet : cf_faucet c' = cf_faucet c;
  pr_regulator : cf_regulator c' = cf_regulator c;
  pr_launch : cf_launch c' = cf_launch c;
  pr_ordered : ordered (cf_connection c');
  pr_pairs : all_pairs (cf_connection c');
  pr_drain : forall d v, lookup d (cf_drain c) = Some v -> lookup d (cf_drain c') = Some v;
  pr_new_drain : forall d v, lookup d (cf_drain c') = Some v -> lookup d (cf_drain c) = Some v \/
     (v = "/dev/null" /\ exists k n, lookup k r = None /\ lookup k (cf_connection c') = Some (spy_connection n d));
  pr_kept : forall k d, lookup k r = Some d -> lookup k (cf_connection c') = Some d;
  pr_new : forall k d, lookup k (cf_connection c') = Some d -> lookup k r = Some d \/
     exists n dn, d = spy_connection n dn /\ launches_out r n /\ (~ exists k e, edge_at r k = Some e /\ e_src e = exit_of n) /\
       lookup dn (cf_drain c) = None /\ lookup dn (cf_drain c') = Some "/dev/null" /\
       forall k' n' dn', lookup k' r = None -> lookup k' (cf_connection c') = Some (spy_connection n' dn') -> n' = n \/ dn' = dn -> k' = k;
  pr_exit : forall n, launches_out r n -> exactly_one_leaves (cf_connection c') (exit_of n)
}.

Lemma prepare sh c : fair sh -> Forall (fun kv => good_connection (snd kv)) (cf_connection c) ->
  exists c' p r, connection_manipulation sh c = Good (c', [keys (cf_drain c)]) /\ prepared sh c c' p r.
Proof.
  intros Hf Hg. destruct (paired _ Hg) as (m1 & p & added & E1 & E2 & Ho & Hp & _). destruct (junctions sh p Hf Ho Hp) as (js & je & ks & r & E3 & B & Hjs & Hje).
  pose proof (bt_ordered _ _ _ _ _ B) as Hor. pose proof (bt_pairs _ _ _ _ _ B) as Hpr. destruct (identify r Hor Hpr) as [Hnd Hid].
  set (to_add := sh_launches sh (identify_required_spies_for_launch_exits r)).
  assert (Hperm : Permutation to_add (identify_required_spies_for_launch_exits r)) by apply Hf.
  assert (Hnd' : NoDup to_add) by (eapply Permutation_NoDup; [apply Permutation_sym; exact Hperm|exact Hnd]).
  assert (Hid' : forall n, In n to_add <-> launches_out r n /\ ~ exists k e, edge_at r k = Some e /\ e_src e = exit_of n).
  { intros n. rewrite <- Hid. split; apply Permutation_in; [exact Hperm|apply Permutation_sym, Hperm]. }
  destruct (spies to_add (with_connection c r) (keys (cf_drain c)) (keys r) Hor Hpr (fun x H => H) (fun x H => H))
    as (sp & Hl & Nk & Nd & Ho' & Hp' & F1 & F2 & F3 & Hin & Hk & Hdr).
  cbn [with_connection cf_connection cf_drain cf_faucet cf_regulator cf_launch] in *.
  set (c' := add_spies (with_connection c r) (keys (cf_drain c)) (keys r) to_add) in *.
  assert (Knew : forall x, In x sp -> lookup (spy_key x) r = None) by (intros x Hx; apply lookup_none, Hin, Hx).
  assert (Kold : forall k d, lookup k r = Some d -> lookup k (cf_connection c') = Some d).
  { intros k d Hkd. rewrite Hk; [exact Hkd|]. intros Hc. apply in_map_iff in Hc as (x & <- & Hx). rewrite (Knew _ Hx) in Hkd. discriminate. }
  assert (Kspy : forall k d, lookup k r = None -> lookup k (cf_connection c') = Some d -> exists x, In x sp /\ spy_key x = k /\ d = spy_connection (spy_launch x) (spy_drain x)).
  { intros k d Hn Hd. destruct (in_dec string_dec k (map spy_key sp)) as [Hi|Hi].
    - apply in_map_iff in Hi as (x & <- & Hx). exists x. split; [exact Hx|]. split; [reflexivity|]. destruct (Hin _ Hx) as (_ & _ & H3 & _). congruence.
    - rewrite (Hk _ Hi) in Hd. congruence. }
  assert (Uniq : forall x y, In x sp -> In y sp -> spy_launch x = spy_launch y \/ spy_drain x = spy_drain y -> x = y).
  { assert (NL : NoDup (map spy_launch sp)) by (rewrite Hl; exact Hnd').
    assert (G : forall (f : string * string * string -> string) l, NoDup (map f l) -> forall x y, In x l -> In y l -> f x = f y -> x = y).
    { clear. intros f. induction l as [|a l IH]; intros Hn x y Hx Hy Hxy; [easy|]. cbn in Hn. inversion Hn as [|? ? Ha Hn']; subst.
      destruct Hx as [->|Hx], Hy as [->|Hy]; auto.
      - destruct Ha. rewrite Hxy. apply in_map. exact Hy.
      - destruct Ha. rewrite <- Hxy. apply in_map. exact Hx. }
    intros x y Hx Hy [H|H]; [apply (G spy_launch sp NL)|apply (G spy_drain sp Nd)]; auto. }
  exists c', p, r. split.
  - unfold connection_manipulation. rewrite E1. cbn [obind]. rewrite E2. cbn [obind]. rewrite E3. cbn [obind]. reflexivity.
  - constructor; auto.
    + exists m1. auto.
    + intros d v Hd. rewrite Hdr; [exact Hd|]. intros Hc. apply in_map_iff in Hc as (x & <- & Hx). destruct (Hin _ Hx) as (_ & H2 & _).
      apply lookup_none in H2. congruence.
    + intros d v Hd. destruct (in_dec string_dec d (map spy_drain sp)) as [Hi|Hi]; [|left; rewrite <- Hdr by exact Hi; exact Hd]. right.
      apply in_map_iff in Hi as (x & <- & Hx). destruct (Hin _ Hx) as (H1 & H2 & H3 & H4). split; [congruence|]. exists (spy_key x), (spy_launch x). auto.
    + intros k d Hd. destruct (lookup k r) as [d'|] eqn:Er; [left; rewrite (Kold _ _ Er) in Hd; congruence|]. right.
      destruct (Kspy _ _ Er Hd) as (x & Hx & <- & ->). exists (spy_launch x), (spy_drain x). split; [reflexivity|].
      destruct (Hin _ Hx) as (H1 & H2 & H3 & H4). assert (Hi : In (spy_launch x) to_add) by (rewrite <- Hl; apply in_map; exact Hx).
      apply Hid' in Hi as [Ha Hb]. split; [exact Ha|]. split; [exact Hb|]. split; [apply lookup_none; exact H2|]. split; [exact H4|].
      intros k' n' dn' Hk' Hl' Hor'. destruct (Kspy _ _ Hk' Hl') as (y & Hy & <- & Hy'). injection Hy' as -> ->. f_equal. apply Uniq; auto.
    + intros n Hn. destruct (in_dec string_dec n to_add) as [Hi|Hi].
      * rewrite <- Hl in Hi. apply in_map_iff in Hi as (x & Hxn & Hx). destruct (Hin _ Hx) as (H1 & H2 & H3 & H4).
        assert (Hno : ~ exists k e, edge_at r k = Some e /\ e_src e = exit_of n). { apply (Hid' n). rewrite <- Hl, <- Hxn. apply in_map. exact Hx. }
        assert (Only : forall k e, edge_at (cf_connection c') k = Some e -> e_src e = exit_of n -> k = spy_key x).
        { intros k e He Hs. unfold edge_at in He. destruct (lookup k (cf_connection c')) as [d|] eqn:Ed; [|discriminate].
          destruct (lookup k r) as [d'|] eqn:Er.
          - destruct Hno. exists k, e. split; [|exact Hs]. unfold edge_at. rewrite Er. rewrite (Kold _ _ Er) in Ed. congruence.
          - destruct (Kspy _ _ Er Ed) as (y & Hy & <- & ->). cbn in He. injection He as <-. cbn in Hs. injection Hs as Hs. f_equal. apply Uniq; auto. left. congruence. }
        split.
        -- eexists (spy_key x), _. unfold edge_at. rewrite H3. cbn. split; [reflexivity|]. cbn. unfold exit_of. congruence.
        -- intros k1 k2 e1 e2 K1 K2 S1 S2. rewrite (Only _ _ K1 S1), (Only _ _ K2 S2). reflexivity.
      * assert (Hex : exists k e, edge_at r k = Some e /\ e_src e = exit_of n).
        { destruct (le_dec 1 (count (from (exit_of n)) r)) as [H1|H1].
          - apply (count_one _ _ (ordered_nodup _ Hor)) in H1 as (k & e & He & HP). exists k, e. split; [exact He|]. unfold from in HP.
            destruct (source_eqb_spec (exit_of n) (e_src e)); congruence.
          - destruct Hi. apply Hid'. split; [exact Hn|]. intros (k & e & He & Hs). apply H1, (count_one _ _ (ordered_nodup _ Hor)). exists k, e.
            split; [exact He|]. unfold from. rewrite Hs. destruct (source_eqb_spec (exit_of n) (exit_of n)); congruence. }
        destruct Hex as (k & e & He & Hs). split.
        -- unfold edge_at in He. destruct (lookup k r) as [d|] eqn:Er; [|discriminate]. exists k, e. split; [|exact Hs]. unfold edge_at. rewrite (Kold _ _ Er). exact He.
        -- assert (One : one_leaves r (exit_of n)).
           { apply (leaves_once _ _ _ _ _ B).
             - intros Hnone. apply (single_source _ _ (ordered_nodup _ Ho)). rewrite <- Hjs. congruence.
             - destruct (leaving_old _ _ _ _ _ _ _ B He) as (k0 & e0 & H0 & S0); [rewrite Hs; discriminate|].
               pose proof (occurs_src _ _ _ H0) as Hoc. rewrite S0, Hs in Hoc. exact Hoc. }
           assert (Only : forall k e, edge_at (cf_connection c') k = Some e -> e_src e = exit_of n -> edge_at r k = Some e).
           { clear k e He Hs. intros k e He Hs. unfold edge_at in *. destruct (lookup k (cf_connection c')) as [d|] eqn:Ed; [|discriminate].
             destruct (lookup k r) as [d'|] eqn:Er.
             - rewrite (Kold _ _ Er) in Ed. congruence.
             - exfalso. destruct (Kspy _ _ Er Ed) as (y & Hy & <- & ->). cbn in He. injection He as <-. cbn in Hs. injection Hs as Hs. apply Hi. rewrite <- Hs, <- Hl. apply in_map. exact Hy. }
           intros k1 k2 e1 e2 K1 K2 S1 S2. eapply One; eauto.
Qed.

(** ** The statements *)
Lemma source_leaves m m1 p added : Forall (fun kv => good_connection (snd kv)) m -> pairs_of m1 added -> ordered p -> (forall k d, In (k, d) p <-> In (k, d) added) ->
  (forall k l, In (k, Connections l) m1 <-> reads m k l) -> chains m1 ->
  forall k l x o, reads m k l -> In x l -> output_of x = Some o -> exists k' e, edge_at p k' = Some e /\ e_src e = (conn_type x, conn_name x, o).
Proof.
  intros Hg Hp Ho Hi Hr Hc k l x o Hk Hx Hox. apply Hr in Hk. unfold chains in Hc. rewrite Forall_forall in Hc. destruct (Hc _ Hk) as (l' & Hl' & Hch). cbn in Hl'. injection Hl' as <-.
  destruct (chain_next _ _ _ Hch Hx Hox) as (y & Hy). destruct (pairs_in _ _ Hp _ _ _ Hk Hy) as (k' & d & Hin & Hpair).
  destruct (pair_edge _ _ _ _ Hpair Hox) as (i & Hi' & He). exists k'. eexists. split; [eapply in_edge; [exact Ho|apply Hi; exact Hin|exact He]|reflexivity].
Qed.

Lemma one_exit sh c : fair sh -> good_connections (cf_connection c) -> exists c' out, connection_manipulation sh c = Good (c', out) /\
  (forall n, is_source (cf_connection c) (CLaunch, n) -> exactly_one_leaves (cf_connection c') (exit_of n)) /\
  (forall d v, lookup d (cf_drain c) = Some v -> lookup d (cf_drain c') = Some v) /\
  cf_faucet c' = cf_faucet c /\ cf_regulator c' = cf_regulator c /\ cf_launch c' = cf_launch c.
Proof.
  intros Hf [Hoc Hg]. destruct (prepare sh c Hf Hg) as (c' & p & r & E & P). exists c', [keys (cf_drain c)]. split; [exact E|].
  split; [|split; [|split; [|split]]]; try (destruct P; assumption).
  intros n (k & l & x & o & Hk & Hx & Hn & Hox). apply (pr_exit _ _ _ _ _ P).
  destruct (paired _ Hg) as (m1 & p' & added & E1 & E2 & Ho & Hp & Hpo & Hi & Hr & Hc).
  destruct (pr_paired _ _ _ _ _ P) as (m1' & E1' & E2'). rewrite E1 in E1'. injection E1' as <-. rewrite E2 in E2'. injection E2' as <-.
  destruct (source_leaves _ _ _ _ Hg Hpo Ho Hi Hr Hc _ _ _ _ Hk Hx Hox) as (k' & e & He & Hs).
  destruct (junctions sh p' Hf Ho Hp) as (js & je & ks & r' & E3 & B & _). rewrite (pr_joined _ _ _ _ _ P) in E3. injection E3 as <-.
  destruct (still_leaving _ _ _ _ _ _ _ B He) as (k2 & e2 & He2 & Hs2). exists k2, e2. split; [exact He2|]. rewrite Hs2, Hs. exact Hn.
Qed.

Definition without_spies (sh : shuffles) (m : connmap) : outcome connmap :=
  obind (convert_connections m) (fun '(read, _) => obind (pair_up read) (add_junctions sh)).

Lemma rest_kept sh c : fair sh -> good_connections (cf_connection c) -> exists c' out m1 p r, connection_manipulation sh c = Good (c', out) /\
  convert_connections (cf_connection c) = Good (m1, []) /\ pair_up m1 = Good p /\ add_junctions sh p = Good r /\
  (forall k d, lookup k r = Some d -> lookup k (cf_connection c') = Some d) /\
  (forall k d, lookup k (cf_connection c') = Some d -> lookup k r = Some d \/
     exists n dn, d = spy_connection n dn /\ launches_out r n /\ (forall k e, edge_at r k = Some e -> e_src e <> exit_of n) /\
       lookup dn (cf_drain c) = None /\ lookup dn (cf_drain c') = Some "/dev/null").
Proof.
  intros Hf [Hoc Hg]. destruct (prepare sh c Hf Hg) as (c' & p & r & E & P). destruct (pr_paired _ _ _ _ _ P) as (m1 & E1 & E2).
  exists c', [keys (cf_drain c)], m1, p, r. split; [exact E|]. split; [exact E1|]. split; [exact E2|]. split; [exact (pr_joined _ _ _ _ _ P)|]. split; [exact (pr_kept _ _ _ _ _ P)|].
  intros k d Hd. destruct (pr_new _ _ _ _ _ P _ _ Hd) as [H|(n & dn & H1 & H2 & H3 & H4 & H5 & _)]; [auto|]. right. exists n, dn.
  split; [exact H1|]. split; [exact H2|]. split; [|auto]. intros k' e He Hs. apply H3. eauto.
Qed.

Lemma junctions_spread sh m : fair sh -> ordered m -> all_pairs m -> exists r, add_junctions sh m = Good r /\
  (forall c, occurs m c -> one_arrives r c) /\ (forall c o, occurs m c -> one_leaves r (c, o)).
Proof.
  intros Hf Ho Hm. destruct (junctions sh m Hf Ho Hm) as (js & je & ks & r & E & B & Hjs & Hje). exists r. split; [exact E|]. split.
  - intros c. apply (arrives_once _ _ _ _ _ B). intros H. apply (single_dest _ _ (ordered_nodup _ Ho)). rewrite <- Hje. congruence.
  - intros c o Hc. apply (leaves_once _ _ _ _ _ B); [|exact Hc]. intros H. apply (single_source _ _ (ordered_nodup _ Ho)). rewrite <- Hjs. congruence.
Qed.
Lemma junctions_routes sh m : fair sh -> ordered m -> all_pairs m -> exists r, add_junctions sh m = Good r /\
  forall s d, occurs m (fst s) -> same_routes m r s d.
Proof. intros Hf Ho Hm. destruct (junctions sh m Hf Ho Hm) as (js & je & ks & r & E & B & _). exists r. split; [exact E|]. intros s d. apply (same_ways _ _ _ _ _ B). Qed.
Lemma junctions_marks sh m : fair sh -> ordered m -> all_pairs m -> exists r, add_junctions sh m = Good r /\
  (forall k e, edge_at m k = Some e -> exists e', edge_at r k = Some e' /\ e_in e' = e_in e) /\
  (forall k e, edge_at m k = None -> edge_at r k = Some e -> ip_breakable (e_in e) = Finish /\
     (occurs m (fst (e_src e)) -> exists k0 e0, first_such m (fun x => e_src x = e_src e) k0 e0 /\ ip_priority (e_in e) = ip_priority (e_in e0)) /\
     (occurs m (e_dst e) -> exists k0 e0, first_such m (fun x => e_dst x = e_dst e) k0 e0 /\ ip_priority (e_in e) = ip_priority (e_in e0))).
Proof.
  intros Hf Ho Hm. destruct (junctions sh m Hf Ho Hm) as (js & je & ks & r & E & B & _). exists r. split; [exact E|]. split.
  - intros k e He. eexists. split; [exact (bt_kept _ _ _ _ _ B _ _ He)|reflexivity].
  - intros k e Hk He. destruct (bt_made _ _ _ _ _ B _ _ Hk He) as (Hfin & Hm'). split; [exact Hfin|]. destruct Hm' as [(j & Hj & Hd)|(j & Hj & Hs)]; split; intros Hoc.
    + apply (bt_mark_s _ _ _ _ _ B _ _ Hk He). congruence.
    + rewrite Hd in Hoc. destruct (bt_new_s _ _ _ _ _ B _ _ Hj Hoc).
    + rewrite Hs in Hoc. destruct (bt_new_e _ _ _ _ _ B _ _ Hj Hoc).
    + apply (bt_mark_e _ _ _ _ _ B _ _ Hk He). congruence.
Qed.
Lemma junctions_only_shared sh m : fair sh -> ordered m -> all_pairs m -> exists r, add_junctions sh m = Good r /\
  (forall k e, edge_at m k = Some e -> one_leaves m (e_src e) -> one_arrives m (e_dst e) -> edge_at r k = Some e) /\
  (forall k e, edge_at m k = None -> edge_at r k = Some e ->
     (occurs m (fst (e_src e)) /\ ~ one_leaves m (e_src e) /\ ~ occurs m (e_dst e) /\ fst (e_dst e) = CJunction) \/
     (occurs m (e_dst e) /\ ~ one_arrives m (e_dst e) /\ ~ occurs m (fst (e_src e)) /\ fst (fst (e_src e)) = CJunction)).
Proof.
  intros Hf Ho Hm. destruct (junctions sh m Hf Ho Hm) as (js & je & ks & r & E & B & Hjs & Hje). exists r. split; [exact E|].
  pose proof (ordered_nodup _ Ho) as Hnd. split.
  - intros k e He H1 H2. rewrite (bt_kept _ _ _ _ _ B _ _ He). unfold via_src, via_dst.
    apply (single_source _ _ Hnd) in H1. apply (single_dest _ _ Hnd) in H2.
    destruct (js (e_src e)) as [j|] eqn:Ej; [destruct H1; apply Hjs; congruence|]. destruct (je (e_dst e)) as [j|] eqn:Ej'; [destruct H2; apply Hje; congruence|].
    destruct e; reflexivity.
  - intros k e Hk He. destruct (bt_made _ _ _ _ _ B _ _ Hk He) as (_ & [(j & Hj & Hd)|(j & Hj & Hs)]).
    + left. destruct (bt_from_s _ _ _ _ _ B (e_src e)) as (k0 & e0 & H0 & S0); [congruence|]. split; [rewrite <- S0; eapply occurs_src; eauto|].
      split; [|split; [|rewrite Hd; reflexivity]].
      * intros H. apply (single_source _ _ Hnd) in H. apply H, Hjs. congruence.
      * rewrite Hd. exact (bt_new_s _ _ _ _ _ B _ _ Hj).
    + right. destruct (bt_from_e _ _ _ _ _ B (e_dst e)) as (k0 & e0 & H0 & S0); [congruence|]. split; [rewrite <- S0; eapply occurs_dst; eauto|].
      split; [|split; [|rewrite Hs; reflexivity]].
      * intros H. apply (single_dest _ _ Hnd) in H. apply H, Hje. congruence.
      * rewrite Hs. exact (bt_new_e _ _ _ _ _ B _ _ Hj).
Qed.

(** A text that is not a connection *)
Lemma convert_keeps m m1 w : convert_connections m = Good (m1, w) -> forall k s, In (k, JoinString s) m -> (forall l, ~ connection_text l s) -> In (k, JoinString s) m1.
Proof.
  unfold convert_connections. revert m1 w. induction m as [|[k0 d] m IH]; intros m1 w; cbn [omap]; [intros _ k s []|].
  destruct (convert_one (k0, d)) as [x|] eqn:E0; [|discriminate]. cbn [obind]. destruct (omap convert_one m) as [r|] eqn:Er; [|discriminate].
  cbn [obind map flat_map]. intros [= <- <-] k s Hin Hno. destruct Hin as [Heq|Hin].
  - injection Heq as -> ->. left. unfold convert_one in E0. cbn [snd fst] in E0. rewrite (load_rejects _ Hno) in E0. cbn in E0. injection E0 as <-. reflexivity.
  - right. eapply IH; eauto. reflexivity.
Qed.
Lemma ofold_crash {A B} (f : B -> A -> outcome B) l x : In x l -> (forall b, exists msg, f b x = Crash msg) -> forall b, exists msg, ofold f l b = Crash msg.
Proof.
  intros Hin Hx. induction l as [|a l IH]; intros b; [easy|]. cbn [ofold]. destruct Hin as [->|Hin].
  - destruct (Hx b) as (msg & ->). exists msg. reflexivity.
  - destruct (f b a); [apply IH; exact Hin|cbn; eauto].
Qed.
Lemma bad_text_crashes sh c k s : In (k, JoinString s) (cf_connection c) -> (forall l, ~ connection_text l s) -> exists msg, connection_manipulation sh c = Crash msg.
Proof.
  intros Hin Hno. unfold connection_manipulation. destruct (convert_connections (cf_connection c)) as [[m1 w]|msg] eqn:E; [|cbn; eauto]. cbn [obind].
  pose proof (convert_keeps _ _ _ E _ _ Hin Hno) as Hin1. unfold pair_up.
  edestruct (ofold_crash rebuild_pair_up_connections_folder m1 _ Hin1) as (msg & Em); [|rewrite Em; cbn; eauto].
  intros b. cbn. eauto.
Qed.
Lemma prints sh c c' out : connection_manipulation sh c = Good (c', out) -> out = [keys (cf_drain c)].
Proof.
  unfold connection_manipulation. destruct (convert_connections (cf_connection c)) as [[m1 w]|]; [|discriminate]. cbn [obind].
  destruct (pair_up m1); [|discriminate]. cbn [obind]. destruct (add_junctions sh a); [|discriminate]. cbn [obind]. unfold add_launch_exit_spies. intros [= <- <-]. reflexivity.
Qed.

(** Every component named in the connections *)
Lemma tail_before l : chain_tail l -> forall t n o s x, In x l -> exists a, In (a, x) (neighbours (StartC t n o s :: l)) /\ output_of a <> None.
Proof.
  induction 1 as [t n i s|t n i o s l Ht IH]; intros t' n' o' s' x Hin.
  - destruct Hin as [<-|[]]. eexists. split; [left; reflexivity|discriminate].
  - destruct Hin as [<-|Hin]; [eexists; split; [left; reflexivity|discriminate]|].
    destruct (IH t n o s x Hin) as (a & Ha & Hoa). destruct l as [|y l]; [inversion Ht|]. cbn [neighbours] in Ha. destruct Ha as [[= <- <-]|Ha].
    + eexists. split; [right; left; reflexivity|discriminate].
    + exists a. split; [right; right; exact Ha|exact Hoa].
Qed.
Lemma mentioned_occurs m m1 p added : Forall (fun kv => good_connection (snd kv)) m -> pairs_of m1 added -> ordered p -> (forall k d, In (k, d) p <-> In (k, d) added) ->
  (forall k l, In (k, Connections l) m1 <-> reads m k l) -> chains m1 -> forall c, is_mentioned m c -> occurs p c.
Proof.
  intros Hg Hp Ho Hi Hr Hc c (k & l & x & Hk & Hx & <-). apply Hr in Hk. unfold chains in Hc. rewrite Forall_forall in Hc.
  destruct (Hc _ Hk) as (l' & Hl' & Hch). cbn in Hl'. injection Hl' as <-.
  assert (Hab : exists a b o, In (a, b) (neighbours l) /\ output_of a = Some o /\ (x = a \/ x = b)).
  { destruct Hch as [|t n o s l' Ht]; [easy|]. destruct Hx as [<-|Hx].
    - destruct l' as [|y l']; [inversion Ht|]. exists (StartC t n o s), y, o. split; [left; reflexivity|auto].
    - destruct (tail_before _ Ht t n o s x Hx) as (a & Ha & Hoa). destruct (output_of a) as [o'|] eqn:Eo; [|congruence]. exists a, x, o'. auto. }
  destruct Hab as (a & b & o & Hab & Hoa & Hxab). destruct (pairs_in _ _ Hp _ _ _ Hk Hab) as (k' & d & Hin & Hpair).
  destruct (pair_edge _ _ _ _ Hpair Hoa) as (i & Hi' & He). exists k'. eexists. split; [eapply in_edge; [exact Ho|apply Hi; exact Hin|exact He]|].
  cbn. destruct Hxab as [->| ->]; auto.
Qed.

Lemma prepared_spread sh c : fair sh -> good_connections (cf_connection c) -> exists c' out, connection_manipulation sh c = Good (c', out) /\
  forall x, is_mentioned (cf_connection c) x ->
    (forall o, one_leaves (cf_connection c') (x, o)) /\
    ((fst x = CDrain -> lookup (snd x) (cf_drain c) <> None) -> one_arrives (cf_connection c') x).
Proof.
  intros Hf [Hoc Hg]. destruct (prepare sh c Hf Hg) as (c' & p & r & E & P). exists c', [keys (cf_drain c)]. split; [exact E|].
  destruct (paired _ Hg) as (m1 & p' & added & E1 & E2 & Ho & Hp & Hpo & Hi & Hr & Hc).
  destruct (pr_paired _ _ _ _ _ P) as (m1' & E1' & E2'). rewrite E1 in E1'. injection E1' as <-. rewrite E2 in E2'. injection E2' as <-.
  destruct (junctions_spread sh p' Hf Ho Hp) as (r' & E3 & Har & Hle). rewrite (pr_joined _ _ _ _ _ P) in E3. injection E3 as <-.
  assert (Cases : forall k e, edge_at (cf_connection c') k = Some e -> edge_at r k = Some e \/
     exists n dn, lookup k r = None /\ lookup k (cf_connection c') = Some (spy_connection n dn) /\ e = Edge (exit_of n) (CDrain, dn) (InPort Terminate 0) /\
       (~ exists k e, edge_at r k = Some e /\ e_src e = exit_of n) /\ lookup dn (cf_drain c) = None /\
       forall k' n' dn', lookup k' r = None -> lookup k' (cf_connection c') = Some (spy_connection n' dn') -> n' = n \/ dn' = dn -> k' = k).
  { intros k e He. unfold edge_at in *. destruct (lookup k (cf_connection c')) as [d|] eqn:Ed; [|discriminate]. destruct (lookup k r) as [d'|] eqn:Er.
    - left. rewrite (pr_kept _ _ _ _ _ P _ _ Er) in Ed. congruence.
    - right. destruct (pr_new _ _ _ _ _ P _ _ Ed) as [H|(n & dn & -> & H2 & H3 & H4 & H5 & H6)]; [congruence|]. exists n, dn.
      cbn in He. injection He as <-. repeat split; auto. }
  intros x Hx. pose proof (mentioned_occurs _ _ _ _ Hg Hpo Ho Hi Hr Hc _ Hx) as Hox. split.
  - intros o k1 k2 e1 e2 K1 K2 S1 S2.
    destruct (Cases _ _ K1) as [K1'|(n & dn & Hn & Hl & -> & Hno & Hd & Hu)], (Cases _ _ K2) as [K2'|(n' & dn' & Hn' & Hl' & -> & Hno' & Hd' & Hu')].
    + exact (Hle x o Hox k1 k2 e1 e2 K1' K2' S1 S2).
    + destruct Hno'. exists k1, e1. split; [exact K1'|]. cbn in S2. congruence.
    + destruct Hno. exists k2, e2. split; [exact K2'|]. cbn in S1. congruence.
    + eapply Hu'; [exact Hn|exact Hl|]. left. cbn in S1, S2. unfold exit_of in *. congruence.
  - intros Hdr k1 k2 e1 e2 K1 K2 S1 S2.
    destruct (Cases _ _ K1) as [K1'|(n & dn & Hn & Hl & -> & Hno & Hd & Hu)].
    + destruct (Cases _ _ K2) as [K2'|(n' & dn' & Hn' & Hl' & -> & Hno' & Hd' & Hu')]; [exact (Har x Hox k1 k2 e1 e2 K1' K2' S1 S2)|].
      cbn in S2. rewrite <- S2 in Hdr. destruct Hdr; auto.
    + cbn in S1. rewrite <- S1 in Hdr. destruct Hdr; auto.
Qed.
