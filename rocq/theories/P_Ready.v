(** * P_Ready: when a prepared configuration can be built *)
From Coq Require Import Ascii String List Bool Arith ZArith Lia Permutation.
From Verif Require Import M_Prog M_Motion M_Connectable M_Config M_Manip M_Faucet M_Launch M_Junction M_Buffer M_Drain M_Regulator M_Waiter S_Grammar S_Manip S_Waiter P_Text P_Map P_Pair P_Junctions P_Junctions2 P_Manip P_Cell P_Wire P_Build.
Import ListNotations.
Local Open Scope string_scope.

(** ** Maps of pairs *)
Definition elink (e : edge) : link := Link (fst (e_src e)) (snd (e_src e)) (e_dst e) (e_in e).
Lemma pair_links d e : edge_of d = Some e -> flat_map link_of (neighbours (listed d)) = [elink e].
Proof. intros H. apply edge_shape in H as (t & n & o & s & t' & n' & i & s' & -> & ->). reflexivity. Qed.
Lemma pair_written d e k : edge_of d = Some e -> exists l, snd (k : string, d) = Connections l /\ chain l.
Proof. intros H. apply edge_shape in H as (t & n & o & s & t' & n' & i & s' & -> & ->). eexists. split; [reflexivity|]. repeat constructor. Qed.
Lemma pairs_written m : all_pairs m -> written_out m.
Proof.
  intros H. unfold written_out. eapply Forall_impl; [|exact H]. intros [k d]. cbn [snd]. intros Hd. destruct (edge_of d) as [e|] eqn:E; [|congruence]. exact (pair_written d e k E).
Qed.
Lemma nth_links m : all_pairs m -> ordered m -> forall i a, nth_error (links m) i = Some a <-> exists k d e, nth_error m i = Some (k, d) /\ edge_at m k = Some e /\ a = elink e.
Proof.
  intros Hp Ho. assert (G : forall i a, nth_error (links m) i = Some a <-> exists k d e, nth_error m i = Some (k, d) /\ edge_of d = Some e /\ a = elink e).
  { clear Ho. induction Hp as [|[k d] m Hd Hm IH]; intros i a.
    - destruct i; (split; [discriminate|intros (k & d & e & H & _); discriminate]).
    - cbn [snd] in Hd. destruct (edge_of d) as [e|] eqn:E; [|congruence]. unfold links. cbn [flat_map snd]. rewrite (pair_links _ _ E). cbn [app].
      destruct i as [|i]; cbn [nth_error]; [|apply IH]. split.
      + intros [= <-]. exists k, d, e. auto.
      + intros (k' & d' & e' & [= <- <-] & He & ->). congruence. }
  intros i a. rewrite G. split; intros (k & d & e & Hn & He & ->); exists k, d, e; (split; [exact Hn|]; split; [|reflexivity]); apply nth_error_In in Hn;
    unfold edge_at in *; rewrite (in_lookup _ _ _ (ordered_nodup _ Ho) Hn) in *; exact He.
Qed.
Lemma in_links m : all_pairs m -> ordered m -> forall a, In a (links m) <-> exists k e, edge_at m k = Some e /\ a = elink e.
Proof.
  intros Hp Ho a. split.
  - intros H. apply In_nth_error in H as [i H]. apply (nth_links m Hp Ho) in H as (k & d & e & _ & He & ->). eauto.
  - intros (k & e & He & ->). unfold edge_at in He. destruct (lookup k m) as [d|] eqn:El; [|discriminate]. apply lookup_in, In_nth_error in El as [i Hi].
    apply (nth_error_In (links m) i). apply (nth_links m Hp Ho). exists k, d, e. split; [exact Hi|]. split; [|reflexivity]. unfold edge_at.
    rewrite (in_lookup _ _ _ (ordered_nodup _ Ho) (nth_error_In _ _ Hi)). exact He.
Qed.
Lemma same_place {V} (m : list (string * V)) : NoDup (keys m) -> forall i j k d d', nth_error m i = Some (k, d) -> nth_error m j = Some (k, d') -> i = j.
Proof.
  intros H i j k d d' Hi Hj. eapply (NoDup_nth_error (keys m)); [exact H| |].
  - unfold keys. rewrite map_length. apply nth_error_Some. congruence.
  - unfold keys. rewrite !nth_error_map, Hi, Hj. reflexivity.
Qed.
Lemma place_of m k e : edge_at m k = Some e -> exists i d, nth_error m i = Some (k, d).
Proof. unfold edge_at. destruct (lookup k m) as [d|] eqn:El; [|discriminate]. apply lookup_in, In_nth_error in El as [i Hi]. eauto. Qed.

Lemma pairs_mentioned m : all_pairs m -> ordered m -> forall c, is_mentioned m c <-> occurs m c.
Proof.
  intros Hp Ho c. pose proof (ordered_nodup _ Ho) as Hnd. split.
  - intros (k & l & x & (d & Hd & Hl) & Hx & Hc). pose proof Hp as Hp'. unfold all_pairs in Hp'. rewrite Forall_forall in Hp'. specialize (Hp' _ Hd). cbn [snd] in Hp'.
    destruct (edge_of d) as [e|] eqn:E; [|congruence]. exists k, e. unfold edge_at. rewrite (in_lookup _ _ _ Hnd Hd). split; [exact E|].
    apply edge_shape in E as (t & n & o & s & t' & n' & i & s' & -> & ->). destruct Hl as [[= <-]|(s0 & [=] & _)]. cbn. destruct Hx as [<-|[<-|[]]]; auto.
  - intros (k & e & He & Hc). unfold edge_at in He. destruct (lookup k m) as [d|] eqn:El; [|discriminate]. apply lookup_in in El.
    apply edge_shape in He as (t & n & o & s & t' & n' & i & s' & -> & ->). cbn in Hc.
    exists k, [StartC t n o s; EndC t' n' i s']. destruct Hc as [<-|<-]; [exists (StartC t n o s)|exists (EndC t' n' i s')]; (split; [eexists; split; [exact El|auto]|]); cbn; auto.
Qed.

(** The pairs are those of neighbours as written. *)
Lemma from_written c p m1 added : pairs_of m1 added -> ordered p -> (forall k d, In (k, d) p <-> In (k, d) added) ->
  (forall k l, In (k, Connections l) m1 <-> reads (cf_connection c) k l) -> forall k e, edge_at p k = Some e ->
  exists a b, written (cf_connection c) a /\ written (cf_connection c) b /\ output_of a = Some (snd (e_src e)) /\ (conn_type a, conn_name a) = fst (e_src e) /\
    input_of b = Some (e_in e) /\ (conn_type b, conn_name b) = e_dst e.
Proof.
  intros Hp Ho Hi Hr k e He. unfold edge_at in He. destruct (lookup k p) as [d|] eqn:El; [|discriminate]. apply lookup_in in El. apply Hi in El.
  destruct (pairs_from _ _ Hp _ _ El) as (k0 & l & [a b] & Hk & Hab & x & y & -> & (o & Eo & ->) & (i & Ei & ->)). cbn [fst snd] in *. cbn in He. injection He as <-.
  apply Hr in Hk. apply neighbours_in in Hab as [Ha Hb]. exists a, b. cbn. unfold written. repeat split; eauto.
Qed.

(** ** Preparation *)
Section Prepared.
Variables (sh : shuffles) (c c' : config) (p r : connmap).
Hypothesis Hf : fair sh.
Hypothesis Ho : ordered p.
Hypothesis Hp : all_pairs p.
Hypothesis P : prepared sh c c' p r.
Hypothesis Hmention : forall x, is_mentioned (cf_connection c) x <-> occurs p x.
Hypothesis Hdrains : forall n, is_mentioned (cf_connection c) (CDrain, n) -> lookup n (cf_drain c) <> None.

Lemma prepared_edges k e : edge_at (cf_connection c') k = Some e -> edge_at r k = Some e \/
  exists n dn, lookup k r = None /\ lookup k (cf_connection c') = Some (spy_connection n dn) /\ e = Edge (exit_of n) (CDrain, dn) (InPort Terminate 0) /\ launches_out r n /\
    (~ exists k e, edge_at r k = Some e /\ e_src e = exit_of n) /\ lookup dn (cf_drain c) = None /\
    forall k' n' dn', lookup k' r = None -> lookup k' (cf_connection c') = Some (spy_connection n' dn') -> n' = n \/ dn' = dn -> k' = k.
Proof.
  intros He. unfold edge_at in *. destruct (lookup k (cf_connection c')) as [d|] eqn:Ed; [|discriminate]. destruct (lookup k r) as [d'|] eqn:Er.
  - left. rewrite (pr_kept _ _ _ _ _ P _ _ Er) in Ed. congruence.
  - right. destruct (pr_new _ _ _ _ _ P _ _ Ed) as [H|(n & dn & -> & H2 & H3 & H4 & H5 & H6)]; [congruence|]. exists n, dn.
    cbn in He. injection He as <-. auto 10.
Qed.
Lemma kept_edges k e : edge_at r k = Some e -> edge_at (cf_connection c') k = Some e.
Proof. unfold edge_at. destruct (lookup k r) as [d|] eqn:Er; [|discriminate]. rewrite (pr_kept _ _ _ _ _ P _ _ Er). auto. Qed.

Lemma joined_edge js je ks k e : built p js je ks r -> (forall x, je x <> None <-> 2 <= count (into x) p) -> edge_at r k = Some e ->
  ((exists k0 e0, edge_at p k0 = Some e0 /\ e_src e0 = e_src e) \/ (fst (fst (e_src e)) = CJunction /\ ~ occurs p (fst (e_src e)))) /\
  ((exists k0 e0, first_such p (fun x => e_dst x = e_dst e) k0 e0 /\ ip_priority (e_in e) = ip_priority (e_in e0)) \/ (fst (e_dst e) = CJunction /\ ~ occurs p (e_dst e))).
Proof.
  intros B Hje He. destruct (edge_at p k) as [e0|] eqn:E0.
  - pose proof (bt_kept _ _ _ _ _ B _ _ E0) as Hk. rewrite He in Hk. injection Hk as ->. cbn [e_src e_dst e_in]. unfold via_src, via_dst. split.
    + destruct (js (e_src e0)) as [j|] eqn:Ej; [right; split; [reflexivity|exact (bt_new_s _ _ _ _ _ B _ _ Ej)]|left; eauto].
    + destruct (je (e_dst e0)) as [j|] eqn:Ej; [right; split; [reflexivity|exact (bt_new_e _ _ _ _ _ B _ _ Ej)]|left]. exists k, e0. split; [|reflexivity]. split; [exact E0|]. split; [reflexivity|].
      intros k' e' He' Hd. left. assert (H1 : one_arrives p (e_dst e0)).
      { apply single_dest; [apply ordered_nodup; exact Ho|]. rewrite <- Hje. congruence. }
      exact (H1 _ _ _ _ He' E0 Hd eq_refl).
  - destruct (bt_made _ _ _ _ _ B _ _ E0 He) as (_ & [(j & Hj & Hd)|(j & Hj & Hs)]); split.
    + left. apply (bt_from_s _ _ _ _ _ B). congruence.
    + right. rewrite Hd. split; [reflexivity|exact (bt_new_s _ _ _ _ _ B _ _ Hj)].
    + right. rewrite Hs. split; [reflexivity|exact (bt_new_e _ _ _ _ _ B _ _ Hj)].
    + left. apply (bt_mark_e _ _ _ _ _ B _ _ E0 He). congruence.
Qed.
Lemma paired_edge js je ks k e : built p js je ks r -> edge_at p k = Some e ->
  (exists k1 e1, edge_at r k1 = Some e1 /\ e_src e1 = e_src e) /\
  (exists k1 e1 k0 e0, edge_at r k1 = Some e1 /\ e_dst e1 = e_dst e /\ edge_at p k0 = Some e0 /\ e_dst e0 = e_dst e /\
    (je (e_dst e) = None -> k0 = k) /\ (je (e_dst e) <> None -> first_such p (fun x => e_dst x = e_dst e) k0 e0) /\ ip_priority (e_in e1) = ip_priority (e_in e0)).
Proof.
  intros B He. split.
  - exact (still_leaving _ _ _ _ _ _ _ B He).
  - destruct (je (e_dst e)) as [j|] eqn:Ej.
    + destruct (bt_end _ _ _ _ _ B _ _ Ej) as (k1 & e1 & N1 & H1 & D1 & S1 & _). exists k1, e1.
      destruct (bt_mark_e _ _ _ _ _ B _ _ N1 H1) as (k0 & e0 & F & Hpr); [congruence|]. exists k0, e0. rewrite D1 in F. destruct F as (F1 & F2 & F3).
      split; [exact H1|]. split; [exact D1|]. split; [exact F1|]. split; [exact F2|]. split; [discriminate|]. split; [|exact Hpr]. intros _. split; auto.
    + exists k. eexists. exists k, e. split; [exact (bt_kept _ _ _ _ _ B _ _ He)|]. cbn. unfold via_dst. rewrite Ej. repeat split; auto; congruence.
Qed.

Lemma ready : sound c p <-> buildable c' (links (cf_connection c')).
Proof.
  destruct (junctions sh p Hf Ho Hp) as (js & je & ks & r' & E & B & Hjs & Hje). rewrite (pr_joined _ _ _ _ _ P) in E. injection E as <-.
  pose proof (pr_ordered _ _ _ _ _ P) as Ho'. pose proof (pr_pairs _ _ _ _ _ P) as Hp'.
  pose proof (ordered_nodup _ Ho') as Hnd'.
  assert (Hcmd : forall n, has_command c n <-> has_command c' n) by (intros n; unfold has_command; rewrite (pr_launch _ _ _ _ _ P); reflexivity).
  assert (Hocc : forall n, is_mentioned (cf_connection c') (CLaunch, n) <-> is_mentioned (cf_connection c) (CLaunch, n)).
  { intros n. rewrite Hmention, (pairs_mentioned _ Hp' Ho'). split.
    - assert (R : forall k e, edge_at r k = Some e -> fst (e_src e) = (CLaunch, n) \/ e_dst e = (CLaunch, n) -> occurs p (CLaunch, n)).
      { intros k e Hk Hor. destruct (joined_edge js je ks k e B Hje Hk) as [[(k0 & e0 & H0 & S0)|[J _]] [(k1 & e1 & (H1 & D1 & _) & _)|[J' _]]]; destruct Hor as [Hs|Hd].
        all: try (rewrite Hs in J; discriminate J). all: try (rewrite Hd in J'; discriminate J').
        all: try (exists k0, e0; rewrite S0; auto; fail). all: exists k1, e1; rewrite D1; auto. }
      intros (k & e & Hk & Hor). destruct (prepared_edges _ _ Hk) as [Hk'|(m & dn & _ & _ & -> & (k2 & e2 & Hk2 & Hs2) & _)]; [eapply R; eauto|].
      destruct Hor as [[= <-]|[=]]. eapply R; [exact Hk2|]. left. exact Hs2.
    - intros (k & e & Hk & Hor). destruct (paired_edge js je ks k e B Hk) as [(k1 & e1 & H1 & S1) (k2 & e2 & k0 & e0 & H2 & D2 & _)]. destruct Hor as [Hs|Hd].
      + exists k1, e1. split; [apply kept_edges; exact H1|]. rewrite S1. auto.
      + exists k2, e2. split; [apply kept_edges; exact H2|]. rewrite D2. auto. }
  split.
  - intros [S1 S2 S3 S4 S5 S6].
    assert (Rsrc : forall k e, edge_at r k = Some e -> fst (fst (e_src e)) = CJunction \/ exists k0 e0, edge_at p k0 = Some e0 /\ e_src e0 = e_src e).
    { intros k e Hk. destruct (joined_edge js je ks k e B Hje Hk) as [[H|[J _]] _]; auto. }
    constructor.
    + intros n Hn. apply Hcmd, S1, Hocc, Hn.
    + intros l Hl. apply (in_links _ Hp' Ho') in Hl as (k & e & Hk & ->). cbn [elink lk_dst]. destruct (prepared_edges _ _ Hk) as [Hk'|(m & dn & _ & _ & -> & _)]; [|discriminate].
      destruct (joined_edge js je ks k e B Hje Hk') as [_ [(k1 & e1 & (H1 & D1 & _) & _)|[J _]]]; [|congruence]. rewrite <- D1. exact (S2 _ _ H1).
    + intros l Hl. apply (in_links _ Hp' Ho') in Hl as (k & e & Hk & ->). cbn [elink lk_src]. destruct (prepared_edges _ _ Hk) as [Hk'|(m & dn & _ & _ & -> & _)]; [|discriminate].
      destruct (Rsrc _ _ Hk') as [J|(k0 & e0 & H0 & D0)]; [congruence|]. rewrite <- D0. exact (S3 _ _ H0).
    + intros l Hl. apply (in_links _ Hp' Ho') in Hl as (k & e & Hk & ->). cbn [elink lk_src lk_port]. destruct (prepared_edges _ _ Hk) as [Hk'|(m & dn & _ & _ & -> & _)]; [|intros [[=]|[=]]].
      destruct (Rsrc _ _ Hk') as [J|(k0 & e0 & H0 & D0)]; [intros [H|H]; rewrite J in H; discriminate|]. rewrite <- D0. exact (S4 _ _ H0).
    + intros l Hl. apply (in_links _ Hp' Ho') in Hl as (k & e & Hk & ->). cbn [elink lk_dst lk_in]. destruct (prepared_edges _ _ Hk) as [Hk'|(m & dn & _ & _ & -> & _)]; [|reflexivity].
      destruct (joined_edge js je ks k e B Hje Hk') as [_ [(k1 & e1 & F1 & ->)|[J _]]]; [|intros; congruence]. intros Hj. exact (S6 _ _ _ F1 Hj).
    + intros i j a b Ha Hb [Hsame Hport] Hnj. apply (nth_links _ Hp' Ho') in Ha as (k1 & d1 & e1 & N1 & K1 & ->). apply (nth_links _ Hp' Ho') in Hb as (k2 & d2 & e2 & N2 & K2 & ->).
      cbn [elink lk_src lk_port] in *. assert (k1 = k2); [|subst k2; exact (same_place _ Hnd' _ _ _ _ _ N1 N2)].
      assert (Lv : forall s, occurs p (fst s) -> one_leaves r s).
      { intros s Hs. apply (leaves_once _ _ _ _ _ B); [|exact Hs]. intros Hn. apply single_source; [apply ordered_nodup; exact Ho|]. rewrite <- Hjs. congruence. }
      destruct (prepared_edges _ _ K1) as [K1'|(m1 & dn1 & U1 & V1 & -> & L1 & X1 & W1 & Z1)], (prepared_edges _ _ K2) as [K2'|(m2 & dn2 & U2 & V2 & -> & L2 & X2 & W2 & Z2)].
      * destruct (Rsrc _ _ K1') as [J|(k0 & e0 & H0 & D0)]; [congruence|]. destruct (Rsrc _ _ K2') as [J|(k0' & e0' & H0' & D0')]; [rewrite <- Hsame in J; congruence|].
        assert (Es : e_src e1 = e_src e2).
        { rewrite (surjective_pairing (e_src e1)), (surjective_pairing (e_src e2)), Hsame. f_equal. rewrite <- D0, <- D0'. rewrite <- D0 in Hsame, Hport, Hnj. rewrite <- D0' in Hsame, Hport.
          destruct (fst (fst (e_src e0))) eqn:Et.
          - rewrite (S4 _ _ H0), (S4 _ _ H0'); auto. rewrite <- Hsame, Et. auto.
          - auto.
          - congruence.
          - exact (S5 _ _ _ _ H0 H0' Hsame Et).
          - destruct (S3 _ _ H0 Et).
          - rewrite (S4 _ _ H0), (S4 _ _ H0'); auto. rewrite <- Hsame, Et. auto. }
        apply (Lv (e_src e1)) with (e1 := e1) (e2 := e2); auto. rewrite <- D0. exists k0, e0. auto.
      * exfalso. apply X2. exists k1, e1. split; [exact K1'|]. cbn in Hsame, Hport. rewrite (surjective_pairing (e_src e1)), Hsame, Hport; [reflexivity|]. rewrite Hsame. reflexivity.
      * exfalso. apply X1. exists k2, e2. split; [exact K2'|]. cbn in Hsame, Hport. rewrite (surjective_pairing (e_src e2)), <- Hsame, <- Hport; reflexivity.
      * cbn in Hsame. injection Hsame as <-. symmetry. eapply Z1; [exact U2|exact V2|auto].
    + intros i j a b Ha Hb Hsame Hnj. apply (nth_links _ Hp' Ho') in Ha as (k1 & d1 & e1 & N1 & K1 & ->). apply (nth_links _ Hp' Ho') in Hb as (k2 & d2 & e2 & N2 & K2 & ->).
      cbn [elink lk_dst] in *. assert (k1 = k2); [|subst k2; exact (same_place _ Hnd' _ _ _ _ _ N1 N2)].
      assert (Av : forall x, occurs p x -> one_arrives r x).
      { intros x Hx. apply (arrives_once _ _ _ _ _ B); [|exact Hx]. intros Hn. apply single_dest; [apply ordered_nodup; exact Ho|]. rewrite <- Hje. congruence. }
      assert (Rdst : forall k e, edge_at r k = Some e -> fst (e_dst e) <> CJunction -> occurs p (e_dst e)).
      { intros k e Hk Hn. destruct (joined_edge js je ks k e B Hje Hk) as [_ [(k0 & e0 & (H0 & D0 & _) & _)|[J _]]]; [|congruence]. exists k0, e0. auto. }
      destruct (prepared_edges _ _ K1) as [K1'|(m1 & dn1 & U1 & V1 & -> & L1 & X1 & W1 & Z1)], (prepared_edges _ _ K2) as [K2'|(m2 & dn2 & U2 & V2 & -> & L2 & X2 & W2 & Z2)].
      * apply (Av (e_dst e1)) with (e1 := e1) (e2 := e2); auto. exact (Rdst _ _ K1' Hnj).
      * exfalso. cbn in Hsame. pose proof (Rdst _ _ K1' Hnj) as Hoc. rewrite Hsame in Hoc. apply (Hdrains dn2); [apply Hmention; exact Hoc|exact W2].
      * exfalso. cbn in Hsame, Hnj. assert (Hoc : occurs p (e_dst e2)) by (apply (Rdst _ _ K2'); rewrite <- Hsame; discriminate). rewrite <- Hsame in Hoc. apply (Hdrains dn1); [apply Hmention; exact Hoc|exact W1].
      * cbn in Hsame. injection Hsame as <-. symmetry. eapply Z1; [exact U2|exact V2|auto].
  - intros [B1 B2 B3 B4 B5 B6 B7].
    assert (In1 : forall k e, edge_at r k = Some e -> In (elink e) (links (cf_connection c'))) by (intros k e Hk; apply (in_links _ Hp' Ho'); exists k, e; split; [apply kept_edges; exact Hk|reflexivity]).
    constructor.
    + intros n Hn. apply Hcmd, B1, Hocc, Hn.
    + intros k e Hk. destruct (paired_edge js je ks k e B Hk) as [_ (k1 & e1 & k0 & e0 & H1 & D1 & _)]. rewrite <- D1. exact (B2 _ (In1 _ _ H1)).
    + intros k e Hk. destruct (paired_edge js je ks k e B Hk) as [(k1 & e1 & H1 & D1) _]. rewrite <- D1. exact (B3 _ (In1 _ _ H1)).
    + intros k e Hk. destruct (paired_edge js je ks k e B Hk) as [(k1 & e1 & H1 & D1) _]. rewrite <- D1. exact (B4 _ (In1 _ _ H1)).
    + intros k e k' e' Hk Hk' Hsame Hbuf. destruct (paired_edge js je ks k e B Hk) as [(k1 & e1 & H1 & D1) _]. destruct (paired_edge js je ks k' e' B Hk') as [(k2 & e2 & H2 & D2) _].
      apply kept_edges in H1, H2. destruct (place_of _ _ _ H1) as (i & d1 & N1). destruct (place_of _ _ _ H2) as (j & d2 & N2).
      assert (i = j).
      { apply (B6 i j (elink e1) (elink e2)).
        - apply (nth_links _ Hp' Ho'). eauto 10.
        - apply (nth_links _ Hp' Ho'). eauto 10.
        - split; cbn; [rewrite D1, D2; exact Hsame|]. rewrite D1, Hbuf. discriminate.
        - cbn. rewrite D1, Hbuf. discriminate. }
      subst j. assert (k1 = k2) by congruence. subst k2. assert (e1 = e2) by congruence. subst e2. congruence.
    + intros k e d F Hn. destruct F as (Hk & Hd & Hfirst). subst d.
      destruct (paired_edge js je ks k e B Hk) as [_ (k1 & e1 & k0 & e0 & H1 & D1 & H0 & D0 & Hone & Hmany & Hpr)].
      assert (E0 : e0 = e).
      { destruct (je (e_dst e)) as [x|] eqn:Ej; [|rewrite Hone in H0 by reflexivity; congruence].
        destruct Hmany as (_ & _ & Hm); [congruence|]. destruct (Hfirst _ _ H0 D0) as [->|Hb1]; [congruence|]. destruct (Hm _ _ Hk eq_refl) as [->|Hb2]; [congruence|].
        exfalso. unfold before in *. rewrite String.compare_antisym, Hb1 in Hb2. discriminate. }
      subst e0. rewrite <- Hpr. apply (B5 _ (In1 _ _ H1)). cbn. rewrite D1. exact Hn.
Qed.
End Prepared.

Lemma occurs_mentioned c p m1 added : pairs_of m1 added -> ordered p -> (forall k d, In (k, d) p <-> In (k, d) added) ->
  (forall k l, In (k, Connections l) m1 <-> reads (cf_connection c) k l) -> forall x, occurs p x -> is_mentioned (cf_connection c) x.
Proof.
  intros Hpo Ho Hi Hr x (k & e & He & Hx). destruct (from_written c p m1 added Hpo Ho Hi Hr k e He) as (a & b & (ka & la & Ra & Ia) & (kb & lb & Rb & Ib) & _ & Ea & _ & Eb).
  destruct Hx as [<-|<-]; unfold is_mentioned; eauto 10.
Qed.

Theorem ready_exact sh c : fair sh -> good_connections (cf_connection c) -> (forall n, is_mentioned (cf_connection c) (CDrain, n) -> lookup n (cf_drain c) <> None) ->
  exists c' out m1 p, connection_manipulation sh c = Good (c', out) /\ convert_connections (cf_connection c) = Good (m1, []) /\ pair_up m1 = Good p /\
    (sound c p -> exists w, get_waiter c' = Good (Ok w)) /\ (~ sound c p -> exists e, get_waiter c' = Good (Err e)).
Proof.
  intros Hf [Hoc Hg] Hd. destruct (prepare sh c Hf Hg) as (c' & p & r & E & P). destruct (paired _ Hg) as (m1 & p' & added & E1 & E2 & Ho & Hp & Hpo & Hi & Hr & Hc).
  destruct (pr_paired _ _ _ _ _ P) as (m1' & E1' & E2'). rewrite E1 in E1'. injection E1' as <-. rewrite E2 in E2'. injection E2' as <-.
  assert (Hm : forall x, is_mentioned (cf_connection c) x <-> occurs p' x).
  { intros x. split; [exact (mentioned_occurs _ _ _ _ Hg Hpo Ho Hi Hr Hc x)|exact (occurs_mentioned c p' m1 added Hpo Ho Hi Hr x)]. }
  pose proof (ready sh c c' p' r Hf Ho Hp P Hm Hd) as Hready. destruct (get_waiter_exact c' (pairs_written _ (pr_pairs _ _ _ _ _ P))) as (G1 & G2 & _).
  exists c', [keys (cf_drain c)], m1, p'. split; [exact E|]. split; [exact E1|]. split; [exact E2|]. split.
  - intros H. apply G1, Hready, H.
  - intros H. apply G2. intros Hb. apply H, Hready, Hb.
Qed.

Lemma plain_sound c p m1 added : pairs_of m1 added -> ordered p -> (forall k d, In (k, d) p <-> In (k, d) added) ->
  (forall k l, In (k, Connections l) m1 <-> reads (cf_connection c) k l) -> plain c -> sound c p.
Proof.
  intros Hpo Ho Hi Hr [P1 P2 P3 P4 P5 P6 P7]. pose proof (from_written c p m1 added Hpo Ho Hi Hr) as W.
  constructor; auto.
  - intros k e He Ht. destruct (W _ _ He) as (a & b & Wa & Wb & Oa & Ea & Ib & Eb). rewrite <- Eb in Ht. rewrite (P2 b Wb Ht) in Ib. discriminate.
  - intros k e He Ht. destruct (W _ _ He) as (a & b & Wa & Wb & Oa & Ea & Ib & Eb). rewrite <- Ea in Ht. rewrite (P3 a Wa Ht) in Oa. discriminate.
  - intros k e He Ht. destruct (W _ _ He) as (a & b & Wa & Wb & Oa & Ea & Ib & Eb). rewrite <- Ea in Ht. exact (P4 a _ Wa Ht Oa).
  - intros k e k' e' He He' Hs Ht. destruct (W _ _ He) as (a & b & Wa & Wb & Oa & Ea & Ib & Eb). destruct (W _ _ He') as (a' & b' & Wa' & Wb' & Oa' & Ea' & Ib' & Eb').
    rewrite <- Ea in Hs, Ht. rewrite <- Ea' in Hs. injection Hs as Ht' Hn. cbn [fst] in Ht. apply (P5 a a'); auto. congruence.
  - intros k e d (He & Hd & _) Hn. destruct (W _ _ He) as (a & b & Wa & Wb & Oa & Ea & Ib & Eb). apply (P6 b); auto. rewrite Hd in Eb. rewrite <- Eb in Hn. exact Hn.
Qed.
Theorem ready_plain sh c : fair sh -> good_connections (cf_connection c) -> plain c ->
  exists c' out w id, connection_manipulation sh c = Good (c', out) /\ get_waiter c' = Good (Ok w) /\ built_as c' w id.
Proof.
  intros Hf Hgc Hpl. destruct (ready_exact sh c Hf Hgc (pl_configured _ Hpl)) as (c' & out & m1 & p & E & E1 & E2 & G & _).
  destruct Hgc as [_ Hg]. destruct (paired _ Hg) as (m1' & p' & added & E1' & E2' & Ho & Hp & Hpo & Hi & Hr & Hc).
  rewrite E1 in E1'. injection E1' as <-. rewrite E2 in E2'. injection E2' as <-.
  destruct (G (plain_sound c p m1 added Hpo Ho Hi Hr Hpl)) as (w & Hw).
  assert (Hwo : written_out (cf_connection c')).
  { destruct (prepare sh c Hf Hg) as (c2 & p2 & r2 & Ec & P). rewrite E in Ec. injection Ec as <- _. exact (pairs_written _ (pr_pairs _ _ _ _ _ P)). }
  destruct (get_waiter_exact c' Hwo) as (_ & _ & G3). destruct (G3 w Hw) as (_ & id & Hb). exists c', out, w, id. auto.
Qed.
