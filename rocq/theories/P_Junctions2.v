(** * P_Junctions2: what adding junctions does to the graph *)
From Coq Require Import Ascii String List Bool Arith ZArith Sorted Permutation Lia.
From Verif Require Import M_Prog M_Config M_Connectable M_Parser M_Manip S_Grammar S_Manip P_Map P_Pair P_Junctions.
Import ListNotations.
Local Open Scope string_scope.

(** ** Counting *)
Section Tally.
Context {K : Type} (eqb : K -> K -> bool) (eqbP : forall a b, reflect (a = b) (eqb a b)).
Definition tallied (f : K -> nat) (c : list (K * nat)) : Prop :=
  NoDup (map fst c) /\ (forall k n, In (k, n) c -> n = f k) /\ (forall k, In k (map fst c) <-> 1 <= f k).

Lemma bump_keys k c : NoDup (map fst c) -> NoDup (map fst (bump eqb k c)) /\ forall x, In x (map fst (bump eqb k c)) <-> x = k \/ In x (map fst c).
Proof.
  induction c as [|[a n] c IH]; intros Hn; cbn.
  - split; [constructor; [easy|constructor]|]. intros x. intuition congruence.
  - inversion Hn as [|? ? Ha Hc]; subst. destruct (IH Hc) as [Hd Hi]. destruct (eqbP k a) as [->|Hne]; cbn.
    + split; [exact Hn|]. intros x. intuition congruence.
    + split.
      * constructor; [|exact Hd]. intros H. apply Hi in H. destruct H as [->|H]; congruence.
      * intros x. rewrite Hi. intuition congruence.
Qed.
Lemma bump_in k c x n : NoDup (map fst c) -> In (x, n) (bump eqb k c) -> (x = k /\ ((n = 1 /\ ~ In k (map fst c)) \/ exists n', n = S n' /\ In (k, n') c)) \/ (x <> k /\ In (x, n) c).
Proof.
  induction c as [|[a m] c IH]; intros Hn; cbn.
  - intros [[= <- <-]|[]]. left. auto.
  - inversion Hn as [|? ? Ha Hc]; subst. destruct (eqbP k a) as [->|Hne]; cbn.
    + intros [[= <- <-]|H]. { left. split; auto. right. exists m. auto. }
      right. split; [|auto]. intros ->. apply Ha. change a with (fst (a, n)). apply in_map. exact H.
    + intros [[= <- <-]|H]; [right; split; auto|]. destruct (IH Hc H) as [[-> [[-> Hi]|(n' & -> & Hi)]]|[H1 H2]].
      * left. split; auto. left. split; auto. intros [->|Hx]; auto.
      * left. split; auto. right. exists n'. auto.
      * right. auto.
Qed.
Lemma tally_bump f c k : tallied f c -> tallied (fun x => if eqb x k then S (f x) else f x) (bump eqb k c).
Proof.
  intros (Hn & Hv & Hk). destruct (bump_keys k c Hn) as [Hn' Hi]. split; [exact Hn'|]. split.
  - intros x n Hx. destruct (bump_in k c x n Hn Hx) as [[-> [[-> Hnk]|(n' & -> & H)]]|[Hne H]].
    + destruct (eqbP k k); [|congruence]. rewrite Hk in Hnk. lia.
    + destruct (eqbP k k); [|congruence]. f_equal. auto.
    + destruct (eqbP x k); [congruence|auto].
  - intros x. rewrite Hi, Hk. destruct (eqbP x k) as [->|]; [split; auto; lia|]. intuition congruence.
Qed.
Lemma multis f c l : tallied f c -> Permutation l c -> NoDup (get_multis l) /\ forall k, In k (get_multis l) <-> 2 <= f k.
Proof.
  intros (Hn & Hv & Hk) Hp. assert (Hnl : NoDup (map fst l)) by (eapply Permutation_NoDup; [apply Permutation_map, Permutation_sym, Hp|exact Hn]).
  unfold get_multis. split.
  - clear Hp Hn Hv Hk. induction l as [|[a n] l IH]; [constructor|]. inversion Hnl as [|? ? Ha Hl]; subst. specialize (IH Hl).
    cbn [filter snd]. destruct (negb (n <? 2)%nat); [|exact IH]. cbn [map fst]. constructor; [|exact IH].
    intros H. apply Ha. apply in_map_iff in H as ([b n'] & <- & H). apply filter_In in H as [H _]. apply (in_map fst) in H. exact H.
  - intros k. rewrite in_map_iff. split.
    + intros ([b n] & <- & H). apply filter_In in H as [H H2]. apply negb_true_iff, Nat.ltb_ge in H2. cbn in *.
      apply (Permutation_in _ Hp) in H. rewrite <- (Hv _ _ H). exact H2.
    + intros H2. assert (Hin : In k (map fst c)) by (apply Hk; lia). apply in_map_iff in Hin as ([b n] & <- & H). exists (b, n). split; [reflexivity|].
      apply filter_In. split; [apply (Permutation_in _ (Permutation_sym Hp)); exact H|]. apply negb_true_iff, Nat.ltb_ge. cbn in *. rewrite (Hv _ _ H). exact H2.
Qed.
End Tally.

(** The number of connections with an edge such that [P] *)
Definition count (P : edge -> bool) (m : connmap) : nat :=
  List.length (filter (fun kv => match edge_of (snd kv) with Some e => P e | None => false end) m).

Lemma count_one P m : NoDup (keys m) -> 1 <= count P m <-> exists k e, edge_at m k = Some e /\ P e = true.
Proof.
  induction m as [|[k d] m IH]; intros Hn; cbn.
  - split; [unfold count; cbn; lia|]. intros (k & e & He & _). discriminate He.
  - inversion Hn as [|? ? Hk Hm]; subst. specialize (IH Hm). unfold count in *. cbn [filter snd].
    assert (Ex : (exists k0 e, edge_at ((k, d) :: m) k0 = Some e /\ P e = true) <-> (exists e, edge_of d = Some e /\ P e = true) \/ exists k0 e, edge_at m k0 = Some e /\ P e = true).
    { split.
      - intros (x & e & He & HP). rewrite edge_at_cons in He. destruct (String.eqb x k); [left; eauto|right; eauto].
      - intros [(e & He & HP)|(x & e & He & HP)].
        + exists k, e. rewrite edge_at_cons, String.eqb_refl. auto.
        + exists x, e. rewrite edge_at_cons. destruct (String.eqb_spec x k) as [->|]; [|auto]. rewrite edge_none in He by auto. discriminate. }
    rewrite Ex, <- IH. destruct (edge_of d) as [e|].
    + destruct (P e) eqn:E; cbn; [split; [eauto|lia]|]. split; [auto|]. intros [(e' & [= <-] & H)|H]; [congruence|auto].
    + split; [auto|]. intros [(e' & H & _)|H]; [discriminate|auto].
Qed.
Lemma count_two P m : NoDup (keys m) -> 2 <= count P m <-> exists k1 k2 e1 e2, k1 <> k2 /\ edge_at m k1 = Some e1 /\ edge_at m k2 = Some e2 /\ P e1 = true /\ P e2 = true.
Proof.
  induction m as [|[k d] m IH]; intros Hn.
  - split; [unfold count; cbn; lia|]. intros (k & k' & e & e' & _ & He & _). discriminate He.
  - inversion Hn as [|? ? Hk Hm]; subst. specialize (IH Hm). pose proof (count_one P m Hm) as H1.
    assert (Hin : forall x e, edge_at m x = Some e -> x <> k). { intros x e He ->. rewrite edge_none in He by auto. discriminate. }
    assert (Up : forall x e, edge_at m x = Some e -> edge_at ((k, d) :: m) x = Some e).
    { intros x e He. rewrite edge_at_cons. destruct (String.eqb_spec x k); [destruct (Hin _ _ He); auto|auto]. }
    assert (Ec : count P ((k, d) :: m) = (if match edge_of d with Some e => P e | None => false end then S (count P m) else count P m)).
    { unfold count. cbn [filter snd]. destruct (match edge_of d with Some e => P e | None => false end); reflexivity. }
    rewrite Ec. clear Ec. split.
    + intros H. destruct (edge_of d) as [e|] eqn:Ed; [destruct (P e) eqn:EP|].
      * assert (H' : 1 <= count P m) by lia. apply H1 in H' as (x & e' & He & HP). exists k, x, e, e'. split; [intros <-; eapply Hin; eauto|].
        rewrite edge_at_cons, String.eqb_refl. auto.
      * apply IH in H as (x & y & e1 & e2 & Hne & Hx & Hy & HP). exists x, y, e1, e2. auto.
      * apply IH in H as (x & y & e1 & e2 & Hne & Hx & Hy & HP). exists x, y, e1, e2. auto.
    + intros (x & y & e1 & e2 & Hne & Hx & Hy & HP1 & HP2). rewrite edge_at_cons in Hx, Hy.
      destruct (String.eqb_spec x k) as [Ex|Ex], (String.eqb_spec y k) as [Ey|Ey].
      * congruence.
      * rewrite Hx, HP1. assert (1 <= count P m) by (apply H1; eauto). lia.
      * rewrite Hy, HP2. assert (1 <= count P m) by (apply H1; eauto). lia.
      * assert (2 <= count P m) by (apply IH; exists x, y, e1, e2; auto). destruct (match edge_of d with Some e => P e | None => false end); lia.
Qed.

Definition from (s : source) (e : edge) : bool := source_eqb s (e_src e).
Definition into (c : component) (e : edge) : bool := component_eqb c (e_dst e).

Lemma counts m : all_pairs m -> exists outs ins, count_start_ends m = Good (outs, ins) /\
  tallied (fun s => count (from s) m) outs /\ tallied (fun c => count (into c) m) ins.
Proof.
  intros Hm. unfold count_start_ends.
  match goal with |- context [ofold ?f m _] => set (F := f) end.
  assert (A : forall outs ins f g, tallied f outs -> tallied g ins -> exists outs' ins', ofold F m (outs, ins) = Good (outs', ins') /\
     tallied (fun s => f s + count (from s) m) outs' /\ tallied (fun c => g c + count (into c) m) ins').
  { assert (Ext : forall K (f f' : K -> nat) c, (forall k, f k = f' k) -> tallied f c -> tallied f' c).
    { intros K f f' c Hf (H1 & H2 & H3). split; [exact H1|]. split; intros; rewrite <- Hf; auto. }
    induction Hm as [|[k d] m Hd Hm IH]; intros outs ins f g Ho Hi.
    - exists outs, ins. split; [reflexivity|]. split; (eapply Ext; [|eassumption]); intros; unfold count; cbn; lia.
    - cbn in Hd. destruct (edge_of d) as [e|] eqn:E; [clear Hd|congruence].
      pose proof (edge_shape _ _ E) as (t & n & o & s & t' & n' & i & s' & Ed & Ee). cbn [ofold]. unfold F at 1. rewrite Ed. cbn [snd obind].
      destruct (IH _ _ _ _ (tally_bump _ source_eqb_spec _ _ (t, n, o) Ho) (tally_bump _ component_eqb_spec _ _ (t', n') Hi)) as (outs' & ins' & E' & Ho' & Hi').
      exists outs', ins'. split; [exact E'|]. rewrite Ed in E.
      split; (eapply Ext; [|eassumption]); intros x; cbn beta; unfold count; cbn [filter snd]; rewrite E, Ee; unfold from, into; cbn [e_src e_dst].
      + destruct (source_eqb x (t, n, o)); cbn; lia.
      + destruct (component_eqb x (t', n')); cbn; lia. }
  destruct (A [] [] (fun _ => 0) (fun _ => 0)) as (outs & ins & E & Ho & Hi).
  { split; [constructor|]. split; [easy|]. intros k. split; [easy|lia]. }
  { split; [constructor|]. split; [easy|]. intros k. split; [easy|lia]. }
  exists outs, ins. auto.
Qed.

(** ** Adding all the junctions *)
Lemma add_starts m l : NoDup l -> forall js je ks r, built m js je ks r -> (forall s, In s l -> js s = None /\ exists k e, edge_at m k = Some e /\ e_src e = s) ->
  exists js' ks' r', ofold add_start_junctions_for l (ks, r) = Good (ks', r') /\ built m js' je ks' r' /\
    forall s, js' s <> None <-> js s <> None \/ In s l.
Proof.
  induction l as [|ms l IH]; intros Hn js je ks r B Hl.
  - exists js, ks, r. split; [reflexivity|]. split; auto. cbn. tauto.
  - inversion Hn as [|? ? Hms Hn']; subst. destruct (Hl ms (or_introl eq_refl)) as (H0 & Hex).
    destruct (add_start m _ _ _ _ ms B H0 Hex) as (jn & ks1 & r1 & E1 & B1).
    destruct (IH Hn' _ _ _ _ B1) as (js' & ks' & r' & E' & B' & H').
    { intros s Hs. destruct (source_eqb_spec s ms) as [->|]; [congruence|]. apply Hl. right. exact Hs. }
    exists js', ks', r'. cbn [ofold]. rewrite E1. cbn [obind]. split; [exact E'|]. split; [exact B'|].
    intros s. rewrite H'. destruct (source_eqb_spec s ms) as [->|Hne]; cbn; [intuition congruence|]. intuition congruence.
Qed.
Lemma add_ends m l : NoDup l -> forall js je ks r, built m js je ks r -> (forall c, In c l -> je c = None /\ exists k e, edge_at m k = Some e /\ e_dst e = c) ->
  exists je' ks' r', ofold add_end_junctions_for l (ks, r) = Good (ks', r') /\ built m js je' ks' r' /\
    forall c, je' c <> None <-> je c <> None \/ In c l.
Proof.
  induction l as [|me l IH]; intros Hn js je ks r B Hl.
  - exists je, ks, r. split; [reflexivity|]. split; auto. cbn. tauto.
  - inversion Hn as [|? ? Hme Hn']; subst. destruct (Hl me (or_introl eq_refl)) as (H0 & Hex).
    destruct (add_end m _ _ _ _ me B H0 Hex) as (jn & ks1 & r1 & E1 & B1).
    destruct (IH Hn' _ _ _ _ B1) as (je' & ks' & r' & E' & B' & H').
    { intros s Hs. destruct (component_eqb_spec s me) as [->|]; [congruence|]. apply Hl. right. exact Hs. }
    exists je', ks', r'. cbn [ofold]. rewrite E1. cbn [obind]. split; [exact E'|]. split; [exact B'|].
    intros s. rewrite H'. destruct (component_eqb_spec s me) as [->|Hne]; cbn; [intuition congruence|]. intuition congruence.
Qed.

Lemma junctions sh m : fair sh -> ordered m -> all_pairs m -> exists js je ks r, add_junctions sh m = Good r /\ built m js je ks r /\
  (forall s, js s <> None <-> 2 <= count (from s) m) /\ (forall c, je c <> None <-> 2 <= count (into c) m).
Proof.
  intros (Fs & Fe & _) Ho Hm. pose proof (ordered_nodup _ Ho) as Hnd. destruct (counts m Hm) as (outs & ins & E & To & Ti).
  unfold add_junctions. rewrite E. cbn [obind].
  destruct (multis _ _ _ To (Fs outs)) as (Ns & Hs). destruct (multis _ _ _ Ti (Fe ins)) as (Ne & He).
  assert (B0 : built m (fun _ => None) (fun _ => None) (keys m) m).
  { constructor; auto; try discriminate; try congruence.
    - intros x e H. eapply edge_in_keys; eauto.
    - intros k e H. rewrite H. destruct e; reflexivity. }
  destruct (add_starts m _ Ns _ _ _ _ B0) as (js & ks1 & r1 & E1 & B1 & H1).
  { intros s Hin. split; [reflexivity|]. apply Hs in Hin. assert (Hc : 1 <= count (from s) m) by lia.
    apply (count_one _ _ Hnd) in Hc as (k & e & Hk & HP). exists k, e. split; auto. unfold from in HP. destruct (source_eqb_spec s (e_src e)); congruence. }
  destruct (add_ends m _ Ne _ _ _ _ B1) as (je & ks2 & r2 & E2 & B2 & H2).
  { intros s Hin. split; [reflexivity|]. apply He in Hin. assert (Hc : 1 <= count (into s) m) by lia.
    apply (count_one _ _ Hnd) in Hc as (k & e & Hk & HP). exists k, e. split; auto. unfold into in HP. destruct (component_eqb_spec s (e_dst e)); congruence. }
  exists js, je, ks2, r2. rewrite E1. cbn [obind]. rewrite E2. cbn [obind snd]. split; [reflexivity|]. split; [exact B2|]. split.
  - intros s. rewrite H1, Hs. intuition congruence.
  - intros s. rewrite H2, He. intuition congruence.
Qed.

Lemma single_source m s : NoDup (keys m) -> ~ 2 <= count (from s) m <-> one_leaves m s.
Proof.
  intros Hn. rewrite (count_two _ _ Hn). split.
  - intros H k1 k2 e1 e2 H1 H2 S1 S2. destruct (string_dec k1 k2) as [|Hne]; [auto|]. destruct H. exists k1, k2, e1, e2.
    unfold from. rewrite S1, S2. destruct (source_eqb_spec s s); [auto|congruence].
  - intros H (k1 & k2 & e1 & e2 & Hne & H1 & H2 & S1 & S2). apply Hne. unfold from in *.
    destruct (source_eqb_spec s (e_src e1)); [|discriminate]. destruct (source_eqb_spec s (e_src e2)); [|discriminate]. eapply H; eauto.
Qed.
Lemma single_dest m c : NoDup (keys m) -> ~ 2 <= count (into c) m <-> one_arrives m c.
Proof.
  intros Hn. rewrite (count_two _ _ Hn). split.
  - intros H k1 k2 e1 e2 H1 H2 S1 S2. destruct (string_dec k1 k2) as [|Hne]; [auto|]. destruct H. exists k1, k2, e1, e2.
    unfold into. rewrite S1, S2. destruct (component_eqb_spec c c); [auto|congruence].
  - intros H (k1 & k2 & e1 & e2 & Hne & H1 & H2 & S1 & S2). apply Hne. unfold into in *.
    destruct (component_eqb_spec c (e_dst e1)); [|discriminate]. destruct (component_eqb_spec c (e_dst e2)); [|discriminate]. eapply H; eauto.
Qed.

Section Result.
Variables (m r : connmap) (js : source -> option string) (je : component -> option string) (ks : list string).
Hypothesis B : built m js je ks r.

(** An edge that arrives at something that was there before is an original one or the one behind a junction. *)
Lemma arriving k e : edge_at r k = Some e -> occurs m (e_dst e) ->
  (exists e0, edge_at m k = Some e0 /\ e_dst e0 = e_dst e /\ je (e_dst e) = None /\ e_src e = via_src js (e_src e0)) \/
  (edge_at m k = None /\ exists j, je (e_dst e) = Some j /\ e_src e = (CJunction, j, POut)).
Proof.
  intros He Ho. destruct (edge_at m k) as [e0|] eqn:E0.
  - left. exists e0. rewrite (bt_kept _ _ _ _ _ B _ _ E0) in He. injection He as <-. cbn [e_dst e_src] in *. unfold via_dst in *.
    destruct (je (e_dst e0)) as [j|] eqn:Ej; [destruct (bt_new_e _ _ _ _ _ B _ _ Ej Ho)|auto].
  - right. split; [reflexivity|]. destruct (bt_made _ _ _ _ _ B _ _ E0 He) as (_ & [(j & Hj & Hd)|(j & Hj & Hs)]); [|eauto].
    rewrite Hd in Ho. destruct (bt_new_s _ _ _ _ _ B _ _ Hj Ho).
Qed.
(** An edge that leaves something that was there before *)
Lemma leaving k e : edge_at r k = Some e -> occurs m (fst (e_src e)) ->
  (exists e0, edge_at m k = Some e0 /\ e_src e0 = e_src e /\ js (e_src e) = None /\ e_dst e = via_dst je (e_dst e0)) \/
  (edge_at m k = None /\ exists j, js (e_src e) = Some j /\ e_dst e = (CJunction, j)).
Proof.
  intros He Ho. destruct (edge_at m k) as [e0|] eqn:E0.
  - left. exists e0. rewrite (bt_kept _ _ _ _ _ B _ _ E0) in He. injection He as <-. cbn [e_dst e_src] in *. unfold via_src in *.
    destruct (js (e_src e0)) as [j|] eqn:Ej; [destruct (bt_new_s _ _ _ _ _ B _ _ Ej Ho)|auto].
  - right. split; [reflexivity|]. destruct (bt_made _ _ _ _ _ B _ _ E0 He) as (_ & [(j & Hj & Hd)|(j & Hj & Hs)]); [eauto|].
    rewrite Hs in Ho. destruct (bt_new_e _ _ _ _ _ B _ _ Hj Ho).
Qed.

Lemma arrives_once c : (je c = None -> one_arrives m c) -> occurs m c -> one_arrives r c.
Proof.
  intros H1 Ho k1 k2 e1 e2 E1 E2 D1 D2. pose proof (arriving _ _ E1) as A1. pose proof (arriving _ _ E2) as A2. rewrite D1 in A1. rewrite D2 in A2.
  destruct (A1 Ho) as [(a & Ha & Da & Na & _)|(Na & j & Hj & _)], (A2 Ho) as [(b & Hb & Db & Nb & _)|(Nb & j' & Hj' & _)]; try congruence.
  - eapply H1; eauto.
  - destruct (bt_end _ _ _ _ _ B _ _ Hj) as (k & e & _ & _ & _ & _ & Hu). rewrite (Hu _ _ Na E1 D1), (Hu _ _ Nb E2 D2). reflexivity.
Qed.
Lemma leaves_once s : (js s = None -> one_leaves m s) -> occurs m (fst s) -> one_leaves r s.
Proof.
  intros H1 Ho k1 k2 e1 e2 E1 E2 D1 D2. pose proof (leaving _ _ E1) as A1. pose proof (leaving _ _ E2) as A2. rewrite D1 in A1. rewrite D2 in A2.
  destruct (A1 Ho) as [(a & Ha & Da & Na & _)|(Na & j & Hj & _)], (A2 Ho) as [(b & Hb & Db & Nb & _)|(Nb & j' & Hj' & _)]; try congruence.
  - eapply H1; eauto.
  - destruct (bt_start _ _ _ _ _ B _ _ Hj) as (k & e & _ & _ & _ & _ & Hu). rewrite (Hu _ _ Na E1 D1), (Hu _ _ Nb E2 D2). reflexivity.
Qed.

(** *** Routes *)
(** the edges that leave a new junction *)
Lemma from_start_junction k e s j o : js s = Some j -> edge_at r k = Some e -> e_src e = (CJunction, j, o) ->
  exists e0, edge_at m k = Some e0 /\ e_src e0 = s /\ e_dst e = via_dst je (e_dst e0).
Proof.
  intros Hj He Hs. destruct (edge_at m k) as [e0|] eqn:E0.
  - exists e0. split; [reflexivity|]. rewrite (bt_kept _ _ _ _ _ B _ _ E0) in He. injection He as <-. cbn [e_src e_dst] in *. split; [|reflexivity].
    unfold via_src in Hs. destruct (js (e_src e0)) as [j'|] eqn:Ej.
    + injection Hs as -> <-. eapply bt_inj_s; eauto.
    + destruct (bt_new_s _ _ _ _ _ B _ _ Hj). pose proof (occurs_src _ _ _ E0) as Ho. rewrite Hs in Ho. exact Ho.
  - destruct (bt_made _ _ _ _ _ B _ _ E0 He) as (_ & [(j' & Hj' & Hd)|(j' & Hj' & Hs')]).
    + destruct (bt_from_s _ _ _ _ _ B (e_src e)) as (k1 & e1 & H1 & S1); [congruence|]. destruct (bt_new_s _ _ _ _ _ B _ _ Hj).
      pose proof (occurs_src _ _ _ H1) as Ho. rewrite S1, Hs in Ho. exact Ho.
    + rewrite Hs' in Hs. injection Hs as -> <-. destruct (bt_apart _ _ _ _ _ B _ _ _ Hj Hj').
Qed.
Lemma from_end_junction k e c j o : je c = Some j -> edge_at r k = Some e -> e_src e = (CJunction, j, o) ->
  edge_at m k = None /\ e_dst e = c.
Proof.
  intros Hj He Hs. destruct (edge_at m k) as [e0|] eqn:E0.
  - exfalso. rewrite (bt_kept _ _ _ _ _ B _ _ E0) in He. injection He as <-. cbn [e_src e_dst] in *.
    unfold via_src in Hs. destruct (js (e_src e0)) as [j'|] eqn:Ej.
    + injection Hs as -> <-. eapply bt_apart; eauto.
    + destruct (bt_new_e _ _ _ _ _ B _ _ Hj). pose proof (occurs_src _ _ _ E0) as Ho. rewrite Hs in Ho. exact Ho.
  - split; [reflexivity|]. destruct (bt_made _ _ _ _ _ B _ _ E0 He) as (_ & [(j' & Hj' & Hd)|(j' & Hj' & Hs')]).
    + destruct (bt_from_s _ _ _ _ _ B (e_src e)) as (k1 & e1 & H1 & S1); [congruence|]. destruct (bt_new_e _ _ _ _ _ B _ _ Hj).
      pose proof (occurs_src _ _ _ H1) as Ho. rewrite S1, Hs in Ho. exact Ho.
    + rewrite Hs' in Hs. injection Hs as -> <-. eapply bt_inj_e; eauto.
Qed.

(** What may come before and after an original connection *)
Definition lead_in (s : source) (p : list string) : Prop :=
  (js s = None /\ p = []) \/ exists j k e, js s = Some j /\ p = [k] /\ edge_at m k = None /\ edge_at r k = Some e /\ e_src e = s.
Definition lead_out (d : component) (p : list string) : Prop :=
  (je d = None /\ p = []) \/ exists j k e, je d = Some j /\ p = [k] /\ edge_at m k = None /\ edge_at r k = Some e /\ e_dst e = d.

Lemma lead_in_one s p p' : lead_in s p -> lead_in s p' -> p = p'.
Proof.
  intros [(N & ->)|(j & k & e & Hj & -> & Hk & He & Hs)] [(N' & ->)|(j' & k' & e' & Hj' & -> & Hk' & He' & Hs')]; try congruence.
  destruct (bt_start _ _ _ _ _ B _ _ Hj) as (k0 & e0 & _ & _ & _ & _ & Hu). rewrite (Hu _ _ Hk He Hs), (Hu _ _ Hk' He' Hs'). reflexivity.
Qed.
Lemma lead_out_one s p p' : lead_out s p -> lead_out s p' -> p = p'.
Proof.
  intros [(N & ->)|(j & k & e & Hj & -> & Hk & He & Hs)] [(N' & ->)|(j' & k' & e' & Hj' & -> & Hk' & He' & Hs')]; try congruence.
  destruct (bt_end _ _ _ _ _ B _ _ Hj) as (k0 & e0 & _ & _ & _ & _ & Hu). rewrite (Hu _ _ Hk He Hs), (Hu _ _ Hk' He' Hs'). reflexivity.
Qed.
Lemma lead_in_made s p k : lead_in s p -> In k p -> edge_at m k = None.
Proof. intros [(N & ->)|(j & k0 & e & Hj & -> & Hk & _)] H; [destruct H|]. destruct H as [<-|[]]. exact Hk. Qed.
Lemma lead_out_made s p k : lead_out s p -> In k p -> edge_at m k = None.
Proof. intros [(N & ->)|(j & k0 & e & Hj & -> & Hk & _)] H; [destruct H|]. destruct H as [<-|[]]. exact Hk. Qed.

Lemma after_junction c j o d p : je c = Some j -> route m r (CJunction, j, o) d p -> d = c /\ lead_out c p.
Proof.
  intros Hj R. destruct (bt_from_e _ _ _ _ _ B c) as (k1 & e1 & H1 & D1); [congruence|]. pose proof (occurs_dst _ _ _ H1) as Ho. rewrite D1 in Ho.
  inversion R as [k e s0 d0 He Hs Hd Hoc|k e s0 o' d0 p' He Hs Hno R']; subst.
  - destruct (from_end_junction _ _ _ _ _ Hj He Hs) as [Hk Hd]. split; [exact Hd|]. right. exists j, k, e. auto.
  - destruct (from_end_junction _ _ _ _ _ Hj He Hs) as [Hk Hd]. rewrite Hd in Hno. contradiction.
Qed.
(** The rest of a route that begins with an original connection *)
Lemma along k e0 e s d p : edge_at m k = Some e0 -> edge_at r k = Some e -> e_dst e = via_dst je (e_dst e0) -> e_src e = s ->
  route m r s d p -> hd_error p = Some k -> d = e_dst e0 /\ exists post, p = k :: post /\ lead_out d post.
Proof.
  intros H0 He Hd Hs R Hp. pose proof (occurs_dst _ _ _ H0) as Ho.
  inversion R as [k' e' s0 d0 He' Hs' Hd' Hoc|k' e' s0 o' d0 p' He' Hs' Hno R']; subst; cbn in Hp; injection Hp as ->; rewrite He in He'; injection He' as <-; unfold via_dst in Hd.
  - destruct (je (e_dst e0)) as [j|] eqn:Ej.
    + rewrite Hd in Hoc. destruct (bt_new_e _ _ _ _ _ B _ _ Ej Hoc).
    + split; [exact Hd|]. exists []. split; [reflexivity|]. left. rewrite Hd. auto.
  - destruct (je (e_dst e0)) as [j|] eqn:Ej.
    + rewrite Hd in R'. destruct (after_junction _ _ _ _ _ Ej R') as [-> Hl]. split; [reflexivity|]. exists p'. auto.
    + rewrite Hd in Hno. contradiction.
Qed.

Lemma route_shape s d p : occurs m (fst s) -> route m r s d p ->
  exists k e pre post, edge_at m k = Some e /\ e_src e = s /\ e_dst e = d /\ p = (pre ++ k :: post)%list /\ lead_in s pre /\ lead_out d post.
Proof.
  intros Ho R. pose proof R as R0. assert (Hh : exists k e, hd_error p = Some k /\ edge_at r k = Some e /\ e_src e = s).
  { destruct R; [exists k, e|exists k, e]; auto. }
  destruct Hh as (k & e & Hp & He & Hs). rewrite <- Hs in Ho. destruct (leaving _ _ He Ho) as [(e0 & H0 & S0 & N0 & D0)|(N0 & j & Hj & Hd)].
  - destruct (along _ _ _ _ _ _ H0 He D0 Hs R Hp) as (-> & post & -> & Hl). exists k, e0, [], post. split; auto. split; [congruence|]. split; auto. split; auto.
    split; [|exact Hl]. left. split; [congruence|reflexivity].
  - inversion R as [k' e' s0 d0 He' Hs' Hd' Hoc|k' e' s0 o' d0 p' He' Hs' Hno R']; subst; cbn in Hp; injection Hp as ->; rewrite He in He'; injection He' as <-.
    + rewrite Hd in Hoc. destruct (bt_new_s _ _ _ _ _ B _ _ Hj Hoc).
    + rewrite Hd in R'. assert (Hh : exists k1 e1, hd_error p' = Some k1 /\ edge_at r k1 = Some e1 /\ e_src e1 = (CJunction, j, o')).
      { inversion R' as [k1 e1|k1 e1]; exists k1, e1; auto. }
      destruct Hh as (k1 & e1 & Hp1 & He1 & Hs1). destruct (from_start_junction _ _ _ _ _ Hj He1 Hs1) as (e0 & H0 & S0 & D0).
      destruct (along _ _ _ _ _ _ H0 He1 D0 Hs1 R' Hp1) as (-> & post & -> & Hl).
      exists k1, e0, [k], post. split; auto. split; auto. split; auto. split; auto. split; [|exact Hl].
      right. exists j, k, e. auto.
Qed.

Lemma same_ways s d : occurs m (fst s) -> same_routes m r s d.
Proof.
  intros Ho. split; [|split].
  - intros k e He Hs Hd. subst d. pose proof (bt_kept _ _ _ _ _ B _ _ He) as Hr. pose proof (occurs_dst _ _ _ He) as Hod.
    assert (Tail : forall s0, via_src js s = s0 -> exists p, route m r s0 (e_dst e) (k :: p)).
    { intros s0 Hs0. destruct (je (e_dst e)) as [j|] eqn:Ej.
      - destruct (bt_end _ _ _ _ _ B _ _ Ej) as (k2 & e2 & _ & He2 & Hd2 & Hs2 & _). exists [k2].
        eapply R_via with (o := POut); [exact Hr|cbn; congruence| |].
        + cbn. unfold via_dst. rewrite Ej. exact (bt_new_e _ _ _ _ _ B _ _ Ej).
        + cbn. unfold via_dst. rewrite Ej. eapply R_direct; eauto.
      - exists []. eapply R_direct; [exact Hr|cbn; congruence| |exact Hod]. cbn. unfold via_dst. rewrite Ej. reflexivity. }
    destruct (js s) as [j|] eqn:Ej.
    + destruct (bt_start _ _ _ _ _ B _ _ Ej) as (k1 & e1 & _ & He1 & Hs1 & Hd1 & _).
      destruct (Tail (CJunction, j, POut)) as (p & Hp). { unfold via_src. rewrite Ej. reflexivity. }
      exists (k1 :: k :: p). split; [|cbn; auto]. eapply R_via with (o := POut); [exact He1|exact Hs1| |].
      * rewrite Hd1. exact (bt_new_s _ _ _ _ _ B _ _ Ej).
      * rewrite Hd1. exact Hp.
    + destruct (Tail s) as (p & Hp). { unfold via_src. rewrite Ej. reflexivity. } exists (k :: p). cbn. auto.
  - intros p R. destruct (route_shape _ _ _ Ho R) as (k & e & pre & post & He & Hs & Hd & -> & Hpre & Hpost).
    exists k, e. split; auto. split; auto. split; auto. split; [apply in_app_iff; cbn; auto|].
    intros k' Hin Hm. apply in_app_iff in Hin as [Hin|[->|Hin]]; auto; exfalso; apply Hm.
    + eapply lead_in_made; eauto.
    + eapply lead_out_made; eauto.
  - intros p1 p2 k R1 R2 H1 H2 Hk. destruct (route_shape _ _ _ Ho R1) as (k1 & e1 & pre1 & post1 & _ & _ & _ & -> & A1 & B1).
    destruct (route_shape _ _ _ Ho R2) as (k2 & e2 & pre2 & post2 & _ & _ & _ & -> & A2 & B2).
    assert (k = k1). { apply in_app_iff in H1 as [H1|[H1|H1]]; [destruct Hk; exact (lead_in_made _ _ _ A1 H1)|congruence|destruct Hk; exact (lead_out_made _ _ _ B1 H1)]. }
    assert (k = k2). { apply in_app_iff in H2 as [H2|[H2|H2]]; [destruct Hk; exact (lead_in_made _ _ _ A2 H2)|congruence|destruct Hk; exact (lead_out_made _ _ _ B2 H2)]. }
    rewrite (lead_in_one _ _ _ A1 A2), (lead_out_one _ _ _ B1 B2). congruence.
Qed.
End Result.
