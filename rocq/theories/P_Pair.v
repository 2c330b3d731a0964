(** * P_Pair: new names; breaking connections into pairs *)
From Coq Require Import Ascii String List Bool Arith ZArith Sorted Permutation Lia DecimalString DecimalNat.
From Verif Require Import M_Prog M_Config M_Parser M_Manip S_Grammar S_Manip P_Map P_Parser.
Import ListNotations.
Local Open Scope string_scope.

(** ** New names (C45) *)
Lemma app_inj_s (a : string) : forall b c, a ++ b = a ++ c -> b = c.
Proof. induction a; cbn; intros b c H; [auto|]. injection H. auto. Qed.
Lemma to_uint_nil i : Nat.to_uint i <> Decimal.Nil.
Proof. intros H. pose proof (Unsigned.of_to i) as E. rewrite H in E. cbn in E. subst i. discriminate H. Qed.
Lemma numbered_inj k i j : numbered k i = numbered k j -> i = j.
Proof.
  unfold numbered. intros H. apply app_inj_s, app_inj_s in H.
  assert (E : NilZero.uint_of_string (NilZero.string_of_uint (Nat.to_uint i)) = NilZero.uint_of_string (NilZero.string_of_uint (Nat.to_uint j))) by congruence.
  rewrite !NilZero.usu in E by apply to_uint_nil. injection E as E. apply Unsigned.to_uint_inj; auto.
Qed.

Lemma new_key_from_spec k ex fuel : forall i, exists j, i <= j <= i + fuel /\ new_key_from fuel i k ex = numbered k j /\
  (forall x, i <= x < j -> In (numbered k x) ex) /\ (j < i + fuel -> ~ In (numbered k j) ex).
Proof.
  induction fuel as [|fuel IH]; intros i; cbn.
  - exists i. split; [lia|]. split; [reflexivity|]. split; intros; lia.
  - destruct (mem (numbered k i) ex) eqn:E.
    + apply mem_in in E. destruct (IH (S i)) as (j & H1 & H2 & H3 & H4). exists j. repeat split; try lia; auto.
      * intros x Hx. destruct (Nat.eq_dec x i) as [->|]; auto. apply H3. lia.
      * intros. apply H4. lia.
    + apply mem_not in E. exists i. split; [lia|]. split; [reflexivity|]. split; [intros; lia|auto].
Qed.
Lemma new_key k ex : exists j, 1 <= j <= S (List.length ex) /\ generate_new_key k ex = numbered k j /\
  (forall x, 1 <= x < j -> In (numbered k x) ex) /\ ~ In (numbered k j) ex.
Proof.
  unfold generate_new_key. destruct (new_key_from_spec k ex (List.length ex) 1) as (j & H1 & H2 & H3 & H4).
  exists j. repeat split; try lia; auto. destruct (Nat.eq_dec j (1 + List.length ex)) as [->|]; [|apply H4; lia].
  intros Hin. assert (Hl : List.length (map (numbered k) (seq 1 (S (List.length ex)))) <= List.length ex).
  { apply NoDup_incl_length.
    - apply FinFun.Injective_map_NoDup; [intros a b; apply numbered_inj|apply seq_NoDup].
    - intros y Hy. apply in_map_iff in Hy as (x & <- & Hx). apply in_seq in Hx.
      destruct (Nat.eq_dec x (1 + List.length ex)) as [->|]; auto. apply H3. lia. }
  rewrite map_length, seq_length in Hl. lia.
Qed.
Lemma new_key_fresh k ex : ~ In (generate_new_key k ex) ex.
Proof. destruct (new_key k ex) as (j & _ & -> & _ & H). exact H. Qed.

(** ** Breaking apart (C44) *)
Lemma pop_last {A} (l : list A) x : pop (l ++ [x]) = (l, Some x).
Proof. unfold pop. rewrite rev_unit, rev_involutive. reflexivity. Qed.
Definition double (ab : connection * connection) : apart := Double (fst ab) (snd ab).
Lemma chunks l : forall acc a b, fold_left break_apart_chunker l (acc ++ [Double a b])%list = (acc ++ map double ((a, b) :: neighbours (b :: l)))%list.
Proof.
  induction l as [|c l IH]; intros acc a b; [reflexivity|].
  cbn [fold_left]. unfold break_apart_chunker at 2. rewrite pop_last.
  change [Double a b; Double b c] with ([Double a b] ++ [Double b c])%list. rewrite app_assoc, IH, <- app_assoc. reflexivity.
Qed.
Lemma chunks_two a b l : fold_left break_apart_chunker (a :: b :: l) [] = map double (neighbours (a :: b :: l)).
Proof. exact (chunks l [] a b). Qed.

Lemma good_neighbours l : chain_tail l -> forall c, (exists o, output_of c = Some o) ->
  Forall (fun ab => (exists o, output_of (fst ab) = Some o) /\ (exists i, input_of (snd ab) = Some i)) (neighbours (c :: l)).
Proof.
  induction 1 as [t n i s|t n i o s l Hl IH]; intros c Hc.
  - repeat constructor; cbn; eauto.
  - cbn [neighbours]. constructor; [cbn; eauto|]. apply IH. cbn. eauto.
Qed.
Lemma mapped l : Forall (fun ab : connection * connection => (exists o, output_of (fst ab) = Some o) /\ (exists i, input_of (snd ab) = Some i)) l ->
  exists ps, omap (fun x => obind (break_apart_mapper x) apart_iterator_to_double_connection) (map double l) = Good ps /\ Forall2 pair_of l ps.
Proof.
  induction 1 as [|[a b] l [[o Ho] [i Hi]] _ IH]; [exists []; split; [reflexivity|constructor]|].
  destruct IH as (ps & E & HF). cbn [map omap].
  assert (A : obind (break_apart_mapper (double (a, b))) apart_iterator_to_double_connection =
    Good (Connections [StartC (conn_type a) (conn_name a) o (conn_set a); EndC (conn_type b) (conn_name b) i (conn_set b)])).
  { destruct a, b; cbn in *; try discriminate; injection Ho as <-; injection Hi as <-; reflexivity. }
  rewrite A. cbn [obind]. rewrite E. cbn [obind]. eexists; split; [reflexivity|]. constructor; auto.
  eexists; eexists. split; [reflexivity|]. split; [exists o|exists i]; auto.
Qed.
Lemma break_chain l : chain l -> exists ps, break_apart l = Good ps /\ Forall2 pair_of (neighbours l) ps.
Proof.
  intros [|t n o s l' Hl]; [exists []; split; [reflexivity|constructor]|]. unfold break_apart.
  destruct l' as [|b l']; [inversion Hl|]. rewrite chunks_two. apply mapped.
  apply good_neighbours; cbn; eauto.
Qed.

(** One connection list: the names given to its pairs *)
Lemma insert_pairs_spec k ps : forall ex acc, ordered acc -> (forall x, In x ex <-> In x (keys acc)) ->
  exists ns, StronglySorted lt ns /\ List.length ns = List.length ps /\
    Forall (fun n => ~ In (numbered k n) (keys acc)) ns /\
    (forall lim, (forall x, 1 <= x <= lim -> In (numbered k x) (keys acc)) -> Forall (lt lim) ns) /\
    ordered (insert_pairs k ps ex acc) /\
    (forall x, lookup x (insert_pairs k ps ex acc) = match lookup x (combine (map (numbered k) ns) ps) with Some v => Some v | None => lookup x acc end).
Proof.
  induction ps as [|p ps IH]; intros ex acc Ho He; cbn [insert_pairs].
  - exists []. repeat split; auto; constructor.
  - destruct (new_key k ex) as (j & Hj & Ek & Hlow & Hnew). rewrite Ek.
    destruct (IH (numbered k j :: ex) (bput (numbered k j) p acc)) as (ns & Hs & Hlen & Hfr & Hlim & Ho' & Hl).
    + apply ordered_bput; auto.
    + intros x. rewrite keys_bput. cbn. rewrite He. intuition.
    + assert (Hgt : Forall (lt j) ns).
      { apply Hlim. intros x Hx. rewrite keys_bput. destruct (Nat.eq_dec x j) as [->|]; [auto|]. right. apply He, Hlow. lia. }
      exists (j :: ns). split; [constructor; auto|]. split; [cbn; congruence|]. split; [|split; [|split]].
      * constructor; [rewrite <- He; auto|]. eapply Forall_impl; [|exact Hfr]. cbn beta. intros a Ha Hin. apply Ha. rewrite keys_bput. auto.
      * intros lim Hx. assert (lim < j). { destruct (le_lt_dec j lim); auto. exfalso. apply Hnew, He, Hx. lia. }
        constructor; auto. eapply Forall_impl; [|exact Hgt]. cbn beta. intros; lia.
      * exact Ho'.
      * intros x. rewrite Hl. cbn [map combine lookup]. rewrite lookup_bput.
        destruct (String.eqb_spec x (numbered k j)) as [->|]; [|reflexivity].
        replace (lookup (numbered k j) (combine (map (numbered k) ns) ps)) with (@None dconn); [reflexivity|].
        symmetry. apply lookup_none. unfold keys. intros Hin. apply in_map_iff in Hin as ([a b] & Ha & Hin). cbn in Ha. subst a.
        apply in_combine_l, in_map_iff in Hin as (y & Hy & Hin). apply numbered_inj in Hy as ->.
        rewrite Forall_forall in Hgt. specialize (Hgt _ Hin). lia.
Qed.

Lemma nodup_app {A} (a b : list A) : NoDup a -> NoDup b -> (forall x, In x a -> In x b -> False) -> NoDup (a ++ b).
Proof.
  induction a as [|x a IH]; cbn; intros Ha Hb H; [auto|]. inversion Ha; subst. constructor.
  - intros Hin. apply in_app_iff in Hin as [|]; eauto.
  - apply IH; eauto.
Qed.
Lemma keys_combine {V} (a : list string) : forall (b : list V), List.length a = List.length b -> keys (combine a b) = a.
Proof. induction a as [|x a IH]; intros [|y b] H; cbn in *; try discriminate; [reflexivity|]. f_equal. apply IH. lia. Qed.
Lemma numbered_nodup k ns : StronglySorted lt ns -> NoDup (map (numbered k) ns).
Proof.
  intros H. apply FinFun.Injective_map_NoDup; [intros a b; apply numbered_inj|].
  induction H as [|a l Hl IH Ha]; constructor; auto. intros Hin. rewrite Forall_forall in Ha. specialize (Ha _ Hin). lia.
Qed.

Lemma pair_up_from m : Forall (fun kv => exists l, snd kv = Connections l /\ chain l) m -> forall acc, ordered acc ->
  exists r added, ofold rebuild_pair_up_connections_folder m acc = Good r /\ ordered r /\ pairs_of m added /\
    NoDup (keys added) /\ Forall (fun k => ~ In k (keys acc)) (keys added) /\
    forall x, lookup x r = match lookup x added with Some v => Some v | None => lookup x acc end.
Proof.
  induction 1 as [|[k d] m (l & Hd & Hl) _ IH]; intros acc Ho; cbn [ofold].
  - exists acc, []. repeat split; auto; constructor.
  - cbn in Hd. subst d. unfold rebuild_pair_up_connections_folder at 1. cbn [fst snd].
    destruct (break_chain l Hl) as (ps & -> & HF). cbn [obind].
    destruct (insert_pairs_spec k ps (keys acc) acc Ho ltac:(tauto)) as (ns & Hs & Hlen & Hfr & _ & Ho' & Hlk).
    set (acc' := insert_pairs k ps (keys acc) acc) in *.
    destruct (IH acc' Ho') as (r & added & E & Hor & Hp & Hn & Hf & Hr).
    assert (Hkc : keys (combine (map (numbered k) ns) ps) = map (numbered k) ns) by (apply keys_combine; rewrite map_length; auto).
    assert (Hkeys : forall x, In x (keys acc') <-> In x (map (numbered k) ns) \/ In x (keys acc)).
    { intros x. pose proof (lookup_key x (combine (map (numbered k) ns) ps)) as Hc. rewrite Hkc in Hc.
      rewrite <- Hc, <- !lookup_key, Hlk. destruct (lookup x (combine _ ps)); intuition congruence. }
    exists r, (combine (map (numbered k) ns) ps ++ added)%list.
    split; [exact E|]. split; [exact Hor|]. split; [constructor; auto|].
    rewrite Forall_forall in Hf, Hfr.
    assert (Hka : keys (combine (map (numbered k) ns) ps ++ added) = (map (numbered k) ns ++ keys added)%list).
    { transitivity (keys (combine (map (numbered k) ns) ps) ++ keys added)%list; [apply map_app|rewrite Hkc; reflexivity]. }
    rewrite Hka. split; [|split].
    + apply nodup_app.
      * apply numbered_nodup; auto.
      * exact Hn.
      * intros x H1 H2. apply (Hf _ H2). apply Hkeys. auto.
    + apply Forall_forall. intros x Hx. apply in_app_iff in Hx as [Hx|Hx].
      * apply in_map_iff in Hx as (n & <- & Hn'). auto.
      * intros Hin. apply (Hf _ Hx). apply Hkeys. auto.
    + intros x. rewrite Hr, Hlk, lookup_app.
      destruct (lookup x added) eqn:E1; [|destruct (lookup x (combine (map (numbered k) ns) ps)); reflexivity]. destruct (lookup x (combine _ ps)) eqn:E2; [|reflexivity].
      exfalso. apply (Hf x); [apply lookup_key; congruence|]. apply Hkeys. left. pose proof (lookup_key x (combine (map (numbered k) ns) ps)) as Hc. rewrite Hkc in Hc. apply Hc. congruence.
Qed.

Lemma pair_up_spec m : Forall (fun kv => exists l, snd kv = Connections l /\ chain l) m ->
  exists r added, pair_up m = Good r /\ ordered r /\ pairs_of m added /\ NoDup (keys added) /\
    forall k p, In (k, p) r <-> In (k, p) added.
Proof.
  intros H. destruct (pair_up_from m H [] (SSorted_nil _)) as (r & added & E & Ho & Hp & Hn & _ & Hl).
  exists r, added. repeat split; auto; intros Hin.
  - apply lookup_in. pose proof (Hl k) as Hk. rewrite (in_lookup _ _ _ (ordered_nodup _ Ho) Hin) in Hk.
    destruct (lookup k added); [congruence|discriminate].
  - apply lookup_in. rewrite Hl, (in_lookup _ _ _ Hn Hin). reflexivity.
Qed.
