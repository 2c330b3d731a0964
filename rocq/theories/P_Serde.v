(** * P_Serde: proofs about configurations as values *)
From Coq Require Import Ascii String List Bool Arith ZArith Lia Sorted.
From Verif Require Import M_Prog M_Motion M_Config M_Manip M_Serde M_Cli S_Grammar S_Manip S_Cli P_Map P_Cli.
Import ListNotations.
Local Open Scope string_scope.

Lemma all_map {A B} (f : A -> option B) (g : B -> A) l : (forall x, In x l -> f (g x) = Some x) -> all f (map g l) = Some l.
Proof. induction l as [|x l IH]; intros H; cbn; [reflexivity|]. rewrite (H x) by (left; reflexivity). cbn. rewrite IH by (intros; apply H; right; assumption). reflexivity. Qed.
Lemma all_str l : all de_str (map VStr l) = Some l.
Proof. apply all_map. reflexivity. Qed.
Lemma hput_new {V} k (v : V) m : ~ In k (keys m) -> hput k v m = (m ++ [(k, v)])%list.
Proof.
  induction m as [|[k' v'] m IH]; intros H; cbn; [reflexivity|]. destruct (String.eqb k k') eqn:E.
  - apply String.eqb_eq in E. subst. destruct H. left. reflexivity.
  - rewrite IH by (intros Hi; apply H; right; exact Hi). reflexivity.
Qed.
Lemma fold_hput {V} (m acc : list (string * V)) : NoDup (keys (acc ++ m)) -> fold_left (fun acc kv => hput (fst kv) (snd kv) acc) m acc = (acc ++ m)%list.
Proof.
  revert acc. induction m as [|[k v] m IH]; intros acc H; cbn; [rewrite app_nil_r; reflexivity|].
  unfold keys in H. rewrite map_app in H. cbn in H. rewrite hput_new.
  - rewrite IH; [rewrite <- app_assoc; reflexivity|]. unfold keys. rewrite <- app_assoc, map_app. exact H.
  - intros Hi. apply NoDup_remove_2 in H. apply H. rewrite in_app_iff. left. exact Hi.
Qed.
Lemma bput_last {V} k (v : V) m : Forall (fun k' => before k' k) (keys m) -> bput k v m = (m ++ [(k, v)])%list.
Proof.
  induction m as [|[k' v'] m IH]; intros H; cbn; [reflexivity|]. inversion H as [|? ? H1 H2]; subst. cbn in H1.
  destruct (String.compare k k') eqn:E.
  - apply compare_eq in E. subst. destruct (before_irrefl _ H1).
  - exfalso. assert (Hb : before k k') by exact E. exact (before_irrefl _ (before_trans _ _ _ H1 Hb)).
  - rewrite (IH H2). reflexivity.
Qed.
Lemma sorted_app_all (l1 l2 : list string) x : StronglySorted before (l1 ++ x :: l2) -> Forall (fun k => before k x) l1.
Proof.
  induction l1 as [|a l1 IH]; intros H; [constructor|]. cbn in H. inversion H; subst. constructor; [|exact (IH H2)].
  rewrite Forall_forall in H3. apply H3. rewrite in_app_iff. right. left. reflexivity.
Qed.
Lemma fold_bput {V} (m acc : list (string * V)) : ordered (acc ++ m) -> fold_left (fun acc kv => bput (fst kv) (snd kv) acc) m acc = (acc ++ m)%list.
Proof.
  revert acc. induction m as [|[k v] m IH]; intros acc H; cbn; [rewrite app_nil_r; reflexivity|].
  rewrite bput_last.
  - rewrite IH; [rewrite <- app_assoc; reflexivity|]. rewrite <- app_assoc. exact H.
  - unfold ordered, keys in H. rewrite map_app in H. exact (sorted_app_all _ _ _ H).
Qed.
Lemma entries_back {A} (f : value -> option A) (g : A -> value) m : (forall k x, In (k, x) m -> f (g x) = Some x) ->
  de_entries f (map (fun kv => (fst kv, g (snd kv))) m) = Some m.
Proof.
  intros H. unfold de_entries. apply (all_map _ (fun kv : string * A => (fst kv, g (snd kv)))). intros [k x] Hi. cbn. rewrite (H k x Hi). reflexivity.
Qed.
Lemma hash_back {A} (f : value -> option A) (g : A -> value) m : NoDup (keys m) -> (forall k x, In (k, x) m -> f (g x) = Some x) -> de_hash f (ser_map g m) = Some m.
Proof. intros Hn H. unfold de_hash, ser_map. rewrite (entries_back f g m H). cbn. rewrite (fold_hput m []); [reflexivity|exact Hn]. Qed.
Lemma btree_back {A} (f : value -> option A) (g : A -> value) m : ordered m -> (forall k x, In (k, x) m -> f (g x) = Some x) -> de_btree f (ser_map g m) = Some m.
Proof. intros Hn H. unfold de_btree, ser_map. rewrite (entries_back f g m H). cbn. rewrite (fold_bput m []); [reflexivity|exact Hn]. Qed.

Lemma ctype_back t : de_ctype (VStr (ctype_name t)) = Some t. Proof. destruct t; reflexivity. Qed.
Lemma breakable_back b : de_breakable (VStr (breakable_name b)) = Some b. Proof. destruct b; reflexivity. Qed.
Lemma oport_back p : de_oport (VStr (oport_name p)) = Some p. Proof. destruct p; reflexivity. Qed.
Lemma option_str_back s : de_option de_str (ser_option VStr s) = Some s. Proof. destruct s; reflexivity. Qed.
Lemma isize_back z : small z -> de_isize (VNum z) = Some z.
Proof. intros [H1 H2]. unfold de_isize. rewrite (proj2 (Z.leb_le _ _) H1), (proj2 (Z.ltb_lt _ _) H2). reflexivity. Qed.
Lemma usize_back n : (Z.of_nat n < 2 ^ 64)%Z -> de_usize (VNum (Z.of_nat n)) = Some n.
Proof. intros H. unfold de_usize. rewrite (proj2 (Z.leb_le 0 _)) by lia. rewrite (proj2 (Z.ltb_lt _ _) H). cbn [andb]. rewrite Nat2Z.id. reflexivity. Qed.

Opaque de_ctype de_breakable de_oport de_isize de_option de_usize.
Lemma connection_back c : small_connection c -> de_connection (ser_connection c) = Some c.
Proof.
  intros H. destruct c as [t n [b p] o s|t n o s|t n [b p] s]; unfold de_connection, ser_connection, de_struct; cbn in H |- *.
  - unfold de_middle, de_iport, required, defaulted, optional, defaulted, field; cbn.
    rewrite ctype_back; cbn. rewrite breakable_back; cbn. rewrite (isize_back p H); cbn. rewrite oport_back; cbn. rewrite option_str_back. reflexivity.
  - unfold de_middle, de_start, de_iport, required, defaulted, optional, defaulted, field; cbn.
    rewrite ctype_back; cbn. rewrite oport_back; cbn. rewrite option_str_back. reflexivity.
  - unfold de_middle, de_start, de_end, de_iport, required, defaulted, optional, defaulted, field; cbn.
    rewrite ctype_back; cbn. rewrite breakable_back; cbn. rewrite (isize_back p H); cbn. rewrite option_str_back. reflexivity.
Qed.
Lemma dconn_back d : (forall l x, d = Connections l -> In x l -> small_connection x) -> de_dconn (ser_dconn d) = Some d.
Proof.
  intros H. destruct d as [s|l]; [reflexivity|]. unfold de_dconn, ser_dconn. cbn. rewrite all_map; [reflexivity|].
  intros x Hx. apply connection_back. exact (H l x eq_refl Hx).
Qed.
Lemma launch_back l : NoDup (keys (lc_env l)) -> de_launch (ser_launch l) = Some l.
Proof.
  intros H. destruct l as [c p e a]. unfold de_launch, ser_launch, de_struct, optional, defaulted, field. cbn in H. cbn -[de_hash ser_map].
  rewrite !option_str_back. cbn -[de_hash ser_map].
  rewrite (hash_back de_str VStr e H) by reflexivity. cbn. rewrite all_str. reflexivity.
Qed.
Lemma regulator_back r : (forall a b, rc_buffered r = Some (a, b) -> (Z.of_nat a < 2 ^ 64)%Z /\ (Z.of_nat b < 2 ^ 64)%Z) -> de_regulator (ser_regulator r) = Some r.
Proof.
  intros H. destruct r as [b m]. unfold de_regulator, ser_regulator, de_struct, optional, defaulted, field. cbn in H |- *.
  Transparent de_option. destruct b as [[x y]|]; cbn.
  - destruct (H x y eq_refl) as [Hx Hy]. rewrite (usize_back x Hx), (usize_back y Hy). cbn. rewrite all_str. reflexivity.
  - rewrite all_str. reflexivity.
Qed.
Opaque de_hash de_btree ser_map.
Lemma config_back c : holdable c -> de_config (ser_config c) = Some c.
Proof.
  intros (Hf & Hr & Hd & Hl & Hc & He & Hb & Hs). destruct c as [f r d l m]. cbn in *.
  unfold de_config, ser_config, de_struct, defaulted, field. cbn.
  rewrite (hash_back de_faucet ser_faucet f Hf) by reflexivity. cbn.
  rewrite (hash_back de_regulator ser_regulator r Hr) by (intros k x Hi; apply regulator_back; intros a b Hx; exact (Hb k x a b Hi Hx)). cbn.
  rewrite (hash_back de_drain ser_drain d Hd) by reflexivity. cbn.
  rewrite (hash_back de_launch ser_launch l Hl) by (intros k x Hi; apply launch_back; exact (He k x Hi)). cbn.
  rewrite (btree_back de_dconn ser_dconn m Hc); [reflexivity|]. intros k x Hi. apply dconn_back. intros cs y -> Hy. exact (Hs k cs y Hi Hy).
Qed.
Transparent de_ctype de_breakable de_oport de_isize de_usize de_hash de_btree ser_map.

(** ** How a connection is read: each side on its own; a side that cannot be read is as if it were not there *)
Lemma connection_read m c : de_connection (VMap m) = Some c <->
  exists t n s, required "component_type" de_ctype m = Some t /\ required "component_name" de_str m = Some n /\ optional "connection_set" de_str m = Some s /\
    match de_iport m, required "output_port" de_oport m with
    | Some i, Some o => c = MiddleC t n i o s
    | None, Some o => c = StartC t n o s
    | Some i, None => c = EndC t n i s
    | None, None => False
    end.
Proof.
  unfold de_connection, de_struct, de_middle, de_start, de_end, bind, orelse.
  destruct (required "component_type" de_ctype m) as [t|]; [|split; [discriminate|intros (? & ? & ? & [=] & _)]].
  destruct (required "component_name" de_str m) as [n|]; [|split; [discriminate|intros (? & ? & ? & _ & [=] & _)]].
  destruct (optional "connection_set" de_str m) as [s|].
  2: { split; [|intros (? & ? & ? & _ & _ & [=] & _)]. destruct (de_iport m), (required "output_port" de_oport m); discriminate. }
  destruct (de_iport m) as [i|], (required "output_port" de_oport m) as [o|]; split; try discriminate.
  all: try (intros [= <-]; exists t, n, s; auto).
  all: intros (? & ? & ? & [= <-] & [= <-] & [= <-] & H); congruence || contradiction.
Qed.
Lemma text_read v s : de_dconn v = Some (JoinString s) <-> v = VStr s.
Proof.
  split; [|intros ->; reflexivity]. unfold de_dconn, de_str, de_seq, orelse, bind. destruct v; try discriminate; try (intros [= ->]; reflexivity).
  destruct (all de_connection l); discriminate.
Qed.

(** Two values whose sides are lost *)
Definition without_priority : value :=
  VMap [("component_type", VStr "launch"); ("component_name", VStr "a"); ("breakable", VStr "finish"); ("output_port", VStr "out")].
Definition misspelt_port : value :=
  VMap [("component_type", VStr "launch"); ("component_name", VStr "a"); ("priority", VNum 0); ("output_port", VStr "stdout")].
Lemma sides_lost : de_connection without_priority = Some (StartC CLaunch "a" POut None) /\ de_connection misspelt_port = Some (EndC CLaunch "a" (InPort Terminate 0) None).
Proof. split; reflexivity. Qed.

(** ** What is not read at all *)
Lemma not_read v : match v with VMap _ | VSeq _ => False | _ => True end ->
  de_config v = None /\ de_launch v = None /\ de_regulator v = None /\ de_drain v = None /\ de_faucet v = None /\ de_connection v = None.
Proof. destruct v; intros H; try contradiction; repeat split; reflexivity. Qed.
Lemma marks_read v lo hi : de_pair v = Some (lo, hi) -> exists x y, v = VSeq [x; y] /\ x = VNum (Z.of_nat lo) /\ y = VNum (Z.of_nat hi).
Proof.
  destruct v as [| | | |[|x [|y [|]]]|]; try discriminate. unfold de_pair, bind, de_usize. destruct x as [| |z| | |], y as [| |z'| | |]; try discriminate; repeat (match goal with |- context [if ?b then _ else _] => destruct b eqn:? end; try discriminate).
  intros [= <- <-]. repeat match goal with H : (_ && _)%bool = true |- _ => apply andb_prop in H; destruct H end. exists (VNum z), (VNum z'). rewrite !Z2Nat.id by lia. repeat split.
Qed.
Lemma only_these v : (match v with VMap _ | VSeq _ => False | _ => True end ->
    de_config v = None /\ de_launch v = None /\ de_regulator v = None /\ de_drain v = None /\ de_faucet v = None /\ de_connection v = None) /\
  (forall lo hi, de_pair v = Some (lo, hi) -> v = VSeq [VNum (Z.of_nat lo); VNum (Z.of_nat hi)]).
Proof. split; [apply not_read|]. intros lo hi H. destruct (marks_read _ _ _ H) as (x & y & -> & -> & ->). reflexivity. Qed.

(** ** A field given twice *)
Lemma field_twice k v v' l1 l2 l3 : field k (l1 ++ (k, v) :: l2 ++ (k, v') :: l3) = Duplicate.
Proof.
  unfold field. rewrite filter_app. cbn [filter fst]. rewrite String.eqb_refl, filter_app. cbn [filter fst]. rewrite String.eqb_refl.
  destruct (filter _ l1) as [|[] [|? ?]], (filter _ l2) as [|[] ?]; reflexivity.
Qed.
Lemma twice_refused k v v' l1 l2 l3 : let m := VMap (l1 ++ (k, v) :: l2 ++ (k, v') :: l3) in
  (In k launch_fields -> de_launch m = None) /\ (In k faucet_fields -> de_faucet m = None) /\ (In k drain_fields -> de_drain m = None) /\
  (In k regulator_fields -> de_regulator m = None) /\ (In k config_fields -> de_config m = None).
Proof.
  cbv zeta. pose proof (field_twice k v v' l1 l2 l3) as F. set (m := (l1 ++ _)%list) in *. clearbody m.
  assert (K : forall A (f : value -> option A) (d : A), defaulted k f d m = None) by (intros; unfold defaulted; now rewrite F).
  repeat split; intros H; cbn [In launch_fields faucet_fields drain_fields regulator_fields config_fields] in H;
    repeat (destruct H as [H|H]; [subst k|]); try contradiction;
    unfold de_launch, de_faucet, de_drain, de_regulator, de_config, de_struct, optional, required; rewrite ?F, ?K; unfold bind;
    repeat match goal with |- context [match defaulted ?x ?f ?d m with _ => _ end] => destruct (defaulted x f d m) end; try reflexivity.
Qed.
