(** * P_Path: the ways in the network are the ways in the connections as written *)
From Coq Require Import Ascii String List Bool Arith ZArith Lia Permutation.
From Verif Require Import M_Prog M_Motion M_Connectable M_Faucet M_Launch M_Junction M_Buffer M_Drain M_Regulator M_Join S_Trace S_Motion S_World S_Network S_Net M_Start S_Start S_Flow S_Path M_Config M_Manip M_Lint M_Waiter S_Grammar S_Manip S_Waiter S_Shape P_Text P_Map P_Pair P_Parser P_Junctions P_Junctions2 P_Manip P_Cell P_Wire P_Build P_Ready P_WaiterExamples P_Errors P_Top P_Made P_Whole P_Rounds P_Shape P_Stream.
Import ListNotations.
Local Open Scope list_scope.

(** ** The neighbours and the pairs *)
Lemma spelled_out m ps : spelled m ps -> forall m1, convert_connections m = Good (m1, []) -> ps = flat_map (fun kv => neighbours (listed (snd kv))) m1.
Proof.
  unfold convert_connections. induction 1 as [|k d l m ps Hd _ IH]; intros m1; cbn [omap obind]; [intros [= <-]; reflexivity|].
  assert (E : convert_one (k, d) = Good ((k, Connections l), [])).
  { destruct Hd as [->|(s & -> & Hs)]; [reflexivity|]. unfold convert_one. cbn [snd fst]. pose proof (proj2 (load_exact s l) Hs) as E'. rewrite E'. reflexivity. }
  rewrite E. cbn [obind]. destruct (omap convert_one m) as [r|] eqn:Er; [|discriminate]. cbn [obind map flat_map fst snd app]. intros [= <- E2].
  cbn [flat_map snd listed]. f_equal. apply IH. cbn [obind]. rewrite E2. reflexivity.
Qed.
Lemma spelled_good m : Forall (fun kv => good_connection (snd kv)) m -> exists ps, spelled m ps.
Proof.
  induction 1 as [|[k d] m Hd _ (ps & IH)]; [exists []; constructor|]. destruct d as [s|l]; cbn in Hd.
  - destruct Hd as (l & Hl). eexists. eapply (Sp_more _ _ l); [right; eauto|exact IH].
  - eexists. eapply (Sp_more _ _ l); [now left|exact IH].
Qed.
(** The outputs connected to [x] in a map of pairs *)
Definition into_list (x : component) (q : connmap) : list M_Manip.source :=
  flat_map (fun kv => match edge_of (snd kv) with Some e => if component_eqb (e_dst e) x then [e_src e] else [] | None => [] end) q.
Lemma into_app x a b : into_list x (a ++ b) = into_list x a ++ into_list x b.
Proof. unfold into_list. now rewrite flat_map_app. Qed.
Lemma arrivals_app a b x : arrivals (a ++ b) x = arrivals a x ++ arrivals b x.
Proof. unfold arrivals. now rewrite flat_map_app. Qed.
Lemma into_pairs x : forall zs ps ns, Forall2 pair_of zs ps -> (forall a b, In (a, b) zs -> exists o, output_of a = Some o) -> List.length ns = List.length ps -> into_list x (combine ns ps) = arrivals zs x.
Proof.
  intros zs ps ns H. revert ns. induction H as [|[a b] d zs ps Hp _ IH]; intros ns Ho Hlen; destruct ns as [|n ns]; try discriminate Hlen; [reflexivity|].
  destruct (Ho a b (or_introl eq_refl)) as (o & Eo). destruct (pair_edge _ _ _ _ Hp Eo) as (i & _ & Ed). cbn [combine]. unfold into_list. cbn [flat_map snd]. rewrite Ed. cbn [e_dst e_src].
  unfold arrivals. cbn [flat_map snd fst]. unfold output_at at 1. rewrite Eo. fold (into_list x (combine ns ps)). rewrite IH; [|intros; eapply Ho; right; eassumption|now injection Hlen]. reflexivity.
Qed.
Lemma into_added x m1 added : pairs_of m1 added -> chains m1 -> into_list x added = arrivals (flat_map (fun kv => neighbours (listed (snd kv))) m1) x.
Proof.
  induction 1 as [|k l m ns ps rest Hs Hf Hlen Hp IH]; intros Hc; [reflexivity|]. inversion Hc as [|? ? (l' & E & Hch) Hc']; subst. cbn in E. injection E as <-.
  rewrite into_app, (IH Hc'). cbn [flat_map snd listed]. rewrite arrivals_app. f_equal. apply into_pairs; [exact Hf|intros a b Hab; exact (next_output _ Hch _ _ Hab)|]. now rewrite map_length.
Qed.
Lemma into_perm x a b : Permutation a b -> Permutation (into_list x a) (into_list x b).
Proof. intros H. unfold into_list. now apply Permutation_flat_map. Qed.
Lemma nodup_pairs {V} (q : list (string * V)) : NoDup (keys q) -> NoDup q.
Proof. apply NoDup_map_inv. Qed.
Lemma written_arrivals m ps m1 p : good_connections m -> spelled m ps -> convert_connections m = Good (m1, []) -> pair_up m1 = Good p -> forall x, Permutation (arrivals ps x) (into_list x p).
Proof.
  intros [_ Hg] Hsp E1 E2 x. destruct (convert_good m Hg) as (m1' & E1' & Hc & _). rewrite E1 in E1'. injection E1' as <-. destruct (pair_up_spec m1 Hc) as (p' & added & E2' & Ho & Hp & Hn & Hi). rewrite E2 in E2'. injection E2' as <-.
  rewrite (spelled_out _ _ Hsp _ E1), <- (into_added x _ _ Hp Hc). apply into_perm. apply Permutation_sym. apply NoDup_Permutation; [apply nodup_pairs, ordered_nodup; exact Ho|apply nodup_pairs; exact Hn|]. intros [k d]. apply Hi.
Qed.

(** ** Lists *)
Lemma choose_list {A B} (R : A -> B -> Prop) L : (forall a, In a L -> exists b, R a b) -> exists bs, Forall2 R L bs.
Proof.
  induction L as [|a L IH]; intros H; [exists []; constructor|]. destruct (H a (or_introl eq_refl)) as (b & Hb). destruct IH as (bs & Hbs); [intros; apply H; now right|]. exists (b :: bs). now constructor.
Qed.
Lemma perm_forall2 {A B} (R : A -> B -> Prop) a b cs : Permutation a b -> Forall2 R a cs -> exists ds, Permutation cs ds /\ Forall2 R b ds.
Proof.
  intros HP. revert cs. induction HP as [|x a b _ IH|x y a|a b d _ IH1 _ IH2]; intros cs H.
  - inversion H; subst. exists []. auto using Forall2.
  - inversion H as [|? z ? zs H1 H2]; subst. destruct (IH _ H2) as (ds & P & F). exists (z :: ds). split; [now constructor|now constructor].
  - inversion H as [|? z ? zs H1 H2]; subst. inversion H2 as [|? z' ? zs' H3 H4]; subst. exists (z' :: z :: zs'). split; [apply perm_swap|]. repeat constructor; assumption.
  - destruct (IH1 _ H) as (ds & P & F). destruct (IH2 _ F) as (es & P' & F'). exists es. split; [eapply perm_trans; eassumption|exact F'].
Qed.
Lemma perm_concat {A} (a b : list (list A)) : Permutation a b -> Permutation (concat a) (concat b).
Proof. induction 1; cbn; [constructor|now apply Permutation_app_head|rewrite !app_assoc; apply Permutation_app_tail, Permutation_app_comm|eapply perm_trans; eassumption]. Qed.
Lemma forall2_in_r {A B} (R : A -> B -> Prop) a b : Forall2 R a b -> forall y, In y b -> exists x, In x a /\ R x y.
Proof. induction 1 as [|x y a b Hxy _ IH]; [intros ? []|]; intros z [->|Hz]; [exists x; split; [now left|exact Hxy]|]. destruct (IH _ Hz) as (x' & H1 & H2). exists x'. split; [now right|exact H2]. Qed.
Lemma forall2_in_l {A B} (R : A -> B -> Prop) a b : Forall2 R a b -> forall x, In x a -> exists y, In y b /\ R x y.
Proof. induction 1 as [|x y a b Hxy _ IH]; [intros ? []|]; intros z [->|Hz]; [exists y; split; [now left|exact Hxy]|]. destruct (IH _ Hz) as (x' & H1 & H2). exists x'. split; [now right|exact H2]. Qed.
Lemma forall2_nodup {A B} (R : A -> B -> Prop) a b : Forall2 R a b -> (forall x x' y, In x a -> In x' a -> R x y -> R x' y -> x = x') -> NoDup a -> NoDup b.
Proof.
  induction 1 as [|x y a b Hxy HF IH]; intros Hi HN; [constructor|]. inversion HN as [|? ? Hx HN']; subst. constructor.
  - intros Hy. destruct (forall2_in_r _ _ _ HF _ Hy) as (x' & Hx' & R'). assert (x = x') by (eapply Hi; [now left|right; exact Hx'|exact Hxy|exact R']). subst. contradiction.
  - apply IH; [intros; eapply Hi; try (right; eassumption); eassumption|exact HN'].
Qed.

Lemma forall2_flip {A B} (R : A -> B -> Prop) a b : Forall2 R a b -> Forall2 (fun y x => R x y) b a.
Proof. induction 1; now constructor. Qed.
Lemma comes_induct ps (Q : M_Manip.source -> list M_Manip.source -> Prop) :
  (forall t n o, t = CFaucet \/ t = CLaunch -> Q ((t, n), o) [((t, n), o)]) ->
  (forall t n o sss, t = CRegulator \/ t = CBuffer \/ t = CJunction -> Forall2 Q (arrivals ps (t, n)) sss -> Q ((t, n), o) (concat sss)) ->
  forall s ss, comes_from ps s ss -> Q s ss.
Proof.
  intros H1 H2. fix IH 3. intros s ss [t n o Ht|t n o sss Ht HF]; [exact (H1 _ _ _ Ht)|]. apply H2; [exact Ht|]. induction HF as [|? ? ? ? HR _ IHF]; constructor; [exact (IH _ _ HR)|exact IHF].
Qed.

(** ** From the network to the connections *)
Section Ways.
Variables (sh : shuffles) (c c' : config) (p r : connmap) (m1 : connmap) (added : list (string * dconn)).
Variables (js : M_Manip.source -> option string) (je : component -> option string) (ks : list string).
Hypothesis Ho : ordered p.
Hypothesis Hp : all_pairs p.
Hypothesis P : prepared sh c c' p r.
Hypothesis B : built p js je ks r.
Hypothesis Hje : forall x, je x <> None <-> 2 <= count (into x) p.
Hypothesis Hbl : buildable c' (links (cf_connection c')).
Notation m' := (cf_connection c').
Variables (cwd : option string) (vars : list (string * string)) (w : waiter).
Notation ls := (numbered_links m').
Hypothesis Hw : written_out m'.
Hypothesis F : fabric c' w ls.
Notation S := (seated cwd vars w).
Notation net := (net_of cwd vars w).

Lemma edge_number n lk : In (n, lk) ls <-> exists k d e, nth_error m' n = Some (k, d) /\ edge_at m' k = Some e /\ lk = elink e.
Proof. rewrite <- (nth_links m' (pr_pairs _ _ _ _ _ P) (pr_ordered _ _ _ _ _ P) n lk). exact (number_in (links m') n lk). Qed.
Lemma once : NoDup (map fst ls).
Proof.
  unfold numbered_links. generalize (links m') 0. intros l. induction l as [|a l IH]; intros n; cbn; [constructor|]. constructor; [|apply IH].
  intros H. apply in_map_iff in H as ([k x] & E & H). cbn in E. subst k. apply in_combine_l, in_seq in H. lia.
Qed.
(** An edge under the key [k] has the number [n]. *)
Definition num (k : string) (n : nat) : Prop := exists d, nth_error m' n = Some (k, d).
Lemma num_there k e : edge_at m' k = Some e -> exists n, num k n.
Proof. intros H. destruct (place_of _ _ _ H) as (n & d & E). exists n, d. exact E. Qed.
Lemma num_link k n e : num k n -> edge_at m' k = Some e -> In (n, elink e) ls.
Proof. intros (d & E) He. apply edge_number. exists k, d, e. auto. Qed.
Lemma num_key k k' n : num k n -> num k' n -> k = k'.
Proof. intros (d & E) (d' & E'). congruence. Qed.
Lemma num_once k n n' : num k n -> num k n' -> n = n'.
Proof. intros (d & E) (d' & E'). exact (same_place m' (ordered_nodup _ (pr_ordered _ _ _ _ _ P)) _ _ _ _ _ E E'). Qed.
Lemma link_num n lk : In (n, lk) ls -> exists k e, num k n /\ edge_at m' k = Some e /\ lk = elink e.
Proof. intros H. apply edge_number in H as (k & d & e & E & He & ->). exists k, e. split; [now exists d|auto]. Qed.

(** The four kinds of edge, with their keys *)
Inductive kind (k : string) (e : edge) : Prop :=
| K_kept e0 : edge_at p k = Some e0 -> e_src e = via_src js (e_src e0) -> e_dst e = via_dst je (e_dst e0) -> kind k e
| K_split j : edge_at p k = None -> edge_at r k = Some e -> js (e_src e) = Some j -> e_dst e = (CJunction, j) -> kind k e
| K_merge j : edge_at p k = None -> edge_at r k = Some e -> je (e_dst e) = Some j -> e_src e = (CJunction, j, POut) -> kind k e
| K_spy n dn : edge_at r k = None -> e_src e = S_Manip.exit_of n -> e_dst e = (CDrain, dn) -> kind k e.
Lemma kinds k e : edge_at m' k = Some e -> kind k e.
Proof.
  intros He. destruct (prepared_edges _ _ _ _ _ P _ _ He) as [Hr'|(n & dn & Er & _ & -> & _)].
  - destruct (edge_at p k) as [e0|] eqn:E0.
    + pose proof (bt_kept _ _ _ _ _ B _ _ E0) as H. rewrite Hr' in H. injection H as ->. eapply K_kept; [exact E0|reflexivity|reflexivity].
    + destruct (bt_made _ _ _ _ _ B _ _ E0 Hr') as [_ [(j & H1 & H2)|(j & H1 & H2)]]; [eapply K_split|eapply K_merge]; eassumption.
  - eapply K_spy; [unfold edge_at; now rewrite Er|reflexivity|reflexivity].
Qed.
Lemma kept_there k e0 : edge_at p k = Some e0 -> exists e, edge_at m' k = Some e /\ e_src e = via_src js (e_src e0) /\ e_dst e = via_dst je (e_dst e0).
Proof. intros H. pose proof (kept_edges _ _ _ _ _ P _ _ (bt_kept _ _ _ _ _ B _ _ H)) as H1. eexists. split; [exact H1|]. split; reflexivity. Qed.
(** Nothing is added to what goes into what was mentioned. *)
Lemma no_spy k e n d : edge_at m' k = Some e -> edge_at r k = None -> e_src e = S_Manip.exit_of n -> e_dst e = (CDrain, d) -> ~ occurs p (CDrain, d).
Proof.
  intros He Er Es Ed (k0 & e0 & E0 & [H|H]).
  - destruct (paired_edge p r js je ks k0 e0 B E0) as [(k1 & e1 & H1 & H2) _]. pose proof (kept_edges _ _ _ _ _ P _ _ H1) as H3. destruct (num_there _ _ H3) as (n1 & N1).
    apply (bl_no_drain _ _ Hbl (elink e1)); [exact (in_combine_r _ _ _ _ (num_link _ _ _ N1 H3))|]. cbn. rewrite H2, H. reflexivity.
  - destruct (paired_edge p r js je ks k0 e0 B E0) as [_ (k1 & e1 & _ & _ & H1 & H2 & _)]. pose proof (kept_edges _ _ _ _ _ P _ _ H1) as H3. destruct (num_there _ _ H3) as (n1 & N1). destruct (num_there _ _ He) as (n2 & N2).
    pose proof (num_link _ _ _ N1 H3) as L1. pose proof (num_link _ _ _ N2 He) as L2. apply (number_in (links m')) in L1, L2.
    assert (n1 = n2) by (apply (bl_one_in _ _ Hbl _ _ _ _ L1 L2); cbn; [congruence|rewrite H2, H; discriminate]). subst n2. pose proof (num_key _ _ _ N1 N2). subst k1. congruence.
Qed.

(** The channels that carry what comes out of [s] beyond the junction made for it, if there is one; the channels that come from [s] *)
Definition from_chan (s : M_Manip.source) (n : nat) : Prop := exists lk, In (n, lk) ls /\ (lk_src lk, lk_port lk) = s.
Definition carries (s : M_Manip.source) (n : nat) : Prop := from_chan (via_src js s) n.
Definition into_keys (d : component) : list (string * dconn) := filter (fun kv => match edge_of (snd kv) with Some e => component_eqb (e_dst e) d | None => false end) p.
Lemma into_keys_list d : into_list d p = flat_map (fun kv => match edge_of (snd kv) with Some e => [e_src e] | None => [] end) (into_keys d).
Proof.
  unfold into_list, into_keys. clear. induction p as [|[k v] q IH]; [reflexivity|]. cbn [flat_map filter snd]. destruct (edge_of v) as [e|] eqn:E; [|exact IH]. destruct (component_eqb (e_dst e) d); [|exact IH].
  cbn [flat_map snd]. rewrite E, IH. reflexivity.
Qed.
Lemma in_into_keys d k v : In (k, v) (into_keys d) <-> exists e, lookup k p = Some v /\ edge_of v = Some e /\ e_dst e = d.
Proof.
  unfold into_keys. rewrite filter_In. cbn [snd]. split.
  - intros [Hin H]. destruct (edge_of v) as [e|] eqn:E; [|discriminate]. exists e. destruct (component_eqb_spec (e_dst e) d) as [<-|]; [|discriminate]. split; [exact (in_lookup _ _ _ (ordered_nodup _ Ho) Hin)|auto].
  - intros (e & Hl & E & <-). split; [exact (lookup_in _ _ _ Hl)|]. rewrite E. destruct (component_eqb_spec (e_dst e) (e_dst e)); congruence.
Qed.
Lemma channels_into d : occurs p d -> exists chs, Forall2 carries (into_list d p) chs /\ Permutation chs (map fst (filter (arrives (via_dst je d)) ls)).
Proof.
  intros Hd. destruct (choose_list (fun kv n => num (fst kv) n) (into_keys d)) as (chs & Hch).
  { intros [k v] Hin. apply in_into_keys in Hin as (e & Hl & E & _). destruct (kept_there k e) as (e' & He' & _); [unfold edge_at; now rewrite Hl|]. exact (num_there _ _ He'). }
  exists chs. split.
  - rewrite into_keys_list. assert (HI : forall kv, In kv (into_keys d) -> exists e, edge_at p (fst kv) = Some e /\ edge_of (snd kv) = Some e).
    { intros [k v] Hin. apply in_into_keys in Hin as (e & Hl & E & _). exists e. cbn. unfold edge_at. rewrite Hl. auto. }
    revert HI. clear - Hch P B Hp. induction Hch as [|[k v] n q chs Hn _ IH]; intros HI; cbn [flat_map]; [constructor|].
    destruct (HI _ (or_introl eq_refl)) as (e & E1 & E2). cbn [snd fst] in *. rewrite E2. cbn [app]. constructor; [|apply IH; intros; apply HI; now right].
    destruct (kept_there _ _ E1) as (e' & He' & Es & _). exists (elink e'). split; [exact (num_link _ _ _ Hn He')|]. cbn [elink lk_src lk_port]. rewrite <- Es. now destruct (e_src e').
  - apply NoDup_Permutation.
    + eapply forall2_nodup; [exact Hch| |apply NoDup_filter, nodup_pairs, ordered_nodup; exact Ho]. intros [k v] [k' v'] n H1 H2 R1 R2. cbn [fst] in *. pose proof (num_key _ _ _ R1 R2). subst k'.
      apply in_into_keys in H1 as (e & E & _). apply in_into_keys in H2 as (e' & E' & _). congruence.
    + apply nodup_kept. exact once.
    + intros n. split.
      * intros Hn. destruct (forall2_in_r _ _ _ Hch _ Hn) as ([k v] & Hin & R). cbn [fst] in R. apply in_into_keys in Hin as (e & Hl & E & <-).
        destruct (kept_there k e) as (e' & He' & _ & Ed); [unfold edge_at; now rewrite Hl|]. apply in_map_iff. exists (n, elink e'). split; [reflexivity|]. apply filter_In. split; [exact (num_link _ _ _ R He')|]. apply (arrives_true). exact Ed.
      * intros Hn. apply in_map_iff in Hn as ([n' lk] & <- & Hf). apply filter_In in Hf as [Hin Ha]. apply arrives_true in Ha. cbn [snd fst] in *. destruct (link_num _ _ Hin) as (k & e & N & He & ->). cbn [elink lk_dst] in Ha.
        assert (HK : exists e0, edge_at p k = Some e0 /\ e_dst e0 = d).
        { destruct (kinds _ _ He) as [e0 E0 Es Ed|j E0 Er Ej Ed|j E0 Er Ej Es|x dn Er Es Ed].
          - exists e0. split; [exact E0|]. rewrite Ha in Ed. unfold via_dst in Ed. destruct (je d) as [j|] eqn:J1, (je (e_dst e0)) as [j'|] eqn:J2.
            + injection Ed as <-. symmetry. exact (bt_inj_e _ _ _ _ _ B _ _ _ J1 J2).
            + exfalso. apply (bt_new_e _ _ _ _ _ B _ _ J1). exists k, e0. auto.
            + exfalso. apply (bt_new_e _ _ _ _ _ B _ _ J2). now rewrite <- Ed.
            + congruence.
          - exfalso. rewrite Ha in Ed. unfold via_dst in Ed. destruct (je d) as [j'|] eqn:J1; [injection Ed as <-; exact (bt_apart _ _ _ _ _ B _ _ _ Ej J1)|]. apply (bt_new_s _ _ _ _ _ B _ _ Ej). now rewrite <- Ed.
          - exfalso. rewrite Ha in Ej. unfold via_dst in Ej. destruct (je d) as [j'|] eqn:J1; [|congruence]. destruct (bt_from_e _ _ _ _ _ B (CJunction, j')) as (k0 & e0 & E0' & E1); [congruence|]. apply (bt_new_e _ _ _ _ _ B _ _ J1). exists k0, e0. auto.
          - exfalso. rewrite Ha in Ed. unfold via_dst in Ed. destruct (je d) as [j'|] eqn:J1; [discriminate|]. subst d. unfold via_dst in Ha. rewrite J1 in Ha. apply (no_spy _ _ _ _ He Er Es Ha). exact Hd. }
        destruct HK as (e0 & E0 & Ed0). unfold edge_at in E0. destruct (lookup k p) as [v|] eqn:El; [|discriminate]. destruct (forall2_in_l _ _ _ Hch (k, v)) as (n2 & Hn2 & R2); [apply in_into_keys; exists e0; auto|].
        cbn [fst] in R2. now rewrite (num_once _ _ _ N R2).
Qed.
(** Into what has a junction made before it goes only what comes from that junction. *)
Lemma merged_in d j : je d = Some j -> exists n, map fst (filter (arrives d) ls) = [n] /\ from_chan (CJunction, j, POut) n.
Proof.
  intros Hj. destruct (bt_end _ _ _ _ _ B _ _ Hj) as (k & e & E0 & Er & Ed & Es & Hu). pose proof (kept_edges _ _ _ _ _ P _ _ Er) as He. destruct (num_there _ _ He) as (n & N). pose proof (num_link _ _ _ N He) as HL.
  destruct (bt_from_e _ _ _ _ _ B d) as (kd & ed & Ekd & Edd); [congruence|]. assert (Hd : occurs p d) by (exists kd, ed; auto).
  exists n. split; [|exists (elink e); split; [exact HL|]; cbn; rewrite Es; reflexivity].
  apply Permutation_length_1_inv. apply NoDup_Permutation; [repeat constructor; intros []|apply nodup_kept; exact once|]. intros n'. split.
  - intros [<-|[]]. apply in_map_iff. exists (n, elink e). split; [reflexivity|]. apply filter_In. split; [exact HL|]. apply arrives_true. exact Ed.
  - intros Hn. apply in_map_iff in Hn as ([n2 lk] & <- & Hf). apply filter_In in Hf as [Hin Ha]. apply arrives_true in Ha. cbn [snd fst] in *. destruct (link_num _ _ Hin) as (k2 & e2 & N2 & He2 & ->). cbn [elink lk_dst] in Ha. left.
    destruct (kinds _ _ He2) as [e0 E0' Es' Ed'|j' E0' Er' Ej' Ed'|j' E0' Er' Ej' Es'|x dn Er' Es' Ed'].
    + exfalso. rewrite Ha in Ed'. unfold via_dst in Ed'. destruct (je (e_dst e0)) as [j'|] eqn:J2; [|congruence]. apply (bt_new_e _ _ _ _ _ B _ _ J2). now rewrite <- Ed'.
    + exfalso. apply (bt_new_s _ _ _ _ _ B _ _ Ej'). now rewrite <- Ed', Ha.
    + pose proof (Hu _ _ E0' Er' Ha) as ->. exact (num_once _ _ _ N N2).
    + exfalso. rewrite <- Ha, Ed' in Hd. exact (no_spy _ _ _ _ He2 Er' Es' Ed' Hd).
Qed.
(** Into the junction made after [s] goes only what comes from [s]. *)
Lemma split_in s j : js s = Some j -> exists n, map fst (filter (arrives (CJunction, j)) ls) = [n] /\ from_chan s n.
Proof.
  intros Hj. destruct (bt_start _ _ _ _ _ B _ _ Hj) as (k & e & E0 & Er & Es & Ed & Hu). pose proof (kept_edges _ _ _ _ _ P _ _ Er) as He. destruct (num_there _ _ He) as (n & N). pose proof (num_link _ _ _ N He) as HL.
  exists n. split; [|exists (elink e); split; [exact HL|]; cbn; rewrite Es; now destruct s].
  apply Permutation_length_1_inv. apply NoDup_Permutation; [repeat constructor; intros []|apply nodup_kept; exact once|]. intros n'. split.
  - intros [<-|[]]. apply in_map_iff. exists (n, elink e). split; [reflexivity|]. apply filter_In. split; [exact HL|]. apply arrives_true. exact Ed.
  - intros Hn. apply in_map_iff in Hn as ([n2 lk] & <- & Hf). apply filter_In in Hf as [Hin Ha]. apply arrives_true in Ha. cbn [snd fst] in *. destruct (link_num _ _ Hin) as (k2 & e2 & N2 & He2 & ->). cbn [elink lk_dst] in Ha. left.
    destruct (kinds _ _ He2) as [e0 E0' Es' Ed'|j' E0' Er' Ej' Ed'|j' E0' Er' Ej' Es'|x dn Er' Es' Ed'].
    + exfalso. rewrite Ha in Ed'. unfold via_dst in Ed'. destruct (je (e_dst e0)) as [j'|] eqn:J2; [injection Ed' as <-; exact (bt_apart _ _ _ _ _ B _ _ _ Hj J2)|]. apply (bt_new_s _ _ _ _ _ B _ _ Hj). exists k2, e0. auto.
    + rewrite Ha in Ed'. injection Ed' as <-. pose proof (bt_inj_s _ _ _ _ _ B _ _ _ Hj Ej') as E. pose proof (Hu _ _ E0' Er' (eq_sym E)) as ->. exact (num_once _ _ _ N N2).
    + exfalso. rewrite Ha in Ej'. destruct (bt_from_e _ _ _ _ _ B (CJunction, j)) as (k0 & e0 & E0'' & E1); [congruence|]. apply (bt_new_s _ _ _ _ _ B _ _ Hj). exists k0, e0. auto.
    + congruence.
Qed.
(** *** The ways *)
Variable ps : list (connection * connection).
Hypothesis Hps : forall x, Permutation (arrivals ps x) (into_list x p).
Definition matches (ss : list M_Manip.source) (os : list nat) : Prop := exists ss', Permutation ss ss' /\ Forall2 from_chan ss' os.
Lemma matches_left ss ss' os : Permutation ss ss' -> matches ss os -> matches ss' os.
Proof. intros H (t & H1 & H2). exists t. split; [exact (perm_trans (Permutation_sym H) H1)|exact H2]. Qed.
Lemma matches_right ss os os' : Permutation os os' -> matches ss os -> matches ss os'.
Proof.
  intros H (t & H1 & H2). apply forall2_flip in H2. destruct (perm_forall2 _ _ _ _ H H2) as (t' & H3 & H4). exists t'. split; [exact (perm_trans H1 H3)|]. exact (forall2_flip _ _ _ H4).
Qed.
Lemma matches_concat sss oss : Forall2 matches sss oss -> matches (concat sss) (concat oss).
Proof.
  induction 1 as [|ss os sss oss (t & H1 & H2) _ (t' & H3 & H4)]; cbn [concat]; [exists []; split; constructor|]. exists (t ++ t'). split; [now apply Permutation_app|now apply Forall2_app].
Qed.
Lemma chan_seat s n : from_chan s n -> exists x, In (fst s, x) S /\ In n (comp_outs x).
Proof.
  intros (lk & Hin & <-). cbn [fst]. destruct (mentioned_seat c' cwd vars w F (lk_src lk)) as (x & Hx).
  { apply (links_mentioned c' Hw). exact (in_combine_r _ _ _ _ Hin). }
  exists x. split; [exact Hx|]. apply (seat_out c' cwd vars w F _ _ _ Hx). exists lk. auto.
Qed.
Lemma seat_net d x : In (d, x) S -> In x net.
Proof. intros H. rewrite <- seated_net. apply in_map_iff. exists (d, x). auto. Qed.
Lemma seat_makes t n x : t = CFaucet \/ t = CLaunch -> In ((t, n), x) S -> makes_messages x.
Proof.
  intros Ht H. destruct (seated_plays _ _ _ _ _ (fb_once _ _ _ F) H) as (y & Hy & Hp'). unfold get_cell in Hy. cbn [fst snd] in Hy. destruct Ht as [-> | ->]; destruct (lookup n _) in Hy; try discriminate; injection Hy as <-; cbn in Hp'; subst x; exact Logic.I.
Qed.
Lemma seat_passes t n x : t = CRegulator \/ t = CBuffer \/ t = CJunction -> In ((t, n), x) S -> passes_on x.
Proof.
  intros Ht H. destruct (seated_plays _ _ _ _ _ (fb_once _ _ _ F) H) as (y & Hy & Hp'). unfold get_cell in Hy. cbn [fst snd] in Hy. destruct Ht as [-> |[-> | ->]]; destruct (lookup n _) in Hy; try discriminate; injection Hy as <-; cbn in Hp'; [subst x|destruct Hp' as (u & _ & ->)|subst x]; exact Logic.I.
Qed.
Lemma before_split s n : carries s n -> exists n1, from_chan s n1 /\ forall os, fed_by net n1 os -> fed_by net n os.
Proof.
  unfold carries, via_src. destruct (js s) as [j|] eqn:Hj; [|intros H; exists n; auto]. intros H. destruct (chan_seat _ _ H) as (x & Hx & Hn). cbn [fst] in Hx. destruct (split_in _ _ Hj) as (n1 & E & H1). exists n1. split; [exact H1|].
  intros os Hos. pose proof (seat_ins c' cwd vars w F _ _ Hx) as Hi. rewrite E in Hi. apply Permutation_sym, Permutation_length_1_inv in Hi. rewrite <- (app_nil_r os). change (os ++ []) with (concat [os]). eapply F_passed; [exact (seat_net _ _ Hx)|exact (seat_passes _ _ _ (or_intror (or_intror eq_refl)) Hx)|exact Hn|]. rewrite Hi. repeat constructor. exact Hos.
Qed.
Definition followed (s : M_Manip.source) (ss : list M_Manip.source) : Prop := occurs p (fst s) -> forall n, carries s n -> exists os, fed_by net n os /\ matches ss os.
Lemma feed_ins d x sss : In (d, x) S -> occurs p d -> Forall2 followed (arrivals ps d) sss -> exists oss, Forall2 (fed_by net) (comp_ins x) oss /\ matches (concat sss) (concat oss).
Proof.
  intros Hx Hd HF. destruct (channels_into d Hd) as (chs & Hch & Pch). destruct (perm_forall2 _ _ _ _ (Hps d) HF) as (sss' & Psss & HF'). clear HF.
  assert (Hoc : forall s, In s (into_list d p) -> occurs p (fst s)).
  { intros s Hs. rewrite into_keys_list in Hs. apply in_flat_map in Hs as ([k v] & Hin & Hs). apply in_into_keys in Hin as (e & Hl & E & _). cbn [snd] in Hs. rewrite E in Hs. destruct Hs as [<-|[]]. exists k, e. unfold edge_at. rewrite Hl. auto. }
  assert (HB : exists oss, Forall2 (fed_by net) chs oss /\ Forall2 matches sss' oss).
  { clear - Hoc Hch HF'. revert chs Hch. induction HF' as [|s ss a b Hs _ IH]; intros chs Hch; inversion Hch as [|? n ? chs' Hn Hch']; subst; [exists []; split; constructor|].
    destruct (IH ltac:(intros; apply Hoc; now right) _ Hch') as (oss & H1 & H2). destruct (Hs (Hoc _ (or_introl eq_refl)) n Hn) as (os & H3 & H4). exists (os :: oss). split; now constructor. }
  destruct HB as (oss & H1 & H2). apply matches_concat in H2. apply (matches_left _ _ _ (Permutation_sym (perm_concat _ _ Psss))) in H2. unfold via_dst in Pch. destruct (je d) as [j|] eqn:Hj.
  - destruct (merged_in _ _ Hj) as (n & E & Hn). destruct (chan_seat _ _ Hn) as (y & Hy & Hny). cbn [fst] in Hy. pose proof (seat_ins c' cwd vars w F _ _ Hy) as Hi. pose proof (perm_trans Pch (Permutation_sym Hi)) as P1.
    destruct (perm_forall2 _ _ _ _ P1 H1) as (oss' & P2 & H3). exists [concat oss']. split.
    + pose proof (seat_ins c' cwd vars w F _ _ Hx) as Hi'. rewrite E in Hi'. apply Permutation_sym, Permutation_length_1_inv in Hi'. rewrite Hi'. repeat constructor. eapply F_passed; [exact (seat_net _ _ Hy)|exact (seat_passes _ _ _ (or_intror (or_intror eq_refl)) Hy)|exact Hny|exact H3].
    + cbn [concat]. rewrite app_nil_r. exact (matches_right _ _ _ (perm_concat _ _ P2) H2).
  - pose proof (perm_trans Pch (Permutation_sym (seat_ins c' cwd vars w F _ _ Hx))) as P1. destruct (perm_forall2 _ _ _ _ P1 H1) as (oss' & P2 & H3). exists oss'. split; [exact H3|]. exact (matches_right _ _ _ (perm_concat _ _ P2) H2).
Qed.
Theorem ways s ss : comes_from ps s ss -> followed s ss.
Proof.
  apply comes_induct; clear s ss.
  - intros t n o Ht _ k Hk. destruct (before_split _ _ Hk) as (n1 & H1 & H2). destruct (chan_seat _ _ H1) as (x & Hx & Hn). exists [n1]. split; [apply H2; exact (F_made _ _ _ (seat_net _ _ Hx) (seat_makes _ _ _ Ht Hx) Hn)|]. exists [((t, n), o)]. split; [constructor; constructor|repeat constructor; exact H1].
  - intros t n o sss Ht HF Hoc k Hk. destruct (before_split _ _ Hk) as (n1 & H1 & H2). destruct (chan_seat _ _ H1) as (x & Hx & Hn). cbn [fst] in *. destruct (feed_ins _ _ _ Hx Hoc HF) as (oss & H3 & H4). exists (concat oss). split; [|exact H4]. apply H2. exact (F_passed _ _ _ _ (seat_net _ _ Hx) (seat_passes _ _ _ Ht Hx) Hn H3).
Qed.
Theorem ways_into d x ss : In (d, x) S -> occurs p d -> supplied ps d ss -> exists oss, Forall2 (fed_by net) (comp_ins x) oss /\ matches ss (concat oss).
Proof.
  intros Hx Hd (sss & HF & ->). apply (feed_ins _ _ _ Hx Hd). clear - HF P B Ho Hp Hje Hbl Hw F Hps. induction HF as [|s ss a b Hs _ IH]; constructor; [exact (ways _ _ Hs)|exact IH].
Qed.
End Ways.
