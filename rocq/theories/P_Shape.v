(** * P_Shape: the shape of the network is that of the connections written *)
From Coq Require Import Ascii String List Bool Arith ZArith Lia Permutation Relations.
From Verif Require Import M_Prog M_Motion M_Connectable M_Config M_Manip M_Faucet M_Launch M_Junction M_Buffer M_Drain M_Regulator M_Lint M_Waiter M_Join M_Poll S_Trace S_Motion S_World S_Network S_Net M_Start S_Start S_Grammar S_Manip S_Waiter S_Shape P_Text P_Map P_Pair P_Junctions P_Junctions2 P_Manip P_Cell P_Wire P_Build P_Ready P_WaiterExamples P_Errors P_Top P_Made P_Whole P_Rounds.
Import ListNotations.
Local Open Scope list_scope.

(** ** Neighbours *)
Lemma next_output l : chain l -> forall x y, In (x, y) (neighbours l) -> exists o, output_of x = Some o.
Proof.
  assert (G : forall l, chain_tail l -> forall a, (exists o, output_of a = Some o) -> forall x y, In (x, y) (neighbours (a :: l)) -> exists o, output_of x = Some o).
  { clear l. induction 1 as [t n i s|t n i o s l Ht IH]; intros a Ha x y; cbn [neighbours].
    - intros [[= <- <-]|[]]. exact Ha.
    - intros [[= <- <-]|H]; [exact Ha|]. refine (IH _ _ _ _ H). cbn. eauto. }
  intros [|t n o s l' Ht] x y H; [easy|]. refine (G _ Ht _ _ _ _ H). cbn. eauto.
Qed.
Lemma follow_edge m m1 p added : pairs_of m1 added -> ordered p -> (forall k d, In (k, d) p <-> In (k, d) added) ->
  (forall k l, In (k, Connections l) m1 <-> reads m k l) -> chains m1 -> forall a b, followed_by m a b <-> exists k e, edge_at p k = Some e /\ fst (e_src e) = a /\ e_dst e = b.
Proof.
  intros Hp Ho Hi Hr Hc a b. split.
  - intros (k & l & x & y & Hk & Hxy & <- & <-). apply Hr in Hk. unfold chains in Hc. rewrite Forall_forall in Hc. destruct (Hc _ Hk) as (l' & Hl' & Hch). cbn in Hl'. injection Hl' as <-.
    destruct (next_output _ Hch _ _ Hxy) as (o & Eo). destruct (pairs_in _ _ Hp _ _ _ Hk Hxy) as (k' & d & Hin & Hpair). destruct (pair_edge _ _ _ _ Hpair Eo) as (i & _ & He).
    exists k'. eexists. split; [eapply in_edge; [exact Ho|apply Hi; exact Hin|exact He]|]. split; reflexivity.
  - intros (k & e & He & <- & <-). unfold edge_at in He. destruct (lookup k p) as [d|] eqn:El; [|discriminate]. apply lookup_in in El. apply Hi in El.
    destruct (pairs_from _ _ Hp _ _ El) as (k0 & l & [x y] & Hk & Hab & x' & y' & -> & (o & Eo & ->) & (i & Ei & ->)). cbn [fst snd] in *. cbn in He. injection He as <-.
    apply Hr in Hk. exists k0, l, x, y. cbn. auto.
Qed.

(** ** Ranks *)
Definition arcs (p : connmap) : list (component * component) := flat_map (fun kv => match edge_of (snd kv) with Some e => [(fst (e_src e), e_dst e)] | None => [] end) p.
Lemma in_arcs p : ordered p -> forall a b, In (a, b) (arcs p) <-> exists k e, edge_at p k = Some e /\ fst (e_src e) = a /\ e_dst e = b.
Proof.
  intros Ho a b. unfold arcs. rewrite in_flat_map. split.
  - intros ([k d] & Hin & H). cbn [snd] in H. destruct (edge_of d) as [e|] eqn:E; [|easy]. destruct H as [[= <- <-]|[]]. exists k, e. split; [eapply in_edge; eassumption|auto].
  - intros (k & e & He & <- & <-). unfold edge_at in He. destruct (lookup k p) as [d|] eqn:El; [|discriminate]. exists (k, d). split; [exact (lookup_in _ _ _ El)|]. cbn [snd]. rewrite He. left. reflexivity.
Qed.
Definition comp_dec (a b : component) : {a = b} + {a <> b}.
Proof. destruct (component_eqb a b) eqn:E; [left|right]; destruct (component_eqb_spec a b); congruence. Defined.

Section Shape.
Variables (sh : shuffles) (c c' : config) (p r : connmap) (m1 : connmap) (added : list (string * dconn)).
Variables (js : source -> option string) (je : component -> option string) (ks : list string).
Hypothesis Ho : ordered p.
Hypothesis Hp : all_pairs p.
Hypothesis P : prepared sh c c' p r.
Hypothesis Hpo : pairs_of m1 added.
Hypothesis Hi : forall k d, In (k, d) p <-> In (k, d) added.
Hypothesis Hr : forall k l, In (k, Connections l) m1 <-> reads (cf_connection c) k l.
Hypothesis Hc : chains m1.
Hypothesis B : built p js je ks r.
Hypothesis Hje : forall x, je x <> None <-> 2 <= count (into x) p.
Hypothesis Hbl : buildable c' (links (cf_connection c')).
Notation m := (cf_connection c).
Notation m' := (cf_connection c').

Let Hm' : forall a, In a (links m') <-> exists k e, edge_at m' k = Some e /\ a = elink e.
Proof. exact (in_links _ (pr_pairs _ _ _ _ _ P) (pr_ordered _ _ _ _ _ P)). Qed.
Let Hfol : forall a b, followed_by m a b <-> exists k e, edge_at p k = Some e /\ fst (e_src e) = a /\ e_dst e = b.
Proof. exact (follow_edge _ _ _ _ Hpo Ho Hi Hr Hc). Qed.

(** The four kinds of connection there are in the end *)
Inductive final (e : edge) : Prop :=
| F_kept k0 e0 : edge_at p k0 = Some e0 -> e_src e = via_src js (e_src e0) -> e_dst e = via_dst je (e_dst e0) -> final e
| F_split j : js (e_src e) = Some j -> e_dst e = (CJunction, j) -> final e
| F_merge j : je (e_dst e) = Some j -> e_src e = (CJunction, j, POut) -> final e
| F_spy n dn : e_src e = S_Manip.exit_of n -> e_dst e = (CDrain, dn) -> (exists k0 e0, edge_at p k0 = Some e0 /\ fst (e_src e0) = (CLaunch, n)) -> final e.
Lemma source_there k e : edge_at r k = Some e -> fst (fst (e_src e)) <> CJunction -> exists k0 e0, edge_at p k0 = Some e0 /\ e_src e0 = e_src e.
Proof. intros He Hn. destruct (joined_edge p r Ho js je ks k e B Hje He) as [[H|[H _]] _]; [exact H|contradiction]. Qed.
Lemma finally k e : edge_at m' k = Some e -> final e.
Proof.
  intros He. destruct (prepared_edges _ _ _ _ _ P _ _ He) as [Hr'|(n & dn & _ & _ & -> & (k0 & e0 & He0 & Hs) & _)].
  - destruct (edge_at p k) as [e0|] eqn:E0.
    + pose proof (bt_kept _ _ _ _ _ B _ _ E0) as H. rewrite Hr' in H. injection H as ->. eapply F_kept; [exact E0|reflexivity|reflexivity].
    + destruct (bt_made _ _ _ _ _ B _ _ E0 Hr') as [_ [(j & H1 & H2)|(j & H1 & H2)]]; [eapply F_split|eapply F_merge]; eassumption.
  - destruct (source_there _ _ He0) as (k1 & e1 & He1 & Hs1); [rewrite Hs; discriminate|]. eapply F_spy; [reflexivity|reflexivity|]. exists k1, e1. split; [exact He1|]. rewrite Hs1. exact Hs.
Qed.
Lemma still k e : edge_at r k = Some e -> edge_at m' k = Some e.
Proof. exact (kept_edges _ _ _ _ _ P k e). Qed.

(** What is mentioned in the end was mentioned, or is a junction that was made, or is a drain for exit statuses. *)
Lemma there x : is_mentioned m' x -> fst x <> CDrain -> occurs p x \/ exists j, x = (CJunction, j) /\ ((exists s, js s = Some j) \/ (exists d, je d = Some j)).
Proof.
  intros H Hx. apply (pairs_mentioned _ (pr_pairs _ _ _ _ _ P) (pr_ordered _ _ _ _ _ P)) in H as (k & e & He & H).
  destruct (finally _ _ He) as [k0 e0 E0 Es Ed|j Es Ed|j Ed Es|n dn Es Ed (k0 & e0 & E0 & E)].
  - destruct H as [H|H].
    + rewrite Es in H. unfold via_src in H. destruct (js (e_src e0)) as [j|] eqn:Ej; [right; exists j; cbn in H; eauto|left]. exists k0, e0. auto.
    + rewrite Ed in H. unfold via_dst in H. destruct (je (e_dst e0)) as [j|] eqn:Ej; [right; exists j; cbn in H; eauto|left]. exists k0, e0. auto.
  - destruct H as [H|H].
    + left. destruct (bt_from_s _ _ _ _ _ B (e_src e)) as (k0 & e0 & E0 & E); [congruence|]. exists k0, e0. rewrite E. auto.
    + right. exists j. split; [congruence|]. left. eauto.
  - destruct H as [H|H].
    + right. exists j. rewrite Es in H. split; [symmetry; exact H|]. right. eauto.
    + left. destruct (bt_from_e _ _ _ _ _ B (e_dst e)) as (k0 & e0 & E0 & E); [congruence|]. exists k0, e0. rewrite E. auto.
  - destruct H as [H|H].
    + left. exists k0, e0. split; [exact E0|]. left. rewrite E, <- H, Es. reflexivity.
    + exfalso. apply Hx. rewrite <- H, Ed. reflexivity.
Qed.
Lemma shape_linked : passing m -> apart m -> linked m'.
Proof.
  intros Hpa Hap. constructor.
  - intros t n Hm Ht. destruct (component_eqb_spec (CDrain, n) (t, n)) as [E|E].
    + injection E as <-. apply (pairs_mentioned _ (pr_pairs _ _ _ _ _ P) (pr_ordered _ _ _ _ _ P)) in Hm as (k & e & He & [H|H]).
      * exfalso. apply (bl_no_drain _ _ Hbl (elink e)); [apply Hm'; eauto|]. cbn. rewrite H. reflexivity.
      * exists (elink e). split; [apply Hm'; eauto|exact H].
    + assert (Hb : t = CRegulator \/ t = CBuffer) by (destruct Ht as [->|[->| ->]]; auto; contradiction). destruct (there _ Hm) as [Hoc|(j & [= -> _] & _)]; [destruct Hb; subst t; discriminate| |destruct Hb; discriminate].
      destruct (Hpa t n (occurs_mentioned c p m1 added Hpo Ho Hi Hr _ Hoc)) as [H _]. destruct (H Hb) as (a & Ha). apply Hfol in Ha as (k & e & He & _ & Hd).
      destruct (paired_edge p r js je ks k e B He) as [_ (k1 & e1 & _ & _ & H1 & H2 & _)]. exists (elink e1). split; [apply Hm'; exists k1, e1; split; [apply still; exact H1|reflexivity]|]. cbn. congruence.
  - intros t n Hm Ht. destruct (component_eqb_spec (CFaucet, n) (t, n)) as [E|E].
    + injection E as <-. apply (pairs_mentioned _ (pr_pairs _ _ _ _ _ P) (pr_ordered _ _ _ _ _ P)) in Hm as (k & e & He & [H|H]).
      * exists (elink e). split; [apply Hm'; eauto|exact H].
      * exfalso. apply (bl_no_faucet _ _ Hbl (elink e)); [apply Hm'; eauto|]. cbn. rewrite H. reflexivity.
    + assert (Hb : t = CRegulator \/ t = CBuffer \/ t = CJunction) by (destruct Ht as [->|[->|[->| ->]]]; auto; contradiction).
      destruct (there _ Hm) as [Hoc|(j & [= -> ->] & [(s & Hs)|(d & Hd)])]; [cbn; intros ->; destruct Hb as [Hb|[Hb|Hb]]; discriminate| | |].
      * destruct (Hpa t n (occurs_mentioned c p m1 added Hpo Ho Hi Hr _ Hoc)) as [_ H]. destruct (H Hb) as (a & Ha). apply Hfol in Ha as (k & e & He & Hs & _).
        destruct (paired_edge p r js je ks k e B He) as [(k1 & e1 & H1 & H2) _]. exists (elink e1). split; [apply Hm'; exists k1, e1; split; [apply still; exact H1|reflexivity]|]. cbn. congruence.
      * destruct (bt_from_s _ _ _ _ _ B s) as (k & e & He & E'); [congruence|]. pose proof (bt_kept _ _ _ _ _ B _ _ He) as H. apply still in H. unfold via_src in H. rewrite E', Hs in H. eexists. split; [apply Hm'; eauto|reflexivity].
      * destruct (bt_end _ _ _ _ _ B _ _ Hd) as (k & e & _ & He & _ & Es & _). apply still in He. exists (elink e). split; [apply Hm'; eauto|]. cbn. rewrite Es. reflexivity.
  - intros l Hl Hj E. apply Hm' in Hl as (k & e & He & ->). cbn [elink lk_src lk_dst] in *. destruct (finally _ _ He) as [k0 e0 E0 Es Ed|j Es Ed|j Ed Es|n dn Es Ed _].
    + rewrite Es, Ed in *. unfold via_src, via_dst in *. destruct (js (e_src e0)) as [j|] eqn:Ej, (je (e_dst e0)) as [j'|] eqn:Ej'; cbn [fst] in *.
      * injection E as ->. exact (bt_apart _ _ _ _ _ B _ _ _ Ej Ej').
      * apply (bt_new_s _ _ _ _ _ B _ _ Ej). exists k0, e0. auto.
      * apply (bt_new_e _ _ _ _ _ B _ _ Ej'). exists k0, e0. auto.
      * destruct (fst (e_src e0)) as [t n] eqn:En. cbn in Hj. subst t. apply (Hap n). apply Hfol. exists k0, e0. auto.
    + destruct (bt_from_s _ _ _ _ _ B (e_src e)) as (k0 & e0 & E0 & E1); [congruence|]. apply (bt_new_s _ _ _ _ _ B _ _ Es). exists k0, e0. split; [exact E0|]. left. congruence.
    + destruct (bt_from_e _ _ _ _ _ B (e_dst e)) as (k0 & e0 & E0 & E1); [congruence|]. apply (bt_new_e _ _ _ _ _ B _ _ Ed). exists k0, e0. split; [exact E0|]. right. rewrite E1, <- E, Es. reflexivity.
    + rewrite Es, Ed in E. discriminate.
Qed.

(** Ranks: [ex] are the kinds of component into which connections may go back. *)
Variables (ex : ctype -> bool) (rank0 : component -> nat).
Hypothesis Hrank : forall a b, followed_by m a b -> ex (fst b) = false -> rank0 a < rank0 b.
Definition pedges : list edge := flat_map (fun kv => match edge_of (snd kv) with Some e => [e] | None => [] end) p.
Lemma in_pedges e : In e pedges <-> exists k, edge_at p k = Some e.
Proof.
  unfold pedges. rewrite in_flat_map. split.
  - intros ([k d] & Hin & H). cbn [snd] in H. destruct (edge_of d) as [e'|] eqn:E; [|easy]. destruct H as [<-|[]]. exists k. eapply in_edge; eassumption.
  - intros (k & He). unfold edge_at in He. destruct (lookup k p) as [d|] eqn:El; [|discriminate]. exists (k, d). split; [exact (lookup_in _ _ _ El)|]. cbn [snd]. rewrite He. left. reflexivity.
Qed.
Definition is_name (o : option string) (j : string) : bool := match o with Some k => String.eqb k j | None => false end.
Lemma is_name_true o j : is_name o j = true <-> o = Some j.
Proof. destruct o as [k|]; cbn; [|split; discriminate]. rewrite String.eqb_eq. split; congruence. Qed.
Definition splitter (j : string) : option edge := find (fun e => is_name (js (e_src e)) j) pedges.
Definition merger (j : string) : option edge := find (fun e => is_name (je (e_dst e)) j) pedges.
Definition top : nat := 3 * list_sum (map (fun e => rank0 (fst (e_src e)) + rank0 (e_dst e)) pedges) + 3.
Definition rank1 (x : component) : nat :=
  match x with
  | (CDrain, _) => top
  | (CJunction, j) => match splitter j with
      | Some e => 3 * rank0 (fst (e_src e)) + 1
      | None => match merger j with Some e => if ex (fst (e_dst e)) then top else 3 * rank0 (e_dst e) - 1 | None => 3 * rank0 x end
      end
  | _ => 3 * rank0 x
  end.
Lemma split_found s j : js s = Some j -> rank1 (CJunction, j) = 3 * rank0 (fst s) + 1.
Proof.
  intros H. unfold rank1. destruct (splitter j) as [e|] eqn:E; unfold splitter in E.
  - apply find_some in E as [_ E]. apply is_name_true in E. rewrite (bt_inj_s _ _ _ _ _ B _ _ _ E H). reflexivity.
  - exfalso. destruct (bt_from_s _ _ _ _ _ B s) as (k & e & He & E1); [congruence|]. pose proof (find_none _ _ E e (proj2 (in_pedges e) (ex_intro _ k He))) as Hn. cbn beta in Hn. rewrite E1, H in Hn. cbn in Hn. rewrite String.eqb_refl in Hn. discriminate.
Qed.
Lemma merge_found d j : je d = Some j -> rank1 (CJunction, j) = if ex (fst d) then top else 3 * rank0 d - 1.
Proof.
  intros H. unfold rank1. destruct (splitter j) as [e|] eqn:E; unfold splitter in E.
  - exfalso. apply find_some in E as [_ E]. apply is_name_true in E. exact (bt_apart _ _ _ _ _ B _ _ _ E H).
  - clear E. destruct (merger j) as [e|] eqn:E; unfold merger in E.
    + apply find_some in E as [_ E]. apply is_name_true in E. rewrite (bt_inj_e _ _ _ _ _ B _ _ _ E H). reflexivity.
    + exfalso. destruct (bt_from_e _ _ _ _ _ B d) as (k & e & He & E1); [congruence|]. pose proof (find_none _ _ E e (proj2 (in_pedges e) (ex_intro _ k He))) as Hn. cbn beta in Hn. rewrite E1, H in Hn. cbn in Hn. rewrite String.eqb_refl in Hn. discriminate.
Qed.
Lemma old_rank x : occurs p x -> fst x <> CDrain -> rank1 x = 3 * rank0 x.
Proof.
  intros Hx Hd. destruct x as [t n]. destruct t; try reflexivity; [|contradiction]. unfold rank1.
  destruct (splitter n) as [e|] eqn:E; unfold splitter in E; [apply find_some in E as [_ E]; apply is_name_true in E; destruct (bt_new_s _ _ _ _ _ B _ _ E Hx)|]. clear E.
  destruct (merger n) as [e|] eqn:E; unfold merger in E; [apply find_some in E as [_ E]; apply is_name_true in E; destruct (bt_new_e _ _ _ _ _ B _ _ E Hx)|reflexivity].
Qed.
Lemma sum_le (f : edge -> nat) l e : In e l -> f e <= list_sum (map f l).
Proof. induction l as [|a l IH]; [easy|]. cbn [map list_sum fold_right]. intros [->|H]; [unfold list_sum; lia|]. specialize (IH H). unfold list_sum in *. lia. Qed.
Lemma below_top x : occurs p x -> 3 * rank0 x + 3 <= top.
Proof.
  intros (k & e & He & Hx). pose proof (sum_le (fun e => rank0 (fst (e_src e)) + rank0 (e_dst e)) pedges e (proj2 (in_pedges e) (ex_intro _ k He))) as H. cbn beta in H. unfold top.
  destruct Hx as [<-|<-]; lia.
Qed.
Lemma no_drain k e : edge_at p k = Some e -> fst (fst (e_src e)) <> CDrain.
Proof.
  intros He H. destruct (paired_edge p r js je ks k e B He) as [(k1 & e1 & H1 & H2) _]. apply still in H1. apply (bl_no_drain _ _ Hbl (elink e1)); [apply Hm'; eauto|]. cbn. rewrite H2. exact H.
Qed.
Lemma shape_rank l : In l (links m') -> ex (fst (lk_dst l)) = false -> rank1 (lk_src l) < rank1 (lk_dst l).
Proof.
  intros Hl Hx. apply Hm' in Hl as (k & e & He & ->). cbn [elink lk_src lk_dst] in *. destruct (finally _ _ He) as [k0 e0 E0 Es Ed|j Es Ed|j Ed Es|n dn Es Ed (k0 & e0 & E0 & En)].
  - assert (Oa : occurs p (fst (e_src e0))) by (exists k0, e0; auto). assert (Ob : occurs p (e_dst e0)) by (exists k0, e0; auto). pose proof (no_drain _ _ E0) as Hnd. pose proof (below_top _ Oa) as Ta.
    assert (R1 : rank1 (fst (e_src e)) <= 3 * rank0 (fst (e_src e0)) + 1).
    { rewrite Es. unfold via_src. destruct (js (e_src e0)) as [j|] eqn:Ej; cbn [fst]; [rewrite (split_found _ _ Ej); lia|]. rewrite (old_rank _ Oa Hnd). lia. }
    rewrite Ed in *. unfold via_dst in *. destruct (je (e_dst e0)) as [j|] eqn:Ej.
    + rewrite (merge_found _ _ Ej). destruct (ex (fst (e_dst e0))) eqn:Ex; [lia|]. pose proof (Hrank _ _ (proj2 (Hfol _ _) (ex_intro _ k0 (ex_intro _ e0 (conj E0 (conj eq_refl eq_refl))))) Ex). lia.
    + destruct (e_dst e0) as [t n] eqn:Et. destruct (component_eqb_spec (t, n) (CDrain, n)) as [E|E].
      * injection E as ->. cbn [rank1]. lia.
      * rewrite (old_rank _ Ob); [|cbn; congruence]. assert (Hf : followed_by m (fst (e_src e0)) (t, n)) by (apply Hfol; exists k0, e0; auto). pose proof (Hrank _ _ Hf Hx). lia.
  - rewrite Ed. rewrite (split_found _ _ Es). destruct (bt_from_s _ _ _ _ _ B (e_src e)) as (k0 & e0 & E0 & E1); [congruence|]. rewrite old_rank; [lia| |rewrite <- E1; exact (no_drain _ _ E0)]. exists k0, e0. rewrite E1. auto.
  - rewrite Es. cbn [fst]. rewrite (merge_found _ _ Ed), Hx. destruct (bt_from_e _ _ _ _ _ B (e_dst e)) as (k0 & e0 & E0 & E1); [congruence|].
    assert (Hf : followed_by m (fst (e_src e0)) (e_dst e)) by (apply Hfol; exists k0, e0; auto). pose proof (Hrank _ _ Hf Hx).
    assert (Ob : occurs p (e_dst e)) by (exists k0, e0; auto). destruct (e_dst e) as [t n] eqn:Et. destruct (component_eqb_spec (t, n) (CDrain, n)) as [E|E].
    + injection E as ->. cbn [rank1]. pose proof (below_top _ Ob). lia.
    + rewrite (old_rank _ Ob); [lia|cbn; congruence].
  - rewrite Es, Ed. cbn [rank1 S_Manip.exit_of fst]. assert (Oa : occurs p (CLaunch, n)) by (exists k0, e0; auto). pose proof (below_top _ Oa). lia.
Qed.
End Shape.

(** ** The network a configuration makes *)
Lemma no_settings l : forall w w', regulator_settings w l = Good (Ok (w', [])) -> w' = w.
Proof.
  destruct l as [|[n s] l]; intros w w'; cbn [regulator_settings]; [intros [= ->]; reflexivity|]. destruct (lookup n (w_regulator w)) as [reg|]; [|discriminate].
  destruct (regulator_get_control reg (w_channels w)) as [[reg' ctl]|]; [|discriminate]. destruct (size_monitors _ _ _) as [[[w1 ms]|e]|]; cbn [obind]; try discriminate.
  destruct (regulator_settings w1 l) as [[[w2 cs]|e]|]; cbn [obind]; discriminate.
Qed.
Lemma clos_more {A} (R Q : A -> A -> Prop) x y : (forall x y, R x y -> Q x y) -> clos_trans A R x y -> clos_trans A Q x y.
Proof. intros H C. induction C as [x y Hxy|x y z _ IH1 _ IH2]; [apply t_step; auto|eapply t_trans; eassumption]. Qed.
Lemma arcs_rank m p (ex : ctype -> bool) : ordered p -> (forall a b, followed_by m a b <-> exists k e, edge_at p k = Some e /\ fst (e_src e) = a /\ e_dst e = b) ->
  (forall a, ~ clos_trans _ (fun a b => followed_by m a b /\ ex (fst b) = false) a a) -> exists rank, forall a b, followed_by m a b -> ex (fst b) = false -> rank a < rank b.
Proof.
  intros Ho Hf H. destruct (ranked comp_dec (filter (fun ab => negb (ex (fst (snd ab)))) (arcs p))) as (rank & Hr).
  - intros a Ha. apply (H a). refine (clos_more _ _ _ _ _ Ha). intros x y Hxy. unfold arc in Hxy. apply filter_In in Hxy as [Hxy E]. cbn [snd] in E. apply negb_true_iff in E.
    split; [|exact E]. apply (proj2 (Hf x y)). apply (in_arcs p Ho x y). exact Hxy.
  - exists rank. intros a b Hab E. apply Hr. apply filter_In. split; [apply in_arcs; [exact Ho|]; apply Hf; exact Hab|]. cbn [snd]. rewrite E. reflexivity.
Qed.
Definition only_buffers (t : ctype) : bool := match t with CBuffer => true | _ => false end.
(** Also with more numbers of channels given out. *)
Lemma more_cells w n d : get_cell (set_channels w n) d = get_cell w d.
Proof. destruct d as [[] k]; reflexivity. Qed.
Lemma more_fabric c w ls n : fabric c w ls -> fabric c (set_channels w n) ls.
Proof.
  intros [F1 F2 F3 F4 F5 F6 F7]. constructor; [exact F1| | | | | |]; unfold all_know in *; intros d; try intros x; rewrite more_cells; first [apply F2|apply F3|apply F4|apply F5|apply F6|apply F7].
Qed.
Theorem shape_net_more sh cwd vars c c2 out w n : S_Manip.fair sh -> good_connections (cf_connection c) -> process_config sh c = Good (Ok c2, out) -> get_waiter c2 = Good (Ok w) ->
  w_channels w <= n -> passing (cf_connection c) -> apart (cf_connection c) -> let net := net_of cwd vars (set_channels w n) in
  net_wired net /\ roomy net /\ polite net /\ (no_loop (cf_connection c) -> acyclic net) /\ (buffered_loops (cf_connection c) -> dammed net).
Proof.
  intros Hf Hgc Ep Ew Hle Hpa Hap net. subst net.
  destruct (process_prepared _ _ _ _ Hf Hgc Ep) as [E _]. pose proof (process_written _ _ _ _ Hf Hgc Ep) as Hw. destruct Hgc as [_ Hg].
  destruct (prepare sh c Hf Hg) as (c' & p & r & E' & P). rewrite E in E'. injection E' as <- _.
  destruct (paired _ Hg) as (m1 & p' & added & E1 & E2 & Ho & Hp & Hpo & Hi & Hr & Hch). destruct (pr_paired _ _ _ _ _ P) as (m1' & E1' & E2'). rewrite E1 in E1'. injection E1' as <-. rewrite E2 in E2'. injection E2' as <-.
  destruct (junctions sh p' Hf Ho Hp) as (js & je & ks & r' & Ej & B & Hjs & Hje). rewrite (pr_joined _ _ _ _ _ P) in Ej. injection Ej as <-.
  destruct (proj2 (proj2 (get_waiter_exact c2 Hw)) w Ew) as [Hbl _]. destruct (made_fabric c2 w Hw Ew) as [F0 Hn0]. pose proof (more_fabric _ _ _ n F0) as F.
  assert (Hn : List.length (links (cf_connection c2)) <= w_channels (set_channels w n)) by (rewrite <- Hn0; exact Hle). set (w' := set_channels w n) in *.
  pose proof (shape_linked sh c c2 p' r m1 added js je ks Ho P Hpo Hi Hr Hch B Hje Hbl Hpa Hap) as L.
  pose proof (follow_edge _ _ _ _ Hpo Ho Hi Hr Hch) as Hfol.
  split; [exact (made_wired c2 cwd vars w' Hw F Hn L)|]. split; [exact (made_roomy c2 cwd vars w' F Hn)|]. split; [exact (made_polite c2 cwd vars w' F L)|]. split; intros H.
  - apply (made_acyclic c2 cwd vars w' F Hn). destruct (arcs_rank _ p' (fun _ => false) Ho Hfol) as (rank0 & H0).
    { intros a Ha. apply (H a). refine (clos_more _ _ _ _ _ Ha). intros x y [Hxy _]. exact Hxy. }
    eexists. intros l Hl. exact (shape_rank sh c c2 p' r m1 added js je ks Ho P Hpo Hi Hr Hch B Hje Hbl (fun _ => false) rank0 H0 l Hl eq_refl).
  - apply (made_dammed c2 cwd vars w' F Hn). destruct (arcs_rank _ p' only_buffers Ho Hfol) as (rank0 & H0).
    { intros a Ha. apply (H a). refine (clos_more _ _ _ _ _ Ha). intros x y [Hxy E0]. split; [exact Hxy|]. intros E'. unfold only_buffers in E0. rewrite E' in E0. discriminate. }
    eexists. intros l Hl Hb. apply (shape_rank sh c c2 p' r m1 added js je ks Ho P Hpo Hi Hr Hch B Hje Hbl only_buffers rank0 H0 l Hl). unfold only_buffers. destruct (fst (lk_dst l)); try reflexivity. contradiction.
Qed.
Theorem shape_net sh cwd vars c net : S_Manip.fair sh -> good_connections (cf_connection c) -> makes cwd vars sh c net [] -> passing (cf_connection c) -> apart (cf_connection c) ->
  net_wired net /\ roomy net /\ polite net /\ (no_loop (cf_connection c) -> acyclic net) /\ (buffered_loops (cf_connection c) -> dammed net).
Proof.
  intros Hf Hgc (c2 & out & w & w' & Ep & Ew & Es & ->) Hpa Hap. apply no_settings in Es. subst w'.
  pose proof (shape_net_more sh cwd vars c c2 out w (w_channels w) Hf Hgc Ep Ew (le_n _) Hpa Hap) as H. destruct w. exact H.
Qed.
Lemma loops_apart m : buffered_loops m -> apart m.
Proof. intros H n Hn. apply (H (CJunction, n)). apply t_step. split; [exact Hn|discriminate]. Qed.
Lemma no_loop_buffered m : no_loop m -> buffered_loops m.
Proof. intros H a Ha. apply (H a). refine (clos_more _ _ _ _ _ Ha). intros x y [Hxy _]. exact Hxy. Qed.

(** ** Runs *)
Section Runs.
Variables (sh : shuffles) (cwd : option string) (vars : list (string * string)) (c : config) (net : list S_Net.comp).
Hypothesis Hf : S_Manip.fair sh.
Hypothesis Hgc : good_connections (cf_connection c).
Hypothesis Hmk : makes cwd vars sh c net [].
Hypothesis Hpa : passing (cf_connection c).
Theorem shape_wired : apart (cf_connection c) -> net_wired net /\ roomy net /\ polite net.
Proof. intros Ha. destruct (shape_net sh cwd vars c net Hf Hgc Hmk Hpa Ha) as (H1 & H2 & H3 & _). auto. Qed.
Theorem shape_one_way : no_loop (cf_connection c) -> acyclic net.
Proof. intros H. destruct (shape_net sh cwd vars c net Hf Hgc Hmk Hpa (loops_apart _ (no_loop_buffered _ H))) as (_ & _ & _ & G & _). auto. Qed.
Theorem shape_buffered : buffered_loops (cf_connection c) -> dammed net.
Proof. intros H. destruct (shape_net sh cwd vars c net Hf Hgc Hmk Hpa (loops_apart _ H)) as (_ & _ & _ & _ & G). auto. Qed.
Theorem shape_fine w0 l w ocs : apart (cf_connection c) -> whole_run net [] w0 l w ocs -> willing l -> forall k, k < List.length net -> ocs k = Going \/ exists n, ocs k = Ended (Ok n).
Proof. intros Ha R W. destruct (shape_wired Ha) as (H1 & H2 & H3). exact (whole_fine net w0 l w ocs H1 H2 H3 R W). Qed.
Theorem shape_ends w0 l w ocs : no_loop (cf_connection c) -> whole_run net [] w0 l w ocs -> willing l -> whole_locked net [] w0 l -> all_succeeded net ocs.
Proof. intros Ha R W K. destruct (shape_wired (loops_apart _ (no_loop_buffered _ Ha))) as (H1 & H2 & H3). exact (whole_ends net w0 l w ocs H1 H2 H3 (shape_one_way Ha) R W K). Qed.
Theorem shape_dammed w0 l w ocs : buffered_loops (cf_connection c) -> whole_run net [] w0 l w ocs -> willing l -> whole_locked net [] w0 l ->
  at_rest net w /\ forall k x, nth_error net k = Some x -> comp_ins x = [] -> ocs k <> Going.
Proof. intros Ha R W K. destruct (shape_wired (loops_apart _ Ha)) as (H1 & H2 & H3). exact (whole_dammed net w0 l w ocs H1 H2 H3 (shape_buffered Ha) R W K). Qed.
Theorem shape_no_endless w0 f : no_loop (cf_connection c) -> S_Net.fair net w0 f -> limited f -> statuses_come f -> (forall n, willing (so_far f n)) ->
  ~ (forall n, exists w ocs, whole_run net [] w0 (so_far f n) w ocs).
Proof. intros Ha R W K V. destruct (shape_wired (loops_apart _ (no_loop_buffered _ Ha))) as (H1 & H2 & H3). exact (whole_no_endless net w0 f H1 H2 H3 (shape_one_way Ha) R W K V). Qed.
End Runs.
