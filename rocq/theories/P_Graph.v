(** * P_Graph: the diagram shows the connections *)
From Coq Require Import Ascii String List Bool Arith ZArith Lia.
From Verif Require Import M_Prog M_Motion M_Config M_Parser M_Manip M_Lint M_Setters M_Cli M_Graph S_Grammar S_Manip S_Lint S_Graph P_Map P_Parser P_Lint P_Cli.
Import ListNotations.
Local Open Scope string_scope.

Lemma output_same c : conn_output c = output_of c. Proof. destruct c; reflexivity. Qed.
Lemma ceqb_eq a b : component_eqb a b = true <-> a = b.
Proof.
  unfold component_eqb. rewrite andb_true_iff, String.eqb_eq. destruct a as [t n], b as [t' n']. cbn. split.
  - intros [H ->]. destruct t, t'; cbn in H; congruence || discriminate.
  - intros [= -> ->]. split; [destruct t'; reflexivity|reflexivity].
Qed.

(** ** The pairs that are drawn *)

Definition gpairs (l : list connection) : list graph_connection :=
  flat_map (fun ab => match output_of (fst ab) with Some o => [GraphConnection (comp_of (fst ab)) (marked_set (fst ab)) o (comp_of (snd ab)) (marked_set (snd ab))] | None => [] end) (neighbours l).
Definition before_of (c : connection) : option (component * oport * option string) :=
  match output_of c with Some o => Some (comp_of c, o, marked_set c) | None => None end.
Lemma steps_from l c r : snd (fold_left graph_step l (before_of c, r)) = (r ++ gpairs (c :: l))%list.
Proof.
  revert c r. induction l as [|d l IH]; intros c r; [cbn; rewrite app_nil_r; reflexivity|].
  cbn [fold_left]. unfold graph_step at 2. rewrite output_same. change (match output_of d with Some o => Some (conn_component d, o, marked_set d) | None => None end) with (before_of d).
  rewrite IH. unfold gpairs. cbn [neighbours flat_map fst snd]. unfold before_of. destruct (output_of c) as [o|]; cbn [app]; [rewrite <- app_assoc|]; reflexivity.
Qed.
Lemma convert_pairs_of acc l : convert_connection_to_graph_connection acc l = (acc ++ gpairs l)%list.
Proof.
  unfold convert_connection_to_graph_connection. f_equal. destruct l as [|c l]; [reflexivity|]. cbn [fold_left]. unfold graph_step at 2. rewrite output_same.
  change (match output_of c with Some o => Some (conn_component c, o, marked_set c) | None => None end) with (before_of c). rewrite steps_from. reflexivity.
Qed.
Definition gc_pair (g : graph_connection) : component * oport * component := (gc_src g, gc_via g, gc_dst g).
Lemma gpairs_joined l : map gc_pair (gpairs l) = joined_pairs l.
Proof.
  unfold gpairs, joined_pairs. induction (neighbours l) as [|[a b] r IH]; [reflexivity|]. cbn [flat_map fst snd]. rewrite map_app, IH. destruct (output_of a); reflexivity.
Qed.

(** Marking changes neither components nor ports *)
Definition mark (name : string) (len : nat) (ic : nat * connection) : connection :=
  let '(i, c) := ic in set_connection_set c (if ((i =? 0)%nat || (i =? len - 1)%nat) && ctype_eqb (conn_type c) CJunction then None else Some name).
Definition marked_from (name : string) (len i : nat) (l : list connection) : list connection := map (mark name len) (combine (seq i (List.length l)) l).
Lemma quick_marked k l : quick_add_connection_set k (Connections l) = Connections (marked_from k (List.length l) 0 l).
Proof. reflexivity. Qed.
Lemma marked_comp name len ic : comp_of (mark name len ic) = comp_of (snd ic) /\ output_of (mark name len ic) = output_of (snd ic).
Proof. destruct ic as [i c]. destruct c; split; reflexivity. Qed.
Lemma joined_cons a b l : joined_pairs (a :: b :: l) = (match output_of a with Some o => [(comp_of a, o, comp_of b)] | None => [] end ++ joined_pairs (b :: l))%list.
Proof. reflexivity. Qed.
Lemma marked_cons name len i a l : marked_from name len i (a :: l) = mark name len (i, a) :: marked_from name len (S i) l.
Proof. reflexivity. Qed.
Lemma marked_joined name len i l : joined_pairs (marked_from name len i l) = joined_pairs l.
Proof.
  revert i. induction l as [|a l IH]; intros i; [reflexivity|]. destruct l as [|b l]; [reflexivity|].
  specialize (IH (S i)). rewrite marked_cons in IH. rewrite !marked_cons, !joined_cons, IH.
  destruct (marked_comp name len (i, a)) as [E1 E2]. destruct (marked_comp name len (S i, b)) as [E3 _]. rewrite E1, E2, E3. reflexivity.
Qed.
Lemma marked_comps name len i l : map comp_of (marked_from name len i l) = map comp_of l.
Proof.
  revert i. induction l as [|a l IH]; intros i; [reflexivity|]. unfold marked_from in *. cbn [List.length seq combine map]. rewrite IH.
  destruct (marked_comp name len (i, a)) as [-> _]. reflexivity.
Qed.

(** The connections of a map, as drawn *)
Definition drawn_list (kv : string * dconn) : list connection := quick_deserialized_connection_to_connection (quick_add_connection_set (fst kv) (snd kv)).
Lemma draw_connections_list c : draw_connections c = flat_map (fun kv => gpairs (drawn_list kv)) (cf_connection c).
Proof.
  unfold draw_connections. enough (H : forall m acc, fold_left (fun acc kv => convert_connection_to_graph_connection acc (drawn_list kv)) m acc = (acc ++ flat_map (fun kv => gpairs (drawn_list kv)) m)%list) by apply (H (cf_connection c) []).
  induction m as [|kv m IH]; intros acc; cbn [fold_left flat_map]; [rewrite app_nil_r; reflexivity|]. rewrite IH, convert_pairs_of, <- app_assoc. reflexivity.
Qed.
Lemma drawn_joined c : map gc_pair (draw_connections c) = all_joined (cf_connection c).
Proof.
  rewrite draw_connections_list. unfold all_joined. induction (cf_connection c) as [|[k d] m IH]; [reflexivity|]. cbn [flat_map]. rewrite map_app, IH. f_equal.
  rewrite gpairs_joined. unfold drawn_list. cbn [fst snd]. destruct d as [s|l]; [reflexivity|]. rewrite quick_marked. apply marked_joined.
Qed.

(** ** Identifiers *)
Lemma node_id_inj a b : node_id a = node_id b -> a = b.
Proof. destruct a as [t n], b as [t' n']. unfold node_id. cbn [fst snd]. destruct t, t'; cbn; intros [=]; subst; reflexivity. Qed.

(** ** Edges *)
Lemma nodes_no_edges l : Forall (fun s => exists i a, s = SNode i a) l -> flat_map edges_in l = [].
Proof. induction 1 as [|s l (i & a & ->) _ IH]; [reflexivity|exact IH]. Qed.
Definition is_node (s : stmt) : Prop := exists i a, s = SNode i a.
Definition node_map (m : list (string * list stmt)) : Prop := Forall (fun kv => Forall is_node (snd kv)) m.

Lemma lookup_bput_same {V} k (v : V) m : lookup k (bput k v m) = Some v.
Proof. rewrite lookup_bput, String.eqb_refl. reflexivity. Qed.
Lemma in_bput {V} k (v : V) m k' v' : In (k', v') (bput k v m) -> k' = k /\ v' = v \/ In (k', v') m.
Proof.
  induction m as [|[k0 v0] m IH]; cbn; [intros [[= <- <-]|[]]; auto|].
  destruct (String.compare k k0) eqn:E; cbn.
  - apply compare_eq in E. subst k0. intros [[= <- <-]|H]; auto.
  - intros [[= <- <-]|[[= <- <-]|H]]; auto.
  - intros [[= <- <-]|H]; auto. destruct (IH H) as [?|?]; auto.
Qed.
Definition add_node (connections : list graph_connection) (acc : list (string * list stmt)) (c : component) : list (string * list stmt) :=
  let set := get_connection_set_name (first_connection connections c) c in
  bput set (match lookup set acc with Some l => l ++ [component_node c] | None => [component_node c] end)%list acc.
Definition flat_components (components : list (ctype * list string)) : list component := flat_map (fun tn => map (pair (fst tn)) (snd tn)) components.
Lemma graph_components_flat components connections : graph_components components connections = fold_left (add_node connections) (flat_components components) [].
Proof.
  unfold graph_components. generalize (@nil (string * list stmt)) as acc. induction components as [|[t ns] r IH]; intros acc; [reflexivity|].
  cbn [fold_left flat_components flat_map fst snd]. fold (flat_components r). rewrite fold_left_app, <- IH. f_equal. clear. revert acc. induction ns as [|n ns IH]; intros acc; [reflexivity|]. cbn [fold_left map]. rewrite <- IH. reflexivity.
Qed.

(** The sets: each node is in the list of its set, and only there *)
Definition set_name (connections : list graph_connection) (c : component) : string := get_connection_set_name (first_connection connections c) c.
Lemma sets_exact connections comps acc :
  ordered acc -> (forall k l s, In (k, l) acc -> In s l -> exists c, s = component_node c /\ set_name connections c = k) ->
  let r := fold_left (add_node connections) comps acc in
  ordered r /\ (forall k l s, In (k, l) r -> In s l -> exists c, s = component_node c /\ set_name connections c = k) /\
  (forall c, (exists l, lookup (set_name connections c) r = Some l /\ In (component_node c) l) <-> In c comps \/ exists l, lookup (set_name connections c) acc = Some l /\ In (component_node c) l).
Proof.
  revert acc. induction comps as [|x comps IH]; intros acc Ho Hn.
  - cbn. split; [exact Ho|]. split; [exact Hn|]. intros c. tauto.
  - cbn [fold_left]. cbv zeta. specialize (IH (add_node connections acc x)). cbv zeta in IH. destruct IH as (H1 & H2 & H3).
    + apply ordered_bput. exact Ho.
    + intros k l s Hk Hs. unfold add_node in Hk. fold (set_name connections x) in Hk. apply in_bput in Hk. destruct Hk as [[-> ->]|Hk]; [|exact (Hn k l s Hk Hs)].
      destruct (lookup (set_name connections x) acc) as [l0|] eqn:E; [|destruct Hs as [<-|[]]; exists x; auto].
      apply in_app_iff in Hs. destruct Hs as [Hs|[<-|[]]]; [|exists x; auto]. apply (Hn (set_name connections x) l0 s); [apply lookup_in; exact E|exact Hs].
    + split; [exact H1|]. split; [exact H2|]. intros c. rewrite H3. clear. cbn [In]. unfold add_node. fold (set_name connections x).
      rewrite lookup_bput. destruct (String.eqb (set_name connections c) (set_name connections x)) eqn:E.
      * apply String.eqb_eq in E. rewrite <- E. split.
        -- intros [Hc|(l & [= <-] & Hi)]; [auto|]. destruct (lookup (set_name connections c) acc) as [l0|].
           ++ apply in_app_iff in Hi. destruct Hi as [Hi|[Hi|[]]]; [right; eauto|]. left. left. apply node_id_inj. unfold component_node in Hi. congruence.
           ++ destruct Hi as [Hi|[]]. left. left. apply node_id_inj. unfold component_node in Hi. congruence.
        -- intros [[->|Hc]|(l & El & Hi)]; [right|left; exact Hc|right]; (eexists; split; [reflexivity|]).
           ++ destruct (lookup (set_name connections c) acc); [apply in_app_iff; right|]; left; reflexivity.
           ++ rewrite El. apply in_app_iff. left. exact Hi.
      * split; [intros [Hc|Hl]; auto|]. intros [[->|Hc]|Hl]; auto. rewrite String.eqb_refl in E. discriminate.
Qed.

(** ** The components *)
Lemma teqb_eq a b : ctype_eqb a b = true <-> a = b.
Proof. destruct a, b; cbn; split; congruence || discriminate || auto. Qed.
Lemma push_in t n m x : In x (flat_components (push_name t n m)) <-> x = (t, n) \/ In x (flat_components m).
Proof.
  induction m as [|[t' ns] m IH]; cbn [push_name].
  - cbn. intuition congruence.
  - destruct (ctype_eqb t t') eqn:E; unfold flat_components in *; cbn [flat_map fst snd]; rewrite !in_app_iff.
    + apply teqb_eq in E. subst t'. rewrite map_app, in_app_iff. cbn. intuition congruence.
    + rewrite IH. tauto.
Qed.
Lemma components_in acc l x : In x (flat_components (convert_connection_components_fold acc l)) <-> In x (map comp_of l) \/ In x (flat_components acc).
Proof.
  unfold convert_connection_components_fold. revert acc. induction l as [|c l IH]; intros acc; cbn [fold_left map In]; [tauto|]. rewrite IH, push_in. unfold comp_of. intuition congruence.
Qed.
Lemma draw_components_in c x : In x (flat_components (draw_components c)) <-> In x (known_components (cf_connection c)).
Proof.
  unfold draw_components. assert (H : forall m acc, In x (flat_components (fold_left (fun acc kv => convert_connection_components_fold acc (drawn_list kv)) m acc)) <-> In x (known_components m) \/ In x (flat_components acc)).
  { induction m as [|[k d] m IH]; intros acc; cbn [fold_left]; [cbn; tauto|]. rewrite IH, components_in. unfold known_components. cbn [flat_map snd]. rewrite in_app_iff.
    replace (map comp_of (drawn_list (k, d))) with (map (fun y => (conn_type y, conn_name y)) (quick_deserialized_connection_to_connection d)); [tauto|].
    unfold drawn_list. cbn [fst snd]. destruct d as [s|l]; [reflexivity|]. rewrite quick_marked. cbn [quick_deserialized_connection_to_connection]. rewrite marked_comps. reflexivity. }
  specialize (H (cf_connection c) []). cbn in H. unfold drawn_list in H. rewrite H. tauto.
Qed.
Lemma flat_perm order m x : (forall l, Permutation.Permutation (order l) l) -> In x (flat_components (order m)) <-> In x (flat_components m).
Proof.
  intros H. unfold flat_components. rewrite !in_flat_map. split; intros (y & Hy & Hx); exists y; (split; [|exact Hx]).
  - exact (Permutation.Permutation_in _ (H m) Hy).
  - exact (Permutation.Permutation_in _ (Permutation.Permutation_sym (H m)) Hy).
Qed.

(** ** Frames *)
Definition rank_of (faucets drains : list string) (k : string) : string := if mem k faucets then "min" else if mem k drains then "max" else "same".
Definition cluster (faucets drains : list string) (k : string) (l : list stmt) : stmt :=
  SSub ("cluster_nodes_" ++ k) (SAttr "label" ("""" ++ k ++ ":""") :: SAttr "rank" (rank_of faucets drains k) :: l).
Lemma frames_in fs ds m acc s : In s (fb_ret (fold_left (frame_step fs ds) m acc)) <->
  In s (fb_ret acc) \/ exists k l, In (k, l) m /\ (k = "" /\ In s l \/ k <> "" /\ s = cluster fs ds k l).
Proof.
  revert acc. induction m as [|[k l] m IH]; intros acc; cbn [fold_left].
  - split; [auto|]. intros [H|(k & l & [] & _)]. exact H.
  - rewrite IH. assert (Hstep : In s (fb_ret (frame_step fs ds acc (k, l))) <-> In s (fb_ret acc) \/ (k = "" /\ In s l \/ k <> "" /\ s = cluster fs ds k l)).
    { unfold frame_step. destruct (String.eqb k "") eqn:E.
      - apply String.eqb_eq in E. unfold fb_ret. cbn [fb_front fb_middle fb_back]. rewrite !in_app_iff. intuition congruence.
      - apply String.eqb_neq in E. fold (rank_of fs ds k). fold (cluster fs ds k l).
        destruct (mem k fs); [|destruct (mem k ds)]; unfold fb_ret; cbn [fb_front fb_middle fb_back]; rewrite !in_app_iff; cbn [In]; intuition congruence. }
    rewrite Hstep. split.
    + intros [[H|H]|(k' & l' & H1 & H2)]; [auto| |]; right; [exists k, l|exists k', l']; cbn; auto.
    + intros [H|(k' & l' & [[= <- <-]|H1] & H2)]; auto. right. exists k', l'. auto.
Qed.

Lemma edges_map l : flat_map edges_in (map connection_edge l) = map (fun g => as_edge node_id (gc_pair g)) l.
Proof. induction l as [|g r IH]; [reflexivity|]. cbn [map flat_map]. rewrite IH. destruct g as [s s' [] d d']; reflexivity. Qed.

Section Diagram.
Variable order : list (ctype * list string) -> list (ctype * list string).
Hypothesis Hperm : forall l, Permutation.Permutation (order l) l.
Variable c : config.
Let conns := draw_connections c.
Let fs := fst (end_sets conns).
Let ds := snd (end_sets conns).
Let sets := graph_components (order (draw_components c)) conns.
Definition diagram_stmts : list stmt :=
  (fb_ret (fold_left (frame_step (fst (end_sets (draw_connections c))) (snd (end_sets (draw_connections c)))) (graph_components (order (draw_components c)) (draw_connections c)) (FrontAndBack [] [] [])) ++
   map connection_edge (draw_connections c))%list.
Lemma diagram_is : get_diagram (order (draw_components c)) (draw_connections c) = SSub "diagram" diagram_stmts.
Proof. unfold get_diagram, diagram_stmts. destruct (end_sets (draw_connections c)). reflexivity. Qed.

Lemma sets_are : ordered sets /\ (forall k l s, In (k, l) sets -> In s l -> exists x, s = component_node x /\ set_name conns x = k) /\
  (forall x, (exists l, lookup (set_name conns x) sets = Some l /\ In (component_node x) l) <-> In x (known_components (cf_connection c))).
Proof.
  subst sets. rewrite graph_components_flat. destruct (sets_exact conns (flat_components (order (draw_components c))) []) as (H1 & H2 & H3); [constructor|intros ? ? ? []|].
  split; [exact H1|]. split; [exact H2|]. intros x. rewrite H3, (flat_perm order _ x Hperm), draw_components_in. cbn. split; [intros [H|(l & [=] & _)]; exact H|auto].
Qed.
Lemma node_inj x y : component_node x = component_node y -> x = y.
Proof. intros H. apply node_id_inj. unfold component_node in H. congruence. Qed.
Lemma set_nodes_mentioned k l x : In (k, l) sets -> In (component_node x) l -> k = set_name conns x /\ In x (known_components (cf_connection c)).
Proof.
  intros H1 H2. destruct sets_are as (Ho & Hn & Hx). destruct (Hn k l _ H1 H2) as (y & E & Hk). apply node_inj in E. subst y. split; [auto|].
  apply Hx. exists l. split; [|exact H2]. rewrite Hk. apply in_lookup; [apply ordered_nodup; exact Ho|exact H1].
Qed.

Lemma nodes_exact p i a : inside p (SNode i a) diagram_stmts <->
  exists x, In x (known_components (cf_connection c)) /\ SNode i a = component_node x /\ p = frame (set_name conns x).
Proof.
  destruct sets_are as (Ho & Hn & Hx). unfold diagram_stmts. fold conns fs ds sets. split.
  - intros H. inversion H as [s l Hs E1 E2 E3|i' p' s l l' Hs Hi E1 E2 E3]; subst.
    + apply in_app_iff in Hs. destruct Hs as [Hs|Hs].
      * apply frames_in in Hs. destruct Hs as [[]|(k & l & Hk & [[-> Hl]|[_ Hl]])]; [|discriminate]. destruct (Hn "" l _ Hk Hl) as (x & E & Hk'). exists x. rewrite E in Hl.
        split; [exact (proj2 (set_nodes_mentioned _ _ _ Hk Hl))|]. split; [exact E|]. rewrite Hk'. reflexivity.
      * apply in_map_iff in Hs. destruct Hs as (g & Hg & _). discriminate.
    + apply in_app_iff in Hs. destruct Hs as [Hs|Hs].
      * apply frames_in in Hs. destruct Hs as [[]|(k & l & Hk & [[-> Hl]|[Hne Hl]])].
        -- destruct (Hn "" l _ Hk Hl) as (x & E & _). discriminate.
        -- injection Hl as -> ->. inversion Hi as [s l0 Hs' E1 E2 E3|i2 p2 s l0 l2 Hs' Hi' E1 E2 E3]; subst.
           ++ destruct Hs' as [[=]|[[=]|Hs']]. destruct (Hn k l _ Hk Hs') as (x & E & Hk'). exists x. rewrite E in Hs'.
              split; [exact (proj2 (set_nodes_mentioned _ _ _ Hk Hs'))|]. split; [exact E|]. rewrite Hk'. unfold frame. apply String.eqb_neq in Hne. rewrite Hne. reflexivity.
           ++ destruct Hs' as [[=]|[[=]|Hs']]. destruct (Hn k l _ Hk Hs') as (x & E & _). discriminate.
      * apply in_map_iff in Hs. destruct Hs as (g & Hg & _). discriminate.
  - intros (x & Hm & E & ->). rewrite E. apply Hx in Hm. destruct Hm as (l & Hl & Hi). apply lookup_in in Hl. unfold frame. destruct (String.eqb (set_name conns x) "") eqn:En.
    + apply String.eqb_eq in En. constructor. apply in_app_iff. left. apply frames_in. right. exists "", l. rewrite En in Hl. auto.
    + apply String.eqb_neq in En. econstructor; [apply in_app_iff; left; apply frames_in; right; exists (set_name conns x), l; split; [exact Hl|right; split; [exact En|reflexivity]]|].
      constructor. right. right. exact Hi.
Qed.

Lemma flat_nil {A B} (f : A -> list B) l : (forall x, In x l -> f x = []) -> flat_map f l = [].
Proof. induction l as [|a l IH]; intros H; [reflexivity|]. cbn. rewrite (H a (or_introl eq_refl)), IH; [reflexivity|]. intros x Hx. apply H. right. exact Hx. Qed.
Lemma edges_exact : flat_map edges_in diagram_stmts = map (as_edge node_id) (all_joined (cf_connection c)).
Proof.
  destruct sets_are as (Ho & Hn & Hx). unfold diagram_stmts. fold conns fs ds sets. rewrite flat_map_app. rewrite flat_nil.
  - cbn [app]. rewrite <- drawn_joined, map_map. apply edges_map.
  - intros s Hs. apply frames_in in Hs. destruct Hs as [[]|(k & l & Hk & [[-> Hl]|[_ ->]])].
    + destruct (Hn "" l s Hk Hl) as (x & -> & _). reflexivity.
    + cbn. apply flat_nil. intros s Hs. destruct (Hn k l s Hk Hs) as (x & -> & _). reflexivity.
Qed.
End Diagram.

(** ** The frame of a component *)
Lemma find_app {A} (f : A -> bool) l1 l2 : (forall x, In x l1 -> f x = false) -> find f (l1 ++ l2) = find f l2.
Proof. induction l1 as [|a l1 IH]; intros H; [reflexivity|]. cbn. rewrite (H a (or_introl eq_refl)). apply IH. intros x Hx. apply H. right. exact Hx. Qed.
Definition involves (x : component) (g : graph_connection) : bool := component_eqb (gc_src g) x || component_eqb (gc_dst g) x.
Lemma involves_iff x g : involves x g = true <-> gc_src g = x \/ gc_dst g = x.
Proof. unfold involves. rewrite orb_true_iff, !ceqb_eq. tauto. Qed.
Lemma drawn_pairs k l : map gc_pair (gpairs (drawn_list (k, Connections l))) = joined_pairs l.
Proof. rewrite gpairs_joined. unfold drawn_list. cbn [fst snd]. rewrite quick_marked. apply marked_joined. Qed.
Lemma linked_iff k l x : linked_in l x <-> exists g, In g (gpairs (drawn_list (k, Connections l))) /\ involves x g = true.
Proof.
  unfold linked_in. rewrite <- (drawn_pairs k l). split.
  - intros (a & o & b & Hi & Hx). apply in_map_iff in Hi. destruct Hi as (g & [= <- <- <-] & Hg). exists g. split; [exact Hg|]. apply involves_iff. exact Hx.
  - intros (g & Hg & Hv). apply involves_iff in Hv. exists (gc_src g), (gc_via g), (gc_dst g). split; [exact (in_map gc_pair _ _ Hg)|exact Hv].
Qed.
Lemma neighbours_in {A} (l : list A) a b : In (a, b) (neighbours l) -> In a l /\ In b l.
Proof.
  induction l as [|x l IH]; [intros []|]. destruct l as [|y l]; [intros []|]. intros [[= <- <-]|H]; [cbn; auto|]. destruct (IH H). cbn; auto.
Qed.
Lemma marked_in name len i0 l y : In y (marked_from name len i0 l) -> exists i x, nth_error l i = Some x /\ y = mark name len (i0 + i, x).
Proof.
  revert i0. induction l as [|a l IH]; intros i0; [intros []|]. rewrite marked_cons. intros [<-|H].
  - exists 0, a. rewrite Nat.add_0_r. auto.
  - destruct (IH (S i0) H) as (i & x & H1 & ->). exists (S i), x. split; [exact H1|]. do 2 f_equal. lia.
Qed.
Lemma mark_set name len i x : marked_set (mark name len (i, x)) = Some name \/ marked_set (mark name len (i, x)) = None /\ conn_type x = CJunction /\ (i = 0 \/ i = len - 1).
Proof.
  unfold mark. destruct (((i =? 0)%nat || (i =? len - 1)%nat) && ctype_eqb (conn_type x) CJunction) eqn:E; [right|left; destruct x; reflexivity].
  apply andb_true_iff in E. destruct E as [E1 E2]. apply teqb_eq in E2. apply orb_true_iff in E1. rewrite !Nat.eqb_eq in E1. split; [destruct x; reflexivity|auto].
Qed.
Lemma nth_last {A} (l : list A) x i : nth_error l i = Some x -> i = List.length l - 1 -> exists r, l = (r ++ [x])%list.
Proof.
  intros H E. destruct l as [|y l _] using rev_ind; [destruct i; discriminate|]. rewrite app_length in E. cbn in E. exists l. f_equal. f_equal.
  rewrite nth_error_app2 in H by lia. replace (i - List.length l) with 0 in H by lia. cbn in H. congruence.
Qed.
Lemma drawn_sets k l g : In g (gpairs (drawn_list (k, Connections l))) ->
  (gc_src_set g = Some k \/ gc_src_set g = None /\ fst (gc_src g) = CJunction /\ at_end l (gc_src g)) /\
  (gc_dst_set g = Some k \/ gc_dst_set g = None /\ fst (gc_dst g) = CJunction /\ at_end l (gc_dst g)).
Proof.
  unfold gpairs. rewrite in_flat_map. intros ([a b] & Hab & Hg). cbn [fst snd] in Hg. destruct (output_of a) as [o|]; [|destruct Hg]. destruct Hg as [<-|[]]. cbn [gc_src gc_dst gc_src_set gc_dst_set].
  apply neighbours_in in Hab. unfold drawn_list in Hab. cbn [fst snd] in Hab. rewrite quick_marked in Hab. cbn [quick_deserialized_connection_to_connection] in Hab. destruct Hab as [Ha Hb].
  assert (M : forall y, In y (marked_from k (List.length l) 0 l) -> marked_set y = Some k \/ marked_set y = None /\ fst (comp_of y) = CJunction /\ at_end l (comp_of y)).
  { intros y Hy. apply marked_in in Hy. destruct Hy as (i & x & Hi & ->). rewrite Nat.add_0_l. destruct (marked_comp k (List.length l) (i, x)) as [E _]. cbn [snd] in E. rewrite E.
    destruct (mark_set k (List.length l) i x) as [H|(H1 & H2 & H3)]; [auto|]. right. split; [exact H1|]. split; [exact H2|]. destruct H3 as [->|H3].
    - left. destruct l as [|y r]; [discriminate|]. cbn in Hi. injection Hi as ->. exists x, r. auto.
    - right. destruct (nth_last l x i Hi H3) as [r ->]. exists x, r. auto. }
  split; apply M; assumption.
Qed.

Lemma set_exact c x k l m1 m2 : cf_connection c = (m1 ++ (k, Connections l) :: m2)%list -> (forall kv, In kv m1 -> exists l', snd kv = Connections l') ->
  linked_in l x -> (forall k' l', In (k', Connections l') m1 -> ~ linked_in l' x) ->
  set_name (draw_connections c) x = k \/ set_name (draw_connections c) x = "" /\ fst x = CJunction /\ at_end l x.
Proof.
  intros E Hw Hl Hn. unfold set_name, first_connection. fold (involves x). rewrite draw_connections_list, E, flat_map_app. rewrite find_app.
  2: { intros g Hg. apply in_flat_map in Hg. destruct Hg as ([k' d] & Hi & Hg). destruct (Hw _ Hi) as [l' Hd]. cbn in Hd. subst d.
       destruct (involves x g) eqn:Ev; [|reflexivity]. destruct (Hn k' l' Hi). apply (linked_iff k'). eauto. }
  cbn [flat_map]. apply (linked_iff k) in Hl. destruct Hl as (g0 & Hg0 & Hv0).
  destruct (find (involves x) (gpairs (drawn_list (k, Connections l)) ++ flat_map (fun kv => gpairs (drawn_list kv)) m2)) as [g|] eqn:Ef.
  2: { exfalso. apply find_none with (x := g0) in Ef; [congruence|]. apply in_app_iff. auto. }
  assert (Hg : In g (gpairs (drawn_list (k, Connections l)))).
  { clear - Ef Hg0 Hv0. revert Hg0 Ef. induction (gpairs (drawn_list (k, Connections l))) as [|a r IH]; [intros []|]. cbn. intros [->|H].
    - rewrite Hv0. intros [= <-]. auto.
    - destruct (involves x a); [intros [= <-]; auto|]. intros Ef. right. auto. }
  assert (Hv : involves x g = true) by (apply find_some in Ef; apply Ef). apply involves_iff in Hv. destruct (drawn_sets k l g Hg) as [H1 H2].
  unfold get_connection_set_name. destruct (component_eqb (gc_src g) x) eqn:Ec.
  - apply ceqb_eq in Ec. subst x. destruct H1 as [->|(-> & H1 & H3)]; auto.
  - destruct Hv as [Hv|Hv]; [apply ceqb_eq in Hv; congruence|]. subst x. destruct H2 as [->|(-> & H2 & H3)]; auto.
Qed.
Lemma set_none c x : (forall kv, In kv (cf_connection c) -> exists l', snd kv = Connections l') -> (forall k l, In (k, Connections l) (cf_connection c) -> ~ linked_in l x) ->
  set_name (draw_connections c) x = "".
Proof.
  intros Hw Hn. unfold set_name, first_connection. fold (involves x). rewrite draw_connections_list. destruct (find _ _) as [g|] eqn:Ef; [|reflexivity]. exfalso.
  apply find_some in Ef. destruct Ef as [Hg Hv]. apply in_flat_map in Hg. destruct Hg as ([k d] & Hi & Hg). destruct (Hw _ Hi) as [l Hd]. cbn in Hd. subst d.
  apply (Hn k l Hi). apply (linked_iff k). eauto.
Qed.

(** ** What was read *)
Lemma config_written c c' : graph_config c = Good (Ok c') -> written c c'.
Proof.
  unfold graph_config, lint. destruct (convert_total (cf_connection c)) as (m' & errs & E & Hk & Hw & Hr & Hj). rewrite E. cbn [obind]. destruct errs as [|e errs].
  - destruct (ofold _ _ _) as [ws|] eqn:Ew; [|discriminate]. cbn [obind]. destruct (filter serious _); [|discriminate]. intros [= <-].
    split; [exact Hk|]. split; [|exact Hr]. intros k d Hd. cbn in Hd. destruct d as [s|l]; [|eauto]. apply Hj in Hd. destruct Hd as [H1 H2].
    exfalso. apply (proj2 (Hw (InvalidConnection k s))). eauto.
  - cbn [obind]. destruct (filter serious (as_set (e :: errs))) as [|w ws] eqn:Ef; [|discriminate]. exfalso.
    destruct (proj1 (Hw e) (or_introl eq_refl)) as (k & s & He & _).
    assert (Hin : In e (filter serious (as_set (e :: errs)))) by (apply filter_In; split; [apply as_set_in; left; reflexivity|rewrite He; reflexivity]). rewrite Ef in Hin. destruct Hin.
Qed.
Lemma drawn_config order c mode g : graph_drawn order c mode = Good (Ok g) -> exists c', written c c' /\ g = draw order c' mode.
Proof.
  unfold graph_drawn. destruct (graph_config c) as [[c'|e]|] eqn:E; cbn; try discriminate. intros [= <-]. exists c'. split; [apply config_written; exact E|reflexivity].
Qed.

(** ** The statements of the graph *)
Lemma graph_stmts order c mode : gr_stmts (draw order c mode) =
  (SAttr "labeljust" "l" :: SAttr "newrank" "true" ::
   match shows_legend mode with Some b => [get_legend b] | None => [] end ++ match mode with LegendOnly _ => [] | _ => [SSub "diagram" (diagram_stmts order c)] end)%list.
Proof. unfold draw. rewrite diagram_is. destruct mode; reflexivity. Qed.
Lemma legend_no_diagram b l : get_legend b <> SSub "diagram" l.
Proof. destruct b; discriminate. Qed.
Lemma in_diagram order c mode p s : inside ("diagram" :: p) s (gr_stmts (draw order c mode)) <-> shows_diagram mode /\ inside p s (diagram_stmts order c).
Proof.
  rewrite graph_stmts. split.
  - intros H. inversion H as [|i p' s' l l' Hs Hi]; subst. destruct Hs as [[=]|[[=]|Hs]]. apply in_app_iff in Hs. destruct Hs as [Hs|Hs].
    + destruct (shows_legend mode) as [b|]; [|destruct Hs]. destruct Hs as [Hs|[]]. destruct (legend_no_diagram _ _ Hs).
    + destruct mode; [destruct Hs| |]; (destruct Hs as [[= ->]|[]]; cbn; auto).
  - intros [Hm H]. econstructor; [|exact H]. right. right. apply in_app_iff. right. destruct mode; [destruct Hm| |]; left; reflexivity.
Qed.
Lemma legend_edges b : edges_in (get_legend b) = []. Proof. destruct b; reflexivity. Qed.
Lemma graph_edges order c mode : any_order order -> shows_diagram mode -> edges (draw order c mode) = map (as_edge node_id) (all_joined (cf_connection c)).
Proof.
  intros Ho Hm. unfold edges. rewrite graph_stmts. cbn [flat_map edges_in app]. rewrite flat_map_app.
  replace (flat_map edges_in match shows_legend mode with Some b => [get_legend b] | None => [] end) with (@nil (string * string * string)) by (destruct (shows_legend mode) as [b|]; [cbn [flat_map]; rewrite legend_edges|]; reflexivity).
  destruct mode; [destruct Hm| |]; cbn [app flat_map edges_in]; rewrite app_nil_r; apply edges_exact; exact Ho.
Qed.

Lemma depicted order c mode g : any_order order -> shows_diagram mode -> graph_drawn order c mode = Good (Ok g) ->
  exists c', g = draw order c' mode /\ depicts g c c' node_id.
Proof.
  intros Ho Hm Hg. destruct (drawn_config _ _ _ _ Hg) as (c' & Hw & ->). exists c'. split; [reflexivity|]. pose proof (components_mentioned _ _ (proj2 (proj2 Hw))) as M.
  split; [exact Hw|exact node_id_inj|exact (graph_edges order c' mode Ho Hm)| | |].
  - intros x Hx. apply M in Hx. exists (frame (set_name (draw_connections c') x)), [("label", snd x); ("style", "filled"); get_node_shape (fst x); get_node_color (fst x)]. split; [|reflexivity]. apply in_diagram. split; [exact Hm|]. apply nodes_exact; [exact Ho|]. exists x. split; [exact Hx|]. split; reflexivity.
  - intros p i attrs H. pose proof H as H'. apply in_diagram in H'. destruct H' as [_ H']. apply nodes_exact in H'; [|exact Ho]. destruct H' as (x & Hx & E & Hp). injection E as -> ->. exists x. split; [reflexivity|]. split; [apply M; exact Hx|]. split; [exact H|reflexivity].
  - intros f p i attrs Hf H x. rewrite graph_stmts in H. inversion H as [|i' p' s' l l' Hs Hi]; subst. destruct Hs as [[=]|[[=]|Hs]]. apply in_app_iff in Hs. destruct Hs as [Hs|Hs].
    + destruct (shows_legend mode) as [b|]; [|destruct Hs]. destruct Hs as [Hs|[]]. unfold get_legend in Hs. injection Hs as _ <-. clear - Hi. destruct x as [t n].
      assert (E : exists w, i = "legend_" ++ w).
      { inversion Hi as [s l Hs|i2 p2 s l l2 Hs Hi2]; subst.
        - cbn in Hs. repeat (destruct Hs as [Hs|Hs]; [discriminate Hs|]). destruct Hs.
        - assert (Hs' : exists name color shape, SSub i2 l2 = legend_entry name color shape) by (repeat (destruct Hs as [Hs|Hs]; [try discriminate Hs; eauto|]); destruct Hs).
          destruct Hs' as (name & color & shape & [= -> ->]). inversion Hi2 as [s l Hs2|i3 p3 s l l3 Hs2 Hi3]; subst.
          + destruct Hs2 as [[=]|[Hs2|[]]]. injection Hs2 as <- _. exists name. reflexivity.
          + destruct Hs2 as [[=]|[[=]|[]]]. }
      destruct E as [w ->]. unfold node_id. cbn [fst snd]. destruct t; cbn; discriminate.
    + destruct mode; [destruct Hs| |]; (destruct Hs as [[= <- _]|[]]; destruct (Hf eq_refl)).
Qed.

(** ** What a strict graph shows *)
Lemma in_last {A} (dec : forall x y : A, {x = y} + {x <> y}) (x : A) (l : list A) : In x l -> exists l1 l2, l = (l1 ++ x :: l2)%list /\ ~ In x l2.
Proof.
  induction l as [|a l IH]; [intros []|]. intros H. destruct (in_dec dec x l) as [Hi|Hn].
  - destruct (IH Hi) as (l1 & l2 & -> & H2). exists (a :: l1), l2. auto.
  - destruct H as [->|H]; [|contradiction]. exists [], l. auto.
Qed.
Lemma edge_dec (x y : string * string * string) : {x = y} + {x <> y}.
Proof. repeat decide equality. Qed.
Lemma shown_lemma order c mode g : any_order order -> shows_diagram mode -> graph_drawn order c mode = Good (Ok g) ->
  exists c' id, depicts g c c' id /\
    (forall a o b, In (a, o, b) (all_joined (cf_connection c')) -> (forall o', In (a, o', b) (all_joined (cf_connection c')) -> o' = o) -> shown g (id a) (id b) (port_label o)) /\
    (forall i j t, shown g i j t -> exists a o b, In (a, o, b) (all_joined (cf_connection c')) /\ (i, j, t) = as_edge id (a, o, b)).
Proof.
  intros Ho Hm Hg. destruct (depicted _ _ _ _ Ho Hm Hg) as (c' & Eg & D). exists c', node_id. split; [exact D|]. assert (Hs : gr_strict g = true) by (subst g; reflexivity).
  unfold shown. rewrite Hs, (dp_edges _ _ _ _ D). split.
  - intros a o b Hi Hu. destruct (in_last edge_dec (as_edge node_id (a, o, b)) _ (in_map (as_edge node_id) _ _ Hi)) as (l1 & l2 & E & Hn). exists l1, l2. split; [exact E|].
    intros other Hx. apply Hn. assert (Hy : In (node_id a, node_id b, other) (map (as_edge node_id) (all_joined (cf_connection c')))) by (rewrite E; apply in_app_iff; right; right; exact Hx).
    apply in_map_iff in Hy. destruct Hy as ([[a' o'] b'] & Ej & Hj). unfold as_edge in Ej. injection Ej as Ea Eb El. apply node_id_inj in Ea, Eb. subst a' b'. rewrite (Hu o' Hj) in El. subst other. exact Hx.
  - intros i j t (l1 & l2 & E & _). assert (Hy : In (i, j, t) (map (as_edge node_id) (all_joined (cf_connection c')))) by (rewrite E; apply in_app_iff; right; left; reflexivity).
    apply in_map_iff in Hy. destruct Hy as ([[a o] b] & Ej & Hj). exists a, o, b. auto.
Qed.

(** ** The ranks of the frames *)
Lemma mem_in k l : mem k l = true <-> In k l.
Proof. induction l as [|a l IH]; cbn; [intuition discriminate|]. rewrite orb_true_iff, IH, String.eqb_eq. intuition congruence. Qed.
Lemma end_sets_exact l : (forall s, In s (fst (end_sets l)) <-> exists g, In g l /\ fst (gc_src g) = CFaucet /\ gc_src_set g = Some s) /\
  (forall s, In s (snd (end_sets l)) <-> exists g, In g l /\ ~ (fst (gc_src g) = CFaucet /\ gc_src_set g <> None) /\ fst (gc_dst g) = CDrain /\ gc_dst_set g = Some s).
Proof.
  assert (H : forall l f d, let r := fold_left (fun '(acc_faucet, acc_drain) gc =>
    match fst (gc_src gc), gc_src_set gc, fst (gc_dst gc), gc_dst_set gc with
    | CFaucet, Some s, _, _ => (acc_faucet ++ [s], acc_drain)%list
    | _, _, CDrain, Some s => (acc_faucet, acc_drain ++ [s])%list
    | _, _, _, _ => (acc_faucet, acc_drain)
    end) l (f, d) in
    (forall s, In s (fst r) <-> In s f \/ exists g, In g l /\ fst (gc_src g) = CFaucet /\ gc_src_set g = Some s) /\
    (forall s, In s (snd r) <-> In s d \/ exists g, In g l /\ ~ (fst (gc_src g) = CFaucet /\ gc_src_set g <> None) /\ fst (gc_dst g) = CDrain /\ gc_dst_set g = Some s)).
  { clear l. induction l as [|g l IH]; intros f d; cbv zeta.
    - cbn. split; intros s; (split; [auto|intros [H|(g & [] & _)]; exact H]).
    - cbn [fold_left].
      assert (Hc : exists f' d', (match fst (gc_src g), gc_src_set g, fst (gc_dst g), gc_dst_set g with
        | CFaucet, Some s, _, _ => (f ++ [s], d)%list | _, _, CDrain, Some s => (f, d ++ [s])%list | _, _, _, _ => (f, d) end) = (f', d') /\
        (forall s, In s f' <-> In s f \/ fst (gc_src g) = CFaucet /\ gc_src_set g = Some s) /\
        (forall s, In s d' <-> In s d \/ ~ (fst (gc_src g) = CFaucet /\ gc_src_set g <> None) /\ fst (gc_dst g) = CDrain /\ gc_dst_set g = Some s)).
      { destruct g as [[t n] ss v [t' n'] ds]. cbn [gc_src gc_src_set gc_dst gc_dst_set fst].
        destruct ss as [ss|], ds as [ds|], t, t'; (eexists _, _; split; [reflexivity|]); split; intros s; rewrite ?in_app_iff; cbn [In]; intuition (congruence || discriminate). }
      destruct Hc as (f' & d' & -> & Hf & Hd). destruct (IH f' d') as [H1 H2]. split; intros s; [rewrite H1, Hf|rewrite H2, Hd]; split.
      + intros [[H|H]|(g' & Hg & H)]; [auto|right; exists g; cbn; auto|right; exists g'; cbn; auto].
      + intros [H|(g' & [<-|Hg] & H)]; [auto|auto|right; exists g'; auto].
      + intros [[H|H]|(g' & Hg & H)]; [auto|right; exists g; cbn; auto|right; exists g'; cbn; auto].
      + intros [H|(g' & [<-|Hg] & H)]; [auto|auto|right; exists g'; auto]. }
  destruct (H l [] []) as [H1 H2]. split; intros s; [rewrite (H1 s)|rewrite (H2 s)]; cbn; intuition.
Qed.
Section Ranks.
Variable c : config.
Hypothesis Hlists : forall k d, In (k, d) (cf_connection c) -> exists l, d = Connections l.
Hypothesis Hord : ordered (cf_connection c).
Variables (k : string) (l : list connection).
Hypothesis Hin : In (k, Connections l) (cf_connection c).
Lemma from_list g : In g (draw_connections c) -> gc_src_set g = Some k \/ gc_dst_set g = Some k -> In g (gpairs (drawn_list (k, Connections l))).
Proof.
  intros Hg Hk. rewrite draw_connections_list in Hg. apply in_flat_map in Hg. destruct Hg as ([k' d] & Hi & Hg). destruct (Hlists _ _ Hi) as [l' ->].
  destruct (drawn_sets k' l' g Hg) as [H1 H2].
  assert (k' = k) by (destruct Hk as [Hk|Hk]; [destruct H1 as [H1|[H1 _]]|destruct H2 as [H2|[H2 _]]]; congruence). subst k'.
  apply ordered_nodup in Hord. pose proof (in_lookup _ _ _ Hord Hi) as L1. pose proof (in_lookup _ _ _ Hord Hin) as L2. congruence.
Qed.
Lemma to_all g : In g (gpairs (drawn_list (k, Connections l))) -> In g (draw_connections c).
Proof. intros H. rewrite draw_connections_list. apply in_flat_map. eauto. Qed.
Lemma pair_iff a o b : In (a, o, b) (joined_pairs l) <-> exists g, In g (gpairs (drawn_list (k, Connections l))) /\ gc_pair g = (a, o, b).
Proof. rewrite <- (drawn_pairs k l), in_map_iff. split; intros (g & H1 & H2); exists g; auto. Qed.
Lemma rank_faucets : mem k (fst (end_sets (draw_connections c))) = true <-> starts_flow l.
Proof.
  rewrite mem_in, (proj1 (end_sets_exact _)). split.
  - intros (g & Hg & Ht & Hs). pose proof (from_list g Hg (or_introl Hs)) as Hl. exists (snd (gc_src g)), (gc_via g), (gc_dst g). apply pair_iff. exists g. split; [exact Hl|]. unfold gc_pair. rewrite <- Ht. destruct (gc_src g); reflexivity.
  - intros (n & o & b & H). apply pair_iff in H. destruct H as (g & Hg & [= Ha Ho Hb]). exists g. split; [apply to_all; exact Hg|]. rewrite Ha. split; [reflexivity|].
    destruct (proj1 (drawn_sets _ _ _ Hg)) as [H|(_ & H & _)]; [exact H|]. rewrite Ha in H. discriminate.
Qed.
Lemma rank_drains : ~ starts_flow l -> mem k (snd (end_sets (draw_connections c))) = true <-> ends_flow l.
Proof.
  intros Hns. rewrite mem_in, (proj2 (end_sets_exact _)). split.
  - intros (g & Hg & _ & Ht & Hs). pose proof (from_list g Hg (or_intror Hs)) as Hl. exists (gc_src g), (gc_via g), (snd (gc_dst g)). apply pair_iff. exists g. split; [exact Hl|]. unfold gc_pair. rewrite <- Ht. destruct (gc_dst g); reflexivity.
  - intros (a & o & n & H). pose proof H as H0. apply pair_iff in H. destruct H as (g & Hg & [= Ha Ho Hb]). exists g. split; [apply to_all; exact Hg|]. split.
    + intros [Hf _]. apply Hns. exists (snd a), o, (CDrain, n). rewrite Ha in Hf. destruct a as [t n']. cbn in *. subst t. exact H0.
    + rewrite Hb. split; [reflexivity|]. destruct (proj2 (drawn_sets _ _ _ Hg)) as [H|(_ & H & _)]; [exact H|]. rewrite Hb in H. discriminate.
Qed.
Lemma rank_exact : ranked l (rank_of (fst (end_sets (draw_connections c))) (snd (end_sets (draw_connections c))) k).
Proof.
  unfold rank_of. destruct (mem k (fst _)) eqn:Ef; [constructor; apply rank_faucets; exact Ef|].
  assert (Hn : ~ starts_flow l) by (intros H; apply rank_faucets in H; congruence).
  destruct (mem k (snd _)) eqn:Ed; [apply R_max; [exact Hn|apply rank_drains; assumption]|]. apply R_same; [exact Hn|]. intros H. apply rank_drains in H; [congruence|exact Hn].
Qed.
End Ranks.

Lemma frames_lemma order c mode g : any_order order -> shows_diagram mode -> ordered (cf_connection c) -> graph_drawn order c mode = Good (Ok g) ->
  exists c' id, depicts g c c' id /\
    (forall x p attrs k l, node_of g id p x attrs -> first_list (cf_connection c') x k l -> p = frame k \/ p = [] /\ fst x = CJunction /\ at_end l x) /\
    (forall x p attrs, node_of g id p x attrs -> (forall k l, In (k, Connections l) (cf_connection c') -> ~ linked_in l x) -> p = []) /\
    (forall k l stmts, k <> "" -> In (k, Connections l) (cf_connection c') -> inside ["diagram"] (SSub ("cluster_nodes_" ++ k) stmts) (gr_stmts g) ->
       In (SAttr "label" ("""" ++ k ++ ":""")) stmts /\ forall r, In (SAttr "rank" r) stmts <-> ranked l r).
Proof.
  intros Ho Hm Hord Hg. destruct (depicted _ _ _ _ Ho Hm Hg) as (c' & Eg & D). exists c', node_id. split; [exact D|].
  destruct (dp_written _ _ _ _ D) as (Wk & Wl & Wr). assert (Hord' : ordered (cf_connection c')) by (unfold ordered; rewrite Wk; exact Hord).
  assert (Hp : forall x p attrs, node_of g node_id p x attrs -> p = frame (set_name (draw_connections c') x)).
  { intros x p attrs [H _]. subst g. apply in_diagram in H. destruct H as [_ H]. apply nodes_exact in H; [|exact Ho]. destruct H as (y & _ & E & ->). injection E as E _. apply node_id_inj in E. subst y. reflexivity. }
  split; [|split].
  - intros x p attrs k l Hn (m1 & m2 & E & Hl & Hf). rewrite (Hp _ _ _ Hn). destruct (set_exact c' x k l m1 m2 E) as [->|(-> & H)]; auto.
    intros [k' d] Hi. cbn. apply (Wl k'). rewrite E. apply in_app_iff. auto.
  - intros x p attrs Hn Hf. rewrite (Hp _ _ _ Hn), set_none; [reflexivity| |exact Hf]. intros [k d] Hi. exact (Wl k d Hi).
  - intros k l stmts Hk Hi Hin. subst g. apply in_diagram in Hin. destruct Hin as [_ Hin]. inversion Hin as [s l0 Hs E1 E2 E3|]; subst. unfold diagram_stmts in Hs. apply in_app_iff in Hs. destruct Hs as [Hs|Hs].
    + apply frames_in in Hs. destruct Hs as [[]|(k' & l' & Hk' & [[-> Hl']|[_ Hl']])].
      * destruct (proj1 (proj2 (sets_are order Ho c')) _ _ _ Hk' Hl') as (x & E & _). discriminate.
      * unfold cluster in Hl'. injection Hl' as El ->. assert (k' = k) by (clear - El; cbn in El; congruence). subst k'. split; [left; reflexivity|].
        assert (Hnr : forall r, ~ In (SAttr "rank" r) l') by (intros r Hr; destruct (proj1 (proj2 (sets_are order Ho c')) _ _ _ Hk' Hr) as (x & E & _); discriminate).
        pose proof (rank_exact c' Wl Hord' k l Hi) as Hx. intros r. split.
        -- intros [[=]|[[= <-]|Hr]]; [exact Hx|]. destruct (Hnr r Hr).
        -- intros Hr. right. left. f_equal. destruct Hx, Hr; reflexivity || contradiction.
    + apply in_map_iff in Hs. destruct Hs as (y & Hy & _). discriminate.
Qed.

(** ** The legend *)
Definition look (t : ctype) : string * string := (snd (get_node_shape t), snd (get_node_color t)).
Definition entry (t : ctype) : stmt := legend_entry (show_kind t) (snd (look t)) (fst (look t)).
Lemma legend_entries b : exists l, get_legend b = SSub (legend_name b) l /\ (forall t, In (entry t) l) /\
  (forall i l', In (SSub i l') l -> exists t, SSub i l' = entry t).
Proof.
  eexists. split; [unfold get_legend, legend_name; destruct b; reflexivity|]. split.
  - intros t. destruct t; cbn [In]; unfold entry; cbn; auto 12.
  - intros i l' H. cbn in H. repeat (destruct H as [H|H]; [try discriminate H; rewrite <- H;
      first [exists CLaunch; reflexivity|exists CBuffer; reflexivity|exists CRegulator; reflexivity|exists CJunction; reflexivity|exists CFaucet; reflexivity|exists CDrain; reflexivity]|]). destruct H.
Qed.
Lemma legend_lemma order c mode g : any_order order -> graph_drawn order c mode = Good (Ok g) ->
  exists look id, (forall t t', fst (look t) = fst (look t') -> t = t') /\ (forall t t', snd (look t) = snd (look t') -> t = t' \/ (In t [CBuffer; CRegulator] /\ In t' [CBuffer; CRegulator])) /\
    (shows_diagram mode -> exists c', depicts g c c' id /\ forall x p attrs, node_of g id p x attrs -> (attr_of "shape" attrs, attr_of "fillcolor" attrs) = look (fst x)) /\
    (forall b, shows_legend mode = Some b ->
       (forall t, exists f i attrs, inside [legend_name b; f] (SAttr "label" (show_kind t)) (gr_stmts g) /\ inside [legend_name b; f] (SNode i attrs) (gr_stmts g)) /\
       (forall t f i attrs, inside [legend_name b; f] (SAttr "label" (show_kind t)) (gr_stmts g) -> inside [legend_name b; f] (SNode i attrs) (gr_stmts g) ->
          (attr_of "shape" attrs, attr_of "fillcolor" attrs) = look t)).
Proof.
  intros Ho Hg. exists look, node_id. split; [intros [] []; cbn; congruence|]. split; [intros [] []; cbn; intros E; try discriminate E; auto 6|]. split.
  - intros Hm. destruct (depicted _ _ _ _ Ho Hm Hg) as (c' & Eg & D). exists c'. split; [exact D|]. intros x p attrs [H _]. subst g. apply in_diagram in H. destruct H as [_ H]. apply nodes_exact in H; [|exact Ho].
    destruct H as (y & _ & E & _). injection E as E ->. apply node_id_inj in E. subst y. destruct x as [[] n]; reflexivity.
  - intros b Hb. destruct (drawn_config _ _ _ _ Hg) as (c' & _ & ->). rewrite graph_stmts, Hb. destruct (legend_entries b) as (l & El & Ha & Hon). rewrite El.
    set (tail := match mode with LegendOnly _ => [] | _ => [SSub "diagram" (diagram_stmts order c')] end).
    assert (Hlegend : forall f s, inside [legend_name b; f] s (SAttr "labeljust" "l" :: SAttr "newrank" "true" :: [SSub (legend_name b) l] ++ tail)%list <-> exists l', In (SSub f l') l /\ In s l').
    { intros f s. split.
      - intros H. inversion H as [|i p s' l0 l' Hs Hi]; subst. cbn [app In] in Hs. destruct Hs as [[=]|[[=]|[[= <-]|Hs]]].
        + inversion Hi as [|i p s' l0 l' Hs' Hi']; subst. inversion Hi' as [s' l0 Hx|]; subst. eauto.
        + exfalso. subst tail. destruct mode; [destruct Hs| |]; (destruct Hs as [[= E _]|[]]; destruct b; discriminate).
      - intros (l' & H1 & H2). econstructor; [right; right; left; reflexivity|]. econstructor; [exact H1|]. constructor. exact H2. }
    split.
    + intros t. exists ("cluster_legend_" ++ show_kind t). eexists _, _. split; apply Hlegend; eexists; (split; [apply (Ha t)|]); [left; reflexivity|right; left; reflexivity].
    + intros t f i attrs H1 H2. apply Hlegend in H1, H2. destruct H1 as (l1 & H1 & H1'), H2 as (l2 & H2 & H2'). destruct (Hon _ _ H1) as [t1 E1], (Hon _ _ H2) as [t2 E2].
      injection E1 as -> ->. injection E2 as E2 ->. assert (t1 = t2) by (destruct t1, t2; cbn in E2; congruence). subst t2. destruct H1' as [H1'|[[=]|[]]]. injection H1' as H1'. assert (t1 = t) by (destruct t1, t; cbn in H1'; congruence). subst t1.
      destruct H2' as [[=]|[H2'|[]]]. injection H2' as _ <-. reflexivity.
Qed.
Lemma depicted_some order c mode g : any_order order -> shows_diagram mode -> graph_drawn order c mode = Good (Ok g) -> exists c' id, depicts g c c' id.
Proof. intros H1 H2 H3. destruct (depicted _ _ _ _ H1 H2 H3) as (c' & _ & D). eauto. Qed.
