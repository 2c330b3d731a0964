(** * P_Dot: when the diagram is DOT *)
From Coq Require Import Ascii String List Bool Arith ZArith Lia.
From Verif Require Import M_Prog M_Motion M_Config M_Parser M_Manip M_Lint M_Setters M_Cli M_Graph S_Grammar S_Manip S_Lint S_Graph P_Map P_Parser P_Lint P_Cli P_Graph.
Import ListNotations.
Local Open Scope string_scope.

Lemma names_sub i l : names_in (SSub i l) = i :: flat_map names_in l. Proof. reflexivity. Qed.
Lemma letters_app w a b : of_letters w (a ++ b) <-> of_letters w a /\ of_letters w b.
Proof.
  unfold of_letters. induction a as [|x a IH]; cbn.
  - split; [intros H; split; [constructor|exact H]|intros [_ H]; exact H].
  - split.
    + intros H. inversion H; subst. apply IH in H3. destruct H3. split; [constructor|]; assumption.
    + intros [H1 H2]. inversion H1; subst. constructor; [assumption|]. apply IH. auto.
Qed.
Lemma first_in_name c : In c (list_ascii_of_string first_letters) -> In c (list_ascii_of_string name_letters).
Proof. intros H. cbn in H |- *. repeat (destruct H as [<-|H]; [auto 70|]). destruct H. Qed.
Lemma lowered_app a b : lowered (a ++ b) = lowered a ++ lowered b.
Proof. induction a as [|x a IH]; [reflexivity|]. cbn. rewrite IH. reflexivity. Qed.

Ltac letters := repeat (constructor; [cbn; auto 70|]); constructor.
Ltac word := apply D_word; [cbn; auto 70|letters|cbn; intuition discriminate].
Lemma id_letters n : of_letters name_letters n -> forall t, dot_id (node_id (t, n)).
Proof.
  intros H t. unfold node_id. cbn [fst snd]. destruct t; cbn [component_type_to_letter append];
  (apply D_word; [cbn; auto 70|constructor; [cbn; auto 70|exact H]|cbn [lowered]; intros Hk; cbn in Hk; repeat (destruct Hk as [Hk|Hk]; [discriminate Hk|]); destruct Hk]).
Qed.
Lemma plain_letters n : plain_word n -> of_letters name_letters n.
Proof. intros (c & r & -> & H1 & H2 & _). constructor; [apply first_in_name; exact H1|exact H2]. Qed.
Lemma plain_dot n : plain_word n -> dot_id n.
Proof. intros (c & r & -> & H1 & H2 & H3). apply D_word; assumption. Qed.
Lemma cluster_id k : of_letters name_letters k -> dot_id ("cluster_nodes_" ++ k).
Proof.
  intros H. cbn [append]. apply D_word; [cbn; auto 70| |].
  - change (of_letters name_letters ("luster_nodes_" ++ k)). apply letters_app. split; [letters|exact H].
  - cbn. intros Hk. repeat (destruct Hk as [Hk|Hk]; [discriminate Hk|]). destruct Hk.
Qed.
Lemma letters_no_quote k c : of_letters name_letters k -> In c (list_ascii_of_string k) -> c <> """"%char.
Proof. intros H Hc. unfold of_letters in H. rewrite Forall_forall in H. specialize (H c Hc). intros ->. cbn in H. repeat (destruct H as [H|H]; [discriminate H|]). destruct H. Qed.
Lemma append_assoc a b c : (a ++ b) ++ c = a ++ b ++ c.
Proof. induction a as [|x a IH]; [reflexivity|]. cbn. rewrite IH. reflexivity. Qed.
Lemma list_append a b : list_ascii_of_string (a ++ b) = (list_ascii_of_string a ++ list_ascii_of_string b)%list.
Proof. induction a as [|x a IH]; [reflexivity|]. cbn. rewrite IH. reflexivity. Qed.
Lemma title_id k : of_letters name_letters k -> dot_id ("""" ++ k ++ ":""").
Proof.
  intros H. replace (k ++ ":""") with ((k ++ ":") ++ """") by apply append_assoc. apply D_quoted. intros c Hc. rewrite list_append in Hc. apply in_app_iff in Hc. destruct Hc as [Hc|[<-|[]]]; [exact (letters_no_quote k c H Hc)|discriminate].
Qed.

Lemma quote_id : dot_id """""". Proof. apply (D_quoted ""). intros c []. Qed.
Lemma port_id o : dot_id (port_label o). Proof. destruct o; cbn; [word|exact quote_id|word]. Qed.
Lemma looks_id t : dot_id (snd (get_node_shape t)) /\ dot_id (snd (get_node_color t)) /\ fst (get_node_shape t) = "shape" /\ fst (get_node_color t) = "fillcolor".
Proof.
  destruct t; (split; [word|split; [|split; reflexivity]]); cbn; unfold BUFFER_COLOR, REGULATOR_COLOR, DRAIN_COLOR, FAUCET_COLOR, JUNCTION_COLOR, LAUNCH_COLOR; word.
Qed.
Lemma rank_id a b k : dot_id (rank_of a b k).
Proof. unfold rank_of. destruct (mem k a); [word|destruct (mem k b); word]. Qed.
Lemma tenths : dot_id "0.3".
Proof. apply (D_decimal "0" "3"); [split; [discriminate|letters]|letters]. Qed.

Lemma node_names x : plain_word (snd x) -> Forall dot_id (names_in (component_node x)).
Proof.
  intros H. destruct x as [t n]. unfold component_node. destruct (looks_id t) as (H1 & H2 & H3 & H4). cbn [fst snd] in *. cbn [names_in flat_map app fst snd]. rewrite H3, H4.
  constructor; [apply id_letters; apply plain_letters; exact H|].
  constructor; [word|]. constructor; [apply plain_dot; exact H|]. constructor; [word|]. constructor; [word|]. constructor; [word|]. constructor; [exact H1|]. constructor; [word|]. constructor; [exact H2|constructor].
Qed.
Lemma edge_names gc : plain_word (snd (gc_src gc)) -> plain_word (snd (gc_dst gc)) -> Forall dot_id (names_in (connection_edge gc)).
Proof.
  intros H1 H2. destruct gc as [[t n] s v [t' n'] d]. cbn [gc_src gc_dst fst snd] in *. unfold connection_edge. cbn [gc_src gc_dst gc_via names_in flat_map app fst snd].
  constructor; [apply id_letters; apply plain_letters; exact H1|]. constructor; [apply id_letters; apply plain_letters; exact H2|]. constructor; [word|]. constructor; [|constructor]. exact (port_id v).
Qed.
Lemma entry_names t : Forall dot_id (names_in (entry t)).
Proof.
  destruct (looks_id t) as (H1 & H2 & _). unfold entry, legend_entry, look. cbn [names_in flat_map app fst snd].
  constructor; [destruct t; cbn; word|]. constructor; [word|]. constructor; [destruct t; cbn; word|]. constructor; [destruct t; cbn; word|].
  constructor; [word|]. constructor; [exact H2|]. constructor; [word|]. constructor; [exact quote_id|]. constructor; [word|]. constructor; [exact H1|].
  constructor; [word|]. constructor; [exact tenths|]. constructor; [word|]. constructor; [word|]. constructor; [word|]. constructor; [exact tenths|constructor].
Qed.
Lemma legend_names b : Forall dot_id (names_in (get_legend b)).
Proof.
  assert (E : get_legend b = SSub (legend_name b) [SAttr "color" "black"; SAttr "label" "Legend"; entry CLaunch; entry CBuffer; entry CRegulator; entry CJunction; entry CFaucet; entry CDrain]) by (destruct b; reflexivity).
  rewrite E, names_sub. cbn [flat_map]. constructor; [destruct b; cbn; word|]. repeat (apply Forall_app; split; [try apply entry_names|]); [| |constructor]; (constructor; [word|constructor; [word|constructor]]).
Qed.

Lemma set_name_key c x : (forall k d, In (k, d) (cf_connection c) -> exists l, d = Connections l) -> set_name (draw_connections c) x = "" \/ In (set_name (draw_connections c) x) (keys (cf_connection c)).
Proof.
  intros Hl. unfold set_name. destruct (first_connection (draw_connections c) x) as [g|] eqn:E; [|auto]. apply find_some in E. destruct E as [Hg _].
  rewrite draw_connections_list in Hg. apply in_flat_map in Hg. destruct Hg as ([k d] & Hi & Hg). destruct (Hl _ _ Hi) as [l ->]. destruct (drawn_sets k l g Hg) as [H1 H2].
  assert (Hk : In k (keys (cf_connection c))) by (exact (in_map fst _ _ Hi)). unfold get_connection_set_name. destruct (component_eqb (gc_src g) x).
  - destruct H1 as [->|[-> _]]; auto.
  - destruct H2 as [->|[-> _]]; auto.
Qed.
Lemma nonempty_sets order c k : ~ In (k, []) (graph_components (order (draw_components c)) (draw_connections c)).
Proof.
  rewrite graph_components_flat. assert (H : forall comps acc, (forall k, ~ In (k, []) acc) -> ~ In (k, []) (fold_left (add_node (draw_connections c)) comps acc)).
  { induction comps as [|x comps IH]; intros acc Ha; [apply Ha|]. cbn [fold_left]. apply IH. intros k' Hk. unfold add_node in Hk. apply in_bput in Hk. destruct Hk as [[_ Hk]|Hk]; [|exact (Ha _ Hk)].
    destruct (lookup _ acc) as [l|]; [destruct l; discriminate|discriminate]. }
  apply H. intros k' [].
Qed.
Lemma gc_mentioned c g : In g (draw_connections c) -> In (gc_src g) (known_components (cf_connection c)) /\ In (gc_dst g) (known_components (cf_connection c)).
Proof.
  intros H. rewrite draw_connections_list in H. apply in_flat_map in H. destruct H as ([k d] & Hi & Hg). unfold gpairs in Hg. apply in_flat_map in Hg. destruct Hg as ([a b] & Hab & Hg). cbn [fst snd] in Hg.
  destruct (output_of a) as [o|]; [|destruct Hg]. destruct Hg as [<-|[]]. cbn [gc_src gc_dst]. apply neighbours_in in Hab. destruct Hab as [Ha Hb].
  assert (M : forall y, In y (drawn_list (k, d)) -> In (comp_of y) (known_components (cf_connection c))).
  { intros y Hy. unfold known_components. apply in_flat_map. exists (k, d). split; [exact Hi|]. cbn [snd]. apply (in_map comp_of) in Hy. unfold drawn_list in Hy. cbn [fst snd] in Hy.
    destruct d as [s|l]; [exact Hy|]. rewrite quick_marked in Hy. cbn [quick_deserialized_connection_to_connection] in Hy. rewrite marked_comps in Hy. exact Hy. }
  split; apply M; assumption.
Qed.

Lemma valid_lemma order c mode g : any_order order -> graph_drawn order c mode = Good (Ok g) ->
  (forall x, is_mentioned (cf_connection c) x -> plain_word (snd x)) -> (forall k, In k (keys (cf_connection c)) -> of_letters name_letters k) -> valid_dot g.
Proof.
  intros Ho Hg Hn Hk. destruct (drawn_config _ _ _ _ Hg) as (c' & (Wk & Wl & Wr) & ->). pose proof (components_mentioned _ _ Wr) as M. split; [cbn; word|].
  rewrite graph_stmts. cbn [flat_map app]. apply Forall_app. split; [constructor; [word|constructor; [word|constructor]]|]. apply Forall_app. split; [constructor; [word|constructor; [word|constructor]]|]. rewrite flat_map_app. apply Forall_app. split.
  - destruct (shows_legend mode) as [b|]; [|constructor]. cbn [flat_map]. rewrite app_nil_r. apply legend_names.
  - assert (Hd : Forall dot_id (flat_map names_in [SSub "diagram" (diagram_stmts order c')])).
    { cbn [flat_map]. rewrite app_nil_r, names_sub. constructor; [word|]. apply Forall_flat_map. apply Forall_forall. intros s Hs. unfold diagram_stmts in Hs. apply in_app_iff in Hs.
      assert (Hnodes : forall k l s, In (k, l) (graph_components (order (draw_components c')) (draw_connections c')) -> In s l -> Forall dot_id (names_in s) /\ (k = "" \/ In k (keys (cf_connection c)))).
      { intros k l s' Hk' Hs'. destruct (proj1 (proj2 (sets_are order Ho c')) _ _ _ Hk' Hs') as (x & -> & Hx). split.
        - apply node_names, Hn, M. exact (proj2 (set_nodes_mentioned order Ho c' k l x Hk' Hs')).
        - rewrite <- Hx, <- Wk. apply set_name_key. exact Wl. }
      destruct Hs as [Hs|Hs].
      - apply frames_in in Hs. destruct Hs as [[]|(k & l & Hk' & [[-> Hl]|[Hne ->]])]; [exact (proj1 (Hnodes _ _ _ Hk' Hl))|].
        assert (Hk2 : of_letters name_letters k).
        { destruct l as [|s l]; [|destruct (proj2 (Hnodes _ _ s Hk' (or_introl eq_refl))) as [E|E]; [contradiction|exact (Hk k E)]].
          exfalso. apply (nonempty_sets order c' k). exact Hk'. }
        unfold cluster. rewrite names_sub. constructor; [apply cluster_id; exact Hk2|]. cbn [flat_map names_in app]. constructor; [word|]. constructor; [apply title_id; exact Hk2|]. constructor; [word|]. constructor; [apply rank_id|].
        apply Forall_flat_map. apply Forall_forall. intros s Hs. exact (proj1 (Hnodes _ _ _ Hk' Hs)).
      - apply in_map_iff in Hs. destruct Hs as (gc & <- & Hgc). apply gc_mentioned in Hgc. apply edge_names; apply Hn, M; apply Hgc. }
    destruct mode; [constructor|exact Hd|exact Hd].
Qed.

Lemma names_inside p s l : inside p s l -> forall n, In n (names_in s) -> In n (flat_map names_in l).
Proof.
  induction 1 as [s l Hi|i p s l l' Hi _ IH]; intros n Hn; apply in_flat_map; [exists s; auto|]. exists (SSub i l'). split; [exact Hi|]. rewrite names_sub. right. exact (IH n Hn).
Qed.
Lemma names_lemma order c mode g : any_order order -> shows_diagram mode -> graph_drawn order c mode = Good (Ok g) -> valid_dot g ->
  forall x, is_mentioned (cf_connection c) x -> dot_id (snd x).
Proof.
  intros Ho Hm Hg [_ Hv] x Hx. destruct (drawn_config _ _ _ _ Hg) as (c' & (Wk & Wl & Wr) & ->). pose proof (components_mentioned _ _ Wr) as M. apply M in Hx.
  rewrite Forall_forall in Hv. apply Hv. apply (names_inside ("diagram" :: frame (set_name (draw_connections c') x)) (component_node x)).
  - apply in_diagram. split; [exact Hm|]. apply nodes_exact; [exact Ho|]. exists x. auto.
  - unfold component_node. cbn [names_in flat_map app fst snd]. right. right. left. reflexivity.
Qed.
