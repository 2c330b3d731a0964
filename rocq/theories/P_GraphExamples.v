(** * P_GraphExamples: diagrams of particular configurations *)
From Coq Require Import Ascii String List Bool Arith ZArith Permutation.
From Verif Require Import M_Prog M_Motion M_Config M_Parser M_Manip M_Lint M_Setters M_Cli M_Graph S_Grammar S_Manip S_Lint S_Graph P_Map P_Parser P_Lint P_Cli P_WaiterExamples P_ManipExamples P_Graph P_Dot.
Import ListNotations.
Local Open Scope string_scope.

Definition as_it_is (l : list (ctype * list string)) := l.
Lemma as_it_is_any : any_order as_it_is. Proof. intros l. reflexivity. Qed.

(** Both outputs of a launch go to the same drain. *)
Definition both_outputs : config := Config [("tap", "-")] [] [("sink", "-")] [("work", runs "cat")]
  [("errors", JoinString "l:work[E] | d:sink"); ("main", JoinString "f:tap | l:work | d:sink")].
(** A launch called node *)
Definition named_node : config := Config [("tap", "-")] [] [("sink", "-")] [("node", runs "node")] [("main", JoinString "f:tap | l:node | d:sink")].

Lemma both_drawn mode : exists g, graph_drawn as_it_is both_outputs mode = Good (Ok g).
Proof. eexists. vm_compute. reflexivity. Qed.

Lemma both_edges mode g : shows_diagram mode -> graph_drawn as_it_is both_outputs mode = Good (Ok g) ->
  edges g = [("l_work", "d_sink", "Err"); ("f_tap", "l_work", """"""); ("l_work", "d_sink", """""")] /\ gr_strict g = true.
Proof. intros Hm. destruct mode; [destruct Hm| |]; vm_compute; intros [= <-]; split; reflexivity. Qed.
Lemma one_lost : exists order c mode g, any_order order /\ shows_diagram mode /\ ordered (cf_connection c) /\ graph_drawn order c mode = Good (Ok g) /\
  forall c' id, depicts g c c' id -> exists a o b, In (a, o, b) (all_joined (cf_connection c')) /\ ~ shown g (id a) (id b) (port_label o).
Proof.
  destruct (both_drawn DiagramOnly) as (g & Hg). exists as_it_is, both_outputs, DiagramOnly, g. split; [exact as_it_is_any|]. split; [exact I|]. split; [unfold ordered; cbn; repeat constructor|]. split; [exact Hg|].
  intros c' id D. destruct (both_edges DiagramOnly g I Hg) as [E Es]. pose proof (dp_edges _ _ _ _ D) as Ej. rewrite E in Ej.
  destruct (all_joined (cf_connection c')) as [|[[a o] b] r]; [discriminate|]. injection Ej as Ea Eb Eo _. exists a, o, b. split; [left; reflexivity|].
  unfold shown. rewrite Es, E, <- Ea, <- Eb, <- Eo. intros (l1 & l2 & El & Hn).
  destruct l1 as [|x1 l1]; [injection El as <-; apply (Hn """"""); cbn; auto|]. injection El as _ El.
  destruct l1 as [|x2 l1]; [discriminate|]. injection El as _ El. destruct l1 as [|x3 l1]; [discriminate|]. injection El as _ El. destruct l1; discriminate.
Qed.

Lemma node_drawn : exists g, graph_drawn as_it_is named_node DiagramOnly = Good (Ok g).
Proof. eexists. vm_compute. reflexivity. Qed.
Lemma node_no_id : ~ dot_id "node".
Proof.
  intros H. inversion H as [c r H1 H2 H3|s [_ H1]|a b [Ha H1] H2 E|b H1 E|s H1 H2 E|t H1 E|t E]; subst; try discriminate.
  - apply H3. cbn. auto.
  - inversion H1 as [|x l Hx _]; subst. cbn in Hx. intuition discriminate.
  - destruct a as [|x a]; [destruct (Ha eq_refl)|]. injection E as -> _. inversion H1 as [|x l Hx _]; subst. cbn in Hx. intuition discriminate.
Qed.
Lemma not_dot : exists order c mode g, any_order order /\ shows_diagram mode /\ good_connections (cf_connection c) /\ (forall x, is_mentioned (cf_connection c) x -> name_text (snd x)) /\
  graph_drawn order c mode = Good (Ok g) /\ ~ valid_dot g.
Proof.
  destruct node_drawn as [g Hg]. exists as_it_is, named_node, DiagramOnly, g. split; [exact as_it_is_any|]. split; [exact I|].
  assert (Ht : forall l, connection_text l "f:tap | l:node | d:sink" <-> l = [StartC CFaucet "tap" POut None; MiddleC CLaunch "node" (InPort Terminate 0) POut None; EndC CDrain "sink" (InPort Terminate 0) None]).
  { intros l. rewrite <- load_exact. split; [vm_compute; intros [= <-]; reflexivity|intros ->; vm_compute; reflexivity]. }
  split; [split|].
  { unfold ordered. cbn. repeat constructor. }
  { cbn. repeat constructor. eapply good_text. vm_compute. reflexivity. }
  split.
  - intros x (k & l & y & (d & [[= <- <-]|[]] & [[=]|(s & [= <-] & Hl)]) & Hy & <-). apply Ht in Hl. subst l. cbn in Hy.
    repeat (destruct Hy as [<-|Hy]; [split; [discriminate|repeat (constructor; [cbn; auto 70|]); constructor]|]). destruct Hy.
  - split; [exact Hg|]. intros Hv. apply node_no_id. apply (names_lemma as_it_is named_node DiagramOnly g as_it_is_any I Hg Hv (CLaunch, "node")).
    eexists "main", _, _. split; [eexists; split; [left; reflexivity|right; eexists; split; [reflexivity|apply Ht; reflexivity]]|]. split; [right; left; reflexivity|reflexivity].
Qed.

(** The picture of the first: two frames, the one with the faucet first *)
Example both_picture : exists g, graph_drawn as_it_is both_outputs DiagramOnly = Good (Ok g) /\
  gr_stmts g = [SAttr "labeljust" "l"; SAttr "newrank" "true"; SSub "diagram"
    [SSub "cluster_nodes_main" [SAttr "label" """main:"""; SAttr "rank" "min"; component_node (CFaucet, "tap")];
     SSub "cluster_nodes_errors" [SAttr "label" """errors:"""; SAttr "rank" "max"; component_node (CLaunch, "work"); component_node (CLaunch, "work"); component_node (CDrain, "sink"); component_node (CDrain, "sink")];
     SEdge "l_work" "d_sink" [("label", "Err")]; SEdge "f_tap" "l_work" [("label", """""")]; SEdge "l_work" "d_sink" [("label", """""")]]].
Proof. eexists. split; vm_compute; reflexivity. Qed.
Lemma legend_picture : exists g attrs attrs', graph_drawn as_it_is both_outputs (Full true) = Good (Ok g) /\
  inside ["diagram"; "cluster_nodes_main"] (SNode "f_tap" attrs) (gr_stmts g) /\ inside ["cluster_legend"; "cluster_legend_faucet"] (SNode "legend_faucet" attrs') (gr_stmts g) /\
  attr_of "shape" attrs = "trapezium" /\ attr_of "shape" attrs' = "trapezium".
Proof.
  eexists _, _, _. split; [vm_compute; reflexivity|]. split; [|split].
  - econstructor; [right; right; right; left; reflexivity|]. econstructor; [left; reflexivity|]. constructor. right. right. left. reflexivity.
  - econstructor; [right; right; left; reflexivity|]. econstructor; [do 6 right; left; reflexivity|]. constructor. right. left. reflexivity.
  - split; reflexivity.
Qed.
Lemma frames_picture : exists g, graph_drawn as_it_is both_outputs DiagramOnly = Good (Ok g) /\
  inside ["diagram"; "cluster_nodes_errors"] (component_node (CLaunch, "work")) (gr_stmts g) /\ inside ["diagram"; "cluster_nodes_main"] (SAttr "rank" "min") (gr_stmts g).
Proof.
  destruct both_picture as (g & H1 & H2). exists g. split; [exact H1|]. rewrite H2. split.
  - econstructor; [right; right; left; reflexivity|]. econstructor; [right; left; reflexivity|]. constructor. right. right. left. reflexivity.
  - econstructor; [right; right; left; reflexivity|]. econstructor; [left; reflexivity|]. constructor. right. left. reflexivity.
Qed.
Lemma both_valid : exists g, graph_drawn as_it_is both_outputs (Full false) = Good (Ok g) /\ valid_dot g.
Proof.
  destruct (both_drawn (Full false)) as (g & Hg). exists g. split; [exact Hg|].
  apply (valid_lemma as_it_is both_outputs (Full false) g as_it_is_any Hg).
  - intros x (k & l & y & (d & Hd & Hl) & Hy & <-).
    assert (E1 : forall l, connection_text l "l:work[E] | d:sink" -> l = [StartC CLaunch "work" PErr None; EndC CDrain "sink" (InPort Terminate 0) None]) by (intros l'; rewrite <- load_exact; vm_compute; intros [= <-]; reflexivity).
    assert (E2 : forall l, connection_text l "f:tap | l:work | d:sink" -> l = [StartC CFaucet "tap" POut None; MiddleC CLaunch "work" (InPort Terminate 0) POut None; EndC CDrain "sink" (InPort Terminate 0) None]) by (intros l'; rewrite <- load_exact; vm_compute; intros [= <-]; reflexivity).
    assert (P : Forall plain_word ["work"; "sink"; "tap"]).
    { repeat constructor; eexists _, _; (split; [reflexivity|]); (split; [cbn; auto 70|]); (split; [repeat (constructor; [cbn; auto 70|]); constructor|cbn; intuition discriminate]). }
    rewrite Forall_forall in P. apply P. cbn [snd]. destruct Hd as [[= <- <-]|[[= <- <-]|[]]]; (destruct Hl as [[=]|(s & [= <-] & Hl)]; [apply E1 in Hl || apply E2 in Hl]; subst l; cbn in Hy; repeat (destruct Hy as [<-|Hy]; [cbn; auto|]); destruct Hy).
  - intros k [<-|[<-|[]]]; repeat (constructor; [cbn; auto 70|]); constructor.
Qed.
