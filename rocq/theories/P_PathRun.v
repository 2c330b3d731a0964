(** * P_PathRun: what is read and written, by the connections as written *)
From Coq Require Import Ascii String List Bool Arith ZArith Lia Permutation Relations.
From Verif Require Import M_Prog M_Motion M_Connectable M_Faucet M_Launch M_Junction M_Buffer M_Drain M_Regulator M_Join S_Trace S_Lines S_Motion S_World S_Launch S_Regulator S_Drain S_Junction S_Network S_Net M_Start S_Start S_Flow S_Path M_Config M_Manip M_Lint M_Waiter S_Grammar S_Manip S_Waiter S_Shape S_Watch P_Text P_Map P_Pair P_Parser P_Junctions P_Junctions2 P_Manip P_Cell P_Wire P_Build P_Ready P_WaiterExamples P_Errors P_Top P_Made P_Whole P_Rounds P_Shape P_Watch P_Stream P_Path P_SpringRun.
From Verif Require P_JStart P_NetCost.
Import ListNotations.
Local Open Scope list_scope.

(** ** Mixes *)
Lemma mix_perm {A} (ls : list (list A)) s : interleave ls s -> forall ls', Permutation ls ls' -> interleave ls' s.
Proof.
  induction 1 as [ls H|pre x l post s _ IH]; intros ls' HP.
  - constructor. apply Forall_forall. intros y Hy. apply (proj1 (Forall_forall _ _) H). exact (Permutation_in _ (Permutation_sym HP) Hy).
  - assert (Hin : In (x :: l) ls') by (apply (Permutation_in _ HP), in_or_app; right; now left). destruct (in_split _ _ Hin) as (a & b & ->). constructor. apply IH.
    apply Permutation_app_inv in HP. apply (perm_trans (Permutation_sym (Permutation_middle _ _ _))). apply (perm_trans (perm_skip l HP)). apply Permutation_middle.
Qed.

(** ** The sources are where messages are made *)
Lemma comes_made ps s ss : comes_from ps s ss -> Forall (fun s => fst (fst s) = CFaucet \/ fst (fst s) = CLaunch) ss.
Proof.
  revert s ss. apply comes_induct; [intros t n o Ht; constructor; [exact Ht|constructor]|]. intros t n o sss _ H. induction H; cbn [concat]; [constructor|]. apply Forall_app. auto.
Qed.
Lemma supplied_made ps x ss : supplied ps x ss -> Forall (fun s => fst (fst s) = CFaucet \/ fst (fst s) = CLaunch) ss.
Proof. intros (sss & H & ->). induction H as [|s ss a b Hs _ IH]; cbn [concat]; [constructor|]. apply Forall_app. split; [exact (comes_made _ _ _ Hs)|exact IH]. Qed.
Lemma comes_once ps s ss : comes_from ps s ss -> forall ss', comes_from ps s ss' -> ss' = ss.
Proof.
  revert s ss. apply (comes_induct ps (fun s ss => forall ss', comes_from ps s ss' -> ss' = ss)).
  - intros t n o Ht ss' H. inversion H as [|? ? ? ? Ht']; subst; [reflexivity|]. destruct Ht, Ht' as [|[|]]; congruence.
  - intros t n o sss Ht HF ss' H. inversion H as [? ? ? Ht'|? ? ? sss' _ HF']; subst; [destruct Ht' , Ht as [|[|]]; congruence|]. f_equal. clear H Ht. revert sss' HF'. induction HF as [|s ss a b Hs _ IH]; intros sss' HF'; inversion HF' as [|? ss' ? b' H1 H2]; subst; [reflexivity|]. f_equal; [exact (Hs _ H1)|exact (IH _ H2)].
Qed.
Lemma supplied_once ps x ss ss' : supplied ps x ss -> supplied ps x ss' -> ss' = ss.
Proof.
  intros (sss & H & ->) (sss' & H' & ->). f_equal. revert sss' H'. induction H as [|s ss a b Hs _ IH]; intros sss' H'; inversion H' as [|? ss' ? b' H1 H2]; subst; [reflexivity|]. f_equal; [exact (comes_once _ _ _ Hs _ H1)|exact (IH _ H2)].
Qed.

(** ** A number has one decimal text *)
Lemma digit_back c d : digit c = Some d -> c = ascii_of_N (48 + d) /\ (d < 10)%N.
Proof.
  unfold digit. destruct ((48 <=? N_of_ascii c) && (N_of_ascii c <=? 57))%N eqn:E; [|discriminate]. intros [= <-]. apply andb_true_iff in E as [E1 E2]. apply N.leb_le in E1, E2. split; [|lia].
  replace (48 + (N_of_ascii c - 48))%N with (N_of_ascii c) by lia. symmetry. apply ascii_N_embedding.
Qed.
Lemma value_snoc t : forall acc c, value_from acc (t ++ [c]) = match value_from acc t, digit c with Some v, Some d => Some (10 * v + d)%N | _, _ => None end.
Proof.
  induction t as [|a t IH]; intros acc c; cbn [app value_from]; [destruct (digit c); reflexivity|]. destruct (digit a); [apply IH|destruct (digit c); reflexivity].
Qed.
Lemma value_more t : forall acc v, value_from acc t = Some v -> (acc <= v)%N.
Proof.
  induction t as [|a t IH]; cbn [value_from]; intros acc v H; [injection H as ->; lia|]. destruct (digit a); [|discriminate]. apply IH in H. lia.
Qed.
Lemma lean_positive t v : t <> [] -> hd_error t <> Some "0"%char -> value_from 0 t = Some v -> (0 < v)%N.
Proof.
  destruct t as [|a t]; [congruence|]. intros _ Ha H. cbn [hd_error] in Ha. change (match digit a with Some d => value_from d t | None => None end = Some v) in H. destruct (digit a) as [d|] eqn:E; [|discriminate]. apply value_more in H. destruct (digit_back _ _ E) as [-> _]. destruct d as [|d]; [exfalso; apply Ha; reflexivity|lia].
Qed.
Lemma lean_once t : forall t' v, hd_error t <> Some "0"%char -> hd_error t' <> Some "0"%char -> value_from 0 t = Some v -> value_from 0 t' = Some v -> t = t'.
Proof.
  induction t as [|c u IH] using rev_ind; intros t' v L L' H H'.
  - injection H as <-. destruct t' as [|a t']; [reflexivity|]. apply lean_positive in H'; [lia|discriminate|exact L'].
  - destruct t' as [|c' u' _] using rev_ind; [injection H' as <-; apply lean_positive in H; [lia|now destruct u|exact L]|].
    rewrite value_snoc in H, H'. destruct (value_from 0 u) as [a|] eqn:Eu; [|discriminate]. destruct (value_from 0 u') as [a'|] eqn:Eu'; [|discriminate]. destruct (digit c) as [d|] eqn:Ed; [|discriminate]. destruct (digit c') as [d'|] eqn:Ed'; [|discriminate].
    destruct (digit_back _ _ Ed) as [-> B]. destruct (digit_back _ _ Ed') as [-> B']. assert (EV : (10 * a + d = 10 * a' + d')%N) by congruence. assert (a = a' /\ d = d') as [<- <-] by (split; lia). f_equal.
    apply (IH u' a); [now destruct u|now destruct u'|reflexivity|exact Eu'].
Qed.
Lemma number_once n t t' : S_Launch.number n t -> S_Launch.number n t' -> t = t'.
Proof.
  intros (N & V & Z) (N' & V' & Z'). assert (HD : forall u : bytes, hd_error u = Some "0"%char \/ hd_error u <> Some "0"%char).
  { intros [|a u]; [right; discriminate|]. destruct (ascii_dec a "0") as [->|Hn]; [now left|right; cbn; congruence]. }
  destruct (HD t) as [E|E], (HD t') as [E'|E'].
  - now rewrite (Z E), (Z' E').
  - rewrite (Z E) in V. injection V as <-. apply lean_positive in V'; [lia|exact N'|exact E'].
  - rewrite (Z' E') in V'. injection V' as <-. apply lean_positive in V; [lia|exact N|exact E].
  - exact (lean_once _ _ _ E E' V V').
Qed.
Lemma decimal_once z t t' : decimal z t -> decimal z t' -> t = t'.
Proof.
  unfold decimal. destruct (z <? 0)%Z; [|apply number_once]. intros (r & -> & H) (r' & -> & H'). f_equal. exact (number_once _ _ _ H H').
Qed.

Lemma in_push d j o : In (j, o) (flat_map of_push (opt d)) -> d = Some (PsIoSender j o).
Proof. destruct d as [[]|]; cbn; intros H; intuition congruence. Qed.
Lemma out_push d port o : all_opt (push_ok (eq port)) d -> In o (out_of d) -> exists j, In (j, o) (flat_map of_push (opt d)) /\ j_port j = Some port.
Proof. destruct d as [p|]; cbn; [|intros _ []]. intros (j & n & q & -> & Hj & <-) [<-|[]]. exists j. cbn. auto. Qed.

(** ** The connections are spelled out in one way *)
Lemma spelled_one m : good_connections m -> exists ps, spelled m ps /\ forall ps', spelled m ps' -> ps' = ps.
Proof.
  intros [_ Hg]. destruct (spelled_good m Hg) as (ps & H). exists ps. split; [exact H|]. intros ps' H'. destruct (convert_good m Hg) as (m1 & E & _). now rewrite (spelled_out _ _ H _ E), (spelled_out _ _ H' _ E).
Qed.

Section Path.
Variables (sh : shuffles) (cwd : option string) (vars : list (string * string)) (c : config) (w : waiter) (cs : list capture).
Hypothesis Hf : S_Manip.fair sh.
Hypothesis Hgc : good_connections (cf_connection c).
Hypothesis Hpr : prepares sh c w cs.
Notation net := (net_of cwd vars w).

(** ** What is known about the pipeline *)
Record laid (c2 : config) (w1 : waiter) (p r : connmap) (js : M_Manip.source -> option string) (je : component -> option string) (ks : list string) (id : component -> nat) : Prop := {
  ld_ordered : ordered p;
  ld_prepared : prepared sh c c2 p r;
  ld_built : built p js je ks r;
  ld_buildable : buildable c2 (links (cf_connection c2));
  ld_as : built_as c2 w1 id;
  ld_written : written_out (cf_connection c2);
  ld_fabric : fabric c2 w1 (numbered_links (cf_connection c2));
  ld_faucet : w_faucet w = w_faucet w1;
  ld_launch : w_launch w = w_launch w1;
  ld_drain : w_drain w = w_drain w1;
  ld_net : map plain_comp net = net_of cwd vars (set_channels w1 (w_channels w));
  ld_follow : forall a b, followed_by (cf_connection c) a b <-> exists k e, edge_at p k = Some e /\ fst (e_src e) = a /\ e_dst e = b
}.
Lemma lays : exists c2 w1 p r js je ks id, laid c2 w1 p r js je ks id.
Proof.
  destruct (prepared_grown sh c w cs Hf Hgc Hpr) as (c2 & out & w1 & Ep & Ew & Hw & U & K & G & _).
  destruct (process_prepared _ _ _ _ Hf Hgc Ep) as [E _]. destruct Hgc as [_ Hg].
  destruct (prepare sh c Hf Hg) as (c' & p & r & E' & P). rewrite E in E'. injection E' as <- _.
  destruct (paired _ Hg) as (m1 & p' & added & E1 & E2 & Ho & Hp & Hpo & Hi & Hr & Hch). destruct (pr_paired _ _ _ _ _ P) as (m1' & E1' & E2'). rewrite E1 in E1'. injection E1' as <-. rewrite E2 in E2'. injection E2' as <-.
  destruct (junctions sh p' Hf Ho Hp) as (js & je & ks & r' & Ej & B & Hjs & Hje). rewrite (pr_joined _ _ _ _ _ P) in Ej. injection Ej as <-.
  destruct (proj2 (proj2 (get_waiter_exact c2 Hw)) w1 Ew) as [Hbl (id & Has)]. destruct (made_fabric c2 w1 Hw Ew) as [F0 Hn0].
  exists c2, w1, p', r, js, je, ks, id. constructor; [exact Ho|exact P|exact B|exact Hbl|exact Has|exact Hw|exact F0|exact (gr_faucet _ _ _ _ G)|exact (gr_launch _ _ _ _ G)|exact (gr_drain _ _ _ _ G)|exact (plain_net cwd vars w1 w _ _ U G)|].
  exact (follow_edge _ _ _ _ Hpo Ho Hi Hr Hch).
Qed.

Section Laid.
Variables (c2 : config) (w1 : waiter) (p r : connmap) (js : M_Manip.source -> option string) (je : component -> option string) (ks : list string) (id : component -> nat).
Hypothesis D : laid c2 w1 p r js je ks id.
Notation w2 := (set_channels w1 (w_channels w)).
Notation ls := (numbered_links (cf_connection c2)).
Notation S := (seated cwd vars w2).
Notation from_chan := (from_chan c2).
Lemma fab : fabric c2 w2 ls.
Proof. apply more_fabric. exact (ld_fabric _ _ _ _ _ _ _ _ D). Qed.
Lemma one_link n lk lk' : In (n, lk) ls -> In (n, lk') ls -> lk = lk'.
Proof. intros H H'. pose proof (same_kept fst ls (once c2) _ _ H H' eq_refl). congruence. Qed.
Lemma same_source s s' n : from_chan s n -> from_chan s' n -> s = s'.
Proof. intros (lk & H & <-) (lk' & H' & <-). now rewrite (one_link _ _ _ H H'). Qed.
Lemma slot_port d y j o q : get_cell w2 d = Some y -> In (j, o) (cell_outs y) -> j_port j = Some q -> fst d <> CJunction -> from_chan (d, q) o.
Proof.
  rewrite more_cells. intros Hy Hin Hq Hd. pose proof (ba_outs _ _ _ (ld_as _ _ _ _ _ _ _ _ D) d) as HP. rewrite outs_cell, Hy in HP. apply (Permutation_in _ HP) in Hin. apply in_map_iff in Hin as ([n lk] & E & Hin). apply filter_In in Hin as [Hin Hl]. apply leaves_true in Hl. cbn [snd] in Hl.
  unfold out_end in E. cbn [fst snd] in E. injection E as <- <-. cbn [j_port] in Hq. injection Hq as Hq. exists lk. split; [exact Hin|]. rewrite Hl in *. f_equal. rewrite <- Hq. unfold port_kept. destruct (fst d); try reflexivity. contradiction.
Qed.
Lemma seat_at d x : In (d, x) S -> plain_comp x = x -> (exists y, plays w2 cwd vars y x /\ get_cell w2 d = Some y).
Proof. intros H _. destruct (seated_plays _ _ _ _ _ (fb_once _ _ _ fab) H) as (y & H1 & H2). eauto. Qed.

(** ** Positions *)
Lemma place_seat k x : nth_error net k = Some x -> exists d, In (d, plain_comp x) S.
Proof.
  intros H. assert (H' : nth_error (net_of cwd vars w2) k = Some (plain_comp x)) by (rewrite <- (ld_net _ _ _ _ _ _ _ _ D), nth_error_map, H; reflexivity).
  exists (name_at cwd vars w2 k). exact (name_seat cwd vars w2 k _ H').
Qed.
Lemma faucet_seat n f nm : In ((CFaucet, n), NFaucet f nm) S -> lookup n (w_faucet w) = Some f /\ nm = location n (cf_faucet c).
Proof.
  intros H. destruct (seated_plays _ _ _ _ _ (fb_once _ _ _ fab) H) as (y & H1 & H2). rewrite more_cells in H1. unfold get_cell in H1. cbn [fst snd] in H1. rewrite (ld_faucet _ _ _ _ _ _ _ _ D). destruct (lookup n (w_faucet w1)) as [f'|] eqn:E; [|discriminate]. injection H1 as <-. cbn in H2. injection H2 as <- ->.
  split; [reflexivity|]. destruct (ba_contents _ _ _ (ld_as _ _ _ _ _ _ _ _ D)) as [A _]. destruct (A _ _ E) as (_ & _ & _ & ->). cbn [told]. unfold location. rewrite (pr_faucet _ _ _ _ _ (ld_prepared _ _ _ _ _ _ _ _ D)). reflexivity.
Qed.
Lemma launch_seat n cwd' vars' la : In ((CLaunch, n), NLaunch cwd' vars' la) S -> lookup n (w_launch w) = Some la /\ cwd' = cwd /\ vars' = vars.
Proof.
  intros H. destruct (seated_plays _ _ _ _ _ (fb_once _ _ _ fab) H) as (y & H1 & H2). rewrite more_cells in H1. unfold get_cell in H1. cbn [fst snd] in H1. rewrite (ld_launch _ _ _ _ _ _ _ _ D). destruct (lookup n (w_launch w1)) as [f'|] eqn:E; [|discriminate]. injection H1 as <-. cbn in H2. injection H2 as -> -> ->. auto.
Qed.
Lemma drain_seat n d nm : occurs p (CDrain, n) -> In ((CDrain, n), NDrain d nm) S -> lookup n (w_drain w) = Some d /\ nm = location n (cf_drain c).
Proof.
  intros Ho H. destruct (seated_plays _ _ _ _ _ (fb_once _ _ _ fab) H) as (y & H1 & H2). rewrite more_cells in H1. unfold get_cell in H1. cbn [fst snd] in H1. rewrite (ld_drain _ _ _ _ _ _ _ _ D). destruct (lookup n (w_drain w1)) as [f'|] eqn:E; [|discriminate]. injection H1 as <-. cbn in H2. injection H2 as <- ->.
  split; [reflexivity|]. destruct (ba_contents _ _ _ (ld_as _ _ _ _ _ _ _ _ D)) as (_ & A & _). destruct (A _ _ E) as (_ & ->). cbn [told]. unfold location. pose proof (ld_prepared _ _ _ _ _ _ _ _ D) as P.
  destruct (lookup n (cf_drain c)) as [v|] eqn:Ec; [now rewrite (pr_drain _ _ _ _ _ P _ _ Ec)|]. destruct (lookup n (cf_drain c2)) as [v|] eqn:Ec2; [|reflexivity]. destruct (pr_new_drain _ _ _ _ _ P _ _ Ec2) as [Hq|(_ & k & x & Hr & Hm)]; [congruence|]. exfalso.
  refine (no_spy sh c c2 p r js je ks P (ld_built _ _ _ _ _ _ _ _ D) (ld_buildable _ _ _ _ _ _ _ _ D) k _ x n _ _ _ _ Ho); [unfold edge_at; rewrite Hm; reflexivity|unfold edge_at; now rewrite Hr|reflexivity|reflexivity].
Qed.
Lemma seat_kind d x : In (d, x) S -> match x with NFaucet _ _ => fst d = CFaucet | NRegulator _ => fst d = CRegulator | NBuffer _ _ _ _ => fst d = CBuffer | NJunction _ => fst d = CJunction | NLaunch _ _ _ => fst d = CLaunch | NDrain _ _ => fst d = CDrain end.
Proof.
  intros H. destruct (seated_plays _ _ _ _ _ (fb_once _ _ _ fab) H) as (y & H1 & H2). apply get_type in H1. rewrite <- H1. destruct y; cbn in H2; [subst x|subst x|subst x|destruct H2 as (u & _ & ->)|subst x|subst x]; reflexivity.
Qed.
Lemma seat_cell d x : In (d, x) S -> exists y, get_cell w2 d = Some y /\ cell_wf y /\ plays w2 cwd vars y x.
Proof. intros H. destruct (seated_plays _ _ _ _ _ (fb_once _ _ _ fab) H) as (y & H1 & H2). exists y. split; [exact H1|]. split; [exact (fb_wf _ _ _ fab _ _ H1)|exact H2]. Qed.
(** The channels of a faucet and of a program *)
Lemma faucet_chan d f nm o : In (d, NFaucet f nm) S -> In o (out_of (fc_stdout f)) -> from_chan (d, POut) o.
Proof.
  intros H Ho. pose proof (seat_kind _ _ H) as Hk. destruct (seat_cell _ _ H) as (y & H1 & W & H2). destruct y; cbn in H2; try discriminate; [|destruct H2 as (? & _ & ?); discriminate]. injection H2 as -> _. destruct W as [W _].
  destruct (out_push _ _ _ W Ho) as (j & Hj & Hq). apply (slot_port _ _ _ _ _ H1 Hj Hq). congruence.
Qed.
Lemma launch_chan d a b la o q : In (d, NLaunch a b la) S -> In o (match q with POut => out_of (la_stdout la) | PErr => out_of (la_stderr la) | PExit => S_Net.exit_of (la_exit_status la) end) -> from_chan (d, q) o.
Proof.
  intros H Ho. pose proof (seat_kind _ _ H) as Hk. destruct (seat_cell _ _ H) as (y & H1 & W & H2). destruct y; cbn in H2; try discriminate; [|destruct H2 as (? & _ & ?); discriminate]. injection H2 as _ _ ->. destruct W as (W1 & W2 & W3 & _).
  assert (HJ : exists j, In (j, o) (cell_outs (KLaunch x)) /\ j_port j = Some q).
  { cbn [cell_outs]. destruct q.
    - destruct (out_push _ _ _ W2 Ho) as (j & Hj & Hq). exists j. rewrite !in_app_iff. auto.
    - destruct (out_push _ _ _ W1 Ho) as (j & Hj & Hq). exists j. rewrite !in_app_iff. auto.
    - destruct (la_exit_status x) as [[j n]|]; [|destruct Ho]. cbn in W3, Ho. destruct Ho as [<-|[]]. exists j. rewrite !in_app_iff. cbn. auto. }
  destruct HJ as (j & Hj & Hq). apply (slot_port _ _ _ _ _ H1 Hj Hq). congruence.
Qed.
Lemma faucet_plain f nm : In (NFaucet f nm) net -> plain_comp (NFaucet f nm) = NFaucet f nm.
Proof.
  unfold net_of. rewrite !in_app_iff. intros H. assert (HF : In (NFaucet f nm) (map (fun x => NFaucet (snd x) (told (fc_read_location (snd x)))) (w_faucet w))).
  { repeat match type of H with _ \/ _ => destruct H as [H|H] end; try exact H; exfalso; try (apply in_map_iff in H as (x & E & _); discriminate E). revert H. generalize (w_channels w). induction (w_buffer w) as [|[a b] bs IH]; cbn; intros u; [intros []|intros [E|H]; [discriminate E|exact (IH _ H)]]. }
  apply in_map_iff in HF as ([n f'] & E & Hin). cbn [snd] in E. injection E as -> _. rewrite (ld_faucet _ _ _ _ _ _ _ _ D) in Hin. apply in_lookup in Hin; [|exact (proj1 (ba_once _ _ _ (ld_as _ _ _ _ _ _ _ _ D)))].
  destruct (ba_contents _ _ _ (ld_as _ _ _ _ _ _ _ _ D)) as [A _]. destruct (A _ _ Hin) as (_ & _ & H1 & _). destruct f. cbn in *. subst. reflexivity.
Qed.
Lemma gave_given l s o ms : from_chan s o -> source_gave net l o ms -> has_given c w cwd vars l s ms.
Proof.
  intros Hs Hg. inversion Hg as [k f nm o' Hk Hn|k a b la o' fin fout ferr Hk Hn Hc|k a b la o' fin fout ferr Hk Hn Hc|k a b la o' code m Hk Hn Hc Ht|k a b la o' Hk Hn Hc|k a b la o' Hk Hn Hc]; subst o';
    destruct (place_seat _ _ Hk) as ([t n] & Hd); [rewrite (faucet_plain _ _ (nth_error_In _ _ Hk)) in Hd|cbn [plain_comp] in Hd..]; pose proof (seat_kind _ _ Hd) as Hkd; cbn in Hkd; subst t.
  - rewrite (same_source _ _ _ Hs (faucet_chan _ _ _ _ Hd Hn)). destruct (faucet_seat _ _ _ Hd) as [H1 ->]. constructor. exists f. auto.
  - rewrite (same_source _ _ _ Hs (launch_chan _ _ _ _ _ POut Hd Hn)). destruct (launch_seat _ _ _ _ Hd) as (H1 & -> & ->). eapply HG_out; [exists la; auto|exact Hc].
  - rewrite (same_source _ _ _ Hs (launch_chan _ _ _ _ _ PErr Hd Hn)). destruct (launch_seat _ _ _ _ Hd) as (H1 & -> & ->). eapply HG_err; [exists la; auto|exact Hc].
  - rewrite (same_source _ _ _ Hs (launch_chan _ _ _ _ _ PExit Hd Hn)). destruct (launch_seat _ _ _ _ Hd) as (H1 & -> & ->). apply (HG_exit c w cwd vars l n k code); [exists la; auto|exact Hc|exact Ht].
  - destruct (launch_seat _ _ _ _ Hd) as (H1 & -> & ->). apply in_app_or in Hn as [Hn|Hn].
    + rewrite (same_source _ _ _ Hs (launch_chan _ _ _ _ _ POut Hd Hn)). apply (HG_none c w cwd vars l n k); [exists la; auto|auto|exact Hc].
    + rewrite (same_source _ _ _ Hs (launch_chan _ _ _ _ _ PErr Hd Hn)). apply (HG_none c w cwd vars l n k); [exists la; auto|auto|exact Hc].
  - rewrite (same_source _ _ _ Hs (launch_chan _ _ _ _ _ PExit Hd Hn)). destruct (launch_seat _ _ _ _ Hd) as (H1 & -> & ->). apply (HG_running c w cwd vars l n k); [exists la; auto|exact Hc].
Qed.
Lemma seat_place d x : In (d, x) S -> plain_comp x = x -> (forall y, In y net -> plain_comp y = x -> y = x) -> exists k, nth_error net k = Some x.
Proof.
  intros H _ Hi. assert (Hin : In x (map plain_comp net)) by (rewrite (ld_net _ _ _ _ _ _ _ _ D), <- seated_net; apply in_map_iff; exists (d, x); auto). apply In_nth_error in Hin as (k & Hk). exists k. rewrite nth_error_map in Hk. destruct (nth_error net k) as [y|] eqn:E; [|discriminate]. cbn in Hk. injection Hk as Hk. now rewrite (Hi _ (nth_error_In _ _ E) Hk).
Qed.
Lemma faucet_place d f nm : In (d, NFaucet f nm) S -> exists k, nth_error net k = Some (NFaucet f nm).
Proof.
  intros H. assert (E0 : fc_control f = None).
  { destruct (seat_cell _ _ H) as (y & H1 & _ & H2). destruct d as [t n]. pose proof (seat_kind _ _ H) as Hk. cbn in Hk. subst t. rewrite more_cells in H1. unfold get_cell in H1. cbn [fst snd] in H1. destruct (lookup n (w_faucet w1)) as [f'|] eqn:E; [|discriminate]. injection H1 as <-. cbn in H2. injection H2 as <- _.
    destruct (ba_contents _ _ _ (ld_as _ _ _ _ _ _ _ _ D)) as [A _]. destruct (A _ _ E) as (_ & _ & E0 & _). exact E0. }
  apply (seat_place _ _ H); [destruct f; cbn in *; now subst|]. intros [] Hin; try discriminate. rewrite (faucet_plain _ _ Hin). auto.
Qed.
Lemma spent_end l s o : fst (fst s) = CFaucet \/ fst (fst s) = CLaunch -> from_chan s o -> source_spent net l o -> at_end c w cwd vars l s.
Proof.
  intros Ht Hs Hsp. destruct (chan_seat c2 cwd vars w2 (ld_written _ _ _ _ _ _ _ _ D) fab _ _ Hs) as (x & Hx & Ho). destruct s as [[t n] q]. cbn [fst] in *. pose proof (seat_kind _ _ Hx) as Hk. destruct Ht as [-> | ->]; destruct x; cbn in Hk; try discriminate Hk.
  - destruct (faucet_place _ _ _ Hx) as (k & Hnk). specialize (Hsp _ _ Hnk Ho). cbn in Hsp. destruct Hsp as (d & rest & E & Hin). destruct (faucet_seat _ _ _ Hx) as [H1 H2]. cbn [at_end]. exists k, d, rest. split; [exists f; split; [exact H1|]; rewrite <- H2; exact Hnk|]. rewrite <- H2. auto.
  - destruct (seat_place _ _ Hx eq_refl) as (k & Hnk); [intros [] _; cbn; congruence|]. specialize (Hsp _ _ Hnk Ho). cbn in Hsp. destruct Hsp as (fin & fout & ferr & E & X1 & X2 & X3). destruct (launch_seat _ _ _ _ Hx) as (H1 & -> & ->). cbn [at_end]. exists k, fin, fout, ferr. split; [exists la; auto|]. split; [exact E|].
    cbn [comp_outs] in Ho. rewrite !in_app_iff in Ho. destruct Ho as [Ho|[Ho|Ho]].
    + pose proof (same_source _ _ _ Hs (launch_chan _ _ _ _ _ POut Hx Ho)) as Eq. injection Eq as ->. auto.
    + pose proof (same_source _ _ _ Hs (launch_chan _ _ _ _ _ PErr Hx Ho)) as Eq. injection Eq as ->. auto.
    + pose proof (same_source _ _ _ Hs (launch_chan _ _ _ _ _ PExit Hx Ho)) as Eq. injection Eq as ->. auto.
Qed.

(** ** Where something is written before *)
Variable ps : list (connection * connection).
Hypothesis Hps : forall x, Permutation (arrivals ps x) (into_list x p).
Lemma arrives_occurs x : arrivals ps x <> [] -> exists k e, edge_at p k = Some e /\ e_dst e = x.
Proof.
  intros H. destruct (arrivals ps x) as [|s ss] eqn:E; [contradiction|]. assert (Hin : In s (into_list x p)) by (apply (Permutation_in _ (Hps x)); rewrite E; now left).
  rewrite into_keys_list in Hin. apply in_flat_map in Hin as ([k v] & Hk & _). apply (in_into_keys p (ld_ordered _ _ _ _ _ _ _ _ D)) in Hk as (e & Hl & He & <-). exists k, e. unfold edge_at. rewrite Hl. auto.
Qed.
Lemma supply x ss : fst x = CDrain \/ fst x = CLaunch -> arrivals ps x <> [] -> supplied ps x ss ->
  exists y n os, In (x, y) S /\ occurs p x /\ comp_ins y = [n] /\ fed_by net n os /\ matches c2 ss os.
Proof.
  intros Ht Ha Hs. destruct (arrives_occurs _ Ha) as (k & e & He & Hd). assert (Hoc : occurs p x) by (exists k, e; auto). pose proof (ld_prepared _ _ _ _ _ _ _ _ D) as P. pose proof (ld_built _ _ _ _ _ _ _ _ D) as B.
  destruct (paired_edge p r js je ks k e B He) as [_ (k1 & e1 & _ & _ & H1 & H2 & _)]. pose proof (kept_edges _ _ _ _ _ P _ _ H1) as H3. destruct (num_there c2 _ _ H3) as (n & N). pose proof (num_link sh c c2 p r P _ _ _ N H3) as HL.
  destruct (mentioned_seat c2 cwd vars w2 fab x) as (y & Hy). { rewrite <- Hd, <- H2. apply (links_mentioned c2 (ld_written _ _ _ _ _ _ _ _ D) (elink e1)). exact (in_combine_r _ _ _ _ HL). }
  assert (Hn : In n (comp_ins y)) by (apply (seat_in c2 cwd vars w2 fab _ _ _ Hy); exists (elink e1); split; [exact HL|]; cbn; congruence).
  assert (En : comp_ins y = [n]). { pose proof (seat_kind _ _ Hy) as Hk. destruct y; try (destruct Ht; congruence); cbn [comp_ins] in *; match goal with |- in_of ?q = _ => destruct q as [[]|]; cbn in *; try contradiction end; destruct Hn as [<-|[]]; reflexivity. }
  destruct (ways_into sh c c2 p r js je ks (ld_ordered _ _ _ _ _ _ _ _ D) P B (ld_buildable _ _ _ _ _ _ _ _ D) cwd vars w2 (ld_written _ _ _ _ _ _ _ _ D) fab ps Hps x y ss Hy Hoc Hs) as (oss & HF & HM).
  rewrite En in HF. inversion HF as [|? os ? os' Hfed HF']; subst. inversion HF'; subst. exists y, n, os. split; [exact Hy|]. split; [exact Hoc|]. split; [exact En|]. cbn [concat] in HM. rewrite app_nil_r in HM. split; [|exact HM].
  apply fed_plain. rewrite (ld_net _ _ _ _ _ _ _ _ D). exact Hfed.
Qed.
Lemma got_target l x y n ms : In (x, y) S -> occurs p x -> comp_ins y = [n] -> has_got c w cwd vars l x ms -> target_got net l n ms.
Proof.
  intros Hy Hoc Hn Hg. pose proof (seat_kind _ _ Hy) as Hk. inversion Hg as [nm k e f rest (d & Hl & Hkk) Ho E|nm k fin fout ferr (la & Hl & Hkk) E]; subst x; destruct y; cbn in Hk; try discriminate Hk.
  - destruct (drain_seat _ _ _ Hoc Hy) as [Hl' ->]. rewrite Hl in Hl'. injection Hl' as <-. eapply TG_drain; [exact Hkk| |exact Ho|exact E]. cbn [comp_ins] in Hn. rewrite Hn. now left.
  - destruct (launch_seat _ _ _ _ Hy) as (Hl' & -> & ->). rewrite Hl in Hl'. injection Hl' as <-. eapply TG_stdin; [exact Hkk| |exact E]. cbn [comp_ins] in Hn. rewrite Hn. now left.
Qed.
Lemma target_end l x y n : fst x = CDrain \/ fst x = CLaunch -> In (x, y) S -> occurs p x -> comp_ins y = [n] -> target_served net l n -> served c w cwd vars l x.
Proof.
  intros Ht Hy Hoc Hn Hs. pose proof (seat_kind _ _ Hy) as Hk. destruct x as [t nm]. cbn [fst] in *. destruct y; subst t; try (destruct Ht; discriminate).
  - destruct (launch_seat _ _ _ _ Hy) as (Hl & -> & ->). destruct (seat_place _ _ Hy eq_refl) as (k & Hk); [intros [] _; cbn; congruence|]. assert (Hin : In n (comp_ins (NLaunch cwd vars la))) by (rewrite Hn; now left). destruct (Hs _ _ Hk Hin) as (fin & fout & ferr & H1 & H2 & H3).
    exists k, fin, fout, ferr. split; [exists la; auto|auto].
  - destruct (drain_seat _ _ _ Hoc Hy) as [Hl ->]. destruct (seat_place _ _ Hy eq_refl) as (k & Hk); [intros [] _; cbn; congruence|]. match type of Hk with _ = Some ?z => assert (Hin : In n (comp_ins z)) by (rewrite Hn; now left) end. pose proof (Hs _ _ Hk Hin) as H1. cbn in H1.
    exists k. split; [eexists; split; [exact Hl|exact Hk]|exact H1].
Qed.
Lemma given_all l ss os mss : matches c2 ss os -> Forall2 (source_gave net l) os mss -> exists mss', Permutation mss mss' /\ Forall2 (has_given c w cwd vars l) ss mss'.
Proof.
  intros (ss' & HP & HF) HG. assert (H : Forall2 (has_given c w cwd vars l) ss' mss).
  { clear HP. revert mss HG. induction HF as [|s o a b Hs _ IH]; intros mss HG; inversion HG as [|? ms ? mss' H1 H2]; subst; constructor; [exact (gave_given _ _ _ _ Hs H1)|exact (IH _ H2)]. }
  destruct (perm_forall2 _ _ _ _ (Permutation_sym HP) H) as (mss' & P' & F'). eauto.
Qed.
Lemma begun_all l ss os mss pss : matches c2 ss os -> Forall2 (source_gave net l) os mss -> beginnings pss mss -> exists mss' pss', Permutation pss pss' /\ Forall2 (has_given c w cwd vars l) ss mss' /\ beginnings pss' mss'.
Proof.
  intros HM HG HB. destruct (given_all _ _ _ _ HM HG) as (mss' & HP & HF). unfold beginnings in HB. apply forall2_flip in HB. destruct (perm_forall2 _ _ _ _ HP HB) as (pss' & P' & F'). exists mss', pss'. split; [exact P'|]. split; [exact HF|]. exact (forall2_flip _ _ _ F').
Qed.
End Laid.

(** ** The theorems *)
Variable ps : list (connection * connection).
Hypothesis Hsp : spelled (cf_connection c) ps.
Lemma laid_arrivals c2 w1 p r js je ks id : laid c2 w1 p r js je ks id -> forall x, Permutation (arrivals ps x) (into_list x p).
Proof. intros D. destruct (pr_paired _ _ _ _ _ (ld_prepared _ _ _ _ _ _ _ _ D)) as (m1 & E1 & E2). exact (written_arrivals _ _ _ _ Hgc Hsp E1 E2). Qed.
Section Runs.
Hypothesis Hpa : passing (cf_connection c).
Variables (w0 : world) (l : list nevent) (wl : world) (ocs : nat -> S_Net.outcome) (x : component) (ss : list M_Manip.source).
Hypothesis Ht : fst x = CDrain \/ fst x = CLaunch.
Hypothesis Ha : arrivals ps x <> [].
Hypothesis Hs : supplied ps x ss.
Hypothesis Hap : apart (cf_connection c).
Hypothesis HR : free_run net cs w0 l wl ocs.
Theorem path_begins ms : has_got c w cwd vars l x ms -> exists mss pss, Forall2 (has_given c w cwd vars l) ss mss /\ beginnings pss mss /\ interleave pss ms.
Proof.
  intros Hg. destruct lays as (c2 & w1 & p & r & js & je & ks & id & D). pose proof (laid_arrivals _ _ _ _ _ _ _ _ D) as Hps.
  destruct (supply _ _ _ _ _ _ _ _ D ps Hps x ss Ht Ha Hs) as (y & n & os & Hy & Hoc & Hn & Hfed & HM). pose proof (got_target _ _ _ _ _ _ _ _ D l x y n ms Hy Hoc Hn Hg) as Htg.
  destruct (prepared_begins sh cwd vars c w cs Hf Hgc Hpr Hpa w0 l wl ocs n os ms Hap HR Hfed Htg) as (mss & pss & H1 & H2 & H3).
  destruct (begun_all _ _ _ _ _ _ _ _ D l ss os mss pss HM H1 H2) as (mss' & pss' & P & H4 & H5). exists mss', pss'. split; [exact H4|]. split; [exact H5|exact (mix_perm _ _ H3 _ P)].
Qed.
Theorem path_ends : willing l -> all_succeeded net ocs -> Forall (at_end c w cwd vars l) ss /\ served c w cwd vars l x /\
  exists mss ms, Forall2 (has_given c w cwd vars l) ss mss /\ interleave mss ms /\ forall ms', has_got c w cwd vars l x ms' -> ms' = ms.
Proof.
  intros HW HA. destruct lays as (c2 & w1 & p & r & js & je & ks & id & D). pose proof (laid_arrivals _ _ _ _ _ _ _ _ D) as Hps.
  destruct (supply _ _ _ _ _ _ _ _ D ps Hps x ss Ht Ha Hs) as (y & n & os & Hy & Hoc & Hn & Hfed & HM).
  destruct (prepared_all sh cwd vars c w cs Hf Hgc Hpr Hpa w0 l wl ocs n os Hap HR HW HA Hfed) as (H1 & H2 & mss & ms & H3 & H4 & H5).
  split; [|split; [exact (target_end _ _ _ _ _ _ _ _ D l x y n Ht Hy Hoc Hn H2)|]].
  - destruct HM as (ss' & HP & HF). apply Forall_forall. intros s Hin. pose proof (proj1 (Forall_forall _ _) (supplied_made _ _ _ Hs) _ Hin) as Hm. apply (Permutation_in _ HP) in Hin. destruct (forall2_in_l _ _ _ HF _ Hin) as (o & Ho & Hfc).
    apply (spent_end _ _ _ _ _ _ _ _ D l s o Hm Hfc). exact (proj1 (Forall_forall _ _) H1 _ Ho).
  - destruct (given_all _ _ _ _ _ _ _ _ D l ss os mss HM H3) as (mss' & P & H6). exists mss', ms. split; [exact H6|]. split; [exact (mix_perm _ _ H4 _ P)|]. intros ms' Hg. apply H5. exact (got_target _ _ _ _ _ _ _ _ D l x y n ms' Hy Hoc Hn Hg).
Qed.
End Runs.
(** Without loops everything comes from somewhere. *)
Theorem path_somewhere x : no_loop (cf_connection c) -> exists ss, supplied ps x ss /\ forall ss', supplied ps x ss' -> ss' = ss.
Proof.
  intros H. destruct lays as (c2 & w1 & p & r & js & je & ks & id & D). pose proof (laid_arrivals _ _ _ _ _ _ _ _ D) as Hps. pose proof (ld_follow _ _ _ _ _ _ _ _ D) as Hfol. destruct (arcs_rank _ p (fun _ => false) (ld_ordered _ _ _ _ _ _ _ _ D) Hfol) as (rank & Hr).
  { intros a Ha. apply (H a). refine (clos_more _ _ _ _ _ Ha). intros u v [Huv _]. exact Huv. }
  assert (HI : forall s d, In s (arrivals ps d) -> rank (fst s) < rank d /\ fst (fst s) <> CDrain).
  { intros s d Hin. apply (Permutation_in _ (Hps d)) in Hin. rewrite into_keys_list in Hin. apply in_flat_map in Hin as ([k v] & Hk & Hv). apply (in_into_keys p (ld_ordered _ _ _ _ _ _ _ _ D)) in Hk as (e & Hl & He & <-). cbn [snd] in Hv. rewrite He in Hv. destruct Hv as [<-|[]].
    assert (Ek : edge_at p k = Some e) by (unfold edge_at; now rewrite Hl). split; [apply Hr; [apply Hfol; exists k, e; auto|reflexivity]|].
    intros Hd. pose proof (ld_prepared _ _ _ _ _ _ _ _ D) as P. destruct (paired_edge p r js je ks k e (ld_built _ _ _ _ _ _ _ _ D) Ek) as [(k1 & e1 & H1 & H2) _]. pose proof (kept_edges _ _ _ _ _ P _ _ H1) as H3. destruct (num_there c2 _ _ H3) as (n1 & N1).
    apply (bl_no_drain _ _ (ld_buildable _ _ _ _ _ _ _ _ D) (elink e1)); [exact (in_combine_r _ _ _ _ (num_link sh c c2 p r P _ _ _ N1 H3))|]. cbn. rewrite H2. exact Hd. }
  assert (HC : forall n d, rank d < n -> exists sss, Forall2 (comes_from ps) (arrivals ps d) sss).
  { induction n as [|n IH]; intros d Hd; [lia|]. apply choose_list. intros [[t nm] o] Hin. destruct (HI _ _ Hin) as [H1 H2]. cbn [fst] in H1, H2. destruct (IH (t, nm) ltac:(lia)) as (sss & HF). destruct t; try contradiction; first [exists [((CFaucet, nm), o)]; constructor; now left|exists [((CLaunch, nm), o)]; constructor; now right|exists (concat sss); constructor; [tauto|exact HF]]. }
  destruct (HC _ x (Nat.lt_succ_diag_r _)) as (sss & HF). exists (concat sss). assert (HS : supplied ps x (concat sss)) by (exists sss; auto). split; [exact HS|]. intros ss' Hs'. exact (supplied_once _ _ _ _ HS Hs').
Qed.
(** ** One source, one input *)
Section Given.
Hypothesis Hpa : passing (cf_connection c).
Hypothesis Hap : apart (cf_connection c).
Variables (l : list nevent) (x : component) (ss : list M_Manip.source) (s : M_Manip.source).
Hypothesis Ht : fst x = CDrain \/ fst x = CLaunch.
Hypothesis Ha : arrivals ps x <> [].
Hypothesis Hs : supplied ps x ss.
Hypothesis Hin : In s ss.
Lemma source_place : exists o, (forall n k, s = ((CFaucet, n), POut) -> faucet_at c w cwd vars n k -> exists y, nth_error net k = Some y /\ In o (comp_outs y)) /\
  (forall n k q, s = ((CLaunch, n), q) -> program_at w cwd vars n k -> exists y, nth_error net k = Some y /\ In o (comp_outs y)).
Proof.
  destruct lays as (c2 & w1 & p & r & js & je & ks & id & D). pose proof (laid_arrivals _ _ _ _ _ _ _ _ D) as Hps.
  destruct (supply _ _ _ _ _ _ _ _ D ps Hps x ss Ht Ha Hs) as (y & n & os & Hy & Hoc & Hn & Hfed & (ss' & HP & HF)).
  destruct (forall2_in_l _ _ _ HF s (Permutation_in _ HP Hin)) as (o & Ho & Hfc). destruct (chan_seat c2 cwd vars _ (ld_written _ _ _ _ _ _ _ _ D) (fab _ _ _ _ _ _ _ _ D) _ _ Hfc) as (z & Hz & Hoz). pose proof (seat_kind _ _ _ _ _ _ _ _ D _ _ Hz) as Hk.
  exists o. split.
  - intros nm k -> (f & Hl & Hnk). cbn [fst] in *. destruct z; try discriminate Hk. destruct (faucet_seat _ _ _ _ _ _ _ _ D _ _ _ Hz) as [Hl' ->]. rewrite Hl in Hl'. injection Hl' as <-. eauto.
  - intros nm k q -> (f & Hl & Hnk). cbn [fst] in *. destruct z; try discriminate Hk. destruct (launch_seat _ _ _ _ _ _ _ _ D _ _ _ _ Hz) as (Hl' & -> & ->). rewrite Hl in Hl'. injection Hl' as <-. eauto.
Qed.
Lemma one_place o k k' y y' : nth_error net k = Some y -> nth_error net k' = Some y' -> In o (comp_outs y) -> In o (comp_outs y') -> k = k'.
Proof.
  intros H1 H2 H3 H4. destruct (prepared_shape sh cwd vars c w cs Hf Hgc Hpr Hpa Hap) as (HN & _). pose proof (P_JStart.nodup_app_l _ _ (nw_outs _ HN)) as HD.
  apply (P_NetCost.nth_unique comp_outs (map plain_comp net) k k' (plain_comp y) (plain_comp y') o HD); [now rewrite nth_error_map, H1|now rewrite nth_error_map, H2|now rewrite plain_outs|now rewrite plain_outs].
Qed.
Theorem given_once ms ms' : has_given c w cwd vars l s ms -> has_given c w cwd vars l s ms' -> ms' = ms.
Proof.
  destruct source_place as (o & HF & HL). intros H1 H2. 
  assert (LF : forall n k k', s = ((CFaucet, n), POut) -> faucet_at c w cwd vars n k -> faucet_at c w cwd vars n k' -> k = k').
  { intros n k k' E K K'. destruct (HF n k E K) as (y & Y1 & Y2). destruct (HF n k' E K') as (y' & Y1' & Y2'). exact (one_place o _ _ _ _ Y1 Y1' Y2 Y2'). }
  assert (LL : forall n k k' q, s = ((CLaunch, n), q) -> program_at w cwd vars n k -> program_at w cwd vars n k' -> k = k').
  { intros n k k' q E K K'. destruct (HL n k q E K) as (y & Y1 & Y2). destruct (HL n k' q E K') as (y' & Y1' & Y2'). exact (one_place o _ _ _ _ Y1 Y1' Y2 Y2'). }
  inversion H1; subst; inversion H2; subst; repeat match goal with H : ?a = PErr \/ _ |- _ => destruct H | H : ?a = POut \/ _ |- _ => destruct H end; try discriminate;
    first [assert (k0 = k) by (eapply LF; [reflexivity|eassumption|eassumption])|assert (k0 = k) by (eapply LL; [reflexivity|eassumption|eassumption])]; subst k0; try congruence.
  assert (code0 = code) by congruence. subst code0. f_equal. destruct code as [z|]; cbn in *; [eapply decimal_once; eassumption|congruence].
Qed.
End Given.
End Path.
