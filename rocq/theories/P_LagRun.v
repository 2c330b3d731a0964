(** * P_LagRun: how far a source is ahead of a file, by the connections as written *)
From Coq Require Import Ascii String List Bool Arith ZArith Lia Permutation Relations.
From Verif Require Import M_Prog M_Motion M_Connectable M_Faucet M_Launch M_Junction M_Buffer M_Drain M_Regulator M_Join S_Trace S_Lines S_Motion S_World S_Launch S_Regulator S_Drain S_Junction S_Network S_Net M_Start S_Start S_Flow S_Path S_Delay S_Lag M_Config M_Manip M_Lint M_Waiter S_Grammar S_Manip S_Waiter S_Shape S_Watch P_Text P_Map P_Pair P_Parser P_Junctions P_Junctions2 P_Manip P_Cell P_Wire P_Build P_Ready P_WaiterExamples P_Errors P_Top P_Made P_Whole P_Rounds P_Shape P_Watch P_WatchRun P_Stream P_Path P_Delay P_DelayRun P_Spring P_SpringRun P_PathRun P_Lag.
From Verif Require P_Calm.
Import ListNotations.
Local Open Scope list_scope.

Lemma plain_size (x : S_Net.comp) : comp_size (plain_comp x) = comp_size x.
Proof. now destruct x. Qed.

(** ** How often an output is written *)
Definition out_list (s : M_Manip.source) (q : connmap) : list component :=
  flat_map (fun kv => match edge_of (snd kv) with Some e => if source_eqb s (e_src e) then [e_dst e] else [] | None => [] end) q.
Lemma out_app s a b : out_list s (a ++ b) = out_list s a ++ out_list s b.
Proof. unfold out_list. now rewrite flat_map_app. Qed.
Lemma departures_app a b s : departures (a ++ b) s = departures a s ++ departures b s.
Proof. unfold departures. now rewrite flat_map_app. Qed.
Lemma out_pairs s : forall zs ps ns, Forall2 pair_of zs ps -> (forall a b, In (a, b) zs -> exists o, output_of a = Some o) -> List.length ns = List.length ps -> out_list s (combine ns ps) = departures zs s.
Proof.
  intros zs ps ns H. revert ns. induction H as [|[a b] d zs ps Hp _ IH]; intros ns Ho Hlen; destruct ns as [|n ns]; try discriminate Hlen; [reflexivity|].
  destruct (Ho a b (or_introl eq_refl)) as (o & Eo). destruct (pair_edge _ _ _ _ Hp Eo) as (i & _ & Ed). cbn [combine]. unfold out_list. cbn [flat_map snd]. rewrite Ed. cbn [e_dst e_src].
  unfold departures. cbn [flat_map snd fst]. unfold output_at at 1. rewrite Eo. fold (out_list s (combine ns ps)). rewrite IH; [|intros; eapply Ho; right; eassumption|now injection Hlen]. cbn [existsb]. rewrite orb_false_r. reflexivity.
Qed.
Lemma out_added s m1 added : pairs_of m1 added -> chains m1 -> out_list s added = departures (flat_map (fun kv => neighbours (listed (snd kv))) m1) s.
Proof.
  induction 1 as [|k l m ns ps rest Hs Hf Hlen Hp IH]; intros Hc; [reflexivity|]. inversion Hc as [|? ? (l' & E & Hch) Hc']; subst. cbn in E. injection E as <-.
  rewrite out_app, (IH Hc'). cbn [flat_map snd listed]. rewrite departures_app. f_equal. apply out_pairs; [exact Hf|intros a b Hab; exact (next_output _ Hch _ _ Hab)|]. now rewrite map_length.
Qed.
Lemma written_departures m ps m1 p : good_connections m -> spelled m ps -> convert_connections m = Good (m1, []) -> pair_up m1 = Good p -> forall s, Permutation (departures ps s) (out_list s p).
Proof.
  intros [_ Hg] Hsp E1 E2 x. destruct (convert_good m Hg) as (m1' & E1' & Hc & _). rewrite E1 in E1'. injection E1' as <-. destruct (pair_up_spec m1 Hc) as (p' & added & E2' & Ho & Hp & Hn & Hi). rewrite E2 in E2'. injection E2' as <-.
  rewrite (spelled_out _ _ Hsp _ E1), <- (out_added x _ _ Hp Hc). apply Permutation_flat_map. apply Permutation_sym. apply NoDup_Permutation; [apply nodup_pairs, ordered_nodup; exact Ho|apply nodup_pairs; exact Hn|]. intros [k d]. apply Hi.
Qed.
Lemma count_out s p : count (from s) p = List.length (out_list s p).
Proof.
  unfold count, out_list. induction p as [|[k d] p IH]; [reflexivity|]. cbn [filter flat_map snd]. destruct (edge_of d) as [e|]; [|exact IH]. unfold from at 1. destruct (source_eqb s (e_src e)); cbn; now rewrite IH.
Qed.
Lemma count_into x p : count (into x) p = List.length (into_list x p).
Proof.
  unfold count, into_list. induction p as [|[k d] p IH]; [reflexivity|]. cbn [filter flat_map snd]. destruct (edge_of d) as [e|]; [|exact IH]. unfold into at 1.
  assert (E : component_eqb x (e_dst e) = component_eqb (e_dst e) x) by (destruct (component_eqb_spec x (e_dst e)), (component_eqb_spec (e_dst e) x); congruence). rewrite E. destruct (component_eqb (e_dst e) x); cbn; now rewrite IH.
Qed.
Lemma several_two {A} (l : list A) : 2 <= List.length l -> several l = 1.
Proof. destruct l as [|a [|b l]]; cbn; intros; try lia. Qed.

Section Run.
Variables (sh : shuffles) (cwd : option string) (vars : list (string * string)) (c : config) (w : waiter) (cs : list capture).
Hypothesis Hf : S_Manip.fair sh.
Hypothesis Hgc : good_connections (cf_connection c).
Hypothesis Hpr : prepares sh c w cs.
Notation net := (net_of cwd vars w).
Lemma small (x : S_Net.comp) : In x net -> comp_size x <= 8.
Proof.
  intro Hx. destruct (prepared_grown sh c w cs Hf Hgc Hpr) as (c2 & out & w1 & Ep & Ew & Hw & U & K & G & _). pose proof (plain_net cwd vars w1 w _ _ U G) as EN. destruct (made_fabric c2 w1 Hw Ew) as [F0 Hn0]. pose proof (more_fabric _ _ _ (w_channels w) F0) as F.
  rewrite <- plain_size. apply (in_map plain_comp) in Hx. rewrite EN in Hx. revert Hx. generalize (plain_comp x). clear x. intros x Hx. apply in_net in Hx as (d & H). destruct (seated_plays _ _ _ _ _ (fb_once _ _ _ F) H) as (y & Hy & Hp). pose proof (fb_bare _ _ _ F _ _ Hy) as Hb. pose proof (get_type _ _ _ Hy) as Ht.
  destruct d as [t k]. cbn [fst] in Ht. subst t. destruct y as [f|l|j|b|dr|r0]; cbn [plays cell_type fresh bare fst snd] in *; try (destruct Hp as (u & _ & ->)); subst; cbn [comp_size]; try lia;
    first [injection Hb; intros; subst; lia|destruct Hb as (? & _ & Hb); injection Hb; intros; subst; lia|idtac].
Qed.

Section Laid.
Variables (c2 : config) (w1 : waiter) (p r : connmap) (js : M_Manip.source -> option string) (je : component -> option string) (ks : list string) (id : component -> nat).
Hypothesis D : laid sh cwd vars c w c2 w1 p r js je ks id.
Notation w2 := (set_channels w1 (w_channels w)).
Notation S := (seated cwd vars w2).
Notation net2 := (net_of cwd vars w2).
Variable ps : list (connection * connection).
Hypothesis Hps : forall x, Permutation (arrivals ps x) (into_list x p).
Hypothesis Hjs : forall s, js s <> None -> several (departures ps s) = 1.
Hypothesis Hje : forall x, je x <> None -> several (arrivals ps x) = 1.
Lemma at_junction j x : In ((CJunction, j), x) S -> direct x.
Proof. intro H. pose proof (seat_kind _ _ _ _ _ _ _ _ _ _ _ _ _ D _ _ H) as K. destruct x; try discriminate K; exact Logic.I. Qed.
Lemma split_reach s n : carries c2 js s n -> exists n1 e, from_chan c2 s n1 /\ e <= several (departures ps s) /\ reaches net2 n1 n e.
Proof.
  unfold carries, via_src. destruct (js s) as [j|] eqn:Hj; [|intros H; exists n, 0; split; [exact H|]; split; [lia|constructor]]. intros H.
  destruct (chan_seat c2 cwd vars w2 (ld_written _ _ _ _ _ _ _ _ _ _ _ _ _ D) (fab _ _ _ _ _ _ _ _ _ _ _ _ _ D) _ _ H) as (x & Hx & Hn). cbn [fst] in Hx.
  destruct (split_in sh c c2 p r js je ks (ld_prepared _ _ _ _ _ _ _ _ _ _ _ _ _ D) (ld_built _ _ _ _ _ _ _ _ _ _ _ _ _ D) _ _ Hj) as (n1 & E & H1). exists n1, 1. split; [exact H1|]. split; [rewrite Hjs by congruence; lia|].
  pose proof (seat_ins c2 cwd vars w2 (fab _ _ _ _ _ _ _ _ _ _ _ _ _ D) _ _ Hx) as Hi. rewrite E in Hi. apply Permutation_sym, Permutation_length_1_inv in Hi.
  eapply R_on; [apply R_here|exact (seat_net _ _ _ _ _ Hx)|exact (at_junction _ _ Hx)|rewrite Hi; now left|exact Hn].
Qed.
Lemma next_reach s x y : In s (arrivals ps x) -> In (x, y) S -> exists n1 m e, from_chan c2 s n1 /\ In m (comp_ins y) /\ 9 * (1 + e) <= holds ps s x /\ reaches net2 n1 m e.
Proof.
  intros Hs Hy. assert (Ha : arrivals ps x <> []) by (intro E; rewrite E in Hs; destruct Hs). destruct (arrives_occurs _ _ _ _ _ _ _ _ _ _ _ _ _ D ps Hps x Ha) as (k & e & He & Hd). assert (Hoc : occurs p x) by (exists k, e; auto).
  destruct (channels_into sh c c2 p r js je ks (ld_ordered _ _ _ _ _ _ _ _ _ _ _ _ _ D) (ld_prepared _ _ _ _ _ _ _ _ _ _ _ _ _ D) (ld_built _ _ _ _ _ _ _ _ _ _ _ _ _ D) (ld_buildable _ _ _ _ _ _ _ _ _ _ _ _ _ D) x Hoc) as (chs & Hch & Pch).
  apply (Permutation_in _ (Hps x)) in Hs. destruct (forall2_in_l _ _ _ Hch s Hs) as (n & Hn & Hc). destruct (split_reach _ _ Hc) as (n1 & e1 & H1 & H2 & H3). apply (Permutation_in _ Pch) in Hn. unfold via_dst in Hn. destruct (je x) as [j|] eqn:Hj.
  - destruct (merged_in sh c c2 p r js je ks (ld_prepared _ _ _ _ _ _ _ _ _ _ _ _ _ D) (ld_built _ _ _ _ _ _ _ _ _ _ _ _ _ D) (ld_buildable _ _ _ _ _ _ _ _ _ _ _ _ _ D) _ _ Hj) as (m & E & Hm).
    destruct (chan_seat c2 cwd vars w2 (ld_written _ _ _ _ _ _ _ _ _ _ _ _ _ D) (fab _ _ _ _ _ _ _ _ _ _ _ _ _ D) _ _ Hm) as (z & Hz & Hmz). cbn [fst] in Hz.
    pose proof (seat_ins c2 cwd vars w2 (fab _ _ _ _ _ _ _ _ _ _ _ _ _ D) _ _ Hz) as Hi. pose proof (seat_ins c2 cwd vars w2 (fab _ _ _ _ _ _ _ _ _ _ _ _ _ D) _ _ Hy) as Hi'. rewrite E in Hi'. apply Permutation_sym, Permutation_length_1_inv in Hi'.
    exists n1, m, (Datatypes.S e1). split; [exact H1|]. split; [rewrite Hi'; now left|]. split; [unfold holds; rewrite (Hje x) by congruence; lia|]. eapply R_on; [exact H3|exact (seat_net _ _ _ _ _ Hz)|exact (at_junction _ _ Hz)|exact (Permutation_in _ (Permutation_sym Hi) Hn)|exact Hmz].
  - exists n1, n, e1. split; [exact H1|]. split; [exact (Permutation_in _ (Permutation_sym (seat_ins c2 cwd vars w2 (fab _ _ _ _ _ _ _ _ _ _ _ _ _ D) _ _ Hy)) Hn)|]. split; [unfold holds; lia|exact H3].
Qed.
Lemma leads_reach s x d : leads_to at_once ps s x d -> forall y, In (x, y) S -> exists n1 m e, from_chan c2 s n1 /\ In m (comp_ins y) /\ 9 * (1 + e) <= d /\ reaches net2 n1 m e.
Proof.
  induction 1 as [x Hs|t n o x d H IH Ht Hs]; intros y Hy.
  - destruct (next_reach _ _ _ Hs Hy) as (n1 & m & e & H1 & H2 & H3 & H4). exists n1, m, e. split; [exact H1|]. split; [exact H2|]. split; [lia|exact H4].
  - destruct (next_reach _ _ _ Hs Hy) as (n2 & m & e & H1 & H2 & H3 & H4). destruct (chan_seat c2 cwd vars w2 (ld_written _ _ _ _ _ _ _ _ _ _ _ _ _ D) (fab _ _ _ _ _ _ _ _ _ _ _ _ _ D) _ _ H1) as (z & Hz & Hn2). cbn [fst] in Hz.
    destruct (IH _ Hz) as (n1 & m1 & e1 & K1 & K2 & K3 & K4). exists n1, m, (Datatypes.S e1 + e). split; [exact K1|]. split; [exact H2|]. split; [lia|]. eapply reaches_trans; [|exact H4].
    eapply R_on; [exact K4|exact (seat_net _ _ _ _ _ Hz)| |exact K2|exact Hn2]. pose proof (seat_kind _ _ _ _ _ _ _ _ _ _ _ _ _ D _ _ Hz) as K. cbn [fst] in K. destruct z; cbn; auto; destruct Ht; congruence.
Qed.
(** The place of a source, and the task that writes. *)
Lemma sent_pens l s sent n1 : from_chan c2 s n1 -> has_sent c w cwd vars l s sent -> exists k z t, nth_error net k = Some z /\ plain_comp z = z /\ t < 4 /\ P_Calm.pens z t = [CData n1] /\ sent = put (own (4 * k + t) l).
Proof.
  intros Hs Hk. destruct (chan_seat c2 cwd vars w2 (ld_written _ _ _ _ _ _ _ _ _ _ _ _ _ D) (fab _ _ _ _ _ _ _ _ _ _ _ _ _ D) _ _ Hs) as (z & Hz & Ho). pose proof (seat_kind _ _ _ _ _ _ _ _ _ _ _ _ _ D _ _ Hz) as K.
  assert (HL : forall n la q, s = ((CLaunch, n), q) -> In ((CLaunch, n), NLaunch cwd vars la) S -> In n1 (comp_outs (NLaunch cwd vars la)) -> In n1 (match q with POut => out_of (la_stdout la) | PErr => out_of (la_stderr la) | PExit => S_Net.exit_of (la_exit_status la) end)).
  { intros n la q -> HS HO. cbn [comp_outs] in HO. rewrite !in_app_iff in HO. destruct HO as [HO|[HO|HO]].
    - pose proof (same_source _ _ _ _ Hs (launch_chan _ _ _ _ _ _ _ _ _ _ _ _ _ D _ _ _ _ _ POut HS HO)) as Eq. injection Eq as ->. exact HO.
    - pose proof (same_source _ _ _ _ Hs (launch_chan _ _ _ _ _ _ _ _ _ _ _ _ _ D _ _ _ _ _ PErr HS HO)) as Eq. injection Eq as ->. exact HO.
    - pose proof (same_source _ _ _ _ Hs (launch_chan _ _ _ _ _ _ _ _ _ _ _ _ _ D _ _ _ _ _ PExit HS HO)) as Eq. injection Eq as ->. exact HO. }
  destruct Hk as [n k (f & Hl & Hnk)|n k (f & Hl & Hnk)|n k (f & Hl & Hnk)|n k (f & Hl & Hnk)]; cbn [fst] in *; destruct z; try discriminate K.
  - destruct (faucet_seat _ _ _ _ _ _ _ _ _ _ _ _ _ D _ _ _ Hz) as [Hl' ->]. rewrite Hl in Hl'. injection Hl' as <-. exists k, (NFaucet f (location n (cf_faucet c))), 0. split; [exact Hnk|]. split; [exact (faucet_plain _ _ _ _ _ _ _ _ _ _ _ _ _ D _ _ (nth_error_In _ _ Hnk))|]. split; [lia|]. split; [|now rewrite Nat.add_0_r].
    cbn [P_Calm.pens comp_outs] in *. destruct (fc_stdout f) as [[]|]; cbn in *; try destruct Ho as []; try contradiction; subst; reflexivity.
  - destruct (launch_seat _ _ _ _ _ _ _ _ _ _ _ _ _ D _ _ _ _ Hz) as (Hl' & -> & ->). rewrite Hl in Hl'. injection Hl' as <-. pose proof (HL _ _ _ eq_refl Hz Ho) as Hi. exists k, (NLaunch cwd vars f), 2. split; [exact Hnk|]. split; [reflexivity|]. split; [lia|]. split; [|reflexivity].
    cbn [P_Calm.pens] in *. destruct (la_stdout f) as [[]|]; cbn in *; try destruct Hi as []; try contradiction; subst; reflexivity.
  - destruct (launch_seat _ _ _ _ _ _ _ _ _ _ _ _ _ D _ _ _ _ Hz) as (Hl' & -> & ->). rewrite Hl in Hl'. injection Hl' as <-. pose proof (HL _ _ _ eq_refl Hz Ho) as Hi. exists k, (NLaunch cwd vars f), 3. split; [exact Hnk|]. split; [reflexivity|]. split; [lia|]. split; [|reflexivity].
    cbn [P_Calm.pens] in *. destruct (la_stderr f) as [[]|]; cbn in *; try destruct Hi as []; try contradiction; subst; reflexivity.
  - destruct (launch_seat _ _ _ _ _ _ _ _ _ _ _ _ _ D _ _ _ _ Hz) as (Hl' & -> & ->). rewrite Hl in Hl'. injection Hl' as <-. pose proof (HL _ _ _ eq_refl Hz Ho) as Hi. exists k, (NLaunch cwd vars f), 0. split; [exact Hnk|]. split; [reflexivity|]. split; [lia|]. split; [|now rewrite Nat.add_0_r].
    cbn [P_Calm.pens] in *. destruct (la_exit_status f) as [[]|]; cbn in *; try destruct Hi as []; try contradiction; subst; reflexivity.
Qed.
End Laid.

Variable ps : list (connection * connection).
Hypothesis Hsp : spelled (cf_connection c) ps.
Hypothesis Hpa : passing (cf_connection c).
Hypothesis Hap : apart (cf_connection c).
Lemma lays_more : exists c2 w1 p r js je ks id, laid sh cwd vars c w c2 w1 p r js je ks id /\ (forall s, js s <> None -> several (departures ps s) = 1) /\ (forall x, je x <> None -> several (arrivals ps x) = 1).
Proof.
  destruct (lays sh cwd vars c w cs Hf Hgc Hpr) as (c2 & w1 & p & r & js & je & kk & id & D). pose proof (laid_arrivals sh cwd vars c w Hgc ps Hsp _ _ _ _ _ _ _ _ D) as Hps. pose proof (ld_prepared _ _ _ _ _ _ _ _ _ _ _ _ _ D) as P. destruct (pr_paired _ _ _ _ _ P) as (m1 & E1 & E2).
  pose proof (written_departures _ _ _ _ Hgc Hsp E1 E2) as Hpd. destruct Hgc as [_ Hg]. destruct (paired _ Hg) as (m1' & p' & added & E1' & E2' & Ho & Hp & _). rewrite E1 in E1'. injection E1' as <-. rewrite E2 in E2'. injection E2' as <-.
  destruct (junctions sh p Hf Ho Hp) as (js' & je' & ks' & r' & Ej & B & Hjs & Hje). rewrite (pr_joined _ _ _ _ _ P) in Ej. injection Ej as <-.
  exists c2, w1, p, r, js', je', ks', id. split; [destruct D; constructor; assumption|]. split.
  - intros s H. apply several_two. rewrite (Permutation_length (Hpd s)), <- count_out. now apply Hjs.
  - intros x H. apply several_two. rewrite (Permutation_length (Hps x)), <- count_into. now apply Hje.
Qed.
Theorem not_far w0 l wl ocs s x d ks ms : free_run net cs w0 l wl ocs -> willing l -> fst x = CDrain \/ fst x = CLaunch -> leads_to at_once ps s x d -> has_sent c w cwd vars l s ks -> has_got c w cwd vars l x ms ->
  List.length ks <= List.length ms + d.
Proof.
  intros HX HW Ht HL HS HG. destruct lays_more as (c2 & w1 & p & r & js & je & kk & id & D & Hjs & Hje). pose proof (laid_arrivals sh cwd vars c w Hgc ps Hsp _ _ _ _ _ _ _ _ D) as Hps.
  assert (Ha : arrivals ps x <> []) by (inversion HL; intro E; match goal with H : In _ (arrivals ps x) |- _ => rewrite E in H; destruct H end).
  destruct (arrives_occurs _ _ _ _ _ _ _ _ _ _ _ _ _ D ps Hps x Ha) as (k & e & He & Hd). assert (Hoc : occurs p x) by (exists k, e; auto).
  assert (Hy : exists y, In (x, y) (seated cwd vars (set_channels w1 (w_channels w)))).
  { pose proof (ld_prepared _ _ _ _ _ _ _ _ _ _ _ _ _ D) as P. pose proof (ld_built _ _ _ _ _ _ _ _ _ _ _ _ _ D) as B. destruct (paired_edge p r js je kk k e B He) as [_ (k1 & e1 & _ & _ & H1 & H2 & _)]. pose proof (kept_edges _ _ _ _ _ P _ _ H1) as H3. destruct (num_there c2 _ _ H3) as (n & N). pose proof (num_link sh c c2 p r P _ _ _ N H3) as HLk.
    apply (mentioned_seat c2 cwd vars _ (fab _ _ _ _ _ _ _ _ _ _ _ _ _ D) x). rewrite <- Hd, <- H2. apply (links_mentioned c2 (ld_written _ _ _ _ _ _ _ _ _ _ _ _ _ D) (elink e1)). exact (in_combine_r _ _ _ _ HLk). }
  destruct Hy as (y & Hy). destruct (leads_reach _ _ _ _ _ _ _ _ D ps Hps Hjs Hje _ _ _ HL _ Hy) as (n1 & m & e1 & H1 & H2 & H3 & H4).
  assert (Em : comp_ins y = [m]). { pose proof (seat_kind _ _ _ _ _ _ _ _ _ _ _ _ _ D _ _ Hy) as Hk. destruct y; try (destruct Ht; congruence); cbn [comp_ins] in *; match goal with |- in_of ?q = _ => destruct q as [[]|]; cbn in *; try contradiction end; destruct H2 as [<-|[]]; reflexivity. }
  pose proof (got_target _ _ _ _ _ _ _ _ _ _ _ _ _ D l x y m ms Hy Hoc Em HG) as Htg.
  destruct (prepared_shape sh cwd vars c w cs Hf Hgc Hpr Hpa Hap) as (HN & HR & HP & _). pose proof (prepared_overseen _ cwd vars _ _ _ Hf Hgc Hpr) as HO.
  destruct (P_Delay.delays net cs w0 l wl ocs HN HO HR HX) as (w' & ocs' & HX' & _). rewrite <- (ld_net _ _ _ _ _ _ _ _ _ _ _ _ _ D) in H4.
  assert (H8 : forall n, In n (flat_map comp_outs (map plain_comp net)) -> exists q, w0 (CData n) = fresh_chan (Some q) /\ q <= 8).
  { intros n Hn. apply in_flat_map in Hn as (z & Hz & Hn). apply in_map_iff in Hz as (z0 & <- & Hz). rewrite plain_outs in Hn. exists (comp_size z0). split; [exact (mw_outs _ _ (fr_made _ _ _ _ _ _ HX) _ _ Hz Hn)|exact (small z0 Hz)]. }
  destruct (sent_pens _ _ _ _ _ _ _ _ D l s ks n1 H1 HS) as (kz & z & t & K1 & K2 & K3 & K4 & ->).
  assert (K5 : nth_error (map plain_comp net) kz = Some z) by (rewrite nth_error_map, K1; cbn; now rewrite K2).
  assert (Hin : In n1 (flat_map comp_outs (map plain_comp net))).
  { destruct (chan_seat c2 cwd vars _ (ld_written _ _ _ _ _ _ _ _ _ _ _ _ _ D) (fab _ _ _ _ _ _ _ _ _ _ _ _ _ D) _ _ H1) as (zz & Hzz & Hon). apply in_flat_map. exists zz. split; [|exact Hon]. rewrite (ld_net _ _ _ _ _ _ _ _ _ _ _ _ _ D). exact (seat_net _ _ _ _ _ Hzz). }
  pose proof (ahead _ w0 HN (polite_plain _ HP) _ _ _ HX' (willing_data _ _ HW) H8 _ _ _ H4 Hin) as H5.
  pose proof (target_near _ w0 HN _ _ _ HX' (willing_data _ _ HW) _ _ (got_there net cs w0 l wl ocs HN HX _ _ Htg)) as H6.
  rewrite <- (put_gone _ w0 HN _ _ _ HX' kz z t n1 K5 K3 K4) in H5. rewrite (own_same net cs w0 l wl ocs HN HX kz z t K1 K2 K3) in H5. lia.
Qed.
End Run.
