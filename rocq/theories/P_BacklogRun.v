(** * P_BacklogRun: what is on the way, by the connections as written *)
From Coq Require Import Ascii String List Bool Arith ZArith Lia Permutation Relations.
From Verif Require Import M_Prog M_Motion M_Connectable M_Faucet M_Launch M_Junction M_Buffer M_Drain M_Regulator M_Join S_Trace S_Lines S_Motion S_World S_Launch S_Regulator S_Drain S_Junction S_Network S_Net M_Start S_Start S_Flow S_Path S_Delay S_Bounded S_Lag S_Backlog M_Config M_Manip M_Lint M_Waiter S_Grammar S_Manip S_Waiter S_Shape S_Watch P_Text P_Map P_Pair P_Parser P_Junctions P_Junctions2 P_Manip P_Cell P_Wire P_Build P_Ready P_WaiterExamples P_Errors P_Top P_Made P_Whole P_Rounds P_Shape P_Watch P_WatchRun P_Stream P_Path P_Delay P_DelayRun P_Spring P_SpringRun P_PathRun P_Lag P_LagRun P_Backlog.
From Verif Require P_Calm P_Straight.
Import ListNotations.
Local Open Scope list_scope.

Lemma plain_buffers : forall l n k x, In (k, x) (tag_buffers n (map (fun y => (fst y, buf_plain (snd y))) l)) -> exists b s u mi mo, k = (CBuffer, s) /\ x = NBuffer (buf_plain b) u mi mo /\ In (s, b) l /\ In (NBuffer b u mi mo) (number_buffers n l).
Proof.
  induction l as [|[s b] l IH]; intros n k x H; [destruct H|]. cbn [map fst snd tag_buffers] in H. destruct H as [H|H].
  - injection H as <- <-. exists b, s, n, n, (Datatypes.S n). split; [reflexivity|]. split; [reflexivity|]. split; now left.
  - destruct (IH _ _ _ H) as (b' & s' & u & mi & mo & H1 & H2 & H3 & H4). exists b', s', u, mi, mo. split; [exact H1|]. split; [exact H2|]. split; now right.
Qed.

Section Run.
Variables (sh : shuffles) (cwd : option string) (vars : list (string * string)) (c : config) (w : waiter) (cs : list capture).
Hypothesis Hf : S_Manip.fair sh.
Hypothesis Hgc : good_connections (cf_connection c).
Hypothesis Hpr : prepares sh c w cs.
Notation net := (net_of cwd vars w).
(** Where the store [u] is. *)
Definition store_of (b : string) (u : nat) : Prop := exists bf mi mo, lookup b (w_buffer w) = Some bf /\ In (NBuffer bf u mi mo) net.

Section Laid.
Variables (c2 : config) (w1 : waiter) (p r : connmap) (js : M_Manip.source -> option string) (je : component -> option string) (ks : list string) (id : component -> nat).
Hypothesis D : laid sh cwd vars c w c2 w1 p r js je ks id.
Notation w2 := (set_channels w1 (w_channels w)).
Notation S := (seated cwd vars w2).
Notation net2 := (net_of cwd vars w2).
Variable ps : list (connection * connection).
Hypothesis Hps : forall x, Permutation (arrivals ps x) (into_list x p).
Hypothesis Hjs : forall s, js s <> None -> several (departures ps s) = 1.
Hypothesis Hje : forall x, je x <> None -> several (arrivals ps x) = 1.
Hypothesis Hbf : w_buffer w1 = map (fun x => (fst x, buf_plain (snd x))) (w_buffer w).
Lemma buffer_seat n b u mi mo : In ((CBuffer, n), NBuffer b u mi mo) S -> store_of n u.
Proof.
  intro H. unfold seated in H. rewrite !in_app_iff in H.
  assert (HT : forall V t (f : V -> S_Net.comp) l, In ((CBuffer, n), NBuffer b u mi mo) (tag t f l) -> t = CBuffer) by (intros V t f l K; unfold tag in K; apply in_map_iff in K as (z & E & _); congruence).
  destruct H as [H|[H|[H|[H|[H|H]]]]]; try (apply HT in H; discriminate H). cbn [w_buffer w_channels set_channels] in H. rewrite Hbf in H.
  destruct (plain_buffers _ _ _ _ H) as (b' & s' & u' & mi' & mo' & E1 & E2 & H3 & H4). injection E1 as <-. injection E2 as -> -> -> ->. exists b', mi', mo'. split.
  - apply nodup_lookup; [|exact H3]. pose proof (fb_once _ _ _ (ld_fabric _ _ _ _ _ _ _ _ _ _ _ _ _ D)) as K. destruct K as (_ & _ & _ & K & _). rewrite Hbf in K. unfold keys in *. rewrite map_map in K. exact K.
  - unfold net_of. rewrite !in_app_iff. do 4 right. now left.
Qed.
Lemma over_flows s x h bs : leads_over ps s x h bs -> forall y, In (x, y) S -> exists n1 m e us, from_chan c2 s n1 /\ In m (comp_ins y) /\ 9 * (1 + e) <= h /\ flows net2 n1 m e us /\ Forall2 store_of bs us.
Proof.
  assert (HN : forall s x y, In s (arrivals ps x) -> In (x, y) S -> exists n1 m e, from_chan c2 s n1 /\ In m (comp_ins y) /\ 9 * (1 + e) <= holds ps s x /\ reaches net2 n1 m e) by (exact (next_reach _ _ _ _ _ _ _ _ _ _ _ _ _ D ps Hps Hjs Hje)).
  induction 1 as [x Hs|t n o x h bs H IH Ht Hs|n o x h bs H IH Hs]; intros y Hy; destruct (HN _ _ _ Hs Hy) as (n2 & m & e & H1 & H2 & H3 & H4).
  - exists n2, m, e, []. split; [exact H1|]. split; [exact H2|]. split; [lia|]. split; [|constructor]. exact (reaches_flows net2 n2 n2 0 [] (F_here _ _) _ _ H4).
  - destruct (chan_seat c2 cwd vars w2 (ld_written _ _ _ _ _ _ _ _ _ _ _ _ _ D) (fab _ _ _ _ _ _ _ _ _ _ _ _ _ D) _ _ H1) as (z & Hz & Hn2). cbn [fst] in Hz.
    destruct (IH _ Hz) as (n1 & m1 & e1 & us & K1 & K2 & K3 & K4 & K5). exists n1, m, (Datatypes.S e1 + e), us. split; [exact K1|]. split; [exact H2|]. split; [lia|]. split; [|exact K5]. eapply reaches_flows; [|exact H4].
    eapply F_on; [exact K4|exact (seat_net _ _ _ _ _ Hz)| |exact K2|exact Hn2]. pose proof (seat_kind _ _ _ _ _ _ _ _ _ _ _ _ _ D _ _ Hz) as K. cbn [fst] in K. destruct z; cbn; auto; destruct Ht; congruence.
  - destruct (chan_seat c2 cwd vars w2 (ld_written _ _ _ _ _ _ _ _ _ _ _ _ _ D) (fab _ _ _ _ _ _ _ _ _ _ _ _ _ D) _ _ H1) as (z & Hz & Hn2). cbn [fst] in Hz.
    destruct (IH _ Hz) as (n1 & m1 & e1 & us & K1 & K2 & K3 & K4 & K5). pose proof (seat_kind _ _ _ _ _ _ _ _ _ _ _ _ _ D _ _ Hz) as K. cbn [fst] in K. destruct z as [| |b u mi mo| | |]; try discriminate K.
    exists n1, m, (Datatypes.S e1 + e), (u :: us). split; [exact K1|]. split; [exact H2|]. split; [lia|]. split; [|constructor; [exact (buffer_seat _ _ _ _ _ Hz)|exact K5]]. eapply reaches_flows; [|exact H4].
    eapply F_store; [exact K4|exact (seat_net _ _ _ _ _ Hz)|exact K2|exact Hn2].
Qed.
End Laid.

Variable ps : list (connection * connection).
Hypothesis Hsp : spelled (cf_connection c) ps.
Hypothesis Hpa : passing (cf_connection c).
Hypothesis Hap : apart (cf_connection c).
Lemma lays_stores : exists c2 w1 p r js je ks id, laid sh cwd vars c w c2 w1 p r js je ks id /\ (forall s, js s <> None -> several (departures ps s) = 1) /\ (forall x, je x <> None -> several (arrivals ps x) = 1) /\
  w_buffer w1 = map (fun x => (fst x, buf_plain (snd x))) (w_buffer w).
Proof.
  destruct (prepared_grown sh c w cs Hf Hgc Hpr) as (c2 & out & w1 & Ep & Ew & Hw & U & K & G & _).
  destruct (process_prepared _ _ _ _ Hf Hgc Ep) as [E _]. pose proof Hgc as [_ Hg].
  destruct (prepare sh c Hf Hg) as (c' & p & r & E' & P). rewrite E in E'. injection E' as <- _.
  destruct (paired _ Hg) as (m1 & p' & added & E1 & E2 & Ho & Hp & Hpo & Hi & Hr & Hch). destruct (pr_paired _ _ _ _ _ P) as (m1' & E1' & E2'). rewrite E1 in E1'. injection E1' as <-. rewrite E2 in E2'. injection E2' as <-.
  destruct (junctions sh p' Hf Ho Hp) as (js & je & ks & r' & Ej & B & Hjs & Hje). rewrite (pr_joined _ _ _ _ _ P) in Ej. injection Ej as <-.
  destruct (proj2 (proj2 (get_waiter_exact c2 Hw)) w1 Ew) as [Hbl (id & Has)]. destruct (made_fabric c2 w1 Hw Ew) as [F0 Hn0].
  assert (D : laid sh cwd vars c w c2 w1 p' r js je ks id).
  { constructor; [exact Ho|exact P|exact B|exact Hbl|exact Has|exact Hw|exact F0|exact (gr_faucet _ _ _ _ G)|exact (gr_launch _ _ _ _ G)|exact (gr_drain _ _ _ _ G)|exact (plain_net cwd vars w1 w _ _ U G)|].
  exact (follow_edge _ _ _ _ Hpo Ho Hi Hr Hch). }
  exists c2, w1, p', r, js, je, ks, id. split; [exact D|]. split; [|split].
  - intros s H. apply several_two. rewrite (Permutation_length (written_departures _ _ _ _ Hgc Hsp E1 E2 s)), <- count_out. now apply Hjs.
  - intros x H. apply several_two. rewrite (Permutation_length (laid_arrivals sh cwd vars c w Hgc ps Hsp _ _ _ _ _ _ _ _ D x)), <- count_into. now apply Hje.
  - rewrite (gr_buffer _ _ _ _ G). symmetry. apply map_fixed. intros [n b] Hin. cbn [fst snd]. pose proof (un_buffer _ U _ _ Hin) as EU. destruct b; cbn in *. unfold buf_plain. cbn. now rewrite EU.
Qed.
Lemma stores_at wl : forall bs us, Forall2 store_of bs us -> exists kbs, Forall2 (buffer_at cwd vars w) bs kbs /\ in_stores net kbs wl = list_sum (map (fun u => Datatypes.S (List.length (cs_queue (wl (CData u))))) us).
Proof.
  induction 1 as [|b u bs us (bf & mi & mo & Hl & Hi) _ (kbs & H1 & H2)]; [exists []; split; [constructor|reflexivity]|].
  apply In_nth_error in Hi as (k & Hk). exists (k :: kbs). split; [constructor; [exists bf, u, mi, mo; auto|exact H1]|]. unfold in_stores in *. cbn [map list_sum fold_right] in *. unfold list_sum in *. cbn [fold_right]. rewrite H2. unfold stored. rewrite Hk. reflexivity.
Qed.
Theorem on_the_way w0 l wl ocs s x d bs ks ms : free_run net cs w0 l wl ocs -> willing l -> fst x = CDrain \/ fst x = CLaunch -> leads_over ps s x d bs -> has_sent c w cwd vars l s ks -> has_got c w cwd vars l x ms ->
  exists kbs, Forall2 (buffer_at cwd vars w) bs kbs /\ List.length ks <= List.length ms + d + in_stores net kbs wl.
Proof.
  intros HX HW Ht HL HS HG. destruct lays_stores as (c2 & w1 & p & r & js & je & kk & id & D & Hjs & Hje & Hbf). pose proof (laid_arrivals sh cwd vars c w Hgc ps Hsp _ _ _ _ _ _ _ _ D) as Hps.
  assert (Ha : arrivals ps x <> []) by (inversion HL; intro E; match goal with H : In _ (arrivals ps x) |- _ => rewrite E in H; destruct H end).
  destruct (arrives_occurs _ _ _ _ _ _ _ _ _ _ _ _ _ D ps Hps x Ha) as (k & e & He & Hd). assert (Hoc : occurs p x) by (exists k, e; auto).
  assert (Hy : exists y, In (x, y) (seated cwd vars (set_channels w1 (w_channels w)))).
  { pose proof (ld_prepared _ _ _ _ _ _ _ _ _ _ _ _ _ D) as P. pose proof (ld_built _ _ _ _ _ _ _ _ _ _ _ _ _ D) as B. destruct (paired_edge p r js je kk k e B He) as [_ (k1 & e1 & _ & _ & H1 & H2 & _)]. pose proof (kept_edges _ _ _ _ _ P _ _ H1) as H3. destruct (num_there c2 _ _ H3) as (n & N). pose proof (num_link sh c c2 p r P _ _ _ N H3) as HLk.
    apply (mentioned_seat c2 cwd vars _ (fab _ _ _ _ _ _ _ _ _ _ _ _ _ D) x). rewrite <- Hd, <- H2. apply (links_mentioned c2 (ld_written _ _ _ _ _ _ _ _ _ _ _ _ _ D) (elink e1)). exact (in_combine_r _ _ _ _ HLk). }
  destruct Hy as (y & Hy). destruct (over_flows _ _ _ _ _ _ _ _ D ps Hps Hjs Hje Hbf _ _ _ _ HL _ Hy) as (n1 & m & e1 & us & H1 & H2 & H3 & H4 & HU). destruct (stores_at wl _ _ HU) as (kbs & HK & ES). exists kbs. split; [exact HK|]. rewrite ES.
  assert (Em : comp_ins y = [m]). { pose proof (seat_kind _ _ _ _ _ _ _ _ _ _ _ _ _ D _ _ Hy) as Hk. destruct y; try (destruct Ht; congruence); cbn [comp_ins] in *; match goal with |- in_of ?q = _ => destruct q as [[]|]; cbn in *; try contradiction end; destruct H2 as [<-|[]]; reflexivity. }
  pose proof (got_target _ _ _ _ _ _ _ _ _ _ _ _ _ D l x y m ms Hy Hoc Em HG) as Htg.
  destruct (prepared_shape sh cwd vars c w cs Hf Hgc Hpr Hpa Hap) as (HN & HR & HP & _). pose proof (prepared_overseen _ cwd vars _ _ _ Hf Hgc Hpr) as HO.
  destruct (P_Delay.delays net cs w0 l wl ocs HN HO HR HX) as (w' & ocs' & HX' & _ & HWW). rewrite <- (ld_net _ _ _ _ _ _ _ _ _ _ _ _ _ D) in H4.
  assert (H8 : forall n, In n (flat_map comp_outs (map plain_comp net)) -> exists q, w0 (CData n) = fresh_chan (Some q) /\ q <= 8).
  { intros n Hn. apply in_flat_map in Hn as (z & Hz & Hn). apply in_map_iff in Hz as (z0 & <- & Hz). rewrite plain_outs in Hn. exists (comp_size z0). split; [exact (mw_outs _ _ (fr_made _ _ _ _ _ _ HX) _ _ Hz Hn)|exact (small sh cwd vars c w cs Hf Hgc Hpr z0 Hz)]. }
  destruct (sent_pens _ _ _ _ _ _ _ _ _ _ _ _ _ D l s ks n1 H1 HS) as (kz & z & t & K1 & K2 & K3 & K4 & ->).
  assert (K5 : nth_error (map plain_comp net) kz = Some z) by (rewrite nth_error_map, K1; cbn; now rewrite K2).
  assert (Hin : In n1 (flat_map comp_outs (map plain_comp net))).
  { destruct (chan_seat c2 cwd vars _ (ld_written _ _ _ _ _ _ _ _ _ _ _ _ _ D) (fab _ _ _ _ _ _ _ _ _ _ _ _ _ D) _ _ H1) as (zz & Hzz & Hon). apply in_flat_map. exists zz. split; [|exact Hon]. rewrite (ld_net _ _ _ _ _ _ _ _ _ _ _ _ _ D). exact (seat_net _ _ _ _ _ Hzz). }
  pose proof (behind _ w0 HN (polite_plain _ HP) _ _ _ HX' (willing_data _ _ HW) H8 _ _ _ _ H4 Hin) as H5. assert (EW : map (fun u => Datatypes.S (List.length (cs_queue (w' (CData u))))) us = map (fun u => Datatypes.S (List.length (cs_queue (wl (CData u))))) us) by (apply map_ext; intro u; rewrite (HWW (CData u) eq_refl); reflexivity). rewrite EW in H5.
  pose proof (target_near _ w0 HN _ _ _ HX' (willing_data _ _ HW) _ _ (got_there net cs w0 l wl ocs HN HX _ _ Htg)) as H6.
  rewrite <- (put_gone _ w0 HN _ _ _ HX' kz z t n1 K5 K3 K4) in H5. rewrite (own_same net cs w0 l wl ocs HN HX kz z t K1 K2 K3) in H5. lia.
Qed.
(** With every store behind its own regulator. *)
Hypothesis Hnd : NoDup (keys (cf_regulator c)).
Theorem on_the_way_guarded w0 l wl ocs s x h bs ks ms m : free_run net cs w0 l wl ocs -> willing l -> fst x = CDrain \/ fst x = CLaunch -> leads_over ps s x h bs -> Forall (guarded c m) bs -> has_sent c w cwd vars l s ks -> has_got c w cwd vars l x ms ->
  List.length ks <= List.length ms + h + List.length bs * (m + 29).
Proof.
  intros HX HW Ht HL HG HS Hgt. destruct (on_the_way w0 l wl ocs s x h bs ks ms HX HW Ht HL HS Hgt) as (kbs & HK & H).
  assert (HB : in_stores net kbs wl <= List.length bs * (m + 29)); [|lia]. clear - HK HG HX Hf Hgc Hpr Hnd Hpa Hap. induction HK as [|b k bs kbs Hb _ IH]; [cbn; lia|]. inversion HG as [|? ? (n & low & high & bs' & G1 & G2 & G3 & G4) HG']; subst.
  specialize (IH HG'). pose proof (P_Straight.regulated_bounded sh cwd vars c w cs Hf Hgc Hpr Hnd Hpa Hap n low high bs' b k G1 G2 G3 Hb w0 l wl ocs HX) as HR. unfold in_stores, list_sum in *. cbn [map fold_right List.length] in *. lia.
Qed.
End Run.
