(** * P_Straight: what is written next to each other and nowhere else is connected directly *)
From Coq Require Import Ascii String List Bool Arith ZArith Lia Permutation Relations.
From Verif Require Import M_Prog M_Motion M_Connectable M_Config M_Manip M_Faucet M_Launch M_Junction M_Buffer M_Drain M_Regulator M_Manager M_Lint M_Waiter M_Join M_Poll S_Trace S_Motion S_World S_Network S_Net S_Regulator S_Buffer M_Start S_Start S_Grammar S_Manip S_Waiter S_Shape S_Watch S_Lasting P_Text P_Map P_Pair P_Junctions P_Junctions2 P_Manip P_Cell P_Wire P_Build P_Ready P_WaiterExamples P_Errors P_Top P_Made P_Whole P_Rounds P_Shape P_Watch P_WatchRun P_WatchMarks P_WatchConfig S_Bounded P_Ahead P_Bounded.
From Verif Require P_NetCost.
Import ListNotations.
Local Open Scope list_scope.

(** ** Places and names *)
Lemma nth_combine {A B} (xs : list A) : forall (ys : list B) x y, In (x, y) (combine xs ys) -> exists i, nth_error xs i = Some x /\ nth_error ys i = Some y.
Proof. induction xs as [|a xs IH]; intros [|b ys] x y H; try contradiction H. destruct H as [[= <- <-]|H]; [now exists 0|]. destruct (IH _ _ _ H) as (i & H1 & H2). now exists (S i). Qed.
Lemma nth_forall2 {A B} (R : A -> B -> Prop) xs ys : Forall2 R xs ys -> forall i y, nth_error ys i = Some y -> exists x, nth_error xs i = Some x /\ R x y.
Proof. induction 1 as [|x y xs ys H1 H2 IH]; intros [|i] z Hz; try discriminate Hz; [injection Hz as <-; exists x; auto|]. exact (IH i z Hz). Qed.
Lemma places m added : pairs_of m added -> NoDup (keys m) -> exists f : string -> nat -> string,
  forall k d, In (k, d) added -> exists k0 l i ab, In (k0, Connections l) m /\ nth_error (neighbours l) i = Some ab /\ pair_of ab d /\ k = f k0 i.
Proof.
  induction 1 as [|k l m ns ps rest Hs Hf Hlen Hp IH]; intro Hn; [exists (fun _ _ => EmptyString); intros k d []|]. cbn in Hn. apply NoDup_cons_iff in Hn. destruct Hn as [Hk Hn]. destruct (IH Hn) as (f & Hfo).
  exists (fun k0 i => if string_dec k0 k then nth i (map (numbered k) ns) EmptyString else f k0 i). intros k1 d Hin. apply in_app_iff in Hin as [Hin|Hin].
  - apply nth_combine in Hin. destruct Hin as (i & H1 & H2). destruct (nth_forall2 _ _ _ Hf _ _ H2) as (ab & H3 & H4). exists k, l, i, ab. split; [now left|]. split; [exact H3|]. split; [exact H4|].
    destruct (string_dec k k) as [_|D]; [|contradiction]. symmetry. exact (nth_error_nth _ _ _ H1).
  - destruct (Hfo _ _ Hin) as (k0 & l0 & i & ab & H1 & H2 & H3 & ->). exists k0, l0, i, ab. split; [now right|]. split; [exact H2|]. split; [exact H3|].
    destruct (string_dec k0 k) as [->|D]; [|reflexivity]. exfalso. apply Hk. unfold keys. apply in_map_iff. eexists; split; [|exact H1]. reflexivity.
Qed.
(** Every connection that is made has a place, and there is one connection for a place. *)
Lemma placed_edges m m1 p added : pairs_of m1 added -> NoDup (keys m1) -> ordered p -> (forall k d, In (k, d) p <-> In (k, d) added) -> (forall k l, In (k, Connections l) m1 <-> reads m k l) ->
  exists f : string -> nat -> string, forall k e, edge_at p k = Some e -> exists k0 i, at_place m k0 i (fst (e_src e)) (e_dst e) /\ k = f k0 i.
Proof.
  intros Hp Hn Ho Hi Hr. destruct (places _ _ Hp Hn) as (f & Hfo). exists f. intros k e He. unfold edge_at in He. destruct (lookup k p) as [d|] eqn:El; [|discriminate]. apply lookup_in in El. apply Hi in El.
  destruct (Hfo _ _ El) as (k0 & l & i & [x y] & Hk & Hab & (x' & y' & -> & (o & Eo & ->) & (j & Ei & ->)) & ->). cbn [fst snd] in *. cbn in He. injection He as <-. exists k0, i. split; [|reflexivity].
  exists l, x, y. split; [now apply Hr|]. auto.
Qed.
Lemma straight_once m m1 p added a b : pairs_of m1 added -> NoDup (keys m1) -> ordered p -> (forall k d, In (k, d) p <-> In (k, d) added) -> (forall k l, In (k, Connections l) m1 <-> reads m k l) ->
  straight m a b -> (forall k1 k2 e1 e2, edge_at p k1 = Some e1 -> edge_at p k2 = Some e2 -> (fst (e_src e1) = a \/ e_dst e1 = b) -> (fst (e_src e2) = a \/ e_dst e2 = b) -> k1 = k2).
Proof.
  intros Hp Hn Ho Hi Hr (k & i & _ & HS) k1 k2 e1 e2 H1 H2 A1 A2. destruct (placed_edges _ _ _ _ Hp Hn Ho Hi Hr) as (f & Hfo).
  destruct (Hfo _ _ H1) as (q1 & i1 & P1 & ->). destruct (Hfo _ _ H2) as (q2 & i2 & P2 & ->). destruct (HS _ _ _ _ P1 A1) as [-> ->]. destruct (HS _ _ _ _ P2 A2) as [-> ->]. reflexivity.
Qed.

Lemma from_true s e : from s e = true -> e_src e = s.
Proof. unfold from. destruct (source_eqb_spec s (e_src e)); congruence. Qed.
Lemma into_true x e : into x e = true -> e_dst e = x.
Proof. unfold into. destruct (component_eqb_spec x (e_dst e)); congruence. Qed.

Section Straight.
Variables (sh : shuffles) (cwd : option string) (vars : list (string * string)) (c : config) (w : waiter) (cs : list capture).
Hypothesis Hf : S_Manip.fair sh.
Hypothesis Hgc : good_connections (cf_connection c).
Hypothesis Hpr : prepares sh c w cs.
Notation net := (net_of cwd vars w).

Lemma made_size (x : S_Net.comp) : In x net -> (forall r, x = NRegulator r -> rg_stdout_size r = 8) /\ (forall b u mi mo, x = NBuffer b u mi mo -> bf_stdout_size b = 8).
Proof.
  intro Hx. destruct (prepared_grown sh c w cs Hf Hgc Hpr) as (c2 & out & w1 & Ep & Ew & Hw & U & K & G & _). pose proof (plain_net cwd vars w1 w _ _ U G) as EN. destruct (made_fabric c2 w1 Hw Ew) as [F0 Hn0]. pose proof (more_fabric _ _ _ (w_channels w) F0) as F.
  apply (in_map plain_comp) in Hx. rewrite EN in Hx. apply in_net in Hx as (d & H). destruct (seated_plays _ _ _ _ _ (fb_once _ _ _ F) H) as (y & Hy & Hp). pose proof (fb_bare _ _ _ F _ _ Hy) as Hb. pose proof (get_type _ _ _ Hy) as Ht.
  split.
  - intros r ->. destruct d as [t k]. cbn [fst] in Ht. subst t. destruct y as [f|l|j|b|dr|r0]; cbn [plays cell_type fresh bare fst snd plain_comp] in *; try discriminate Hp; [destruct Hp as (u & _ & [=])|]. injection Hp as <-. injection Hb; intros; assumption.
  - intros b u mi mo ->. destruct d as [t k]. cbn [fst] in Ht. subst t. destruct y as [f|l|j|b0|dr|r0]; cbn [plays cell_type fresh bare fst snd plain_comp] in *; try discriminate Hp. destruct Hp as (u' & _ & [= <-]). injection Hb; intros; assumption.
Qed.
Lemma straight_leads n b r k bf u mi mo kb : straight (cf_connection c) (CRegulator, n) (CBuffer, b) -> lookup n (w_regulator w) = Some r -> nth_error net k = Some (NRegulator r) ->
  lookup b (w_buffer w) = Some bf -> nth_error net kb = Some (NBuffer bf u mi mo) -> exists o, In o (comp_outs (NRegulator r)) /\ In o (comp_ins (NBuffer bf u mi mo)).
Proof.
  intros HS Hr0 Hk Hb0 Hkb. destruct (prepared_grown sh c w cs Hf Hgc Hpr) as (c2 & out & w1 & Ep & Ew & Hw & U & K & G & _). destruct Hgc as [Hor Hg].
  destruct (process_prepared _ _ _ _ Hf Hgc Ep) as [E _]. destruct (prepare sh c Hf Hg) as (c' & p & rr & E' & P). rewrite E in E'. injection E' as <- _.
  destruct (convert_good _ Hg) as (m1 & E1 & Hch & Hkeys & Hr). destruct (pair_up_spec m1 Hch) as (p' & added & E2 & Ho & Hpo & _ & Hi).
  destruct (pr_paired _ _ _ _ _ P) as (m1' & E1' & E2'). rewrite E1 in E1'. injection E1' as <-. rewrite E2 in E2'. injection E2' as <-.
  assert (Hp : all_pairs p').
  { apply Forall_forall. intros [q d] Hin. apply Hi in Hin. pose proof (pairs_all _ _ Hpo) as Ha. unfold all_pairs in Ha. rewrite Forall_forall in Ha. exact (Ha _ Hin). }
  destruct (junctions sh p' Hf Ho Hp) as (js & je & ks & r' & Ej & B & Hjs & Hje). rewrite (pr_joined _ _ _ _ _ P) in Ej. injection Ej as <-.
  destruct (made_fabric c2 w1 Hw Ew) as [F0 Hn0]. pose proof (more_fabric _ _ _ (w_channels w) F0) as F. set (w2 := set_channels w1 (w_channels w)) in *.
  assert (Hnk : NoDup (keys m1)) by (rewrite Hkeys; exact (ordered_nodup _ Hor)). pose proof (straight_once _ _ _ _ _ _ Hpo Hnk Ho Hi Hr HS) as H1.
  assert (HE : exists q e, edge_at p' q = Some e /\ fst (e_src e) = (CRegulator, n) /\ e_dst e = (CBuffer, b)).
  { destruct HS as (q & i & (l & x & y & Hl & Hxy & Ex & Ey) & _). apply (follow_edge _ _ _ _ Hpo Ho Hi Hr Hch). exists q, l, x, y. split; [exact Hl|]. split; [exact (nth_error_In _ _ Hxy)|]. auto. }
  destruct HE as (q & e & He & Es & Ed).
  assert (Ejs : js (e_src e) = None).
  { destruct (js (e_src e)) eqn:EE; [|reflexivity]. exfalso. assert (HX : js (e_src e) <> None) by congruence. apply Hjs in HX. apply count_two in HX; [|exact (ordered_nodup _ Ho)]. destruct HX as (k1 & k2 & e1 & e2 & D & X1 & X2 & Y1 & Y2).
    apply D. apply (H1 k1 k2 e1 e2 X1 X2); left; [apply from_true in Y1|apply from_true in Y2]; congruence. }
  assert (Eje : je (e_dst e) = None).
  { destruct (je (e_dst e)) eqn:EE; [|reflexivity]. exfalso. assert (HX : je (e_dst e) <> None) by congruence. apply Hje in HX. apply count_two in HX; [|exact (ordered_nodup _ Ho)]. destruct HX as (k1 & k2 & e1 & e2 & D & X1 & X2 & Y1 & Y2).
    apply D. apply (H1 k1 k2 e1 e2 X1 X2); right; [apply into_true in Y1|apply into_true in Y2]; congruence. }
  pose proof (bt_kept _ _ _ _ _ B _ _ He) as H2. unfold via_src, via_dst in H2. rewrite Ejs, Eje in H2. apply (kept_edges _ _ _ _ _ P) in H2.
  assert (HL : In (elink e) (links (cf_connection c2))) by (apply (in_links _ (pr_pairs _ _ _ _ _ P) (pr_ordered _ _ _ _ _ P)); exists q; eexists; split; [exact H2|]; destruct e; reflexivity).
  destruct (numbered_one c2 _ HL) as (o & HO). exists o.
  assert (Hs' : In ((CRegulator, n), NRegulator (reg_plain r)) (seated cwd vars w2)).
  { unfold seated. rewrite !in_app_iff. right. left. unfold tag. apply in_map_iff. apply lookup_in in Hr0. assert (Hin : In (n, reg_plain r) (map (fun x => (fst x, reg_plain (snd x))) (w_regulator w1))) by (rewrite <- (gr_regulator _ _ _ _ G); apply in_map_iff; exists (n, r); auto).
    apply in_map_iff in Hin. destruct Hin as ([n1 r1] & EE & Hin). cbn [fst snd] in EE. injection EE as -> E3 E4 E5 E6. exists (n, r1). split; [|exact Hin]. cbn [fst snd]. unfold reg_plain. rewrite <- E3, <- E4, <- E5, <- E6. pose proof (un_regulator _ U _ _ Hin) as EU. destruct r1; cbn in *. now rewrite EU. }
  assert (Hs2 : exists u' mi' mo', In ((CBuffer, b), NBuffer (buf_plain bf) u' mi' mo') (seated cwd vars w2)).
  { apply lookup_in in Hb0. assert (Hin : In (b, buf_plain bf) (map (fun x => (fst x, buf_plain (snd x))) (w_buffer w1))) by (rewrite <- (gr_buffer _ _ _ _ G); apply in_map_iff; exists (b, bf); auto).
    apply in_map_iff in Hin. destruct Hin as ([n1 r1] & EE & Hin). cbn [fst snd] in EE. injection EE as -> E3 E4 E5. assert (buf_plain bf = r1) as ->.
    { unfold buf_plain. rewrite <- E3, <- E4, <- E5. pose proof (un_buffer _ U _ _ Hin) as EU. destruct r1; cbn in *. now rewrite EU. }
    destruct (tagged_buffer b r1 (w_buffer w2) (w_channels w2) Hin) as (u' & mi' & mo' & H'). exists u', mi', mo'. unfold seated. rewrite !in_app_iff. auto 10. }
  destruct Hs2 as (u' & mi' & mo' & Hs2). split.
  - apply (seat_out c2 cwd vars w2 F _ _ o Hs'). exists (elink e). split; [exact HO|exact Es].
  - apply (seat_in c2 cwd vars w2 F _ _ o Hs2). exists (elink e). split; [exact HO|exact Ed].
Qed.

Hypothesis Hnd : NoDup (keys (cf_regulator c)).
Hypothesis Hpa : passing (cf_connection c).
Hypothesis Hap : apart (cf_connection c).
Theorem regulated_bounded n low high bs b kb : set_to_watch c n low high bs -> In b bs -> straight (cf_connection c) (CRegulator, n) (CBuffer, b) -> buffer_at cwd vars w b kb ->
  forall w0 l wl ocs, free_run net cs w0 l wl ocs -> stored net kb wl <= Nat.max (S low) high + 28.
Proof.
  intros HS Hb Hst (bf & u & mi & mo & Hlb & Hkb) w0 l wl ocs HX.
  destruct (prepared_shape _ cwd vars _ _ _ Hf Hgc Hpr Hpa Hap) as (HN & _). pose proof (prepared_overseen sh cwd vars c w cs Hf Hgc Hpr) as HO. destruct (settled_facts sh c w cs Hf Hgc Hnd Hpr) as (ls & Hn & HF & HL).
  assert (El : lookup n ls = Some (Settings low high bs)) by (apply HL; exact HS). destruct (lookup_nth _ _ _ El) as (m & Em).
  destruct (forall2_nth _ _ _ _ _ HF Em) as (cp & Hm & (E1 & E2 & (r & Er & Ec & _) & HB)). cbn [fst snd st_low st_high st_buffers] in *.
  destruct (In_nth_error _ _ (regulator_in cwd vars w _ _ Er)) as (k & Hk). destruct (In_nth_error _ _ Hb) as (i & Hi). destruct (forall2_nth _ _ _ _ _ HB Hi) as (s & Hs & bf' & Eb & Emo). rewrite Hlb in Eb. injection Eb as <-.
  destruct (straight_leads n b r k bf u mi mo kb Hst Er Hk Hlb Hkb) as (o & Ho1 & Ho2).
  pose proof (bounded net cs w0 HN HO m cp k r kb bf u mi mo s o Hm Hk ltac:(cbn; rewrite Ec; now left) Hkb Emo (nth_error_In _ _ Hs) Ho1 Ho2 l wl ocs HX) as H.
  rewrite E1, E2 in H. destruct (made_size _ (nth_error_In _ _ Hk)) as [M1 _]. destruct (made_size _ (nth_error_In _ _ Hkb)) as [_ M2]. rewrite (M1 _ eq_refl), (M2 _ _ _ _ eq_refl) in H.
  unfold stored. rewrite Hkb. lia.
Qed.
End Straight.
