(** * P_Ahead: who comes before whom, in the connections and in the network *)
From Coq Require Import Ascii String List Bool Arith ZArith Lia Permutation Relations.
From Verif Require Import M_Prog M_Motion M_Connectable M_Config M_Manip M_Faucet M_Launch M_Junction M_Buffer M_Drain M_Regulator M_Manager M_Lint M_Waiter M_Join M_Poll S_Trace S_Motion S_World S_Network S_Net S_Regulator S_Buffer M_Start S_Start S_Grammar S_Manip S_Waiter S_Shape S_Watch S_Lasting P_Text P_Map P_Pair P_Junctions P_Junctions2 P_Manip P_Cell P_Wire P_Build P_Ready P_WaiterExamples P_Errors P_Top P_Made P_Whole P_Rounds P_Shape P_Watch P_WatchRun P_WatchMarks P_WatchConfig.
From Verif Require P_NetCost.
Import ListNotations.
Local Open Scope list_scope.

Lemma tagged_buffer b bf l : forall n, In (b, bf) l -> exists u mi mo, In ((CBuffer, b), NBuffer bf u mi mo) (tag_buffers n l).
Proof. induction l as [|[k x] l IH]; intros n H; [destruct H|]. cbn [tag_buffers]. destruct H as [[= -> ->]|H]; [eexists _, _, _; now left|]. destruct (IH (2 + n) H) as (u & mi & mo & Hin). exists u, mi, mo. now right. Qed.
Lemma path_rank (m : connmap) (rank0 : component -> nat) a b : (forall a b, followed_by m a b -> rank0 a < rank0 b) -> clos_trans _ (followed_by m) a b -> rank0 a < rank0 b.
Proof. intros H C. induction C as [x y Hxy|x y z _ IH1 _ IH2]; [auto|lia]. Qed.

Section Ahead.
Variables (sh : shuffles) (cwd : option string) (vars : list (string * string)) (c : config) (w : waiter) (cs : list capture).
Hypothesis Hf : S_Manip.fair sh.
Hypothesis Hgc : good_connections (cf_connection c).
Hypothesis Hpr : prepares sh c w cs.
Hypothesis Hpa : passing (cf_connection c).
Hypothesis Hno : no_loop (cf_connection c).
Notation net := (net_of cwd vars w).

Lemma uncontrolled f s : In (NFaucet f s) net -> fc_control f = None.
Proof.
  destruct (prepared_grown sh c w cs Hf Hgc Hpr) as (c2 & out & w1 & _ & _ & _ & U & _ & G & _). unfold net_of. rewrite !in_app_iff, !in_map_iff. intros [(x & E & _)|[(x & E & _)|[(x & E & H)|[(x & E & _)|[H|(x & E & _)]]]]]; try discriminate E.
  - injection E as <- _. rewrite (gr_faucet _ _ _ _ G) in H. destruct x as [n f0]. exact (un_faucet _ U _ _ H).
  - exfalso. revert H. generalize (w_channels w). induction (w_buffer w) as [|[k b] l IH]; intros n H; [destruct H|]. destruct H as [E|H]; [discriminate E|exact (IH _ H)].
Qed.
Lemma placed : exists (rank0 : component -> nat) (rank : nat -> nat),
  (forall a b, followed_by (cf_connection c) a b -> rank0 a < rank0 b) /\
  (forall k x k' x' n, nth_error net k = Some x -> nth_error net k' = Some x' -> In n (comp_outs x) -> In n (comp_ins x') -> rank k < rank k') /\
  (forall n r k, is_mentioned (cf_connection c) (CRegulator, n) -> lookup n (w_regulator w) = Some r -> nth_error net k = Some (NRegulator r) -> rank k = 3 * rank0 (CRegulator, n)) /\
  (forall n b k u mi mo, is_mentioned (cf_connection c) (CBuffer, n) -> lookup n (w_buffer w) = Some b -> nth_error net k = Some (NBuffer b u mi mo) -> rank k = 3 * rank0 (CBuffer, n)).
Proof.
  destruct (prepared_grown sh c w cs Hf Hgc Hpr) as (c2 & out & w1 & Ep & Ew & Hw & U & K & G & _). pose proof (plain_net cwd vars w1 w _ _ U G) as EN.
  destruct (process_prepared _ _ _ _ Hf Hgc Ep) as [E _]. destruct Hgc as [_ Hg].
  destruct (prepare sh c Hf Hg) as (c' & p & r & E' & P). rewrite E in E'. injection E' as <- _.
  destruct (paired _ Hg) as (m1 & p' & added & E1 & E2 & Ho & Hp & Hpo & Hi & Hr & Hch). destruct (pr_paired _ _ _ _ _ P) as (m1' & E1' & E2'). rewrite E1 in E1'. injection E1' as <-. rewrite E2 in E2'. injection E2' as <-.
  destruct (junctions sh p' Hf Ho Hp) as (js & je & ks & r' & Ej & B & Hjs & Hje). rewrite (pr_joined _ _ _ _ _ P) in Ej. injection Ej as <-.
  destruct (proj2 (proj2 (get_waiter_exact c2 Hw)) w1 Ew) as [Hbl _]. destruct (made_fabric c2 w1 Hw Ew) as [F0 Hn0]. pose proof (more_fabric _ _ _ (w_channels w) F0) as F.
  pose proof (gr_more _ _ _ _ G) as Hle. assert (Hn : List.length (links (cf_connection c2)) <= w_channels (set_channels w1 (w_channels w))) by (rewrite <- Hn0; exact Hle). set (w2 := set_channels w1 (w_channels w)) in *.
  pose proof (shape_linked sh c c2 p' r m1 added js je ks Ho P Hpo Hi Hr Hch B Hje Hbl Hpa (loops_apart _ (no_loop_buffered _ Hno))) as L.
  pose proof (follow_edge _ _ _ _ Hpo Ho Hi Hr Hch) as Hfol. pose proof (made_wired c2 cwd vars w2 Hw F Hn L) as HN.
  destruct (arcs_rank _ p' (fun _ => false) Ho Hfol) as (rank0 & H0).
  { intros a Ha. apply (Hno a). refine (clos_more _ _ _ _ _ Ha). intros x y [Hxy _]. exact Hxy. }
  pose proof (shape_rank sh c c2 p' r m1 added js je ks Ho P Hpo Hi Hr Hch B Hje Hbl (fun _ => false) rank0 H0) as HR.
  set (rk := rank1 p' js je (fun _ => false) rank0) in *. exists rank0, (fun k => rk (name_at cwd vars w2 k)).
  assert (Hold : forall x, is_mentioned (cf_connection c) x -> fst x <> CDrain -> rk x = 3 * rank0 x).
  { intros x Hx Hd. eapply old_rank; [exact B| |exact Hd]. exact (mentioned_occurs _ _ _ _ Hg Hpo Ho Hi Hr Hch x Hx). }
  assert (Hnth : forall k x, nth_error net k = Some x -> In (name_at cwd vars w2 k, plain_comp x) (seated cwd vars w2)) by (intros k x H; apply name_seat; rewrite <- EN; now apply map_nth_error).
  assert (Hsame : forall d d' x x' i, In (d, x) (seated cwd vars w2) -> In (d', x') (seated cwd vars w2) -> In i (comp_ins x) -> comp_ins x' = comp_ins x -> d = d').
  { intros d d' x x' i Hd Hd' Hx Ex. pose proof Hx as Hx'. rewrite <- Ex in Hx'. apply (seat_in c2 cwd vars w2 F _ _ _ Hd) in Hx as (l1 & A1 & <-). apply (seat_in c2 cwd vars w2 F _ _ _ Hd') in Hx' as (l2 & A2 & <-).
    pose proof (same_kept fst _ (numbers_once c2 w2 Hn) _ _ A1 A2 eq_refl) as EE. now injection EE as <-. }
  split; [intros a b Hab; exact (H0 a b Hab eq_refl)|]. split; [|split].
  - intros k x k' x' n Hk Hk' A1 A2. rewrite <- plain_outs in A1. rewrite <- plain_ins in A2. assert (Hk2 := map_nth_error plain_comp _ _ Hk). assert (Hk2' := map_nth_error plain_comp _ _ Hk'). rewrite EN in Hk2, Hk2'.
    destruct (between c2 cwd vars w2 F Hn k _ k' _ n Hk2 Hk2' A1 A2) as (l & Hl & <- & <-). exact (HR l Hl eq_refl).
  - intros n rg k Hm Hlk Hk. rewrite <- (Hold _ Hm ltac:(discriminate)). f_equal. pose proof (Hnth _ _ Hk) as Hs.
    assert (Hs' : In ((CRegulator, n), NRegulator (reg_plain rg)) (seated cwd vars w2)).
    { unfold seated. rewrite !in_app_iff. right. left. unfold tag. apply in_map_iff. apply lookup_in in Hlk. assert (Hin : In (n, reg_plain rg) (map (fun x => (fst x, reg_plain (snd x))) (w_regulator w1))) by (rewrite <- (gr_regulator _ _ _ _ G); apply in_map_iff; exists (n, rg); auto).
      apply in_map_iff in Hin. destruct Hin as ([n1 r1] & EE & Hin). cbn [fst snd] in EE. injection EE as -> E3 E4 E5 E6. exists (n, r1). split; [|exact Hin]. cbn [fst snd]. unfold reg_plain. rewrite <- E3, <- E4, <- E5, <- E6. pose proof (un_regulator _ U _ _ Hin) as EU. destruct r1; cbn in *. now rewrite EU. }
    assert (HRd : comp_ready (NRegulator (reg_plain rg))) by (apply (nw_ready _ HN); apply (in_net cwd vars w2); eauto).
    destruct HRd as (_ & pj & i & j & o & (_ & Ein & _)). eapply (Hsame _ _ _ _ i); [exact Hs|exact Hs'| |reflexivity]. cbn [plain_comp comp_ins]. cbn [rg_stdin] in *. cbn in Ein |- *. rewrite Ein. now left.
  - intros n bf k u mi mo Hm Hlk Hk. rewrite <- (Hold _ Hm ltac:(discriminate)). f_equal. pose proof (Hnth _ _ Hk) as Hs.
    assert (Hs' : exists u' mi' mo', In ((CBuffer, n), NBuffer (buf_plain bf) u' mi' mo') (seated cwd vars w2)).
    { apply lookup_in in Hlk. assert (Hin : In (n, buf_plain bf) (map (fun x => (fst x, buf_plain (snd x))) (w_buffer w1))) by (rewrite <- (gr_buffer _ _ _ _ G); apply in_map_iff; exists (n, bf); auto).
      apply in_map_iff in Hin. destruct Hin as ([n1 r1] & EE & Hin). cbn [fst snd] in EE. injection EE as -> E3 E4 E5. assert (buf_plain bf = r1) as ->.
      { unfold buf_plain. rewrite <- E3, <- E4, <- E5. pose proof (un_buffer _ U _ _ Hin) as EU. destruct r1; cbn in *. now rewrite EU. }
      destruct (tagged_buffer n r1 (w_buffer w2) (w_channels w2) Hin) as (u' & mi' & mo' & H'). exists u', mi', mo'. unfold seated. rewrite !in_app_iff. auto 10. }
    destruct Hs' as (u' & mi' & mo' & Hs').
    assert (HRd : comp_ready (plain_comp (NBuffer bf u mi mo))) by (apply (nw_ready _ HN); apply (in_net cwd vars w2); eauto).
    destruct HRd as (_ & pj & i & j & o & (Ein & _)). eapply (Hsame _ _ _ _ i); [exact Hs|exact Hs'| |reflexivity]. cbn in Ein |- *. rewrite Ein. now left.
Qed.

Hypothesis Hnd : NoDup (keys (cf_regulator c)).
Hypothesis Hwa : watches_ahead c.
Theorem prepared_ahead : exists rank : nat -> nat,
  (forall k x k' x' n, nth_error net k = Some x -> nth_error net k' = Some x' -> In n (comp_outs x) -> In n (comp_ins x') -> rank k < rank k') /\
  (forall m cp k x k' x' s, nth_error cs m = Some cp -> nth_error net k = Some x -> In (rc_control (cp_control cp)) (comp_control x) -> In s (cp_monitors cp) -> nth_error net k' = Some x' -> In s (comp_monitor x') -> rank k < rank k').
Proof.
  destruct placed as (rank0 & rank & H0 & H1 & H2 & H3). exists rank. split; [exact H1|]. intros m cp k x k' x' s Hm Hk Hx Hs Hk' Hs'.
  pose proof (prepared_overseen sh cwd vars c w cs Hf Hgc Hpr) as HO. destruct (settled_facts sh c w cs Hf Hgc Hnd Hpr) as (l & Hn & HF & HL).
  destruct (forall2_nth_r _ _ _ _ _ HF Hm) as ([n st] & El & (_ & _ & (r & Er & Ec & _) & HB)). cbn [fst snd] in *. assert (HS : set_to_watch c n (st_low st) (st_high st) (st_buffers st)) by (apply HL; apply in_lookup; [exact Hn|exact (nth_error_In _ _ El)]).
  destruct (In_nth_error _ _ (regulator_in cwd vars w _ _ Er)) as (j & Hj). assert (k = j) as -> by (eapply (P_NetCost.nth_unique comp_control net _ _ _ _ (rc_control (cp_control cp)) (one_control _ _ HO) Hk Hj Hx); cbn; rewrite Ec; now left).
  destruct (In_nth_error _ _ Hs) as (i & Hi). destruct (forall2_nth_r _ _ _ _ _ HB Hi) as (b & Hb & bf & Eb & Em). destruct (buffer_in cwd vars w _ _ Eb) as (u & mi & mo & Hin). destruct (In_nth_error _ _ Hin) as (j' & Hj').
  assert (k' = j') as -> by (eapply (P_NetCost.nth_unique comp_monitor net _ _ _ _ s (one_monitor _ _ HO) Hk' Hj' Hs'); cbn; rewrite Em; now left).
  assert (HMb : is_mentioned (cf_connection c) (CBuffer, b)).
  { destruct Hpr as (c2 & out & w1 & Ep & _). destruct (process_keeps _ _ _ _ Hf Hgc Ep) as (_ & _ & _ & HK). destruct HS as (_ & rc & Hrc & _ & Ebs). apply (HK n rc b Hrc). rewrite Ebs. exact (nth_error_In _ _ Hb). }
  rewrite (H2 n r j (proj1 HS) Er Hj), (H3 b bf j' u mi mo HMb Eb Hj'). pose proof (path_rank _ rank0 _ _ H0 (Hwa _ _ _ _ _ HS (nth_error_In _ _ Hb) HMb)). lia.
Qed.
End Ahead.
