(** * P_SoftConfig: when every pipe as written gives way, what is built gives way *)
From Coq Require Import Ascii String List Bool Arith ZArith Lia Permutation Relations.
From Verif Require Import M_Prog M_Motion M_Connectable M_Config M_Manip M_Faucet M_Launch M_Junction M_Buffer M_Drain M_Regulator M_Manager M_Lint M_Waiter M_Join M_Poll S_Trace S_Motion S_World S_Network S_Net S_Regulator S_Buffer M_Start S_Start S_Grammar S_Manip S_Waiter S_Shape S_Watch S_Lasting P_Text P_Map P_Pair P_Junctions P_Junctions2 P_Manip P_Cell P_Wire P_Build P_Ready P_WaiterExamples P_Errors P_Top P_Made P_Whole P_Rounds P_Shape P_Watch P_WatchRun P_WatchMarks P_WatchConfig S_Bounded P_Ahead P_Bounded P_Straight S_Soft P_Soft P_SoftRun.
Import ListNotations.
Local Open Scope list_scope.

Lemma outs_got w d y : get_cell w d = Some y -> outs w d = cell_outs y.
Proof.
  destruct d as [[] n]; unfold get_cell, outs; cbn [fst snd]; destruct (lookup n _) as [v|]; try discriminate; intros [= <-]; cbn [opt flat_map cell_outs]; rewrite ?app_nil_r; reflexivity.
Qed.
Lemma plain_gives_way x : comp_gives_way (plain_comp x) -> comp_gives_way x.
Proof. destruct x; cbn; auto. Qed.

Section Soft.
Variables (sh : shuffles) (cwd : option string) (vars : list (string * string)) (c : config) (w : waiter) (cs : list capture).
Hypothesis Hf : S_Manip.fair sh.
Hypothesis Hgc : good_connections (cf_connection c).
Hypothesis Hpr : prepares sh c w cs.
Hypothesis Hso : giving_way (cf_connection c).
Notation net := (net_of cwd vars w).

Lemma soft_links c2 out l : process_config sh c = Good (Ok c2, out) -> In l (links (cf_connection c2)) -> ip_breakable (lk_in l) = Terminate -> fst (lk_src l) = CLaunch /\ lk_port l = PExit.
Proof.
  intros Ep Hl Hb. destruct Hgc as [Hor Hg].
  destruct (process_prepared _ _ _ _ Hf Hgc Ep) as [E _]. destruct (prepare sh c Hf Hg) as (c' & p & rr & E' & P). rewrite E in E'. injection E' as <- _.
  destruct (convert_good _ Hg) as (m1 & E1 & Hch & Hkeys & Hr). destruct (pair_up_spec m1 Hch) as (p' & added & E2 & Ho & Hpo & _ & Hi).
  destruct (pr_paired _ _ _ _ _ P) as (m1' & E1' & E2'). rewrite E1 in E1'. injection E1' as <-. rewrite E2 in E2'. injection E2' as <-.
  assert (Hp : all_pairs p').
  { apply Forall_forall. intros [q d] Hin. apply Hi in Hin. pose proof (pairs_all _ _ Hpo) as Ha. unfold all_pairs in Ha. rewrite Forall_forall in Ha. exact (Ha _ Hin). }
  apply (in_links _ (pr_pairs _ _ _ _ _ P) (pr_ordered _ _ _ _ _ P)) in Hl as (k & e & He & ->). cbn [elink lk_in lk_src lk_port] in *.
  destruct (prepared_edges _ _ _ _ _ P _ _ He) as [H|(n & dn & _ & _ & -> & _)]; [exfalso|split; reflexivity].
  destruct (junctions_marks sh p' Hf Ho Hp) as (r' & Ej & Hk1 & Hk2). rewrite (pr_joined _ _ _ _ _ P) in Ej. injection Ej as <-.
  destruct (edge_at p' k) as [e0|] eqn:E0; [|destruct (Hk2 _ _ E0 H) as [X _]; congruence].
  destruct (Hk1 _ _ E0) as (e' & H' & Ein). rewrite H in H'. injection H' as <-. rewrite Ein in Hb.
  unfold edge_at in E0. destruct (lookup k p') as [d|] eqn:El; [|discriminate]. apply lookup_in in El. apply Hi in El.
  destruct (pairs_from _ _ Hpo _ _ El) as (k0 & l0 & [x y] & Hk & Hab & x' & y' & -> & (o & Eo & ->) & (i & Ei & ->)). cbn [fst snd] in *. cbn in E0. injection E0 as <-. cbn [e_in] in Hb.
  apply Hr in Hk. refine (Hso _ _ y i Hk _ Ei Hb). exact (proj2 (neighbours_in _ _ _ Hab)).
Qed.
Theorem made_gives_way x : In x net -> comp_gives_way x.
Proof.
  intro Hx. apply plain_gives_way. destruct (prepared_grown sh c w cs Hf Hgc Hpr) as (c2 & out & w1 & Ep & Ew & Hw & U & K & G & _). pose proof (plain_net cwd vars w1 w _ _ U G) as EN. destruct (made_fabric c2 w1 Hw Ew) as [F0 Hn0]. pose proof (more_fabric _ _ _ (w_channels w) F0) as F.
  destruct (built_exactly _ _ Hw Ew) as (id & BA).
  apply (in_map plain_comp) in Hx. rewrite EN in Hx. generalize dependent (plain_comp x). clear x. intros x Hx. apply in_net in Hx as (d & H). destruct (seated_plays _ _ _ _ _ (fb_once _ _ _ F) H) as (y & Hy & Hp). pose proof (fb_wf _ _ _ F _ _ Hy) as Hwf. pose proof (get_type _ _ _ Hy) as Ht.
  assert (HS : forall j n, In (j, n) (cell_outs y) -> j_brk j = Terminate -> cell_type y = CLaunch /\ j_port j = Some PExit).
  { intros j n Hin Hb. rewrite <- (outs_got _ _ _ Hy) in Hin. assert (Hin' : In (j, n) (outs w1 d)) by exact Hin. apply (Permutation_in _ (ba_outs _ _ _ BA d)) in Hin'. apply in_map_iff in Hin' as ([q l] & E & Hl). apply filter_In in Hl as [Hl Hlv]. apply leaves_true in Hlv. cbn [snd] in Hlv.
    unfold numbered_links in Hl. apply in_combine_r in Hl. unfold out_end in E. cbn [fst snd] in E. injection E as <- <-. cbn [j_brk j_port] in *. destruct (soft_links _ _ _ Ep Hl Hb) as [T Q]. rewrite Hlv in T. split; [congruence|]. unfold port_kept. rewrite Hlv, T, Q. reflexivity. }
  clear - Hp Hwf HS. unfold gives_way.
  destruct y as [f|l|j|b|dr|r]; cbn [plays cell_type cell_wf cell_outs] in *; [subst x|subst x|subst x|destruct Hp as (u & _ & ->)|subst x|subst x]; cbn [comp_gives_way]; unfold gives_way; auto.
  - intros ps E. rewrite E in *. destruct Hwf as [(jj & n & po & -> & Hj & _) _]. intro Hb. destruct (HS jj n ltac:(now left) Hb). congruence.
  - destruct Hwf as (W1 & W2 & _). intros ps [E|E] Hb; rewrite E in *; cbn [all_opt] in *.
    + destruct W1 as (jj & n & po & -> & Hj & <-). destruct (HS jj n ltac:(now left) Hb). congruence.
    + destruct W2 as (jj & n & po & -> & Hj & <-). destruct (HS jj n ltac:(apply in_app_iff; right; now left) Hb). congruence.
  - intros ps Hin Hb. destruct Hwf as [W _]. rewrite Forall_forall in W. destruct (W _ Hin) as (jj & n & po & -> & Hj & _). destruct (HS jj n) as [X _]; [apply in_flat_map; exists (PsIoSender jj n); split; [exact Hin|now left]|exact Hb|discriminate].
  - intros ps E Hb. rewrite E in *. destruct Hwf as [(jj & n & po & -> & Hj & _) _]. destruct (HS jj n ltac:(now left) Hb). congruence.
  - intros ps E Hb. rewrite E in *. destruct Hwf as [(jj & n & po & -> & Hj & _) _]. destruct (HS jj n ltac:(now left) Hb). congruence.
Qed.

Hypothesis Hpa : passing (cf_connection c).
Hypothesis Hap : apart (cf_connection c).
Theorem soft_own w0 l wl ocs : free_run net cs w0 l wl ocs -> forall k x e, nth_error net k = Some x -> ocs k = S_Net.Ended (Err e) -> own_failure x (did k l) e.
Proof.
  intros HX k x e Hk He. destruct (prepared_shape _ cwd vars _ _ _ Hf Hgc Hpr Hpa Hap) as (HN & HR & _). pose proof (prepared_overseen sh cwd vars c w cs Hf Hgc Hpr) as HO.
  exact (free_own net cs w0 l wl ocs HN HO HR HX k x e Hk (made_gives_way x (nth_error_In _ _ Hk)) He).
Qed.
End Soft.
