(** * P_Checked: what [pa2 process] checks before it builds *)
From Coq Require Import Ascii String List Bool Arith ZArith Lia Sorted.
From Verif Require Import M_Prog M_Motion M_Config M_Manip M_Lint M_Waiter S_Grammar S_Manip S_Lint S_Waiter P_Map P_Pair P_Junctions P_Junctions2 P_Manip P_ManipExamples P_Lint P_Build P_Ready P_WaiterExamples.
Import ListNotations.
Local Open Scope string_scope.

Lemma lint_serious c c' ws : lint c = Good (c', ws) -> all_pairs (cf_connection c) ->
  (filter serious ws = [] <-> forall w, problem c w -> serious w = false).
Proof.
  intros El Hp. destruct (lint_exact c) as (c2 & ws2 & E2 & Hbad & Hgood & _). rewrite El in E2. injection E2 as <- <-.
  assert (Hnone : forall w, ~ unreadable c w).
  { intros w [k s Hin _]. unfold all_pairs in Hp. rewrite Forall_forall in Hp. apply (Hp _ Hin). reflexivity. }
  specialize (Hgood Hnone). split.
  - intros H w Hw. apply Hgood in Hw. destruct (serious w) eqn:E; [|reflexivity]. assert (In w (filter serious ws)) by (apply filter_In; auto). rewrite H in H0. destruct H0.
  - intros H. destruct (filter serious ws) as [|w l] eqn:E; [reflexivity|]. assert (Hw : In w (filter serious ws)) by (rewrite E; left; reflexivity).
    apply filter_In in Hw. destruct Hw as [Hw Hs]. apply Hgood in Hw. rewrite (H w Hw) in Hs. discriminate.
Qed.

Lemma NNPP_configured c x : ~ ~ configured c x -> configured c x.
Proof. intros H. unfold configured in *. destruct (fst x); try (destruct (in_dec string_dec (snd x) (keys (cf_faucet c))); tauto); try (destruct (in_dec string_dec (snd x) (keys (cf_launch c))); tauto); try (destruct (in_dec string_dec (snd x) (keys (cf_drain c))); tauto); try (destruct (in_dec string_dec (snd x) (keys (cf_regulator c))); tauto). Qed.

Section Prepared.
Variables (sh : shuffles) (c c' : config) (p r : connmap).
Hypothesis Hf : fair sh.
Hypothesis Ho : ordered p.
Hypothesis Hp : all_pairs p.
Hypothesis P : prepared sh c c' p r.
Hypothesis Hmention : forall x, is_mentioned (cf_connection c) x <-> occurs p x.

Lemma mentioned_kept x : is_mentioned (cf_connection c) x -> is_mentioned (cf_connection c') x.
Proof.
  destruct (junctions sh p Hf Ho Hp) as (js & je & ks & r' & E & B & Hjs & Hje). rewrite (pr_joined _ _ _ _ _ P) in E. injection E as <-.
  rewrite Hmention, (pairs_mentioned _ (pr_pairs _ _ _ _ _ P) (pr_ordered _ _ _ _ _ P)).
  intros (k & e & Hk & Hor). destruct (paired_edge p r js je ks k e B Hk) as [(k1 & e1 & H1 & S1) (k2 & e2 & k0 & e0 & H2 & D2 & _)]. destruct Hor as [Hs|Hd].
  - exists k1, e1. split; [eapply kept_edges; eauto|]. rewrite S1. auto.
  - exists k2, e2. split; [eapply kept_edges; eauto|]. rewrite D2. auto.
Qed.
Lemma mentioned_old x : is_mentioned (cf_connection c') x -> is_mentioned (cf_connection c) x \/ fst x = CJunction \/ fst x = CDrain /\ lookup (snd x) (cf_drain c') <> None.
Proof.
  destruct (junctions sh p Hf Ho Hp) as (js & je & ks & r' & E & B & Hjs & Hje). rewrite (pr_joined _ _ _ _ _ P) in E. injection E as <-.
  rewrite Hmention, (pairs_mentioned _ (pr_pairs _ _ _ _ _ P) (pr_ordered _ _ _ _ _ P)).
  assert (R : forall k e, edge_at r k = Some e -> fst (e_src e) = x \/ e_dst e = x -> occurs p x \/ fst x = CJunction).
  { intros k e Hk Hor. destruct (joined_edge p r Ho js je ks k e B Hje Hk) as [[(k0 & e0 & H0 & S0)|[J _]] [(k1 & e1 & (H1 & D1 & _) & _)|[J' _]]]; destruct Hor as [Hs|Hd].
    all: try (rewrite Hs in J; auto; fail). all: try (rewrite Hd in J'; auto; fail).
    all: left. all: try (exists k0, e0; rewrite S0; auto; fail). all: exists k1, e1; rewrite D1; auto. }
  intros (k & e & Hk & Hor). unfold edge_at in Hk. destruct (lookup k (cf_connection c')) as [d|] eqn:Ek; [|discriminate].
  destruct (pr_new _ _ _ _ _ P k d Ek) as [Hk'|(m & dn & -> & (k2 & e2 & Hk2 & Hs2) & _ & _ & Hdn & _)].
  - destruct (R k e) as [H|H]; auto. unfold edge_at. rewrite Hk'. exact Hk.
  - cbn in Hk. injection Hk as <-. cbn in Hor. destruct Hor as [<-|<-].
    + destruct (R k2 e2 Hk2 (or_introl Hs2)); auto.
    + right. right. split; [reflexivity|]. cbn. rewrite Hdn. discriminate.
Qed.
End Prepared.

(** What a configuration should have to be run *)
Lemma process_decides sh c : fair sh -> good_connections (cf_connection c) -> exists c2 x, process_config sh c = Good (x, [keys (cf_drain c)]) /\
  cf_faucet c2 = cf_faucet c /\ cf_regulator c2 = cf_regulator c /\ cf_launch c2 = cf_launch c /\ (forall n, configured c (CDrain, n) -> configured c2 (CDrain, n)) /\
  (x = Ok c2 /\ provided c2 c \/ (exists t ts, x = Err (t :: ts)) /\ ~ provided c2 c).
Proof.
  intros Hf [Hoc Hg]. destruct (prepare sh c Hf Hg) as (c' & p & r & E & P). destruct (paired _ Hg) as (m1 & p' & added & E1 & E2 & Ho & Hp & Hpo & Hi & Hr & Hc).
  destruct (pr_paired _ _ _ _ _ P) as (m1' & E1' & E2'). rewrite E1 in E1'. injection E1' as <-. rewrite E2 in E2'. injection E2' as <-.
  assert (Hm : forall x, is_mentioned (cf_connection c) x <-> occurs p' x).
  { intros x. split; [exact (mentioned_occurs _ _ _ _ Hg Hpo Ho Hi Hr Hc x)|exact (occurs_mentioned c p' m1 added Hpo Ho Hi Hr x)]. }
  assert (Hstable : forall x, ~ ~ is_mentioned (cf_connection c) x -> is_mentioned (cf_connection c) x).
  { intros x. rewrite <- (components_mentioned _ _ Hr). intros H. destruct (in_dec (fun a b : component => ltac:(decide equality; [apply string_dec|decide equality])) x (known_components m1)) as [y|y]; [exact y|contradiction]. }
  pose proof (mentioned_kept sh c c' p' r Hf Ho Hp P Hm) as Hkept. pose proof (mentioned_old sh c c' p' r Hf Ho Hp P Hm) as Hold.
  destruct (lint_exact c') as (c2 & ws & El & _). pose proof (lint_pairs _ _ _ (pr_pairs _ _ _ _ _ P) El) as ->.
  pose proof (lint_serious c' c' ws El (pr_pairs _ _ _ _ _ P)) as Hser.
  assert (Hprov : (forall w, problem c' w -> serious w = false) <-> provided c' c).
  { split.
    - intros H. split.
      + intros t n Ht Hment. apply NNPP_configured. intros Hnot. assert (Hpr : problem c' (InFlowConnectionButMissingConfig t n)) by (constructor; auto). discriminate (H _ Hpr).
      + intros n rc b H1 H2. apply Hstable. intros Hnot.
        assert (Hpr : problem c' (RegulatorWatchingMissingBuffer ("regulator[""" ++ n ++ """].monitored_buffers") CBuffer b)).
        { apply (Pr_watched c' n rc b); [rewrite (pr_regulator _ _ _ _ _ P); exact H1|exact H2|]. intros Hx. apply Hnot. destruct (Hold _ Hx) as [Hx'|[[=]|[[=] _]]]. exact Hx'. }
        discriminate (H _ Hpr).
    - intros [H1 H2] w Hw. destruct Hw as [n rc b Hin Hb Hnot|t n Hcf Hnot|t n Hment Ht Hnot]; [|reflexivity|].
      + exfalso. apply Hnot, Hkept. rewrite (pr_regulator _ _ _ _ _ P) in Hin. exact (H2 n rc b Hin Hb).
      + exfalso. apply Hnot. destruct (Hold _ Hment) as [Hx|[Hx|[Hx Hl]]].
        * exact (H1 t n Ht Hx).
        * destruct Ht as [Ht _]. contradiction.
        * cbn in Hx. subst t. unfold configured. cbn [fst snd]. apply lookup_key. exact Hl. }
  exists c'. unfold process_config. rewrite E. cbn [obind]. rewrite El. cbn [obind].
  destruct (filter serious ws) as [|w l] eqn:Ew.
  - eexists. split; [reflexivity|]. split; [apply P|]. split; [apply P|]. split; [apply P|]. split; [|left; split; [reflexivity|apply Hprov, Hser; reflexivity]].
    intros n. unfold configured. cbn. rewrite <- !lookup_key. intros H. destruct (lookup n (cf_drain c)) as [v|] eqn:Ed; [|congruence]. rewrite (pr_drain _ _ _ _ _ P n v Ed). discriminate.
  - eexists. split; [reflexivity|]. split; [apply P|]. split; [apply P|]. split; [apply P|]. split; [|right; split; [cbn; eauto|]].
    + intros n. unfold configured. cbn. rewrite <- !lookup_key. intros H. destruct (lookup n (cf_drain c)) as [v|] eqn:Ed; [|congruence]. rewrite (pr_drain _ _ _ _ _ P n v Ed). discriminate.
    + intros Hx. pose proof (proj2 Hser (proj2 Hprov Hx)) as Hy. discriminate Hy.
Qed.
