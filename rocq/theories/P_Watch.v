(** * P_Watch: the controllers of a pipeline *)
From Coq Require Import Ascii String List Bool Arith Lia Permutation.
From Verif Require Import M_Prog P_Prog P_Exec M_Motion M_Config M_Regulator M_Faucet M_Drain M_Buffer M_Junction M_Launch M_Manager M_Manip M_Lint M_Waiter M_Join S_Trace S_Motion S_World S_Network S_Waiter S_Manip S_Net M_Start S_Start S_Shape S_Watch
  P_Map P_Cell P_Wire P_Build P_Result P_WaiterExamples P_Errors P_Made P_Shape.
Import ListNotations.

(** ** What the settings do to a pipeline *)
Definition reg_plain (r : regulator) : regulator := Regulator (rg_started r) (rg_stdout_size r) (rg_stdout r) (rg_stdin r) None.
Definition buf_plain (b : buffer) : buffer := Buffer (bf_stdout_size b) (bf_stdout b) (bf_stdin b) None.
Definition opt_list (o : option nat) : list nat := match o with Some n => [n] | None => [] end.
Definition reg_ctls (l : list (string * regulator)) : list nat := flat_map (fun x => opt_list (rg_control (snd x))) l.
Definition buf_mons (l : list (string * buffer)) : list nat := flat_map (fun x => opt_list (bf_monitor (snd x))) l.

Record grown (w w' : waiter) (cts ms : list nat) : Prop := {
  gr_faucet : w_faucet w' = w_faucet w;
  gr_launch : w_launch w' = w_launch w;
  gr_drain : w_drain w' = w_drain w;
  gr_junction : w_junction w' = w_junction w;
  gr_regulator : map (fun x => (fst x, reg_plain (snd x))) (w_regulator w') = map (fun x => (fst x, reg_plain (snd x))) (w_regulator w);
  gr_buffer : map (fun x => (fst x, buf_plain (snd x))) (w_buffer w') = map (fun x => (fst x, buf_plain (snd x))) (w_buffer w);
  gr_more : w_channels w <= w_channels w';
  gr_ctls : Permutation (reg_ctls (w_regulator w')) (cts ++ reg_ctls (w_regulator w));
  gr_mons : Permutation (buf_mons (w_buffer w')) (ms ++ buf_mons (w_buffer w));
  gr_ctls_once : NoDup cts;
  gr_mons_once : NoDup ms;
  gr_new : forall n, In n cts \/ In n ms -> w_channels w <= n < w_channels w'
}.
Lemma grown_refl w : grown w w [] [].
Proof. constructor; auto using NoDup_nil. intros n [[]|[]]. Qed.
Lemma grown_trans a b c x y x' y' : grown a b x y -> grown b c x' y' -> grown a c (x ++ x') (y ++ y').
Proof.
  intros [A1 A2 A3 A4 A5 A6 A7 A8 A9 A10 A11 A12] [B1 B2 B3 B4 B5 B6 B7 B8 B9 B10 B11 B12]. constructor; try congruence; try lia.
  - rewrite B8, A8, !app_assoc. apply Permutation_app_tail, Permutation_app_comm.
  - rewrite B9, A9, !app_assoc. apply Permutation_app_tail, Permutation_app_comm.
  - apply nodup_apart; auto. intros n H1 H2. specialize (A12 n (or_introl H1)). specialize (B12 n (or_introl H2)). lia.
  - apply nodup_apart; auto. intros n H1 H2. specialize (A12 n (or_intror H1)). specialize (B12 n (or_intror H2)). lia.
  - intros n. rewrite !in_app_iff. intros [[H|H]|[H|H]]; try specialize (A12 n (or_introl H)); try specialize (A12 n (or_intror H)); try specialize (B12 n (or_introl H)); try specialize (B12 n (or_intror H)); lia.
Qed.
Lemma hput_same {V U} (f : V -> U) k (v v' : V) m : lookup k m = Some v -> f v' = f v -> map (fun x => (fst x, f (snd x))) (hput k v' m) = map (fun x => (fst x, f (snd x))) m.
Proof.
  intros H E. induction m as [|[k' u] m IH]; [discriminate|]. cbn in H |- *. destruct (String.eqb k k'); cbn; [injection H as ->; rewrite E; reflexivity|]. rewrite IH by exact H. reflexivity.
Qed.
Lemma hput_adds {V} (f : V -> list nat) k (v v' : V) n m : lookup k m = Some v -> f v = [] -> f v' = [n] ->
  Permutation (flat_map (fun x => f (snd x)) (hput k v' m)) (n :: flat_map (fun x => f (snd x)) m).
Proof.
  intros H E E'. induction m as [|[k' u] m IH]; [discriminate|]. cbn in H |- *. destruct (String.eqb k k'); cbn.
  - injection H as ->. rewrite E, E'. reflexivity.
  - rewrite (IH H). symmetry. apply Permutation_middle.
Qed.
Lemma control_grows w name reg n : lookup name (w_regulator w) = Some reg -> rg_control reg = None -> n = w_channels w ->
  grown w (set_channels (set_regulator w (hput name (Regulator (rg_started reg) (rg_stdout_size reg) (rg_stdout reg) (rg_stdin reg) (Some n)) (w_regulator w))) (S (w_channels w))) [n] [].
Proof.
  intros H E ->. constructor; cbn; auto.
  - apply (hput_same reg_plain name reg); [exact H|reflexivity].
  - apply (hput_adds (fun r => opt_list (rg_control r)) name reg); [exact H|cbn; rewrite E; reflexivity|reflexivity].
  - constructor; [intros []|constructor].
  - constructor.
  - intros x [[<-|[]]|[]]. lia.
Qed.
Lemma monitor_grows w b bf n : lookup b (w_buffer w) = Some bf -> bf_monitor bf = None -> n = w_channels w ->
  grown w (set_channels (set_buffer w (hput b (Buffer (bf_stdout_size bf) (bf_stdout bf) (bf_stdin bf) (Some n)) (w_buffer w))) (S (w_channels w))) [] [n].
Proof.
  intros H E ->. constructor; cbn; auto.
  - apply (hput_same buf_plain b bf); [exact H|reflexivity].
  - apply (hput_adds (fun r => opt_list (bf_monitor r)) b bf); [exact H|cbn; rewrite E; reflexivity|reflexivity].
  - constructor.
  - constructor; [intros []|constructor].
  - intros x [[]|[<-|[]]]. lia.
Qed.
Lemma monitors_grow reg names : forall w w' ms, size_monitors w reg names = Good (Ok (w', ms)) -> grown w w' [] ms.
Proof.
  induction names as [|b names IH]; intros w w' ms; cbn [size_monitors]; [intros [= <- <-]; apply grown_refl|].
  destruct (lookup b (w_buffer w)) as [bf|] eqn:E; [|discriminate]. unfold buffer_add_size_monitor. destruct (bf_monitor bf) eqn:Em; [discriminate|].
  pose proof (monitor_grows w b bf (w_channels w) E Em eq_refl) as G. set (w1 := set_channels _ _) in *.
  destruct (size_monitors w1 reg names) as [[[w2 ms']|e]|] eqn:Er; cbn [obind]; try discriminate. intros [= <- <-].
  exact (grown_trans _ _ _ _ _ _ _ G (IH _ _ _ Er)).
Qed.
Notation ctl_of := (fun c => rc_control (cp_control c)).
Lemma settings_grow l : forall w w' cs, regulator_settings w l = Good (Ok (w', cs)) -> grown w w' (map ctl_of cs) (flat_map cp_monitors cs) /\ forall c, In c cs -> rc_paused (cp_control c) = false.
Proof.
  induction l as [|[n s] l IH]; intros w w' cs; cbn [regulator_settings]; [intros [= <- <-]; split; [apply grown_refl|intros c []]|].
  destruct (lookup n (w_regulator w)) as [reg|] eqn:E; [|discriminate]. unfold regulator_get_control. destruct (rg_control reg) eqn:Ec; [discriminate|].
  pose proof (control_grows w n reg (w_channels w) E Ec eq_refl) as G. set (w1 := set_channels _ _) in *.
  destruct (size_monitors w1 n (st_buffers s)) as [[[w2 ms]|e]|] eqn:Em; cbn [obind]; try discriminate. apply monitors_grow in Em.
  destruct (regulator_settings w2 l) as [[[w3 cs']|e]|] eqn:Er; cbn [obind]; try discriminate. intros [= <- <-]. destruct (IH _ _ _ Er) as [G2 Hp]. split.
  - pose proof (grown_trans _ _ _ _ _ _ _ G (grown_trans _ _ _ _ _ _ _ Em G2)) as G3. exact G3.
  - intros c [<-|H]; [reflexivity|auto].
Qed.

(** ** The pipeline before and after *)
Record unruled (w : waiter) : Prop := {
  un_faucet : forall n f, In (n, f) (w_faucet w) -> fc_control f = None;
  un_regulator : forall n r, In (n, r) (w_regulator w) -> rg_control r = None;
  un_buffer : forall n b, In (n, b) (w_buffer w) -> bf_monitor b = None
}.
Lemma built_unruled c w ls : fabric c w ls -> unruled w.
Proof.
  intros F. pose proof (fb_once _ _ _ F) as (K1 & K2 & K3 & K4 & K5 & K6).
  assert (H : forall d x, get_cell w d = Some x -> match x with KFaucet f => fc_control f = None | KBuffer b => bf_monitor b = None | KRegulator r => rg_control r = None | _ => True end).
  { intros d x Hx. pose proof (fb_bare _ _ _ F d x Hx) as Hb. pose proof (get_type _ _ _ Hx) as Ht. destruct d as [t k]. cbn [fst] in Ht. subst t.
    destruct x; cbn [cell_type fresh bare fst snd] in *; auto; injection Hb; auto. }
  constructor; intros n x Hin.
  - apply (in_lookup _ _ _ K1) in Hin. apply (H (CFaucet, n) (KFaucet x)). unfold get_cell. cbn [fst snd]. rewrite Hin. reflexivity.
  - apply (in_lookup _ _ _ K6) in Hin. apply (H (CRegulator, n) (KRegulator x)). unfold get_cell. cbn [fst snd]. rewrite Hin. reflexivity.
  - apply (in_lookup _ _ _ K4) in Hin. apply (H (CBuffer, n) (KBuffer x)). unfold get_cell. cbn [fst snd]. rewrite Hin. reflexivity.
Qed.
Lemma map_fixed {A} (f : A -> A) l : (forall x, In x l -> f x = x) -> map f l = l.
Proof. induction l as [|a l IH]; intros H; cbn; [reflexivity|]. rewrite (H a), IH; auto with datatypes. Qed.
Lemma number_plain l : forall n, map plain_comp (number_buffers n l) = number_buffers n (map (fun x => (fst x, buf_plain (snd x))) l).
Proof. induction l as [|[k b] l IH]; intros n; cbn [number_buffers map plain_comp fst snd]; [reflexivity|]. rewrite IH. reflexivity. Qed.
Lemma plain_net cwd vars w w' cts ms : unruled w -> grown w w' cts ms -> map plain_comp (net_of cwd vars w') = net_of cwd vars (set_channels w (w_channels w')).
Proof.
  intros [U1 U2 U3] G. destruct G as [G1 G2 G3 G4 G5 G6 _ _ _ _ _ _]. unfold net_of. cbn [set_channels w_launch w_regulator w_faucet w_drain w_buffer w_junction w_channels].
  rewrite !map_app, !map_map, G1, G2, G3, G4, number_plain, G6.
  assert (E1 : map (fun x => (fst x, buf_plain (snd x))) (w_buffer w) = w_buffer w).
  { apply map_fixed. intros [n b] H. cbn. specialize (U3 n b H). destruct b as [a b0 c0 d0]; cbn in *. rewrite U3. reflexivity. }
  assert (E2 : map (fun x => NRegulator (snd x)) (map (fun x => (fst x, reg_plain (snd x))) (w_regulator w)) = map (fun x => NRegulator (snd x)) (w_regulator w)).
  { f_equal. apply map_fixed. intros [n b] H. cbn. specialize (U2 n b H). destruct b as [a b0 c0 d0 e0]; cbn in *. rewrite U2. reflexivity. }
  rewrite E1. rewrite <- G5, map_map in E2. cbn [snd] in E2. rewrite <- E2.
  f_equal. f_equal. f_equal. apply map_ext_in. intros [n f] H. cbn. specialize (U1 n f H). destruct f; cbn in *. rewrite U1. reflexivity.
Qed.
Lemma flat_in {A B C} (f : A -> B) (g : B -> list C) l : flat_map g (map f l) = flat_map (fun a => g (f a)) l.
Proof. induction l as [|a l IH]; cbn; [reflexivity|]. rewrite IH. reflexivity. Qed.
Lemma flat_nil {A B} (f : A -> list B) l : (forall x, In x l -> f x = []) -> flat_map f l = [].
Proof. induction l as [|a l IH]; intros H; cbn; [reflexivity|]. rewrite (H a), IH; auto with datatypes. Qed.
Lemma number_none l : forall n, flat_map comp_control (number_buffers n l) = [].
Proof. induction l as [|[k b] l IH]; intros n; cbn; auto. Qed.
Lemma number_mons l : forall n, flat_map comp_monitor (number_buffers n l) = buf_mons l.
Proof. induction l as [|[k b] l IH]; intros n; cbn; [reflexivity|]. rewrite IH. destruct (bf_monitor b); reflexivity. Qed.
Lemma grown_overseen cwd vars w w' cs : unruled w -> grown w w' (map ctl_of cs) (flat_map cp_monitors cs) -> (forall c, In c cs -> rc_paused (cp_control c) = false) -> overseen (net_of cwd vars w') cs.
Proof.
  intros [U1 U2 U3] G Hp. destruct G as [G1 G2 G3 G4 G5 G6 _ G8 G9 G10 G11 _].
  assert (E1 : reg_ctls (w_regulator w) = []) by (apply flat_nil; intros [n r] H; cbn; rewrite (U2 _ _ H); reflexivity).
  assert (E2 : buf_mons (w_buffer w) = []) by (apply flat_nil; intros [n r] H; cbn; rewrite (U3 _ _ H); reflexivity).
  rewrite E1, app_nil_r in G8. rewrite E2, app_nil_r in G9. constructor; auto.
  - unfold net_of. rewrite !flat_map_app, !flat_in, G1. cbn [comp_control]. rewrite number_none, !(flat_nil (fun _ => [])) by reflexivity.
    rewrite (flat_nil (fun a => match fc_control (snd a) with Some n => [n] | None => [] end)) by (intros [n f] H; cbn; rewrite (U1 _ _ H); reflexivity).
    cbn [app]. rewrite !app_nil_r. exact G8.
  - unfold net_of. rewrite !flat_map_app, !flat_in. cbn [comp_monitor]. rewrite number_mons, !(flat_nil (fun _ => [])) by reflexivity. cbn [app]. rewrite !app_nil_r. exact G9.
Qed.

(** ** Ready or not, what is told and tells *)
Lemma plain_ins c : comp_ins (plain_comp c) = comp_ins c.
Proof. destruct c; reflexivity. Qed.
Lemma plain_outs c : comp_outs (plain_comp c) = comp_outs c.
Proof. destruct c; reflexivity. Qed.
Lemma plain_stores c : comp_stores (plain_comp c) = comp_stores c.
Proof. destruct c; reflexivity. Qed.
Lemma plain_counts c : comp_counts (plain_comp c) = comp_counts c.
Proof. destruct c; reflexivity. Qed.
Lemma plain_buffer c : is_buffer (plain_comp c) <-> is_buffer c.
Proof. destruct c; reflexivity. Qed.
Lemma plain_acyclic net : acyclic (map plain_comp net) -> acyclic net.
Proof.
  intros (rank & H). exists rank. intros k c k' c' n Hk Hk' H1 H2. apply (H k (plain_comp c) k' (plain_comp c') n); rewrite ?nth_error_map, ?Hk, ?Hk', ?plain_outs, ?plain_ins; auto.
Qed.
Lemma plain_dammed net : dammed (map plain_comp net) -> dammed net.
Proof.
  intros (rank & H). exists rank. intros k c k' c' n Hk Hk' H1 H2. rewrite <- plain_buffer. apply (H k (plain_comp c) k' (plain_comp c') n); rewrite ?nth_error_map, ?Hk, ?Hk', ?plain_outs, ?plain_ins; auto.
Qed.
Lemma plain_roomy net : roomy (map plain_comp net) -> roomy net.
Proof. intros H c Hc Ho. assert (E : comp_size (plain_comp c) = comp_size c) by (destruct c; reflexivity). rewrite <- E. apply H; [apply in_map; exact Hc|]. rewrite plain_outs. exact Ho. Qed.
Lemma plain_polite net : polite (map plain_comp net) -> polite net.
Proof. intros H j Hj. apply H. change (NJunction j) with (plain_comp (NJunction j)). apply in_map. exact Hj. Qed.

Section Prepared.
Variables (sh : shuffles) (cwd : option string) (vars : list (string * string)) (c : config) (w : waiter) (cs : list capture).
Hypothesis Hf : S_Manip.fair sh.
Hypothesis Hgc : good_connections (cf_connection c).
Hypothesis Hp : prepares sh c w cs.
Notation net := (net_of cwd vars w).

Lemma prepared_grown : exists c2 out w1, process_config sh c = Good (Ok c2, out) /\ get_waiter c2 = Good (Ok w1) /\ written_out (cf_connection c2) /\ unruled w1 /\ keys_once w1 /\
  grown w1 w (map ctl_of cs) (flat_map cp_monitors cs) /\ (forall c, In c cs -> rc_paused (cp_control c) = false).
Proof.
  destruct Hp as (c2 & out & w1 & E1 & E2 & E3). pose proof (process_written _ _ _ _ Hf Hgc E1) as Hw. destruct (made_fabric c2 w1 Hw E2) as [F _]. destruct (settings_grow _ _ _ _ E3) as [G H].
  exists c2, out, w1. pose proof (built_unruled _ _ _ F). pose proof (fb_once _ _ _ F). auto 10.
Qed.
Theorem prepared_overseen : overseen net cs.
Proof. destruct prepared_grown as (c2 & out & w1 & E1 & E2 & Hw & U & K & G & H). exact (grown_overseen cwd vars w1 w cs U G H). Qed.
Theorem prepared_shape : passing (cf_connection c) -> apart (cf_connection c) -> net_wired (map plain_comp net) /\ roomy net /\ polite net /\ (no_loop (cf_connection c) -> acyclic net) /\ (buffered_loops (cf_connection c) -> dammed net).
Proof.
  intros Hpa Hap. destruct prepared_grown as (c2 & out & w1 & E1 & E2 & Hw & U & K & G & H). pose proof (plain_net cwd vars w1 w _ _ U G) as EN.
  destruct (shape_net_more sh cwd vars c c2 out w1 (w_channels w) Hf Hgc E1 E2 (gr_more _ _ _ _ G) Hpa Hap) as (H1 & H2 & H3 & H4 & H5). rewrite <- EN in H1, H2, H3, H4, H5.
  split; [exact H1|]. split; [exact (plain_roomy _ H2)|]. split; [exact (plain_polite _ H3)|]. split; intros X; [exact (plain_acyclic _ (H4 X))|exact (plain_dammed _ (H5 X))].
Qed.
End Prepared.
