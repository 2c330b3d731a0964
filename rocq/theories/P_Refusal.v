(** * P_Refusal: the reasons for refusing a configuration *)
From Coq Require Import Ascii String List Bool Arith ZArith DecimalString Permutation Lia.
From Verif Require Import M_Prog M_Motion M_Connectable M_Config M_Manip M_Lint M_Faucet M_Launch M_Junction M_Buffer M_Drain M_Regulator M_Waiter M_Cli S_Grammar S_Manip S_Lint S_Waiter S_Refusal P_Text P_Parser P_Map P_Manip P_Pair P_Junctions P_Lint P_Cell P_Wire P_Build P_Ready P_WaiterExamples P_Checked.
Import ListNotations.
Local Open Scope string_scope.

(** ** Why a component refuses *)
Lemma add_output_refused x port b s d ch e : cell_wf x -> cell_add_output x port b s d ch = Err e ->
  e = OutUnsupportedPort port /\ (cell_type x = CDrain \/ (cell_type x = CFaucet \/ cell_type x = CRegulator) /\ port <> POut) \/
  e = OutAlreadyAllocated port /\ cell_type x <> CJunction /\ exists j n, In (j, n) (cell_outs x) /\ (cell_type x = CLaunch -> j_port j = Some port).
Proof.
  destruct x as [f|l|j|bu|dr|r]; cbn [cell_add_output lift cell_wf cell_type cell_outs].
  - intros [Hp _]. unfold faucet_add_output. destruct (oport_eqb port POut) eqn:E; cbn [negb].
    + destruct (fc_stdout f) as [p|] eqn:Es; [|discriminate]. intros [= <-]. right. split; [reflexivity|]. split; [discriminate|].
      destruct Hp as (j & n & o & -> & _). exists j, n. split; [left; reflexivity|discriminate].
    + intros [= <-]. left. split; [reflexivity|]. right. split; [auto|]. intros ->. discriminate.
  - intros (H1 & H2 & H3 & _). unfold launch_add_output. destruct port.
    + destruct (la_stderr l) as [p|]; [|discriminate]. intros [= <-]. right. split; [reflexivity|]. split; [discriminate|].
      destruct H2 as (j & n & o & -> & Hj & <-). exists j, n. split; [|auto]. apply in_or_app. right. left. reflexivity.
    + destruct (la_stdout l) as [p|]; [|discriminate]. intros [= <-]. right. split; [reflexivity|]. split; [discriminate|].
      destruct H1 as (j & n & o & -> & Hj & <-). exists j, n. split; [|auto]. apply in_or_app. left. left. reflexivity.
    + destruct (la_exit_status l) as [[j n]|]; [|discriminate]. intros [= <-]. right. split; [reflexivity|]. split; [discriminate|].
      exists j, n. split; [|auto]. apply in_or_app. right. apply in_or_app. right. left. reflexivity.
  - discriminate.
  - intros [Hp _]. unfold buffer_add_output. destruct (bf_stdout bu) as [p|]; [|discriminate]. intros [= <-]. right. split; [reflexivity|]. split; [discriminate|].
    destruct Hp as (j & n & o & -> & _). exists j, n. split; [left; reflexivity|discriminate].
  - intros _ [= <-]. left. auto.
  - intros [Hp _]. unfold regulator_add_output. destruct (oport_eqb port POut) eqn:E; cbn [negb].
    + destruct (rg_stdout r) as [p|]; [|discriminate]. intros [= <-]. right. split; [reflexivity|]. split; [discriminate|].
      destruct Hp as (j & n & o & -> & _). exists j, n. split; [left; reflexivity|discriminate].
    + intros [= <-]. left. split; [reflexivity|]. right. split; [auto|]. intros ->. discriminate.
Qed.
Lemma add_input_refused x p z e : cell_wf x -> cell_add_input x p z = Err e ->
  e = InUnsupportedForControl /\ cell_type x = CFaucet \/
  cell_type x <> CFaucet /\ cell_type x <> CJunction /\ (e = InUnsupportedPriority z /\ z <> 0%Z \/ e = InAlreadyAllocated /\ cell_ins x <> []).
Proof.
  assert (P : forall q, pull_ok q -> flat_map (with_priority 0) (opt (Some q)) <> []) by (intros q (j & n & ->); discriminate).
  destruct x as [f|l|j|bu|dr|r]; cbn [cell_add_input lift cell_wf cell_type cell_ins].
  - intros _ [= <-]. auto.
  - intros (_ & _ & _ & H). unfold launch_add_input. destruct (Z.eqb_spec z 0); cbn [negb].
    + destruct (la_stdin l) as [q|]; [|discriminate]. intros [= <-]. right. split; [discriminate|]. split; [discriminate|]. right. split; [reflexivity|]. apply P, H.
    + intros [= <-]. right. split; [discriminate|]. split; [discriminate|]. auto.
  - discriminate.
  - intros (_ & H). unfold buffer_add_input. destruct (Z.eqb_spec z 0); cbn [negb].
    + destruct (bf_stdin bu) as [q|]; [|discriminate]. intros [= <-]. right. split; [discriminate|]. split; [discriminate|]. right. split; [reflexivity|]. apply P, H.
    + intros [= <-]. right. split; [discriminate|]. split; [discriminate|]. auto.
  - intros H. unfold drain_add_input. destruct (Z.eqb_spec z 0); cbn [negb].
    + destruct (dr_stdin dr) as [q|]; [|discriminate]. intros [= <-]. right. split; [discriminate|]. split; [discriminate|]. right. split; [reflexivity|]. apply P, H.
    + intros [= <-]. right. split; [discriminate|]. split; [discriminate|]. auto.
  - intros (_ & H). unfold regulator_add_input. destruct (Z.eqb_spec z 0); cbn [negb].
    + destruct (rg_stdin r) as [q|]; [|discriminate]. intros [= <-]. right. split; [discriminate|]. split; [discriminate|]. right. split; [reflexivity|]. apply P, H.
    + intros [= <-]. right. split; [discriminate|]. split; [discriminate|]. auto.
Qed.

(** ** Words *)
Lemma called_text w c i : id_to_component_type_name w i = Some c -> string_hack w i = called c.
Proof. intros H. unfold string_hack. rewrite H. destruct c as [[] n]; reflexivity. Qed.
Lemma port_text_same o : oport_text o = port_word o. Proof. destruct o; reflexivity. Qed.
Lemma sentence_same w : warning_text w = sentence w.
Proof. assert (K : forall t n s, ctype_text t ++ ":" ++ n ++ s = called (t, n) ++ s) by (intros [] n s; reflexivity). destruct w; cbn -[append ctype_text called]; unfold unused_text; rewrite ?K; reflexivity. Qed.

(** ** The faults of the first so many elements *)
Inductive early (cfg : config) (xs : list connection) : string -> Prop :=
| E_launch n : In (CLaunch, n) (comps xs) -> lookup n (cf_launch cfg) = None -> early cfg xs ("Could not find configuration for Launch " ++ n)
| E_command n lc : In (CLaunch, n) (comps xs) -> lookup n (cf_launch cfg) = Some lc -> lc_command lc = None ->
    early cfg xs ("Launch '" ++ n ++ "' did not have a command specified")
| E_port l : In l (flinks xs) -> no_such_port l -> early cfg xs (cannot_send (lk_src l) ("UnsupportedPort(" ++ port_word (lk_port l) ++ ")"))
| E_used i j a b : i < j -> nth_error (flinks xs) i = Some a -> nth_error (flinks xs) j = Some b -> same_outlet a b -> fst (lk_src b) <> CJunction ->
    early cfg xs (cannot_send (lk_src b) ("AlreadyAllocated(" ++ port_word (lk_port b) ++ ")"))
| E_faucet l : In l (flinks xs) -> fst (lk_dst l) = CFaucet -> early cfg xs (cannot_receive (lk_dst l) "UnsupportedForControl")
| E_priority l : In l (flinks xs) -> fst (lk_dst l) <> CFaucet -> fst (lk_dst l) <> CJunction -> ip_priority (lk_in l) <> 0%Z ->
    early cfg xs (cannot_receive (lk_dst l) ("UnsupportedPriority(" ++ decimal (ip_priority (lk_in l)) ++ ")"))
| E_taken i j a b : i < j -> nth_error (flinks xs) i = Some a -> nth_error (flinks xs) j = Some b -> lk_dst a = lk_dst b ->
    fst (lk_dst b) <> CFaucet -> fst (lk_dst b) <> CJunction -> early cfg xs (cannot_receive (lk_dst b) "AlreadyAllocated").

Lemma early_more cfg xs ys e : early cfg xs e -> early cfg (xs ++ ys) e.
Proof.
  destruct (flinks_prefix xs ys) as (r & Hr).
  assert (Hc : forall c, In c (comps xs) -> In c (comps (xs ++ ys))) by (intros c H; unfold comps; rewrite map_app; apply in_or_app; auto).
  assert (Hl : forall l, In l (flinks xs) -> In l (flinks (xs ++ ys))) by (intros l H; rewrite Hr; apply in_or_app; auto).
  assert (Hn : forall i l, nth_error (flinks xs) i = Some l -> nth_error (flinks (xs ++ ys)) i = Some l).
  { intros i l H. rewrite Hr, nth_error_app1; [exact H|]. apply nth_error_Some. congruence. }
  intros [n H1 H2|n lc H1 H2 H3|l H1 H2|i j a b H1 H2 H3 H4 H5|l H1 H2|l H1 H2 H3 H4|i j a b H1 H2 H3 H4 H5 H6].
  - apply E_launch; auto.
  - eapply E_command; eauto.
  - apply E_port; auto.
  - eapply E_used; eauto.
  - apply E_faucet; auto.
  - apply E_priority; auto.
  - eapply E_taken; eauto.
Qed.

Lemma constructor_refused c cfg w e : constructor c cfg w = Err e -> exists n, c = (CLaunch, n) /\
  (lookup n (cf_launch cfg) = None /\ e = "Could not find configuration for Launch " ++ n \/
   exists lc, lookup n (cf_launch cfg) = Some lc /\ lc_command lc = None /\ e = "Launch '" ++ n ++ "' did not have a command specified").
Proof.
  destruct c as [[] n]; unfold constructor; cbn [fst snd incr_id]; try discriminate. intros H. exists n. split; [reflexivity|].
  destruct (lookup n (cf_launch cfg)) as [lc|]; [|injection H as <-; auto]. destruct (lc_command lc) eqn:E; [discriminate|]. injection H as <-. right. eauto.
Qed.

Lemma one_refused cfg0 xs c w cfg last e : inv cfg0 xs w cfg last -> wire_one (w, cfg, last) c = Good (Err e) -> early cfg0 (xs ++ [c]) e.
Proof.
  intros Hi. unfold wire_one. rewrite spec_of. cbn [cs_component cs_in cs_out].
  destruct (match get_id w (comp c) with Some id => Ok (id, cfg, w) | None => constructor (comp c) cfg w end) as [[[dst cfg'] w']|e'] eqn:E.
  2:{ intros [= <-]. destruct (get_id w (comp c)) eqn:Eg; [discriminate|]. apply constructor_refused in E as (n & Ec & Hn).
      assert (Hl : lookup n (cf_launch cfg) = lookup n (cf_launch cfg0)).
      { apply (proj2 (proj2 (proj2 (i_cfg _ _ _ _ _ Hi)))). intros Hin. apply (i_ids _ _ _ _ _ Hi) in Hin. rewrite <- Ec in Hin. congruence. }
      assert (Hin : In (CLaunch, n) (comps (xs ++ [c]))) by (apply comps_snoc; left; exact Ec).
      rewrite Hl in Hn. destruct Hn as [[H1 ->]|(lc & H1 & H2 & ->)]; [apply E_launch; assumption|eapply E_command; eassumption]. }
  destruct (make _ _ _ _ _ _ _ _ _ Hi E) as [Hm Hw]. pose proof (i_last _ _ _ _ _ Hi) as Hlast. destruct last as [[src port]|]; [|discriminate].
  destruct (rev xs) as [|x r] eqn:Er; [discriminate|]. destruct (output_of x) as [o|] eqn:Eo; [|discriminate]. cbn [option_map] in Hlast. injection Hlast as -> ->.
  destruct (input_of c) as [i|] eqn:Ei; [|discriminate]. destruct (join w' (wid w (comp x)) o dst i) as [w2|je] eqn:Ej; [discriminate|]. intros [= <-].
  assert (Hin : In (comp x) (comps xs)) by (apply in_map, in_rev; rewrite Er; left; reflexivity).
  set (l := Link (comp x) o (comp c) i).
  assert (Hfl : flinks (xs ++ [c]) = (flinks xs ++ [l])%list).
  { rewrite flinks_snoc, Er. unfold link_of. cbn [fst snd]. rewrite Eo, Ei. reflexivity. }
  set (n := List.length (flinks xs)).
  assert (Hnth : nth_error (flinks (xs ++ [c])) n = Some l) by (rewrite Hfl, nth_error_app2 by (unfold n; lia); unfold n; rewrite Nat.sub_diag; reflexivity).
  assert (Hlin : In l (flinks (xs ++ [c]))) by (rewrite Hfl; apply in_or_app; right; left; reflexivity).
  assert (Hold : forall k a, nth_error (flinks xs) k = Some a -> k < n /\ nth_error (flinks (xs ++ [c])) k = Some a).
  { intros k a Ha. assert (Hk : k < n) by (unfold n; apply nth_error_Some; congruence). split; [exact Hk|]. rewrite Hfl, nth_error_app1; assumption. }
  pose proof Hm as (M1 & M2 & M3 & M4 & M5 & M6 & M7 & M8 & M9 & M10 & M11 & M12 & M13).
  rewrite <- (Hw _ Hin) in Ej. rewrite join_cell, get_src_pull_cell in Ej.
  assert (Es : id_to_component_type_name w' (wid w' (comp x)) = Some (comp x)).
  { apply (name_of w' _ _ M2). unfold wid. destruct (get_id w' (comp x)) eqn:E1; [reflexivity|]. exfalso. apply (proj2 (M1 (comp x)) (or_intror Hin)). exact E1. }
  assert (Ec : id_to_component_type_name w' dst = Some (comp c)) by (apply (name_of w' _ _ M2); exact M10).
  rewrite Es, Ec in Ej. destruct (get_cell w' (comp x)) as [y|] eqn:Ey; [|exfalso; apply (proj2 (M4 (comp x)) (or_intror Hin)); exact Ey].
  pose proof (get_type _ _ _ Ey) as Ty.
  destruct (cell_add_output y o (ip_breakable i) (wid w' (comp x)) dst (w_channels w')) as [[y' p]|oe] eqn:Ea.
  - pose proof (add_output_ok _ _ _ _ _ _ _ _ (M5 _ _ Ey) Ea) as (Ep & T1 & W1' & Bare1 & I1 & O1).
    set (w1 := set_channels w' (S (w_channels w'))) in *. set (w2 := put_cell w1 (snd (comp x)) y') in *.
    assert (C2 : forall d, get_cell w2 d = if component_eqb d (comp x) then Some y' else get_cell w' d).
    { intros d. unfold w2. rewrite get_put, T1, Ty. destruct (comp x) as [t m]. cbn [fst snd]. unfold w1. rewrite set_channels_cell. reflexivity. }
    destruct (get_cell w2 (comp c)) as [z|] eqn:Ez.
    2:{ exfalso. rewrite C2 in Ez. destruct (component_eqb (comp c) (comp x)); [discriminate|]. apply (proj2 (M4 (comp c)) (or_introl eq_refl)). exact Ez. }
    assert (Hz : cell_wf z /\ cell_type z = fst (comp c) /\ exists z0, get_cell w' (comp c) = Some z0 /\ cell_ins z = cell_ins z0).
    { rewrite C2 in Ez. destruct (component_eqb_spec (comp c) (comp x)) as [Ecx|N].
      - injection Ez as <-. rewrite Ecx. split; [exact W1'|]. split; [rewrite T1; exact Ty|]. exists y. auto.
      - split; [eapply M5; exact Ez|]. split; [eapply get_type; exact Ez|]. eauto. }
    destruct Hz as (Wz & Tz & z0 & Ez0 & Iz).
    destruct (cell_add_input z p (ip_priority i)) as [[z' u]|ie] eqn:Eu; [discriminate|]. injection Ej as <-.
    cbn [connectable_error_text]. rewrite (called_text _ _ _ Ec).
    destruct (add_input_refused _ _ _ _ Wz Eu) as [[-> Ht]|(Hnf & Hnj & [[-> Hp]|[-> Hne]])]; rewrite Tz in *.
    + exact (E_faucet _ _ l Hlin Ht).
    + exact (E_priority _ _ l Hlin Hnf Hnj Hp).
    + rewrite Iz, (M8 _ _ Ez0) in Hne. destruct (map (in_end (wid w')) (filter (arrives (comp c)) (number (flinks xs)))) as [|en es] eqn:Ees; [congruence|].
      destruct (in_end_in w' (comp c) (flinks xs) en) as (a & Ha & Hd & _); [rewrite Ees; left; reflexivity|].
      destruct (Hold _ _ Ha) as [Hk Ha']. exact (E_taken _ _ _ _ a l Hk Ha' Hnth Hd Hnf Hnj).
  - injection Ej as <-. cbn [connectable_error_text]. rewrite (called_text _ _ _ Es).
    destruct (add_output_refused _ _ _ _ _ _ _ (M5 _ _ Ey) Ea) as [[-> Ht]|(-> & Hnj & j & m & Hjm & Hjp)]; rewrite Ty in *; cbn [add_output_error_text]; rewrite port_text_same.
    + exact (E_port _ _ l Hlin Ht).
    + destruct (out_end_in _ _ _ _ _ _ (M7 _ _ Ey) Hjm) as (a & Ha & Hsrc & Hport). destruct (Hold _ _ Ha) as [Hk Ha'].
      refine (E_used _ _ m n a l Hk Ha' Hnth _ Hnj). split; [exact Hsrc|]. rewrite Hsrc. intros Ht. specialize (Hjp Ht). rewrite Hport in Hjp.
      unfold port_kept in Hjp. rewrite Ht in Hjp. injection Hjp as Hjp. exact Hjp.
Qed.
Lemma wire_refused cfg0 ys : forall xs w cfg last e, inv cfg0 xs w cfg last -> wire ys (w, cfg, last) = Good (Err e) -> early cfg0 (xs ++ ys) e.
Proof.
  induction ys as [|c ys IH]; intros xs w cfg last e Hi; cbn [wire]; [discriminate|].
  destruct (wire_one (w, cfg, last) c) as [[y|e']|] eqn:E; cbn [obind]; try discriminate.
  - destruct y as [[w1 cfg1] last1]. intros H. pose proof (one_state _ _ _ _ _ _ _ Hi E) as H1. cbn [fst snd] in H1. specialize (IH _ _ _ _ _ H1 H). rewrite <- app_assoc in IH. exact IH.
  - intros [= <-]. pose proof (early_more _ _ ys _ (one_refused _ _ _ _ _ _ _ Hi E)) as H. rewrite <- app_assoc in H. exact H.
Qed.

Lemma refusal_named : forall c e, written_out (cf_connection c) -> get_waiter c = Good (Err e) -> fault c e.
Proof.
  intros c e Hw. unfold get_waiter. rewrite all_connections_good by exact Hw. cbn [obind].
  destruct (wire (allc (cf_connection c)) (waiter_new, c, None)) as [[[[w cfg] last]|e']|] eqn:E; cbn [obind]; try discriminate. intros [= <-].
  pose proof (wire_refused c _ [] _ _ _ _ (inv_start c) E) as H. cbn [app] in H.
  assert (Hm : forall x, In x (comps (allc (cf_connection c))) -> is_mentioned (cf_connection c) x) by (intros x; apply mentioned_all, Hw).
  pose proof (flinks_links _ Hw) as Hl.
  destruct H as [n H1 H2|n lc H1 H2 H3|l H1 H2|i j a b H1 H2 H3 H4 H5|l H1 H2|l H1 H2 H3 H4|i j a b H1 H2 H3 H4 H5 H6]; rewrite ?Hl in *.
  - apply F_launch; auto.
  - eapply F_command; eauto.
  - apply F_port; auto.
  - eapply F_used; eauto.
  - apply F_faucet; auto.
  - apply F_priority; auto.
  - eapply F_taken; eauto.
Qed.
Lemma fault_refused : forall c, written_out (cf_connection c) -> (exists e, fault c e) -> exists e, get_waiter c = Good (Err e) /\ fault c e.
Proof.
  intros c Hw (e & He). destruct (builds_exactly c Hw) as [_ H]. destruct H as (e' & E); [|exists e'; split; [exact E|exact (refusal_named _ _ Hw E)]].
  intros [B1 B2 B3 B4 B5 B6 B7]. destruct He as [n H1 H2|n lc H1 H2 H3|l H1 H2|i j a b H1 H2 H3 H4 H5|l H1 H2|l H1 H2 H3 H4|i j a b H1 H2 H3 H4 H5 H6].
  - destruct (B1 n H1) as (lc & cmd & E & _). congruence.
  - destruct (B1 n H1) as (lc' & cmd & E & Ec). congruence.
  - destruct H2 as [H2|[H2 Hp]]; [exact (B3 l H1 H2)|exact (Hp (B4 l H1 H2))].
  - pose proof H4 as [Hs _]. rewrite <- Hs in H5. pose proof (B6 _ _ _ _ H2 H3 H4 H5). lia.
  - exact (B2 l H1 H2).
  - exact (H4 (B5 l H1 H3)).
  - rewrite <- H4 in H6. pose proof (B7 _ _ _ _ H2 H3 H4 H6). lia.
Qed.

(** ** Lint and the preparation *)
Lemma lint_says c : exists ws, (forall w, In w ws <-> said_of c w) /\ NoDup ws /\
  (ws = [] /\ (exists c', lint_show c = Good (Ok c')) \/ ws <> [] /\ lint_show c = Good (Err (map sentence ws))).
Proof.
  destruct (lint_exact c) as (c' & ws & E & H1 & H2 & _). exists ws. split.
  - intros w. split.
    + intros Hw. destruct ws as [|w0 r]; [destruct Hw|]. assert (D : (exists w, unreadable c w) \/ (forall w, ~ unreadable c w)).
      { destruct (convert_total (cf_connection c)) as (m' & errs & _ & _ & Hs & _). destruct errs as [|x errs]; [right|left].
        - intros x [k s Hin Hn]. assert (In (InvalidConnection k s) []) as [] by (apply Hs; eauto).
        - destruct (proj1 (Hs x) (or_introl eq_refl)) as (k & s & -> & Hin & Hn). exists (InvalidConnection k s). constructor; assumption. }
      destruct D as [D|D]; [left; apply (H1 D), Hw|right; split; [exact D|apply (H2 D), Hw]].
    + intros [Hw|[Hn Hw]]; [apply H1; eauto|apply H2; auto].
  - split; [exact (lint_once _ _ _ E)|]. unfold lint_show. rewrite E. cbn [obind]. destruct ws as [|w r]; [left; split; [reflexivity|eauto]|right]. split; [discriminate|].
    do 2 f_equal. apply map_ext. apply sentence_same.
Qed.

Lemma watched_text r b : sentence (RegulatorWatchingMissingBuffer ("regulator[""" ++ r ++ """].monitored_buffers") CBuffer b) =
  "PA: Error: 0004: Buffer:" ++ b ++ " - Configuration exists in regulator[""" ++ r ++ """].monitored_buffers, but this is not referenced in the connections".
Proof. cbn [sentence]. unfold unused_text, called. cbn [kind_word fst snd]. rewrite !app_assoc_s. reflexivity. Qed.
Lemma process_says sh c : fair sh -> good_connections (cf_connection c) -> exists c2 ts, connection_manipulation sh c = Good (c2, [keys (cf_drain c)]) /\
  cf_faucet c2 = cf_faucet c /\ cf_regulator c2 = cf_regulator c /\ cf_launch c2 = cf_launch c /\ (forall t, In t ts <-> lacks c2 c t) /\ (exists ws, NoDup ws /\ ts = map sentence ws) /\
  (ts = [] /\ process_config sh c = Good (Ok c2, [keys (cf_drain c)]) \/ ts <> [] /\ process_config sh c = Good (Err ts, [keys (cf_drain c)])).
Proof.
  intros Hf [Hoc Hg]. destruct (prepare sh c Hf Hg) as (c' & p & r & E & P). destruct (paired _ Hg) as (m1 & p' & added & E1 & E2 & Ho & Hp & Hpo & Hi & Hr & Hc).
  destruct (pr_paired _ _ _ _ _ P) as (m1' & E1' & E2'). rewrite E1 in E1'. injection E1' as <-. rewrite E2 in E2'. injection E2' as <-.
  assert (Hm : forall x, is_mentioned (cf_connection c) x <-> occurs p' x).
  { intros x. split; [exact (mentioned_occurs _ _ _ _ Hg Hpo Ho Hi Hr Hc x)|exact (occurs_mentioned c p' m1 added Hpo Ho Hi Hr x)]. }
  pose proof (mentioned_kept sh c c' p' r Hf Ho Hp P Hm) as Hkept. pose proof (mentioned_old sh c c' p' r Hf Ho Hp P Hm) as Hold.
  destruct (lint_exact c') as (c2 & ws & El & Hbad & Hgood & _). pose proof (lint_pairs _ _ _ (pr_pairs _ _ _ _ _ P) El) as ->.
  assert (Hnone : forall w, ~ unreadable c' w).
  { intros w [k s Hin _]. pose proof (pr_pairs _ _ _ _ _ P) as Hap. unfold all_pairs in Hap. rewrite Forall_forall in Hap. apply (Hap _ Hin). reflexivity. }
  specialize (Hgood Hnone).
  exists c', (map sentence (filter serious ws)). split; [exact E|]. split; [apply P|]. split; [apply P|]. split; [apply P|]. split.
  - intros t. rewrite in_map_iff. split.
    + intros (w & <- & Hw). apply filter_In in Hw as [Hw Hs]. apply Hgood in Hw. destruct Hw as [n rc b Hin Hb Hnot|t n Hcf Hnot|t n Hment Ht Hnot]; [|discriminate|].
      * rewrite watched_text. apply (L_watched c' c n rc b); [rewrite <- (pr_regulator _ _ _ _ _ P); exact Hin|exact Hb|]. intros Hx. apply Hnot, Hkept, Hx.
      * apply L_settings; [exact Ht| |exact Hnot]. destruct (Hold _ Hment) as [Hx|[Hx|[Hx Hl]]]; [exact Hx| |].
        -- destruct Ht as [Ht _]. contradiction.
        -- exfalso. apply Hnot. cbn in Hx. subst t. unfold configured. cbn [fst snd]. apply lookup_key. exact Hl.
    + intros [t' n Ht Hment Hnot|r' rc b Hin Hb Hnot].
      * exists (InFlowConnectionButMissingConfig t' n). split; [reflexivity|]. apply filter_In. split; [|reflexivity]. apply Hgood. constructor; auto.
      * exists (RegulatorWatchingMissingBuffer ("regulator[""" ++ r' ++ """].monitored_buffers") CBuffer b). split.
        { apply watched_text. }
        apply filter_In. split; [|reflexivity]. apply Hgood. apply (Pr_watched c' r' rc b); [rewrite (pr_regulator _ _ _ _ _ P); exact Hin|exact Hb|].
        intros Hx. apply Hnot. destruct (Hold _ Hx) as [Hx'|[[=]|[[=] _]]]. exact Hx'.
  - split; [exists (filter serious ws); split; [apply NoDup_filter, (lint_once _ _ _ El)|reflexivity]|].
    unfold process_config. rewrite E. cbn [obind]. rewrite El. cbn [obind]. destruct (filter serious ws) as [|w l].
    + left. auto.
    + right. split; [discriminate|]. rewrite <- (map_ext _ _ sentence_same). reflexivity.
Qed.

(** ** On the command line *)
Lemma inside_join t ts : In t ts -> inside t (join_lines ts).
Proof.
  induction ts as [|x ts IH]; [intros []|]. intros [->|H].
  - destruct ts as [|y ts]; [exists "", ""; cbn [append]; now rewrite app_nil_s|]. exists "", (String "010" " * " ++ join_lines (y :: ts)). reflexivity.
  - destruct (IH H) as (a & b & E). destruct ts as [|y ts]; [destruct H|]. cbn [join_lines] in *. rewrite E.
    exists (x ++ String "010" " * " ++ a), b. rewrite !app_assoc_s. reflexivity.
Qed.
Lemma inside_more t s a b : inside t s -> inside t (a ++ s ++ b).
Proof. intros (x & y & ->). exists (a ++ x), (y ++ b). rewrite !app_assoc_s. reflexivity. Qed.

Lemma lint_shown os sh path f c : read_config os f path = Ok c ->
  (exists w, said_of c w) -> exists e, process_request os sh (ConfigLintShow path f) = Good (Err e, []) /\ forall w, said_of c w -> inside (sentence w) e.
Proof.
  intros Hr (w0 & Hw0). destruct (lint_says c) as (ws & Hws & _ & [[-> _]|[Hne E]]); [destruct (proj2 (Hws _) Hw0)|].
  cbn [process_request]. rewrite Hr, E. cbn [obind]. eexists. split; [reflexivity|]. intros w Hw.
  pose proof (inside_join (sentence w) (map sentence ws)) as H. specialize (H (in_map _ _ _ (proj2 (Hws _) Hw))).
  apply (inside_more _ _ ("We found the following warnings / errors: " ++ nl ++ nl ++ " * ") nl) in H. rewrite !app_assoc_s in H. exact H.
Qed.
Lemma process_shown os sh path f c : fair sh -> read_config os f path = Ok c -> good_connections (cf_connection c) -> exists c2 e out,
  cf_faucet c2 = cf_faucet c /\ cf_regulator c2 = cf_regulator c /\ cf_launch c2 = cf_launch c /\
  process_request os sh (Process path f) = Good (e, out) /\
  ((forall t, ~ lacks c2 c t) /\ e = Ok (RProcess c2) \/ (exists t, lacks c2 c t) /\ exists s, e = Err s /\ forall t, lacks c2 c t -> inside t s).
Proof.
  intros Hf Hr Hg. destruct (process_says sh c Hf Hg) as (c2 & ts & _ & H1 & H2 & H3 & Hts & _ & D). exists c2.
  cbn [process_request]. rewrite Hr. destruct D as [[-> E]|[Hne E]]; rewrite E; cbn [obind]; do 2 eexists; (split; [exact H1|]); (split; [exact H2|]); (split; [exact H3|]); (split; [reflexivity|]).
  - left. split; [|reflexivity]. intros t Ht. apply Hts in Ht. destruct Ht.
  - right. split; [destruct ts as [|t ts]; [congruence|exists t; apply Hts; left; reflexivity]|]. eexists. split; [reflexivity|]. intros t Ht.
    apply Hts, inside_join in Ht. apply (inside_more _ _ "Process " "") in Ht. rewrite app_nil_s in Ht. exact Ht.
Qed.
