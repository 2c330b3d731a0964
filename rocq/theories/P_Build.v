(** * P_Build: from the rewritten configuration to the pipeline *)
From Coq Require Import Ascii String List Bool Arith ZArith Lia Permutation.
From Verif Require Import M_Prog M_Motion M_Connectable M_Config M_Manip M_Faucet M_Launch M_Junction M_Buffer M_Drain M_Regulator M_Waiter S_Grammar S_Manip S_Waiter P_Text P_Map P_Manip P_Pair P_Cell P_Wire.
Import ListNotations.
Local Open Scope string_scope.

Definition allc (m : connmap) : list connection := flat_map (fun kv => listed (snd kv)) m.

Lemma all_connections_good m : written_out m -> all_connections m = Good (allc m).
Proof.
  unfold all_connections. change (allc m) with ([] ++ allc m)%list. generalize (@nil connection) as acc. induction m as [|[k d] m IH]; intros acc H; cbn [ofold].
  - unfold allc. cbn. rewrite app_nil_r. reflexivity.
  - inversion H as [|? ? (l & El & _) Hr]; subst. cbn [snd] in *. subst d. cbn [obind]. rewrite IH by exact Hr. unfold allc. cbn [flat_map listed snd]. rewrite app_assoc. reflexivity.
Qed.

(** The first of a chain takes nothing, the last gives nothing. *)
Lemma tail_last l : chain_tail l -> exists l' x, l = (l' ++ [x])%list /\ output_of x = None.
Proof.
  induction 1 as [t n i s|t n i o s l _ (l' & x & -> & Hx)]; [exists [], (EndC t n i s); auto|]. exists (MiddleC t n i o s :: l')%list, x. auto.
Qed.
Lemma chain_last l : chain l -> l = [] \/ exists l' x, l = (l' ++ [x])%list /\ output_of x = None.
Proof.
  destruct 1 as [|t n o s l H]; [left; reflexivity|right]. destruct (tail_last _ H) as (l' & x & -> & Hx). exists (StartC t n o s :: l')%list, x. auto.
Qed.
Lemma neighbours_app {A} (xs : list A) x y ys : neighbours ((xs ++ [x]) ++ y :: ys) = (neighbours (xs ++ [x]) ++ (x, y) :: neighbours (y :: ys))%list.
Proof.
  induction xs as [|a xs IH]; [reflexivity|]. cbn [app] in *. destruct xs as [|b xs]; [reflexivity|]. cbn [app] in *.
  cbn [neighbours app]. f_equal. exact IH.
Qed.
Lemma flinks_chain l r : chain l -> flinks (l ++ r) = (flinks l ++ flinks r)%list.
Proof.
  intros H. destruct (chain_last _ H) as [->|(l' & x & -> & Hx)]; [reflexivity|]. destruct r as [|y r]; [unfold flinks; rewrite !app_nil_r; reflexivity|].
  unfold flinks. rewrite neighbours_app, flat_map_app. cbn [flat_map]. unfold link_of at 2. cbn [fst snd]. rewrite Hx. reflexivity.
Qed.
Lemma flinks_links m : written_out m -> flinks (allc m) = links m.
Proof.
  induction 1 as [|[k d] m (l & El & Hc) _ IH]; [reflexivity|]. cbn [snd] in *. subst d. unfold allc, links in *. cbn [flat_map listed snd].
  rewrite flinks_chain by exact Hc. rewrite IH. reflexivity.
Qed.
Lemma joinable_tail l : chain_tail l -> (forall a b, In (a, b) (neighbours l) -> input_of b <> None) /\ (forall y r, l = y :: r -> input_of y <> None).
Proof.
  induction 1 as [|t n i o s l Hl [IH1 IH2]]; (split; [|intros y r [= <- <-]; discriminate]).
  - intros a b [].
  - intros a b. destruct l as [|y r]; [intros []|]. cbn [neighbours]. intros [[= <- <-]|H]; [apply (IH2 y r); reflexivity|apply (IH1 a b H)].
Qed.
Lemma joinable_chain l : chain l -> joinable l.
Proof.
  intros H a b Hin _. destruct H as [|t n o s l H]; [destruct Hin|]. destruct (joinable_tail _ H) as [J1 J2]. destruct l as [|y r]; [destruct Hin|].
  cbn [neighbours] in Hin. destruct Hin as [[= <- <-]|Hin]; [apply (J2 y r); reflexivity|apply (J1 a b Hin)].
Qed.
Lemma joinable_all m : written_out m -> joinable (allc m).
Proof.
  induction 1 as [|[k d] m (l & El & Hc) _ IH]; [intros a b []|]. cbn [snd] in *. subst d. unfold allc in *. cbn [flat_map listed snd].
  destruct (chain_last _ Hc) as [->|(l' & x & -> & Hx)]; [exact IH|]. destruct (flat_map (fun kv => listed (snd kv)) m) as [|y r].
  - rewrite app_nil_r. apply joinable_chain. exact Hc.
  - intros a b. rewrite neighbours_app. intros [H|[[= <- <-]|H]]%in_app_or; [exact (joinable_chain _ Hc a b H)|congruence|exact (IH a b H)].
Qed.

Lemma mentioned_all m c : written_out m -> is_mentioned m c <-> In c (comps (allc m)).
Proof.
  intros Hw. unfold comps, allc, is_mentioned, reads. rewrite in_map_iff. split.
  - intros (k & l & x & (d & Hd & [->|(s & -> & Hs)]) & Hx & <-).
    + exists x. split; [reflexivity|]. apply in_flat_map. eexists. split; [exact Hd|]. exact Hx.
    + exfalso. unfold written_out in Hw. rewrite Forall_forall in Hw. destruct (Hw _ Hd) as (l' & E & _). discriminate.
  - intros (x & <- & Hx). apply in_flat_map in Hx as ([k d] & Hd & Hx). cbn [snd] in Hx. destruct d as [s|l]; [destruct Hx|].
    exists k, l, x. split; [exists (Connections l); auto|]. split; [exact Hx|reflexivity].
Qed.

(** ** Never a panic *)
Lemma one_good xs c w cfg last cfg0 : inv cfg0 xs w cfg last -> joinable (xs ++ [c]) -> exists r, wire_one (w, cfg, last) c = Good r.
Proof.
  intros Hi Hj. unfold wire_one. destruct (match get_id w _ with Some id => Ok (id, cfg, w) | None => _ end) as [[[dst cfg'] w']|e]; [|eauto].
  rewrite spec_of. cbn [cs_component cs_in cs_out]. pose proof (i_last _ _ _ _ _ Hi) as Hl. destruct last as [[src port]|]; [|eauto].
  destruct (rev xs) as [|x r] eqn:Er; [discriminate|]. destruct (output_of x) as [o|] eqn:Eo; [|discriminate].
  assert (Exs : xs = (rev r ++ [x])%list) by (rewrite <- (rev_involutive xs), Er; reflexivity).
  destruct (input_of c) as [i|] eqn:Ei; [destruct (join w' src port dst i); eauto|]. exfalso. apply (Hj x c); [|congruence|exact Ei].
  rewrite Exs, neighbours_snoc. apply in_or_app. right. left. reflexivity.
Qed.
Lemma wire_good cfg0 ys : forall xs w cfg last, inv cfg0 xs w cfg last -> joinable (xs ++ ys) -> exists r, wire ys (w, cfg, last) = Good r.
Proof.
  induction ys as [|c ys IH]; intros xs w cfg last Hi Hj; [cbn; eauto|]. cbn [wire].
  destruct (one_good xs c w cfg last cfg0 Hi) as (r & E).
  { intros a b H. apply Hj. apply (neighbours_app_l _ ys) in H. rewrite <- app_assoc in H. exact H. }
  rewrite E. cbn [obind]. destruct r as [[[w1 cfg1] last1]|e]; [|eauto]. pose proof (one_state _ _ _ _ _ _ _ Hi E) as H1. cbn [fst snd] in H1.
  apply (IH (xs ++ [c])%list); [exact H1|]. rewrite <- app_assoc. exact Hj.
Qed.

(** ** The settings of regulators *)
Lemma set_settings_cell w s c : get_cell (set_settings w s) c = get_cell w c.
Proof. destruct c as [[] n]; reflexivity. Qed.
Lemma configure_regulator_cases w n bs lo hi :
  let ok := In n (keys (w_regulator w)) /\ Forall (fun b => In b (keys (w_buffer w))) bs in
  fst (configure_regulator w n bs lo hi) = set_settings w (hput n (Settings lo hi bs) (w_settings w)) /\ ok \/ fst (configure_regulator w n bs lo hi) = w /\ ~ ok.
Proof.
  unfold configure_regulator. cbn.
  assert (Hf : forallb (fun f => match lookup f (w_buffer w) with Some _ => true | None => false end) bs = true <-> Forall (fun b => In b (keys (w_buffer w))) bs).
  { rewrite forallb_forall, Forall_forall. split; intros H b Hb; specialize (H b Hb); rewrite <- lookup_key in *; destruct (lookup b (w_buffer w)); congruence. }
  destruct (forallb _ bs); cbn [negb orb].
  - pose proof (lookup_key n (w_regulator w)) as Hk. destruct (lookup n (w_regulator w)); cbn [fst]; [left|right].
    + split; [reflexivity|]. split; [apply Hk; discriminate|apply Hf; reflexivity].
    + split; [reflexivity|]. intros [H _]. apply Hk in H. congruence.
  - right. split; [reflexivity|]. intros [_ H]. apply Hf in H. discriminate.
Qed.

Lemma configure_facts regs : forall w, exists s, configure w regs = set_settings w s /\ (NoDup (keys (w_settings w)) -> NoDup (keys s)) /\
  (NoDup (keys regs) -> forall n, lookup n s =
     match lookup n regs with
     | Some rc => match rc_buffered rc with
                  | Some (lo, hi) => if mem n (keys (w_regulator w)) && forallb (fun b => mem b (keys (w_buffer w))) (rc_monitored rc) then Some (Settings lo hi (rc_monitored rc)) else lookup n (w_settings w)
                  | None => lookup n (w_settings w)
                  end
     | None => lookup n (w_settings w)
     end).
Proof.
  induction regs as [|[k rc] regs IH]; intros w; cbn [configure fold_left fst snd].
  - exists (w_settings w). split; [destruct w; reflexivity|]. split; [auto|reflexivity].
  - set (w1 := match rc_buffered rc with Some (lo, hi) => fst (configure_regulator w k (rc_monitored rc) lo hi) | None => w end).
    destruct (IH w1) as (s & Es & Hsn & Hs). unfold configure in Es. rewrite Es.
    assert (H1 : exists s1, w1 = set_settings w s1 /\ (NoDup (keys (w_settings w)) -> NoDup (keys s1)) /\ forall n, lookup n s1 = if String.eqb n k then match rc_buffered rc with
                  | Some (lo, hi) => if mem n (keys (w_regulator w)) && forallb (fun b => mem b (keys (w_buffer w))) (rc_monitored rc) then Some (Settings lo hi (rc_monitored rc)) else lookup n (w_settings w)
                  | None => lookup n (w_settings w)
                  end else lookup n (w_settings w)).
    { unfold w1. destruct (rc_buffered rc) as [[lo hi]|].
      - assert (Hiff : mem k (keys (w_regulator w)) && forallb (fun b => mem b (keys (w_buffer w))) (rc_monitored rc) = true <-> In k (keys (w_regulator w)) /\ Forall (fun b => In b (keys (w_buffer w))) (rc_monitored rc)).
        { rewrite andb_true_iff, forallb_forall, Forall_forall, mem_in. split; intros [A B]; (split; [exact A|]); intros b Hb; apply mem_in; auto. }
        destruct (configure_regulator_cases w k (rc_monitored rc) lo hi) as [[-> Ok]|[-> N]].
        + exists (hput k (Settings lo hi (rc_monitored rc)) (w_settings w)). split; [reflexivity|]. split; [apply nodup_hput|]. intros n. rewrite lookup_hput. destruct (String.eqb_spec n k) as [->|]; [|reflexivity].
          rewrite (proj2 Hiff Ok). reflexivity.
        + exists (w_settings w). split; [destruct w; reflexivity|]. split; [auto|]. intros n. destruct (String.eqb_spec n k) as [->|]; [|reflexivity].
          destruct (mem k (keys (w_regulator w)) && forallb (fun b => mem b (keys (w_buffer w))) (rc_monitored rc)); [|reflexivity]. exfalso. apply N, Hiff. reflexivity.
      - exists (w_settings w). split; [destruct w; reflexivity|]. split; [auto|]. intros n. destruct (String.eqb n k); reflexivity. }
    destruct H1 as (s1 & E1 & Hn1 & Hs1). rewrite E1 in *. exists s. split; [destruct w; reflexivity|]. split; [auto|]. intros Hnd n. inversion Hnd as [|? ? Hk Hnd']; subst. rewrite (Hs Hnd' n). cbn [w_regulator w_buffer w_settings set_settings lookup].
    rewrite Hs1. cbn [lookup]. destruct (String.eqb_spec n k) as [->|N].
    + destruct (lookup k regs) eqn:El; [|reflexivity]. exfalso. apply Hk. apply lookup_key. congruence.
    + reflexivity.
Qed.

(** ** The pipeline *)
Lemma comps_can cfg : written_out (cf_connection cfg) -> buildable cfg (links (cf_connection cfg)) <-> can_build cfg (allc (cf_connection cfg)) (flinks (allc (cf_connection cfg))).
Proof.
  intros H. rewrite flinks_links by exact H. split; intros [B1 B2 B3 B4 B5 B6 B7]; constructor; auto; intros n Hn; apply B1; apply (mentioned_all _ _ H); exact Hn.
Qed.

Theorem get_waiter_exact cfg : written_out (cf_connection cfg) ->
  (buildable cfg (links (cf_connection cfg)) -> exists w, get_waiter cfg = Good (Ok w)) /\
  (~ buildable cfg (links (cf_connection cfg)) -> exists e, get_waiter cfg = Good (Err e)) /\
  (forall w, get_waiter cfg = Good (Ok w) -> buildable cfg (links (cf_connection cfg)) /\ exists id, built_as cfg w id).
Proof.
  intros Hw. set (m := cf_connection cfg) in *. unfold get_waiter. fold m. rewrite all_connections_good by exact Hw. cbn [obind].
  destruct (wire_good cfg (allc m) [] waiter_new cfg None (inv_start cfg)) as (r & Er); [apply joinable_all; exact Hw|]. rewrite Er. cbn [obind].
  assert (Hback : forall st, r = Ok st -> buildable cfg (links m) /\ inv cfg (allc m) (fst (fst st)) (snd (fst st)) (snd st)).
  { intros st ->. pose proof (wire_state _ _ _ _ _ _ _ (inv_start cfg) Er) as Hi. cbn [app] in Hi. split; [|exact Hi]. apply (comps_can cfg Hw). exact (built_possible _ _ _ _ _ Hi). }
  split; [|split].
  - intros Hb. apply (comps_can cfg Hw) in Hb. destruct (wire_progress cfg (allc m) [] waiter_new cfg None (inv_start cfg) Hb (joinable_all _ Hw)) as ([[w' c'] l'] & E). rewrite E in Er.
    injection Er as <-. eauto.
  - intros Hn. destruct r as [st|e]; [|eauto]. exfalso. apply Hn. apply (Hback st eq_refl).
  - intros w. destruct r as [[[w0 c0] l0]|e]; [|discriminate]. intros [= <-]. destruct (Hback _ eq_refl) as [Hb Hi]. split; [exact Hb|]. cbn [fst snd] in Hi.
    destruct Hi as [I1 I2 I3 I4 I5 I6 I7 I8 I9 I10 (D1 & D2 & D3 & D4) I12 I13]. rewrite D3. destruct (configure_facts (cf_regulator cfg) w0) as (s & -> & Hsn & Hs).
    assert (Hhas : forall c, has_component w0 c <-> is_mentioned m c) by (intros c; rewrite has_cell, (mentioned_all _ _ Hw); apply I4).
    assert (Hget : forall c, is_mentioned m c -> get_id w0 c = Some (wid w0 c)).
    { intros c Hc. apply (mentioned_all _ _ Hw), I1 in Hc. unfold wid. destruct (get_id w0 c); congruence. }
    destruct I2 as (hm & Ehm & Hhm).
    exists (wid w0). constructor; fold m.
    + intros c. rewrite <- Hhas. reflexivity.
    + destruct I12 as (K1 & K2 & K3 & K4 & K5 & K6). cbn. auto 10.
    + intros c c' Hc Hc' E. apply Hget, Hhm in Hc. apply Hget, Hhm in Hc'. rewrite E in Hc. congruence.
    + intros i c. unfold id_to_component_type_name. cbn [w_names set_settings]. rewrite Ehm, Hhm. split.
      * intros H. split; [apply (mentioned_all _ _ Hw), I1; congruence|]. apply wid_get. exact H.
      * intros [Hc <-]. apply Hget, Hc.
    + intros c. change (outs (set_settings w0 s) c) with (outs w0 c). unfold numbered_links. rewrite <- (flinks_links m Hw), outs_cell. fold (number (flinks (allc m))).
      destruct (get_cell w0 c) as [x|] eqn:E; [apply I7; exact E|]. rewrite (proj1 (no_ends (allc m) c (fun H => proj2 (I4 c) H E))). constructor.
    + intros c. change (ins (set_settings w0 s) c) with (ins w0 c). unfold numbered_links. rewrite <- (flinks_links m Hw), ins_cell. fold (number (flinks (allc m))).
      destruct (get_cell w0 c) as [x|] eqn:E; [apply I8; exact E|]. rewrite (proj2 (no_ends (allc m) c (fun H => proj2 (I4 c) H E))). reflexivity.
    + assert (Hb0 : forall c x, get_cell w0 c = Some x -> fresh cfg (wid w0 c) c (bare x)) by exact I6.
      assert (G : forall (V : Type) (o : option V) f x, o = Some x -> option_map f o = Some (f x : cell)) by (intros V o f x ->; reflexivity).
      unfold as_configured. cbn [w_faucet w_launch w_junction w_buffer w_drain w_regulator set_settings].
      split; [|split; [|split; [|split; [|split]]]]; intros n x Hx.
      * specialize (Hb0 (CFaucet, n) _ (G _ _ KFaucet _ Hx)). cbn in Hb0. injection Hb0 as E1 E2 E3 E4. auto.
      * specialize (Hb0 (CDrain, n) _ (G _ _ KDrain _ Hx)). cbn in Hb0. injection Hb0 as E1 E2. auto.
      * destruct (Hb0 (CLaunch, n) _ (G _ _ KLaunch _ Hx)) as (lc & cmd & H1 & H2 & H3). exists lc. cbn in H3. injection H3 as E1 E2 E3 E4 E5 E6. rewrite E1, E2, E3, E4, E5.
        split; [exact H1|]. split; [exact H2|]. split; [reflexivity|]. split; [reflexivity|]. split; [exact E6|].
        split; [destruct (lc_env lc); auto|destruct (lc_arg lc); auto].
      * specialize (Hb0 (CJunction, n) _ (G _ _ KJunction _ Hx)). cbn in Hb0. injection Hb0 as E1 E2 E3. auto.
      * specialize (Hb0 (CBuffer, n) _ (G _ _ KBuffer _ Hx)). cbn in Hb0. injection Hb0 as E1 E2. auto.
      * specialize (Hb0 (CRegulator, n) _ (G _ _ KRegulator _ Hx)). cbn in Hb0. injection Hb0 as E1 E2 E3. auto.
    + cbn [w_settings set_settings]. apply Hsn. rewrite I13. constructor.
    + intros Hnd n st. cbn [w_settings set_settings]. rewrite (Hs Hnd), I13. clear Hs.
      assert (Hiff : forall rc, mem n (keys (w_regulator w0)) && forallb (fun b => mem b (keys (w_buffer w0))) (rc_monitored rc) = true <-> is_mentioned m (CRegulator, n) /\ Forall (fun b => is_mentioned m (CBuffer, b)) (rc_monitored rc)).
      { intros rc. rewrite andb_true_iff, forallb_forall, Forall_forall, mem_in, <- Hhas. apply and_iff_compat_l.
        split; intros A b Hb'; specialize (A b Hb'); [apply Hhas, mem_in, A|apply Hhas in A; apply mem_in; exact A]. }
      split.
      * destruct (lookup n (cf_regulator cfg)) as [rc|] eqn:El; [|discriminate]. destruct (rc_buffered rc) as [[lo hi]|] eqn:Eb; [|discriminate].
        destruct (mem n _ && _) eqn:Em; [|discriminate]. intros [= <-]. exists rc, lo, hi. split; [apply lookup_in; exact El|]. split; [exact Eb|]. split; [reflexivity|]. apply Hiff. exact Em.
      * intros (rc & lo & hi & Hin & Eb & -> & Hm). rewrite (in_lookup _ _ _ Hnd Hin), Eb. apply Hiff in Hm. rewrite Hm. reflexivity.
Qed.
Lemma built_exactly : forall c w, written_out (cf_connection c) -> get_waiter c = Good (Ok w) -> exists id, built_as c w id.
Proof. intros c w Hw Hg. exact (proj2 (proj2 (proj2 (get_waiter_exact c Hw)) w Hg)). Qed.
Lemma builds_exactly : forall c, written_out (cf_connection c) ->
  (buildable c (links (cf_connection c)) -> exists w, get_waiter c = Good (Ok w)) /\
  (~ buildable c (links (cf_connection c)) -> exists e, get_waiter c = Good (Err e)).
Proof. intros c Hw. exact (conj (proj1 (get_waiter_exact c Hw)) (proj1 (proj2 (get_waiter_exact c Hw)))). Qed.
