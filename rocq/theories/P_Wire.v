(** * P_Wire: wiring a list of connections *)
From Coq Require Import Ascii String List Bool Arith ZArith Permutation Lia.
From Verif Require Import M_Prog M_Motion M_Connectable M_Config M_Manip M_Lint M_Faucet M_Launch M_Junction M_Buffer M_Drain M_Regulator M_Waiter S_Grammar S_Manip S_Waiter P_Map P_Junctions P_Cell.
Import ListNotations.
Local Open Scope string_scope.

Definition comp (x : connection) : component := (conn_type x, conn_name x).
Definition comps (xs : list connection) : list component := map comp xs.
Definition flinks (xs : list connection) : list link := flat_map link_of (neighbours xs).
Definition number (ls : list link) : list (nat * link) := combine (seq 0 (List.length ls)) ls.

Lemma neighbours_snoc {A} (xs : list A) x c : neighbours ((xs ++ [x]) ++ [c]) = (neighbours (xs ++ [x]) ++ [(x, c)])%list.
Proof.
  induction xs as [|a xs IH]; [reflexivity|]. cbn [app]. destruct xs as [|b xs]; [reflexivity|].
  cbn [app] in *. cbn [neighbours] in *. rewrite IH. reflexivity.
Qed.
Lemma neighbours_mem {A} (xs : list A) a b : In (a, b) (neighbours xs) -> In a xs /\ In b xs.
Proof.
  induction xs as [|x xs IH]; [intros []|]. destruct xs as [|y xs]; [intros []|]. cbn [neighbours]. intros [[= <- <-]|H]; [cbn; auto|].
  apply IH in H as [H1 H2]. split; right; assumption.
Qed.
Lemma combine_snoc {A B} (a : list A) (b : list B) x y : List.length a = List.length b -> combine (a ++ [x]) (b ++ [y]) = (combine a b ++ [(x, y)])%list.
Proof. revert b. induction a as [|p a IH]; destruct b as [|q b]; cbn; try discriminate; [reflexivity|]. intros [= H]. rewrite IH by exact H. reflexivity. Qed.
Lemma number_snoc ls l : number (ls ++ [l]) = (number ls ++ [(List.length ls, l)])%list.
Proof.
  unfold number. rewrite app_length. cbn [List.length]. rewrite seq_app. cbn [seq Nat.add]. apply combine_snoc. apply seq_length.
Qed.
Lemma number_in ls k l : In (k, l) (number ls) <-> nth_error ls k = Some l.
Proof.
  induction ls as [|a ls IH] using rev_ind; [split; [intros []|destruct k; discriminate]|].
  rewrite number_snoc, in_app_iff, IH. split.
  - intros [H|[[= <- <-]|[]]].
    + rewrite nth_error_app1; [exact H|]. apply nth_error_Some. congruence.
    + rewrite nth_error_app2 by lia. rewrite Nat.sub_diag. reflexivity.
  - intros H. destruct (Nat.lt_ge_cases k (List.length ls)) as [Hk|Hk].
    + left. rewrite nth_error_app1 in H by exact Hk. exact H.
    + right. rewrite nth_error_app2 in H by exact Hk. destruct (k - List.length ls) as [|n] eqn:E; [|destruct n; discriminate].
      injection H as <-. left. f_equal. lia.
Qed.
Lemma number_link ls k l : In (k, l) (number ls) -> In l ls.
Proof. rewrite number_in. apply nth_error_In. Qed.
Lemma link_comps xs l : In l (flinks xs) -> In (lk_src l) (comps xs) /\ In (lk_dst l) (comps xs).
Proof.
  unfold flinks. rewrite in_flat_map. intros ([a b] & H & Hl). apply neighbours_mem in H as [Ha Hb].
  unfold link_of in Hl. cbn [fst snd] in Hl. destruct (output_of a), (input_of b); try contradiction. destruct Hl as [<-|[]]. cbn.
  split; [apply (in_map comp _ _ Ha)|apply (in_map comp _ _ Hb)].
Qed.

(** ** The tables of numbers *)
Lemma component_eqb_refl c : component_eqb c c = true.
Proof. destruct (component_eqb_spec c c); congruence. Qed.
Lemma lookup_component_app c l c' n : lookup_component c (l ++ [(c', n)]) =
  match lookup_component c l with Some i => Some i | None => if component_eqb c c' then Some n else None end.
Proof. induction l as [|[a b] l IH]; cbn; [reflexivity|]. destruct (component_eqb c a); [reflexivity|exact IH]. Qed.
Lemma lookup_id_put i c l i' : lookup_id i' (id_put i c l) = if Nat.eqb i' i then Some c else lookup_id i' l.
Proof.
  induction l as [|[a b] l IH]; cbn; [reflexivity|]. destruct (Nat.eqb_spec i a) as [<-|].
  - cbn. destruct (Nat.eqb i' i); reflexivity.
  - cbn. destruct (Nat.eqb_spec i' a) as [->|].
    + destruct (Nat.eqb_spec a i); [congruence|reflexivity].
    + exact IH.
Qed.

Definition wid (w : waiter) (c : component) : nat := match get_id w c with Some i => i | None => 0 end.

(** What a fresh component is *)
Definition fresh (cfg : config) (id : nat) (c : component) (x : cell) : Prop :=
  let n := snd c in
  match fst c with
  | CFaucet => x = KFaucet (faucet_new (match lookup n (cf_faucet cfg) with Some s => s | None => "" end))
  | CDrain => x = KDrain (drain_new (match lookup n (cf_drain cfg) with Some s => s | None => "" end))
  | CRegulator => x = KRegulator regulator_new
  | CBuffer => x = KBuffer buffer_new
  | CJunction => x = KJunction junction_new
  | CLaunch => exists lc cmd, lookup n (cf_launch cfg) = Some lc /\ lc_command lc = Some cmd /\
      x = KLaunch (launch_new id (match lc_env lc with [] => None | e => Some e end) (lc_path lc) cmd (match lc_arg lc with [] => None | a => Some a end))
  end.
Lemma fresh_facts cfg id c x : fresh cfg id c x -> cell_type x = fst c /\ cell_wf x /\ bare x = x /\ cell_outs x = [] /\ cell_ins x = [].
Proof.
  destruct c as [[] n]; unfold fresh; cbn [fst snd]; try (intros ->; cbn; repeat split; auto; fail).
  intros (lc & cmd & _ & _ & ->). cbn. repeat split; auto.
Qed.

(** ** The state after some elements of the connections *)
Record inv (cfg0 : config) (xs : list connection) (w : waiter) (cfg : config) (last : option (nat * oport)) : Prop := Inv {
  i_ids : forall c, get_id w c <> None <-> In c (comps xs);
  i_names : exists hm, w_names w = Some hm /\ forall i c, lookup_id i hm = Some c <-> get_id w c = Some i;
  i_small : forall c i, get_id w c = Some i -> i < w_id w;
  i_cells : forall c, get_cell w c <> None <-> In c (comps xs);
  i_wf : forall c x, get_cell w c = Some x -> cell_wf x;
  i_bare : forall c x, get_cell w c = Some x -> fresh cfg0 (wid w c) c (bare x);
  i_outs : forall c x, get_cell w c = Some x -> Permutation (cell_outs x) (map (out_end (wid w)) (filter (leaves c) (number (flinks xs))));
  i_ins : forall c x, get_cell w c = Some x -> cell_ins x = map (in_end (wid w)) (filter (arrives c) (number (flinks xs)));
  i_channels : w_channels w = List.length (flinks xs);
  i_last : last = match rev xs with [] => None | x :: _ => option_map (fun o => (wid w (comp x), o)) (output_of x) end;
  i_cfg : cf_faucet cfg = cf_faucet cfg0 /\ cf_drain cfg = cf_drain cfg0 /\ cf_regulator cfg = cf_regulator cfg0 /\
    (forall n, ~ In (CLaunch, n) (comps xs) -> lookup n (cf_launch cfg) = lookup n (cf_launch cfg0));
  i_once : keys_once w;
  i_settings : w_settings w = []
}.

Lemma inv_start cfg : inv cfg [] waiter_new cfg None.
Proof.
  constructor; cbn; auto.
  - intros c. split; [intros H; exfalso; apply H; reflexivity|intros []].
  - exists []. split; [reflexivity|]. intros i c. split; discriminate.
  - discriminate.
  - intros [[] n]; cbn; split; congruence || contradiction.
  - intros [[] n]; discriminate.
  - intros [[] n]; discriminate.
  - intros [[] n]; discriminate.
  - intros [[] n]; discriminate.
  - repeat split; constructor.
Qed.

(** A component is made when it is first mentioned. *)
Definition made (cfg0 : config) (xs : list connection) (c : component) (w : waiter) (cfg : config) (dst : nat) : Prop :=
  (forall d, get_id w d <> None <-> In d (c :: comps xs)) /\
  (exists hm, w_names w = Some hm /\ forall i d, lookup_id i hm = Some d <-> get_id w d = Some i) /\
  (forall d i, get_id w d = Some i -> i < w_id w) /\
  (forall d, get_cell w d <> None <-> In d (c :: comps xs)) /\
  (forall d x, get_cell w d = Some x -> cell_wf x) /\
  (forall d x, get_cell w d = Some x -> fresh cfg0 (wid w d) d (bare x)) /\
  (forall d x, get_cell w d = Some x -> Permutation (cell_outs x) (map (out_end (wid w)) (filter (leaves d) (number (flinks xs))))) /\
  (forall d x, get_cell w d = Some x -> cell_ins x = map (in_end (wid w)) (filter (arrives d) (number (flinks xs)))) /\
  w_channels w = List.length (flinks xs) /\
  get_id w c = Some dst /\
  (cf_faucet cfg = cf_faucet cfg0 /\ cf_drain cfg = cf_drain cfg0 /\ cf_regulator cfg = cf_regulator cfg0 /\
    (forall n, ~ In (CLaunch, n) (c :: comps xs) -> lookup n (cf_launch cfg) = lookup n (cf_launch cfg0))) /\
  keys_once w /\ w_settings w = [].

(** [constructor] in terms of cells *)
Lemma constructor_cell c cfg w r : constructor c cfg w = Ok r ->
  exists x cfg', r = (w_id w, cfg', put_cell (fst (incr_id w c)) (snd c) x) /\ fresh cfg (w_id w) c x /\
  cf_faucet cfg' = cf_faucet cfg /\ cf_drain cfg' = cf_drain cfg /\ cf_regulator cfg' = cf_regulator cfg /\
  (forall n, (CLaunch, n) <> c -> lookup n (cf_launch cfg') = lookup n (cf_launch cfg)).
Proof.
  destruct c as [[] n]; unfold constructor, fresh; cbn [fst snd incr_id];
    try (intros [= <-]; eexists; eexists; split; [|split; [reflexivity|repeat split; reflexivity]]; reflexivity).
  destruct (lookup n (cf_launch cfg)) as [lc|] eqn:E; [|discriminate]. destruct (lc_command lc) as [cmd|] eqn:Ec; [|discriminate].
  intros [= <-]. eexists. eexists. split; [|split; [exists lc, cmd; split; [reflexivity|]; split; [exact Ec|reflexivity]|]]; [reflexivity|].
  cbn. repeat split; auto. intros n' Hn. rewrite lookup_remove. destruct (String.eqb_spec n' n); [congruence|reflexivity].
Qed.
Lemma constructor_total c cfg w : (forall n, c = (CLaunch, n) -> has_command cfg n) -> exists r, constructor c cfg w = Ok r.
Proof.
  destruct c as [[] n]; unfold constructor; cbn [fst snd incr_id]; intros H; try (eexists; reflexivity).
  destruct (H n eq_refl) as (lc & cmd & E & Ec). rewrite E, Ec. eexists. reflexivity.
Qed.

Lemma fresh_cfg cfg cfg0 id c x : cf_faucet cfg = cf_faucet cfg0 -> cf_drain cfg = cf_drain cfg0 ->
  (forall n, c = (CLaunch, n) -> lookup n (cf_launch cfg) = lookup n (cf_launch cfg0)) -> fresh cfg id c x -> fresh cfg0 id c x.
Proof. destruct c as [[] n]; unfold fresh; cbn [fst snd]; intros H1 H2 H3; try rewrite H1; try rewrite H2; try rewrite (H3 n eq_refl); auto. Qed.

Lemma ends_same (f g : component -> nat) xs (l : list (nat * link)) : (forall c, In c (comps xs) -> f c = g c) -> (forall k, In k l -> In k (number (flinks xs))) ->
  map (out_end f) l = map (out_end g) l /\ map (in_end f) l = map (in_end g) l.
Proof.
  intros H Hl. assert (K : forall k, In k l -> f (lk_src (snd k)) = g (lk_src (snd k)) /\ f (lk_dst (snd k)) = g (lk_dst (snd k))).
  { intros [k a] Hk. apply Hl in Hk. apply number_link, link_comps in Hk as [H1 H2]. cbn. auto. }
  split; apply map_ext_in; intros k Hk; destruct (K k Hk) as [E1 E2]; unfold out_end, in_end; rewrite E1, E2; reflexivity.
Qed.
Lemma no_ends xs c : ~ In c (comps xs) -> filter (leaves c) (number (flinks xs)) = [] /\ filter (arrives c) (number (flinks xs)) = [].
Proof.
  intros H. assert (G : forall f : nat * link -> bool, (forall k l, In l (flinks xs) -> f (k, l) = false) -> filter f (number (flinks xs)) = []).
  { intros f Hf. assert (Hall : forall kl, In kl (number (flinks xs)) -> f kl = false) by (intros [k l] Hin; apply Hf, (number_link _ k), Hin).
    revert Hall. generalize (number (flinks xs)). intros l. induction l as [|a l IH]; [reflexivity|]. intros Ha. cbn. rewrite (Ha a) by (left; reflexivity).
    apply IH. intros kl Hk. apply Ha. right. exact Hk. }
  split; apply G; intros k l Hl; apply link_comps in Hl as [H1 H2]; unfold leaves, arrives; cbn.
  - destruct (component_eqb_spec (lk_src l) c); [subst; contradiction|reflexivity].
  - destruct (component_eqb_spec (lk_dst l) c); [subst; contradiction|reflexivity].
Qed.

Lemma make cfg0 xs w cfg last c dst cfg' w' : inv cfg0 xs w cfg last ->
  match get_id w c with None => constructor c cfg w | Some id => Ok (id, cfg, w) end = Ok (dst, cfg', w') ->
  made cfg0 xs c w' cfg' dst /\ (forall d, In d (comps xs) -> wid w' d = wid w d).
Proof.
  intros [I1 I2 I3 I4 I5 I6 I7 I8 I9 I10 I11 I12 I13]. destruct (get_id w c) as [id|] eqn:E.
  - intros [= <- <- <-]. assert (Hin : In c (comps xs)) by (apply I1; congruence).
    assert (K : forall d, In d (c :: comps xs) <-> In d (comps xs)) by (intros d; cbn; split; [intros [<-|]; auto|auto]).
    split; [|auto]. unfold made.
    split; [intros d; rewrite K; apply I1|]. split; [exact I2|]. split; [exact I3|]. split; [intros d; rewrite K; apply I4|].
    split; [exact I5|]. split; [exact I6|]. split; [exact I7|]. split; [exact I8|]. split; [exact I9|]. split; [exact E|]. split; [|auto].
    destruct I11 as (D1 & D2 & D3 & D4). repeat split; auto. intros n Hn. apply D4. intros H. apply Hn. right. exact H.
  - intros H. assert (Hout : ~ In c (comps xs)) by (intros Hin; apply I1 in Hin; congruence).
    apply constructor_cell in H as (x & cfg1 & Er & Hf & C1 & C2 & C3 & C4).
    destruct I11 as (D1 & D2 & D3 & D4).
    assert (Hf0 : fresh cfg0 (w_id w) c x) by (eapply fresh_cfg; [| | |exact Hf]; auto; intros n ->; apply D4; exact Hout).
    destruct (fresh_facts _ _ _ _ Hf0) as (F1 & F2 & F3 & F4 & F5).
    set (w1 := fst (incr_id w c)) in *. set (w2 := put_cell w1 (snd c) x) in *. injection Er as -> -> ->.
    assert (Hid : forall d, get_id w2 d = if component_eqb d c then Some (w_id w) else get_id w d).
    { intros d. unfold w2, get_id. rewrite put_ids. unfold w1, incr_id. cbn [fst w_ids]. unfold get_id in E. rewrite E. rewrite lookup_component_app.
      destruct (component_eqb_spec d c) as [->|]; [rewrite E; reflexivity|]. destruct (lookup_component d (w_ids w)); reflexivity. }
    assert (Hc : forall d, get_cell w2 d = if component_eqb d c then Some x else get_cell w d).
    { intros d. unfold w2. rewrite get_put, F1. destruct c as [t n]. cbn [fst snd]. destruct (component_eqb d (t, n)); [reflexivity|]. unfold w1. destruct d as [[] m]; reflexivity. }
    assert (Hw : forall d, In d (comps xs) -> wid w2 d = wid w d).
    { intros d Hd. unfold wid. rewrite Hid. destruct (component_eqb_spec d c) as [->|]; [contradiction|reflexivity]. }
    split; [|exact Hw]. unfold made.
    split; [|split; [|split; [|split; [|split; [|split; [|split; [|split; [|split; [|split; [|split; [|split]]]]]]]]]]].
    + intros d. rewrite Hid. cbn [In]. destruct (component_eqb_spec d c) as [->|N]; [split; [auto|discriminate]|]. rewrite I1. split; [auto|intros [<-|]; congruence].
    + destruct I2 as (hm & Eh & Hh). exists (id_put (w_id w) c hm). split; [unfold w2; rewrite put_names; unfold w1; cbn; rewrite Eh; reflexivity|].
      intros i d. rewrite lookup_id_put, Hid. destruct (Nat.eqb_spec i (w_id w)) as [->|N].
      * destruct (component_eqb_spec d c) as [->|N']; [split; reflexivity|]. split; [congruence|]. intros Hd. apply I3 in Hd. lia.
      * destruct (component_eqb_spec d c) as [->|N']; [|apply Hh]. rewrite Hh. split; congruence.
    + intros d i. rewrite Hid. unfold w2. rewrite put_id. unfold w1. cbn [fst incr_id w_id]. destruct (component_eqb d c); [intros [= <-]; lia|]. intros Hd. apply I3 in Hd. lia.
    + intros d. rewrite Hc. cbn [In]. destruct (component_eqb_spec d c) as [->|N]; [split; [auto|discriminate]|]. rewrite I4. split; [auto|intros [<-|]; congruence].
    + intros d y. rewrite Hc. destruct (component_eqb d c); [intros [= <-]; exact F2|apply I5].
    + intros d y. rewrite Hc. unfold wid. rewrite Hid. destruct (component_eqb_spec d c) as [->|N]; [intros [= <-]; rewrite F3; exact Hf0|apply I6].
    + intros d y. rewrite Hc. destruct (component_eqb_spec d c) as [->|N].
      * intros [= <-]. rewrite F4. rewrite (proj1 (no_ends xs c Hout)). reflexivity.
      * intros Hy. rewrite (I7 d y Hy). rewrite (proj1 (ends_same (wid w2) (wid w) xs (filter (leaves d) (number (flinks xs))) Hw ltac:(intros k Hk; apply filter_In in Hk; tauto))). reflexivity.
    + intros d y. rewrite Hc. destruct (component_eqb_spec d c) as [->|N].
      * intros [= <-]. rewrite F5. rewrite (proj2 (no_ends xs c Hout)). reflexivity.
      * intros Hy. rewrite (I8 d y Hy). symmetry. apply (ends_same (wid w2) (wid w) xs); [exact Hw|]. intros k Hk; apply filter_In in Hk; tauto.
    + unfold w2. rewrite put_channels. exact I9.
    + rewrite Hid, component_eqb_refl. reflexivity.
    + rewrite C1, C2, C3. repeat split; auto. intros n Hn. cbn [In] in Hn. rewrite C4 by (intros Eq; apply Hn; left; symmetry; exact Eq). apply D4. tauto.
    + unfold w2. apply put_once. exact I12.
    + unfold w2. rewrite put_settings. exact I13.
Qed.

(** ** One element *)
Lemma rev_snoc_cases {A} (xs : list A) : xs = [] \/ exists ys y, xs = (ys ++ [y])%list.
Proof. destruct xs as [|y ys] using rev_ind; [left; reflexivity|right; eauto]. Qed.
Lemma flinks_snoc xs c : flinks (xs ++ [c]) = (flinks xs ++ match rev xs with [] => [] | x :: _ => link_of (x, c) end)%list.
Proof.
  destruct (rev_snoc_cases xs) as [->|(ys & y & ->)]; [reflexivity|]. unfold flinks. rewrite neighbours_snoc, flat_map_app, rev_app_distr. cbn. rewrite app_nil_r. reflexivity.
Qed.
Lemma comps_snoc xs c d : In d (comps (xs ++ [c])) <-> In d (comp c :: comps xs).
Proof. unfold comps. rewrite map_app, in_app_iff. cbn. tauto. Qed.
Lemma wid_get w c i : get_id w c = Some i -> wid w c = i.
Proof. unfold wid. intros ->. reflexivity. Qed.
Lemma name_of w c i : (exists hm, w_names w = Some hm /\ forall i d, lookup_id i hm = Some d <-> get_id w d = Some i) -> (id_to_component_type_name w i = Some c <-> get_id w c = Some i).
Proof. intros (hm & E & H). unfold id_to_component_type_name. rewrite E. apply H. Qed.

(** A connection that can be made *)
Lemma join_ok cfg0 xs c w cfg dst s port i w' : made cfg0 xs c w cfg dst -> In s (c :: comps xs) -> join w (wid w s) port dst i = Ok w' ->
  exists x x' p x2 x3 u, get_cell w s = Some x /\ cell_add_output x port (ip_breakable i) (wid w s) dst (w_channels w) = Ok (x', p) /\
    get_cell (put_cell (set_channels w (S (w_channels w))) (snd s) x') c = Some x2 /\ cell_add_input x2 p (ip_priority i) = Ok (x3, u) /\
    w' = put_cell (put_cell (set_channels w (S (w_channels w))) (snd s) x') (snd c) x3.
Proof.
  intros (M1 & M2 & M3 & M4 & M5 & M6 & M7 & M8 & M9 & M10 & M11 & M12) Hs. rewrite join_cell, get_src_pull_cell.
  assert (Es : id_to_component_type_name w (wid w s) = Some s).
  { apply (name_of w s _ M2). unfold wid. destruct (get_id w s) eqn:E; [reflexivity|]. exfalso. apply (proj2 (M1 s) Hs). exact E. }
  assert (Ec : id_to_component_type_name w dst = Some c) by (apply (name_of w c _ M2); exact M10).
  rewrite Es, Ec. destruct (get_cell w s) as [x|]; [|discriminate].
  destruct (cell_add_output x port _ _ dst _) as [[x' p]|] eqn:E1; [|discriminate].
  destruct (get_cell (put_cell _ (snd s) x') c) as [x2|] eqn:E2; [|discriminate].
  destruct (cell_add_input x2 p _) as [[x3 u]|] eqn:E3; [|discriminate]. intros [= <-]. exists x, x', p, x2, x3, u. auto 10.
Qed.

Lemma set_channels_cell w n c : get_cell (set_channels w n) c = get_cell w c.
Proof. destruct c as [[] m]; reflexivity. Qed.
Lemma port_of_kept x c o : cell_type x = fst c -> port_of x o = port_kept c o.
Proof. destruct c as [t n]. cbn. intros <-. destruct x; reflexivity. Qed.
Lemma filter_snoc {A} (f : A -> bool) l x : filter f (l ++ [x]) = (filter f l ++ if f x then [x] else [])%list.
Proof. rewrite filter_app. reflexivity. Qed.

(** The state after [c] has been made and, if something came before it, connected to that. *)
Lemma joined_state cfg0 xs c cc w cfg dst s port i w' l : cc = comp c -> made cfg0 xs cc w cfg dst -> In s (comps xs) ->
  join w (wid w s) port dst i = Ok w' -> l = Link s port cc i -> flinks (xs ++ [c]) = (flinks xs ++ [l])%list ->
  inv cfg0 (xs ++ [c]) w' cfg (option_map (fun o => (wid w' (comp c), o)) (output_of c)) /\ (forall d, get_id w' d = get_id w d).
Proof.
  intros Ecc Hm Hs Hj El Hfl. pose proof Hm as (M1 & M2 & M3 & M4 & M5 & M6 & M7 & M8 & M9 & M10 & M11 & M12 & M13).
  destruct (join_ok cfg0 xs cc w cfg dst s port i w' Hm (or_intror Hs) Hj) as (x & x' & p & x2 & x3 & u & G1 & A1 & G2 & A2 & Ew).
  pose proof (M5 _ _ G1) as W1. pose proof (add_output_ok _ _ _ _ _ _ _ _ W1 A1) as (Ep & T1 & W1' & B1 & I1 & O1).
  set (w1 := set_channels w (S (w_channels w))) in *. set (w2 := put_cell w1 (snd s) x') in *.
  pose proof (get_type _ _ _ G1) as Tx.
  assert (C2 : forall d, get_cell w2 d = if component_eqb d s then Some x' else get_cell w d).
  { intros d. unfold w2. rewrite get_put, T1, Tx. destruct s as [t n]. cbn [fst snd]. unfold w1. rewrite set_channels_cell. reflexivity. }
  assert (W2 : cell_wf x2).
  { rewrite C2 in G2. destruct (component_eqb cc s); [injection G2 as <-; exact W1'|eapply M5; exact G2]. }
  subst p. pose proof (add_input_ok _ _ _ _ _ _ W2 A2) as (T3 & W3 & B3 & O3 & I3).
  pose proof (get_type _ _ _ G2) as Tx2.
  assert (C3 : forall d, get_cell w' d = if component_eqb d cc then Some x3 else get_cell w2 d).
  { intros d. rewrite Ew, get_put, T3, Tx2. destruct cc as [t n]. reflexivity. }
  assert (Hid : forall d, get_id w' d = get_id w d).
  { intros d. unfold get_id. rewrite Ew, put_ids. unfold w2. rewrite put_ids. reflexivity. }
  assert (Hwid : forall d, wid w' d = wid w d) by (intros d; unfold wid; rewrite Hid; reflexivity).
  assert (Hdst : wid w cc = dst) by (apply wid_get; exact M10).
  set (n := List.length (flinks xs)).
  assert (Hnum : number (flinks (xs ++ [c])) = (number (flinks xs) ++ [(n, l)])%list) by (rewrite Hfl; apply number_snoc).
  assert (Hout : forall d, map (out_end (wid w')) (filter (leaves d) (number (flinks (xs ++ [c])))) =
    (map (out_end (wid w)) (filter (leaves d) (number (flinks xs))) ++ if component_eqb s d then [(J (wid w s) (Some (port_kept s port)) dst (ip_breakable i), n)] else [])%list).
  { intros d. rewrite Hnum, filter_snoc, map_app. f_equal.
    - apply map_ext. intros [k a]. unfold out_end. rewrite !Hwid. reflexivity.
    - unfold leaves. cbn [snd]. rewrite El. cbn [lk_src]. destruct (component_eqb s d); [|reflexivity]. unfold out_end. cbn. rewrite !Hwid, Hdst. reflexivity. }
  assert (Hin : forall d, map (in_end (wid w')) (filter (arrives d) (number (flinks (xs ++ [c])))) =
    (map (in_end (wid w)) (filter (arrives d) (number (flinks xs))) ++ if component_eqb cc d then [(PJ (wid w s) dst, n, ip_priority i)] else [])%list).
  { intros d. rewrite Hnum, filter_snoc, map_app. f_equal.
    - apply map_ext. intros [k a]. unfold in_end. rewrite !Hwid. reflexivity.
    - unfold arrives. cbn [snd]. rewrite El. cbn [lk_dst]. destruct (component_eqb cc d); [|reflexivity]. unfold in_end. cbn. rewrite !Hwid, Hdst. reflexivity. }
  (* what the cell of [d] is now, compared with before *)
  assert (Cell : forall d y, get_cell w' d = Some y -> exists y0, get_cell w d = Some y0 /\ cell_wf y /\ bare y = bare y0 /\
    Permutation (cell_outs y) (cell_outs y0 ++ if component_eqb s d then [(J (wid w s) (Some (port_kept s port)) dst (ip_breakable i), n)] else []) /\
    cell_ins y = (cell_ins y0 ++ if component_eqb cc d then [(PJ (wid w s) dst, n, ip_priority i)] else [])%list).
  { assert (Hn : w_channels w = n) by exact M9.
    assert (S1 : forall d y, get_cell w2 d = Some y -> exists y0, get_cell w d = Some y0 /\ cell_wf y /\ bare y = bare y0 /\ cell_ins y = cell_ins y0 /\
      Permutation (cell_outs y) (cell_outs y0 ++ if component_eqb s d then [(J (wid w s) (Some (port_kept s port)) dst (ip_breakable i), n)] else [])).
    { intros d y. rewrite C2. destruct (component_eqb_spec d s) as [->|N].
      - intros [= <-]. exists x. rewrite component_eqb_refl. rewrite <- (port_of_kept x s port Tx), <- Hn. auto.
      - intros Hy. exists y. destruct (component_eqb_spec s d); [congruence|]. rewrite app_nil_r. repeat split; auto. eapply M5; exact Hy. }
    intros d y. rewrite C3. destruct (component_eqb_spec d cc) as [->|N].
    - intros [= <-]. destruct (S1 _ _ G2) as (y0 & E0 & Q1 & Q2 & Q3 & Q4). exists y0. rewrite component_eqb_refl, O3, B3, I3, Q3, Hn. auto.
    - intros Hy. destruct (S1 _ _ Hy) as (y0 & E0 & Q1 & Q2 & Q3 & Q4). exists y0. destruct (component_eqb_spec cc d); [congruence|]. rewrite app_nil_r. auto. }
  split; [|exact Hid]. constructor.
  - intros d. rewrite Hid, comps_snoc, <- Ecc. apply M1.
  - destruct M2 as (hm & Eh & Hh). exists hm. split; [rewrite Ew, put_names; unfold w2; rewrite put_names; exact Eh|]. intros k d. rewrite Hid. apply Hh.
  - intros d k. rewrite Hid. intros H. apply M3 in H. rewrite Ew, put_id. unfold w2. rewrite put_id. exact H.
  - intros d. rewrite comps_snoc, <- Ecc, <- M4. rewrite C3, C2. destruct (component_eqb_spec d cc) as [->|N1].
    + split; [intros _; apply M4; left; reflexivity|discriminate].
    + destruct (component_eqb_spec d s) as [->|N2]; [|reflexivity]. split; [congruence|discriminate].
  - intros d y Hy. destruct (Cell d y Hy) as (y0 & E0 & Q1 & Q2 & Q3 & Q4). exact Q1.
  - intros d y Hy. destruct (Cell d y Hy) as (y0 & E0 & Q1 & Q2 & Q3 & Q4). rewrite Q2, Hwid. apply M6. exact E0.
  - intros d y Hy. destruct (Cell d y Hy) as (y0 & E0 & Q1 & Q2 & Q3 & Q4). rewrite Hout, Q3. apply Permutation_app_tail. apply M7. exact E0.
  - intros d y Hy. destruct (Cell d y Hy) as (y0 & E0 & Q1 & Q2 & Q3 & Q4). rewrite Hin, Q4. f_equal. apply M8. exact E0.
  - rewrite Ew, put_channels. unfold w2. rewrite put_channels. unfold w1. cbn. rewrite Hfl, app_length, M9. cbn. lia.
  - rewrite rev_app_distr. reflexivity.
  - destruct M11 as (D1 & D2 & D3 & D4). repeat split; auto. intros k Hk. apply D4. intros H. apply Hk. rewrite comps_snoc, <- Ecc. exact H.
  - rewrite Ew. apply put_once. unfold w2. apply put_once. exact M12.
  - rewrite Ew, put_settings. unfold w2. rewrite put_settings. exact M13.
Qed.

Lemma alone_state cfg0 xs c w cfg dst : made cfg0 xs (comp c) w cfg dst -> flinks (xs ++ [c]) = flinks xs ->
  inv cfg0 (xs ++ [c]) w cfg (option_map (fun o => (wid w (comp c), o)) (output_of c)).
Proof.
  intros (M1 & M2 & M3 & M4 & M5 & M6 & M7 & M8 & M9 & M10 & M11 & M12 & M13) Hfl. constructor; auto; try (rewrite Hfl; auto; fail).
  - intros d. rewrite comps_snoc. apply M1.
  - intros d. rewrite comps_snoc. apply M4.
  - rewrite rev_app_distr. reflexivity.
  - destruct M11 as (D1 & D2 & D3 & D4). repeat split; auto. intros k Hk. apply D4. intros H. apply Hk. rewrite comps_snoc. exact H.
Qed.

Lemma spec_of c : get_create_spec c = CreateSpec (comp c) (input_of c) (output_of c).
Proof. destruct c; reflexivity. Qed.

Lemma one_state cfg0 xs w cfg last c st : inv cfg0 xs w cfg last -> wire_one (w, cfg, last) c = Good (Ok st) ->
  inv cfg0 (xs ++ [c]) (fst (fst st)) (snd (fst st)) (snd st).
Proof.
  intros Hi. unfold wire_one. rewrite spec_of. cbn [cs_component cs_in cs_out].
  destruct (match get_id w (comp c) with Some id => Ok (id, cfg, w) | None => constructor (comp c) cfg w end) as [[[dst cfg'] w']|e] eqn:E; [|discriminate].
  destruct (make _ _ _ _ _ _ _ _ _ Hi E) as [Hm Hw].
  assert (Hdst : get_id w' (comp c) = Some dst) by (destruct Hm as (_ & _ & _ & _ & _ & _ & _ & _ & _ & H & _); exact H).
  assert (Hnext : forall w2, get_id w2 (comp c) = Some dst -> (match output_of c with Some o => Some (dst, o) | None => None end) = option_map (fun o => (wid w2 (comp c), o)) (output_of c)).
  { intros w2 H2. rewrite (wid_get _ _ _ H2). destruct (output_of c); reflexivity. }
  pose proof (i_last _ _ _ _ _ Hi) as Hl.
  destruct last as [[src port]|].
  - destruct (input_of c) as [i|] eqn:Ei; [|discriminate]. destruct (join w' src port dst i) as [w2|e] eqn:Ej; [|discriminate]. intros [= <-]. cbn [fst snd].
    destruct (rev xs) as [|x r] eqn:Er; [discriminate|]. destruct (output_of x) as [o|] eqn:Eo; [|discriminate]. cbn [option_map] in Hl. injection Hl as -> ->.
    assert (Hin : In (comp x) (comps xs)) by (apply in_map, in_rev; rewrite Er; left; reflexivity).
    assert (Hfl : flinks (xs ++ [c]) = (flinks xs ++ [Link (comp x) o (comp c) i])%list).
    { rewrite flinks_snoc, Er. unfold link_of. cbn [fst snd]. rewrite Eo, Ei. reflexivity. }
    rewrite <- (Hw _ Hin) in Ej.
    destruct (joined_state cfg0 xs c (comp c) w' cfg' dst (comp x) o i w2 _ eq_refl Hm Hin Ej eq_refl Hfl) as [Hinv Hid].
    rewrite (Hnext w2); [exact Hinv|]. rewrite Hid. exact Hdst.
  - intros [= <-]. cbn [fst snd]. rewrite (Hnext w' Hdst). apply alone_state with (dst := dst); [exact Hm|]. rewrite flinks_snoc.
    destruct (rev xs) as [|x r] eqn:Er; [apply app_nil_r|]. destruct (output_of x) as [o|] eqn:Eo; [discriminate|]. unfold link_of. cbn [fst snd]. rewrite Eo. apply app_nil_r.
Qed.

Lemma wire_state cfg0 xs2 : forall xs1 w cfg last st, inv cfg0 xs1 w cfg last -> wire xs2 (w, cfg, last) = Good (Ok st) ->
  inv cfg0 (xs1 ++ xs2) (fst (fst st)) (snd (fst st)) (snd st).
Proof.
  induction xs2 as [|c xs2 IH]; intros xs1 w cfg last st Hi; cbn [wire].
  - intros [= <-]. rewrite app_nil_r. exact Hi.
  - destruct (wire_one (w, cfg, last) c) as [[y|e]|] eqn:E; cbn [obind]; try discriminate. destruct y as [[w1 cfg1] last1].
    intros H. pose proof (one_state _ _ _ _ _ _ _ Hi E) as H1. cbn [fst snd] in H1. specialize (IH _ _ _ _ _ H1 H). rewrite <- app_assoc in IH. exact IH.
Qed.

(** ** Making progress *)
Record can_build (cfg : config) (xs : list connection) (ls : list link) : Prop := CanBuild {
  cb_commands : forall n, In (CLaunch, n) (comps xs) -> has_command cfg n;
  cb_no_faucet : forall l, In l ls -> fst (lk_dst l) <> CFaucet;
  cb_no_drain : forall l, In l ls -> fst (lk_src l) <> CDrain;
  cb_ports : forall l, In l ls -> fst (lk_src l) = CFaucet \/ fst (lk_src l) = CRegulator -> lk_port l = POut;
  cb_priority : forall l, In l ls -> fst (lk_dst l) <> CJunction -> ip_priority (lk_in l) = 0%Z;
  cb_one_out : forall i j a b, nth_error ls i = Some a -> nth_error ls j = Some b -> same_outlet a b -> fst (lk_src a) <> CJunction -> i = j;
  cb_one_in : forall i j a b, nth_error ls i = Some a -> nth_error ls j = Some b -> lk_dst a = lk_dst b -> fst (lk_dst a) <> CJunction -> i = j
}.

(** The neighbours of a component with an output have an input. *)
Definition joinable (xs : list connection) : Prop := forall a b, In (a, b) (neighbours xs) -> output_of a <> None -> input_of b <> None.

Lemma flinks_prefix xs ys : exists r, flinks (xs ++ ys) = (flinks xs ++ r)%list.
Proof.
  revert xs. induction ys as [|c ys IH]; intros xs; [exists []; rewrite !app_nil_r; reflexivity|].
  destruct (IH (xs ++ [c])%list) as (r & Hr). rewrite <- app_assoc in Hr. cbn [app] in Hr. rewrite Hr, flinks_snoc, <- app_assoc. eauto.
Qed.
Lemma out_end_in w x d ls j n : Permutation (cell_outs x) (map (out_end (wid w)) (filter (leaves d) (number ls))) -> In (j, n) (cell_outs x) ->
  exists l, nth_error ls n = Some l /\ lk_src l = d /\ j_port j = Some (port_kept d (lk_port l)).
Proof.
  intros HP H. apply (Permutation_in _ HP) in H. apply in_map_iff in H as ([k l] & E & H). apply filter_In in H as [H1 H2]. unfold out_end in E. cbn [fst snd] in E.
  injection E as <- <-. unfold leaves in H2. cbn [snd] in H2. destruct (component_eqb_spec (lk_src l) d) as [E2|]; [|discriminate]. rewrite E2 in *.
  exists l. split; [apply number_in; exact H1|]. auto.
Qed.
Lemma in_end_in w d ls e : In e (map (in_end (wid w)) (filter (arrives d) (number ls))) ->
  exists l, nth_error ls (snd (fst e)) = Some l /\ lk_dst l = d /\ snd e = ip_priority (lk_in l).
Proof.
  intros H. apply in_map_iff in H as ([k l] & <- & H). apply filter_In in H as [H1 H2]. unfold arrives in H2. cbn [snd fst in_end] in *.
  destruct (component_eqb_spec (lk_dst l) d) as [E2|]; [|discriminate]. exists l. split; [apply number_in; exact H1|]. auto.
Qed.

Lemma one_progress cfg0 xs c ys w cfg last : inv cfg0 xs w cfg last -> can_build cfg0 (xs ++ c :: ys) (flinks (xs ++ c :: ys)) -> joinable (xs ++ [c]) ->
  exists st, wire_one (w, cfg, last) c = Good (Ok st).
Proof.
  intros Hi Hb Hj. unfold wire_one. rewrite spec_of. cbn [cs_component cs_in cs_out].
  assert (Ec : exists r, match get_id w (comp c) with Some id => Ok (id, cfg, w) | None => constructor (comp c) cfg w end = Ok r).
  { destruct (get_id w (comp c)) as [id|] eqn:E; [eauto|]. apply constructor_total. intros n Hn.
    assert (Hc : has_command cfg0 n). { apply (cb_commands _ _ _ Hb). unfold comps. rewrite map_app, in_app_iff. right. left. exact Hn. }
    destruct Hc as (lc & cmd & E1 & E2). exists lc, cmd. split; [|exact E2]. rewrite (proj2 (proj2 (proj2 (i_cfg _ _ _ _ _ Hi)))); [exact E1|].
    intros Hin. apply (i_ids _ _ _ _ _ Hi) in Hin. rewrite <- Hn in Hin. congruence. }
  destruct Ec as ([[dst cfg'] w'] & E). rewrite E. destruct (make _ _ _ _ _ _ _ _ _ Hi E) as [Hm Hw].
  pose proof (i_last _ _ _ _ _ Hi) as Hl. destruct last as [[src port]|]; [|eauto].
  destruct (rev xs) as [|x r] eqn:Er; [discriminate|]. destruct (output_of x) as [o|] eqn:Eo; [|discriminate]. cbn [option_map] in Hl. injection Hl as -> ->.
  assert (Exs : xs = (rev r ++ [x])%list) by (rewrite <- (rev_involutive xs), Er; reflexivity).
  destruct (input_of c) as [i|] eqn:Ei.
  2:{ exfalso. apply (Hj x c); [|congruence|exact Ei]. rewrite Exs, neighbours_snoc. apply in_or_app. right. left. reflexivity. }
  assert (Hin : In (comp x) (comps xs)) by (apply in_map, in_rev; rewrite Er; left; reflexivity).
  set (l := Link (comp x) o (comp c) i).
  assert (Hfl : flinks (xs ++ [c]) = (flinks xs ++ [l])%list).
  { rewrite flinks_snoc, Er. unfold link_of. cbn [fst snd]. rewrite Eo, Ei. reflexivity. }
  destruct (flinks_prefix (xs ++ [c])%list ys) as (rest & Hrest). rewrite <- app_assoc in Hrest. cbn [app] in Hrest. rewrite Hfl in Hrest. rewrite <- app_assoc in Hrest. cbn [app] in Hrest.
  rewrite Hrest in Hb. destruct Hb as [_ B1 B2 B3 B4 B5 B6]. set (n := List.length (flinks xs)) in *.
  assert (Hnth : nth_error (flinks xs ++ l :: rest) n = Some l) by (rewrite nth_error_app2 by (unfold n; lia); unfold n; rewrite Nat.sub_diag; reflexivity).
  assert (Hold : forall k a, nth_error (flinks xs) k = Some a -> k < n /\ nth_error (flinks xs ++ l :: rest) k = Some a).
  { intros k a Ha. assert (Hk : k < n) by (unfold n; apply nth_error_Some; congruence). split; [exact Hk|]. rewrite nth_error_app1; assumption. }
  assert (Hlin : In l (flinks xs ++ l :: rest)) by (apply in_or_app; right; left; reflexivity).
  pose proof Hm as (M1 & M2 & M3 & M4 & M5 & M6 & M7 & M8 & M9 & M10 & M11 & M12 & M13).
  rewrite <- (Hw _ Hin).
  cut (exists w2, join w' (wid w' (comp x)) o dst i = Ok w2). { intros (w2 & ->). eauto. }
  rewrite join_cell, get_src_pull_cell.
  assert (Es : id_to_component_type_name w' (wid w' (comp x)) = Some (comp x)).
  { apply (name_of w' _ _ M2). unfold wid. destruct (get_id w' (comp x)) eqn:E1; [reflexivity|]. exfalso. apply (proj2 (M1 (comp x)) (or_intror Hin)). exact E1. }
  assert (Ec : id_to_component_type_name w' dst = Some (comp c)) by (apply (name_of w' _ _ M2); exact M10).
  rewrite Es, Ec. destruct (get_cell w' (comp x)) as [y|] eqn:Ey; [|exfalso; apply (proj2 (M4 (comp x)) (or_intror Hin)); exact Ey].
  pose proof (get_type _ _ _ Ey) as Ty.
  destruct (add_output_room y o (ip_breakable i) (wid w' (comp x)) dst (w_channels w')) as (y' & p & Ea).
  - eapply M5; exact Ey.
  - rewrite Ty. apply (B2 l Hlin).
  - rewrite Ty. apply (B3 l Hlin).
  - rewrite Ty. intros HJ j m Hjm. destruct (out_end_in _ _ _ _ _ _ (M7 _ _ Ey) Hjm) as (a & Ha & Hsrc & Hport).
    destruct (Hold _ _ Ha) as [Hk Ha']. assert (Hne : ~ same_outlet a l).
    { intros Hso. assert (m = n); [|lia]. eapply B5; eauto. rewrite Hsrc. exact HJ. }
    destruct (fst (comp x)) eqn:Et; try (exfalso; apply Hne; split; [exact Hsrc|rewrite Hsrc, Et; discriminate]).
    split; [reflexivity|]. rewrite Hport. unfold port_kept. rewrite Et. intros [= Hp]. apply Hne. split; [exact Hsrc|]. intros _. exact Hp.
  - rewrite Ea. pose proof (add_output_ok _ _ _ _ _ _ _ _ (M5 _ _ Ey) Ea) as (Ep & T1 & W1' & Bare1 & I1 & O1).
    set (w1 := set_channels w' (S (w_channels w'))) in *. set (w2 := put_cell w1 (snd (comp x)) y') in *.
    assert (C2 : forall d, get_cell w2 d = if component_eqb d (comp x) then Some y' else get_cell w' d).
    { intros d. unfold w2. rewrite get_put, T1, Ty. destruct (comp x) as [t m]. cbn [fst snd]. unfold w1. rewrite set_channels_cell. reflexivity. }
    destruct (get_cell w2 (comp c)) as [z|] eqn:Ez.
    + assert (Hz : cell_wf z /\ cell_type z = fst (comp c) /\ exists z0, get_cell w' (comp c) = Some z0 /\ cell_ins z = cell_ins z0).
      { rewrite C2 in Ez. destruct (component_eqb_spec (comp c) (comp x)) as [Ecx|N].
        - injection Ez as <-. rewrite Ecx. split; [exact W1'|]. split; [rewrite T1; exact Ty|]. exists y. auto.
        - split; [eapply M5; exact Ez|]. split; [eapply get_type; exact Ez|]. eauto. }
      destruct Hz as (Wz & Tz & z0 & Ez0 & Iz).
      destruct (add_input_room z p (ip_priority i) Wz) as (z' & u & Eu).
      * rewrite Tz. apply (B1 l Hlin).
      * rewrite Tz. intros HJ. split; [apply (B4 l Hlin HJ)|]. rewrite Iz, (M8 _ _ Ez0).
        destruct (map (in_end (wid w')) (filter (arrives (comp c)) (number (flinks xs)))) as [|e es] eqn:Ees; [reflexivity|].
        exfalso. destruct (in_end_in w' (comp c) (flinks xs) e) as (a & Ha & Hd & _); [rewrite Ees; left; reflexivity|].
        destruct (Hold _ _ Ha) as [Hk Ha']. assert (snd (fst e) = n); [|lia]. eapply B6; eauto. rewrite Hd. exact HJ.
      * rewrite Eu. eauto.
    + exfalso. rewrite C2 in Ez. destruct (component_eqb (comp c) (comp x)); [discriminate|]. apply (proj2 (M4 (comp c)) (or_introl eq_refl)). exact Ez.
Qed.

Lemma neighbours_app_l {A} (xs ys : list A) p : In p (neighbours xs) -> In p (neighbours (xs ++ ys)).
Proof.
  induction xs as [|x xs IH]; [intros []|]. destruct xs as [|y xs]; [intros []|]. cbn [neighbours app]. intros [<-|H]; [left; reflexivity|].
  right. apply IH, H.
Qed.
Lemma wire_progress cfg0 ys : forall xs w cfg last, inv cfg0 xs w cfg last -> can_build cfg0 (xs ++ ys) (flinks (xs ++ ys)) -> joinable (xs ++ ys) ->
  exists st, wire ys (w, cfg, last) = Good (Ok st).
Proof.
  induction ys as [|c ys IH]; intros xs w cfg last Hi Hb Hj; [cbn; eauto|]. cbn [wire].
  destruct (one_progress _ _ _ _ _ _ _ Hi Hb) as ([[w1 cfg1] last1] & E).
  { intros a b H. apply Hj. apply (neighbours_app_l _ ys) in H. rewrite <- app_assoc in H. exact H. }
  rewrite E. cbn [obind]. pose proof (one_state _ _ _ _ _ _ _ Hi E) as H1. cbn [fst snd] in H1.
  apply (IH (xs ++ [c])%list); [exact H1|rewrite <- app_assoc; exact Hb|rewrite <- app_assoc; exact Hj].
Qed.

(** What has been built was possible. *)
Lemma built_possible cfg0 xs w cfg last : inv cfg0 xs w cfg last -> can_build cfg0 xs (flinks xs).
Proof.
  intros [I1 I2 I3 I4 I5 I6 I7 I8 I9 I10 I11 I12 I13].
  assert (Src : forall k l, nth_error (flinks xs) k = Some l -> exists x, get_cell w (lk_src l) = Some x /\ cell_type x = fst (lk_src l) /\ cell_wf x /\
    In (out_end (wid w) (k, l)) (cell_outs x)).
  { intros k l Hl. pose proof (nth_error_In _ _ Hl) as Hin. apply link_comps in Hin as [H1 _]. apply I4 in H1. destruct (get_cell w (lk_src l)) as [x|] eqn:E; [|congruence].
    exists x. split; [reflexivity|]. split; [eapply get_type; exact E|]. split; [eapply I5; exact E|]. apply (Permutation_in _ (Permutation_sym (I7 _ _ E))).
    apply in_map. apply filter_In. split; [apply number_in; exact Hl|]. unfold leaves. apply component_eqb_refl. }
  assert (Dst : forall k l, nth_error (flinks xs) k = Some l -> exists x, get_cell w (lk_dst l) = Some x /\ cell_type x = fst (lk_dst l) /\ cell_wf x /\
    In (in_end (wid w) (k, l)) (cell_ins x)).
  { intros k l Hl. pose proof (nth_error_In _ _ Hl) as Hin. apply link_comps in Hin as [_ H1]. apply I4 in H1. destruct (get_cell w (lk_dst l)) as [x|] eqn:E; [|congruence].
    exists x. split; [reflexivity|]. split; [eapply get_type; exact E|]. split; [eapply I5; exact E|]. rewrite (I8 _ _ E).
    apply in_map. apply filter_In. split; [apply number_in; exact Hl|]. unfold arrives. apply component_eqb_refl. }
  constructor.
  - intros n Hn. apply I4 in Hn. destruct (get_cell w (CLaunch, n)) as [x|] eqn:E; [|congruence]. apply I6 in E. cbn in E. destruct E as (lc & cmd & H1 & H2 & _). exists lc, cmd. auto.
  - intros l Hl Ht. apply In_nth_error in Hl as [k Hk]. destruct (Dst _ _ Hk) as (x & _ & Tx & Wx & Hx). rewrite <- Tx in Ht. rewrite (proj1 (wf_ins x Wx) Ht) in Hx. destruct Hx.
  - intros l Hl Ht. apply In_nth_error in Hl as [k Hk]. destruct (Src _ _ Hk) as (x & _ & Tx & Wx & Hx). rewrite <- Tx in Ht. rewrite (proj1 (wf_outs x Wx) Ht) in Hx. destruct Hx.
  - intros l Hl Ht. apply In_nth_error in Hl as [k Hk]. destruct (Src _ _ Hk) as (x & _ & Tx & Wx & Hx). pose proof Ht as Ht'. rewrite <- Tx in Ht.
    pose proof (proj1 (proj2 (wf_outs x Wx)) Ht _ _ Hx) as Hp. cbn in Hp. injection Hp as Hp. unfold port_kept in Hp. destruct Ht' as [E|E]; rewrite E in Hp; exact Hp.
  - intros l Hl Ht. apply In_nth_error in Hl as [k Hk]. destruct (Dst _ _ Hk) as (x & _ & Tx & Wx & Hx). rewrite <- Tx in Ht. apply (proj2 (proj2 (wf_ins x Wx) Ht) _ Hx).
  - intros i j a b Hi Hj [Hs Hp] Hn. destruct (Src _ _ Hi) as (x & Ex & Tx & Wx & Hx). destruct (Src _ _ Hj) as (y & Ey & Ty & Wy & Hy).
    rewrite <- Hs in Ey. assert (y = x) by congruence. subst y. rewrite <- Tx in Hn.
    unfold out_end in Hx, Hy. cbn [fst snd] in Hx, Hy.
    assert (K := proj2 (proj2 (wf_outs x Wx)) Hn _ _ _ _ Hx Hy). cbn [j_port] in K.
    assert (K' : cell_type x <> CLaunch \/ Some (port_kept (lk_src a) (lk_port a)) = Some (port_kept (lk_src b) (lk_port b))).
    { destruct (cell_type x) eqn:E; try (left; discriminate). right. rewrite <- Hs, Hp by congruence. reflexivity. }
    apply K in K'. congruence.
  - intros i j a b Hi Hj Hs Hn. destruct (Dst _ _ Hi) as (x & Ex & Tx & Wx & Hx). destruct (Dst _ _ Hj) as (y & Ey & Ty & Wy & Hy).
    rewrite <- Hs in Ey. assert (y = x) by congruence. subst y. rewrite <- Tx in Hn. destruct (proj2 (wf_ins x Wx) Hn) as [L _].
    destruct (cell_ins x) as [|e [|e' r]]; [destruct Hx| |cbn in L; lia]. destruct Hx as [Hx|[]], Hy as [Hy|[]]. rewrite Hx in Hy. unfold in_end in Hy. cbn in Hy. congruence.
Qed.
