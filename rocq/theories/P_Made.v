(** * P_Made: the network that a configuration makes *)
From Coq Require Import Ascii String List Bool Arith ZArith Lia Permutation.
From Verif Require Import M_Prog M_Motion M_Connectable M_Config M_Manip M_Faucet M_Launch M_Junction M_Buffer M_Drain M_Regulator M_Lint M_Waiter S_Trace S_Motion S_Launch S_Drain S_Junction S_Regulator S_Buffer S_Grammar S_Manip S_Waiter P_Map P_Junctions P_Cell P_Wire P_Build S_World S_Network S_Net M_Start S_Start.
Import ListNotations.
Local Open Scope list_scope.

(** ** Faucets know their way *)
Definition knows (x : cell) : Prop := match x with KFaucet f => fc_stdout f <> None -> fc_pull_journey f <> None | _ => True end.
Definition all_know (w : waiter) : Prop := forall c x, get_cell w c = Some x -> knows x.
Lemma put_know w n x : all_know w -> knows x -> all_know (put_cell w n x).
Proof. intros Hw Hx c y. rewrite get_put. destruct (component_eqb c _); [intros [= <-]; exact Hx|apply Hw]. Qed.
Lemma output_knows x port b s d ch x' p : knows x -> cell_add_output x port b s d ch = Ok (x', p) -> knows x'.
Proof.
  destruct x as [f|l|j|bu|dr|r]; cbn [cell_add_output lift]; intros H.
  - unfold faucet_add_output. destruct (negb _); [discriminate|]. destruct (fc_stdout f); [discriminate|]. cbn [lift]. intros [= <- _]. cbn. discriminate.
  - destruct (launch_add_output l port b s d ch) as [[l' q]|]; [|discriminate]. intros [= <- _]. exact I.
  - intros [= <- _]. exact I.
  - destruct (buffer_add_output bu port b s d ch) as [[l' q]|]; [|discriminate]. intros [= <- _]. exact I.
  - discriminate.
  - destruct (regulator_add_output r port b s d ch) as [[l' q]|]; [|discriminate]. intros [= <- _]. exact I.
Qed.
Lemma input_knows x p z x' u : knows x -> cell_add_input x p z = Ok (x', u) -> knows x'.
Proof.
  destruct x as [f|l|j|bu|dr|r]; cbn [cell_add_input lift]; intros H.
  - discriminate.
  - destruct (with_unit _) as [[l' q]|]; [|discriminate]. intros [= <- _]. exact I.
  - intros [= <- _]. exact I.
  - destruct (with_unit _) as [[l' q]|]; [|discriminate]. intros [= <- _]. exact I.
  - destruct (with_unit _) as [[l' q]|]; [|discriminate]. intros [= <- _]. exact I.
  - destruct (with_unit _) as [[l' q]|]; [|discriminate]. intros [= <- _]. exact I.
Qed.
Lemma join_knows w src port dst i w' : all_know w -> join w src port dst i = Ok w' -> all_know w'.
Proof.
  intros Hw. rewrite join_cell, get_src_pull_cell. destruct (id_to_component_type_name w src) as [c|]; [|discriminate]. destruct (get_cell w c) as [x|] eqn:Ex; [|discriminate].
  destruct (cell_add_output x port _ src dst (w_channels w)) as [[x' p]|] eqn:Eo; [|discriminate].
  assert (H1 : all_know (put_cell (set_channels w (S (w_channels w))) (snd c) x')) by (apply put_know; [exact Hw|exact (output_knows _ _ _ _ _ _ _ _ (Hw _ _ Ex) Eo)]).
  destruct (id_to_component_type_name w dst) as [c'|]; [|discriminate]. destruct (get_cell (put_cell _ _ x') c') as [y|] eqn:Ey; [|discriminate].
  destruct (cell_add_input y p (ip_priority i)) as [[y' u]|] eqn:Ei; [|discriminate]. intros [= <-]. apply put_know; [exact H1|]. exact (input_knows _ _ _ _ _ (H1 _ _ Ey) Ei).
Qed.
Lemma fresh_knows cfg id c x : fresh cfg id c x -> knows x.
Proof. destruct c as [[] n]; unfold fresh; cbn [fst snd]; try (intros ->; cbn; auto; congruence). intros (lc & cmd & _ & _ & ->). exact I. Qed.
Lemma incr_cells w c d : get_cell (fst (incr_id w c)) d = get_cell w d.
Proof. destruct d as [[] n]; reflexivity. Qed.
Lemma one_knows w cfg last c st : all_know w -> wire_one (w, cfg, last) c = Good (Ok st) -> all_know (fst (fst st)).
Proof.
  intros Hw. unfold wire_one.
  destruct (match get_id w _ with Some id => Ok (id, cfg, w) | None => constructor _ cfg w end) as [[[dst cfg'] w']|e] eqn:E; [|discriminate].
  assert (Hw' : all_know w').
  { destruct (get_id w _) as [i|]; [injection E as <- <- <-; exact Hw|]. apply constructor_cell in E as (x & cfg1 & E & Hf & _). injection E as _ _ ->. apply put_know; [|exact (fresh_knows _ _ _ _ Hf)].
    intros d y Hy. apply (Hw d y). rewrite <- Hy. destruct d as [[] n]; reflexivity. }
  destruct last as [[src port]|]; [|intros [= <-]; exact Hw']. destruct (cs_in _) as [i|]; [|discriminate].
  destruct (join w' src port dst i) as [w2|] eqn:Ej; [|discriminate]. intros [= <-]. exact (join_knows _ _ _ _ _ _ Hw' Ej).
Qed.
Lemma wire_knows xs : forall w cfg last st, all_know w -> wire xs (w, cfg, last) = Good (Ok st) -> all_know (fst (fst st)).
Proof.
  induction xs as [|c xs IH]; intros w cfg last st Hw; cbn [wire]; [intros [= <-]; exact Hw|].
  destruct (wire_one (w, cfg, last) c) as [[y|e]|] eqn:E; cbn [obind]; try discriminate. destruct y as [[w1 cfg1] last1]. apply IH. exact (one_knows _ _ _ _ _ Hw E).
Qed.

(** All that is needed of a pipeline *)
Record fabric (c : config) (w : waiter) (ls : list (nat * link)) : Prop := {
  fb_once : keys_once w;
  fb_wf : forall d x, get_cell w d = Some x -> cell_wf x;
  fb_bare : forall d x, get_cell w d = Some x -> fresh c (wid w d) d (bare x);
  fb_outs : forall d x, get_cell w d = Some x -> Permutation (map snd (cell_outs x)) (map fst (filter (leaves d) ls));
  fb_ins : forall d x, get_cell w d = Some x -> map (fun e => snd (fst e)) (cell_ins x) = map fst (filter (arrives d) ls);
  fb_knows : all_know w;
  fb_all : forall d, get_cell w d <> None <-> is_mentioned (cf_connection c) d
}.
Lemma made_fabric c w : written_out (cf_connection c) -> get_waiter c = Good (Ok w) -> fabric c w (numbered_links (cf_connection c)) /\ w_channels w = List.length (links (cf_connection c)).
Proof.
  intros Hw E. unfold get_waiter in E. rewrite all_connections_good in E by exact Hw. cbn [obind] in E.
  destruct (wire (allc (cf_connection c)) (waiter_new, c, None)) as [[[[w0 c0] l0]|e]|] eqn:Er; cbn [obind] in E; try discriminate. injection E as <-.
  pose proof (wire_state _ _ _ _ _ _ _ (inv_start c) Er) as Hi. cbn [fst snd app] in Hi.
  assert (Hk : all_know w0).
  { refine (wire_knows _ _ _ _ _ _ Er). intros [[] n] x; discriminate. }
  destruct (configure_facts (cf_regulator c0) w0) as (s & -> & _). cbn [w_channels set_settings].
  destruct Hi as [I1 I2 I3 I4 I5 I6 I7 I8 I9 I10 I11 I12 I13]. split; [|rewrite I9, (flinks_links _ Hw); reflexivity].
  assert (G : forall d, get_cell (set_settings w0 s) d = get_cell w0 d) by (intros d; apply set_settings_cell).
  unfold numbered_links. rewrite <- (flinks_links _ Hw). fold (number (flinks (allc (cf_connection c)))).
  constructor.
  - exact I12.
  - intros d x. rewrite G. apply I5.
  - intros d x. rewrite G. intros Hx. exact (I6 d x Hx).
  - intros d x. rewrite G. intros Hx. eapply perm_trans; [apply Permutation_map; exact (I7 d x Hx)|]. rewrite map_map. reflexivity.
  - intros d x. rewrite G. intros Hx. rewrite (I8 d x Hx), map_map. reflexivity.
  - intros d x. rewrite G. apply Hk.
  - intros d. rewrite G, I4. symmetry. apply mentioned_all. exact Hw.
Qed.

(** ** The components and what they are called *)
Definition tag {V} (t : ctype) (f : V -> S_Net.comp) (l : list (string * V)) : list (component * S_Net.comp) := map (fun x => ((t, fst x), f (snd x))) l.
Fixpoint tag_buffers (n : nat) (l : list (string * buffer)) : list (component * S_Net.comp) :=
  match l with [] => [] | (k, b) :: r => ((CBuffer, k), NBuffer b n n (S n)) :: tag_buffers (2 + n) r end.
Definition seated (cwd : option string) (vars : list (string * string)) (w : waiter) : list (component * S_Net.comp) :=
  tag CLaunch (NLaunch cwd vars) (w_launch w) ++ tag CRegulator NRegulator (w_regulator w) ++ tag CFaucet (fun f => NFaucet f (told (fc_read_location f))) (w_faucet w) ++
  tag CDrain (fun d => NDrain d (told (dr_write_location d))) (w_drain w) ++ tag_buffers (w_channels w) (w_buffer w) ++ tag CJunction NJunction (w_junction w).
Lemma tag_net {V} t f (l : list (string * V)) : map snd (tag t f l) = map (fun x => f (snd x)) l.
Proof. unfold tag. rewrite map_map. reflexivity. Qed.
Lemma buffers_net l : forall n, map snd (tag_buffers n l) = number_buffers n l.
Proof. induction l as [|[k b] l IH]; intros n; [reflexivity|]. cbn [tag_buffers number_buffers map snd]. rewrite IH. reflexivity. Qed.
Lemma seated_net cwd vars w : map snd (seated cwd vars w) = net_of cwd vars w.
Proof. unfold seated, net_of. rewrite !map_app, !tag_net, buffers_net. reflexivity. Qed.

Lemma tag_keys {V} t f (l : list (string * V)) : map fst (tag t f l) = map (fun k => (t, k)) (keys l).
Proof. unfold tag, keys. rewrite !map_map. reflexivity. Qed.
Lemma buffers_keys l : forall n, map fst (tag_buffers n l) = map (fun k => (CBuffer, k)) (keys l).
Proof. induction l as [|[k b] l IH]; intros n; [reflexivity|]. cbn [tag_buffers map fst]. rewrite IH. reflexivity. Qed.
Lemma nodup_tagged (t : ctype) l : NoDup l -> NoDup (map (fun k : string => (t, k)) l).
Proof. induction 1 as [|k l Hk _ IH]; cbn; constructor; auto. rewrite in_map_iff. intros (k' & [= ->] & H). auto. Qed.
Lemma nodup_apart {A} (a b : list A) : NoDup a -> NoDup b -> (forall x, In x a -> In x b -> False) -> NoDup (a ++ b).
Proof.
  induction 1 as [|x a Hx _ IH]; intros Hb H; [exact Hb|]. cbn. constructor.
  - rewrite in_app_iff. intros [Hi|Hi]; [auto|]. apply (H x); cbn; auto.
  - apply IH; [exact Hb|]. intros y Hy. apply H. cbn. auto.
Qed.
Lemma seated_once cwd vars w : keys_once w -> NoDup (map fst (seated cwd vars w)).
Proof.
  intros (K1 & K2 & K3 & K4 & K5 & K6). unfold seated. rewrite !map_app, !tag_keys, buffers_keys.
  assert (T : forall t l (c : component), In c (map (fun k : string => (t, k)) l) -> fst c = t) by (intros t l c H; apply in_map_iff in H as (k & <- & _); reflexivity).
  repeat (apply nodup_apart; [apply nodup_tagged; assumption| |intros c H1 H2; apply T in H1; rewrite ?in_app_iff in H2; repeat match type of H2 with _ \/ _ => destruct H2 as [H2|H2] end; apply T in H2; congruence]).
  apply nodup_tagged. assumption.
Qed.

(** The component called [d] is [x]. *)
Definition plays (w : waiter) (cwd : option string) (vars : list (string * string)) (y : cell) (x : S_Net.comp) : Prop :=
  match y with
  | KFaucet f => x = NFaucet f (told (fc_read_location f))
  | KLaunch l => x = NLaunch cwd vars l
  | KJunction j => x = NJunction j
  | KBuffer b => exists u, w_channels w <= u /\ x = NBuffer b u u (S u)
  | KDrain d => x = NDrain d (told (dr_write_location d))
  | KRegulator r => x = NRegulator r
  end.
Lemma in_tag {V} t f (l : list (string * V)) d x : NoDup (keys l) -> In (d, x) (tag t f l) <-> fst d = t /\ exists v, lookup (snd d) l = Some v /\ x = f v.
Proof.
  intros Hn. unfold tag. rewrite in_map_iff. split.
  - intros ([k v] & [= <- <-] & H). cbn. split; [reflexivity|]. exists v. split; [apply in_lookup; assumption|reflexivity].
  - destruct d as [t' k]. cbn. intros (-> & v & H & ->). exists (k, v). split; [reflexivity|]. apply lookup_in. exact H.
Qed.
Lemma in_buffers l : NoDup (keys l) -> forall n d x, In (d, x) (tag_buffers n l) -> fst d = CBuffer /\ exists b u, lookup (snd d) l = Some b /\ n <= u /\ x = NBuffer b u u (S u).
Proof.
  induction l as [|[k b] l IH]; intros Hn n d x; [intros []|]. inversion Hn as [|? ? Hk Hn']; subst. cbn [tag_buffers]. intros [[= <- <-]|H].
  - cbn. rewrite String.eqb_refl. split; [reflexivity|]. exists b, n. auto.
  - destruct (IH Hn' _ _ _ H) as (-> & b' & u & Hl & Hu & ->). split; [reflexivity|]. exists b', u. split; [|split; [lia|reflexivity]].
    cbn [lookup]. destruct (String.eqb_spec (snd d) k) as [E|_]; [|exact Hl]. exfalso. apply Hk. rewrite <- E. apply (proj1 (lookup_key (snd d) l)). congruence.
Qed.
Lemma buffers_in l : forall n k b, lookup k l = Some b -> exists x, In ((CBuffer, k), x) (tag_buffers n l).
Proof.
  induction l as [|[k' b'] l IH]; intros n k b; [discriminate|]. cbn. destruct (String.eqb_spec k k') as [->|]; [eexists; left; reflexivity|].
  intros H. destruct (IH (2 + n) k b H) as (x & Hx). exists x. right. exact Hx.
Qed.
Lemma seated_plays cwd vars w d x : keys_once w -> In (d, x) (seated cwd vars w) -> exists y, get_cell w d = Some y /\ plays w cwd vars y x.
Proof.
  intros (K1 & K2 & K3 & K4 & K5 & K6). unfold seated. rewrite !in_app_iff, !in_tag by assumption. destruct d as [t k]. cbn [fst snd].
  intros [(-> & v & H & ->)|[(-> & v & H & ->)|[(-> & v & H & ->)|[(-> & v & H & ->)|[H|(-> & v & H & ->)]]]]]; cbn [get_cell fst snd]; try (rewrite H; eexists; split; reflexivity).
  apply in_buffers in H as (E & b & u & H & Hu & ->); [|assumption]. cbn in E, H. subst t. cbn [get_cell fst snd]. rewrite H. eexists. split; [reflexivity|]. exists u. auto.
Qed.
Lemma seated_all cwd vars w d : keys_once w -> get_cell w d <> None -> exists x, In (d, x) (seated cwd vars w).
Proof.
  intros (K1 & K2 & K3 & K4 & K5 & K6) H. destruct d as [t k]. unfold get_cell in H. cbn [fst snd] in H. unfold seated.
  destruct t; destruct (lookup k _) as [v|] eqn:E; try (exfalso; apply H; reflexivity); try (eexists; rewrite !in_app_iff, !in_tag by assumption; cbn [fst snd]; repeat (first [left; split; [reflexivity|exists v; split; [exact E|reflexivity]]|right; first [split; [reflexivity|exists v; split; [exact E|reflexivity]]|idtac]]); fail).
  destruct (buffers_in _ (w_channels w) _ _ E) as (x & Hx). exists x. rewrite !in_app_iff. auto 10.
Qed.

(** ** The network *)
Lemma flat_map_snd {A B C} (g : B -> list C) (l : list (A * B)) : flat_map g (map snd l) = flat_map (fun x => g (snd x)) l.
Proof. induction l as [|[a b] l IH]; cbn; [reflexivity|]. rewrite IH. reflexivity. Qed.
Lemma nodup_kept {A B} (f : A -> B) (p : A -> bool) l : NoDup (map f l) -> NoDup (map f (filter p l)).
Proof.
  induction l as [|a l IH]; cbn; intros H; [constructor|]. inversion H as [|? ? Ha Hl]; subst. destruct (p a); [|auto]. cbn. constructor; [|auto].
  intros Hin. apply Ha. apply in_map_iff in Hin as (b & E & Hb). apply filter_In in Hb as [Hb _]. apply in_map_iff. eauto.
Qed.
Lemma same_kept {A B} (f : A -> B) l : NoDup (map f l) -> forall x y, In x l -> In y l -> f x = f y -> x = y.
Proof.
  induction l as [|a l IH]; cbn; intros H x y; [intros []|]. inversion H as [|? ? Ha Hl]; subst.
  intros [->|Hx] [->|Hy] E; auto; exfalso; apply Ha; apply in_map_iff; eauto.
Qed.
Section Spread.
Variable ls : list (nat * link).
Hypothesis Hls : NoDup (map fst ls).
Variables (sel : component -> nat * link -> bool) (at_ : nat * link -> component) (g : S_Net.comp -> list nat).
Hypothesis Hsel : forall d kl, sel d kl = true <-> at_ kl = d.
Lemma in_spread S n : (forall d x, In (d, x) S -> Permutation (g x) (map fst (filter (sel d) ls))) ->
  In n (flat_map g (map snd S)) <-> exists d x l, In (d, x) S /\ In (n, l) ls /\ at_ (n, l) = d.
Proof.
  intros Hg. rewrite flat_map_snd, in_flat_map. split.
  - intros ([d x] & Hd & Hn). cbn [snd] in Hn. apply (Permutation_in _ (Hg _ _ Hd)) in Hn. apply in_map_iff in Hn as ([k l] & <- & Hk). apply filter_In in Hk as [Hk Hs]. exists d, x, l. apply Hsel in Hs. auto.
  - intros (d & x & l & Hd & Hk & Hs). exists (d, x). split; [exact Hd|]. cbn [snd]. apply (Permutation_in _ (Permutation_sym (Hg _ _ Hd))). apply in_map_iff. exists (n, l). split; [reflexivity|]. apply filter_In. rewrite Hsel. auto.
Qed.
Lemma nodup_spread S : NoDup (map fst S) -> (forall d x, In (d, x) S -> Permutation (g x) (map fst (filter (sel d) ls))) -> NoDup (flat_map g (map snd S)).
Proof.
  induction S as [|[d x] S IH]; intros Hn Hg; [constructor|]. cbn [map flat_map fst snd] in *. inversion Hn as [|? ? Hd Hn']; subst. apply nodup_apart.
  - apply (Permutation_NoDup (Permutation_sym (Hg d x (or_introl eq_refl)))). apply nodup_kept. exact Hls.
  - apply IH; [exact Hn'|]. intros d' x' H. apply Hg. right. exact H.
  - intros n H1 H2. apply (in_spread S n (fun d' x' H => Hg d' x' (or_intror H))) in H2 as (d' & x' & l & Hd' & Hk & Ha).
    apply (Permutation_in _ (Hg d x (or_introl eq_refl))) in H1. apply in_map_iff in H1 as ([k l'] & E & Hk'). cbn in E. subst k. apply filter_In in Hk' as [Hk' Hs]. apply Hsel in Hs.
    rewrite (same_kept fst ls Hls _ _ Hk' Hk eq_refl) in Hs. apply Hd. apply in_map_iff. exists (d', x'). split; [cbn; congruence|exact Hd'].
Qed.
End Spread.

Lemma ins_played w cwd vars y x : cell_wf y -> plays w cwd vars y x -> comp_ins x = map (fun e => snd (fst e)) (cell_ins y).
Proof.
  assert (G : forall o, all_opt pull_ok o -> in_of o = map (fun e => snd (fst e)) (flat_map (with_priority 0) (opt o))).
  { intros [q|] H; [|reflexivity]. destruct H as (j & n & ->). reflexivity. }
  destruct y as [f|l|j|b|d|r]; cbn [plays cell_wf cell_ins].
  - intros [_ ->] ->. reflexivity.
  - intros (_ & _ & _ & H) ->. exact (G _ H).
  - intros [_ H] ->. cbn [comp_ins]. unfold in_chans. induction H as [|[q z] l (pj & n & E) _ IH]; [reflexivity|]. cbn in E. subst q. cbn. rewrite IH. reflexivity.
  - intros [_ H] (u & _ & ->). exact (G _ H).
  - intros H ->. exact (G _ H).
  - intros [_ H] ->. exact (G _ H).
Qed.
Lemma outs_played w cwd vars y x : cell_wf y -> plays w cwd vars y x -> comp_outs x = map snd (cell_outs y).
Proof.
  assert (G : forall P o, all_opt (push_ok P) o -> S_Net.out_of o = map snd (flat_map of_push (opt o))).
  { intros P [q|] H; [|reflexivity]. destruct H as (j & n & o & -> & _). reflexivity. }
  destruct y as [f|l|j|b|d|r]; cbn [plays cell_wf cell_outs].
  - intros [H _] ->. exact (G _ _ H).
  - intros (H1 & H2 & _ & _) ->. cbn [comp_outs]. rewrite !map_app, (G _ _ H1), (G _ _ H2). destruct (la_exit_status l) as [[j n]|]; reflexivity.
  - intros [H _] ->. cbn [comp_outs]. unfold out_chans. induction H as [|q l (j0 & n & o & E & _) _ IH]; [reflexivity|]. subst q. cbn. rewrite IH. reflexivity.
  - intros [H _] (u & _ & ->). exact (G _ _ H).
  - intros H ->. reflexivity.
  - intros [H _] ->. exact (G _ _ H).
Qed.

Lemma stores_above l : forall n, NoDup (flat_map comp_stores (number_buffers n l)) /\ (forall u, In u (flat_map comp_stores (number_buffers n l)) -> n <= u) /\
  NoDup (flat_map comp_counts (number_buffers n l)) /\ (forall u, In u (flat_map comp_counts (number_buffers n l)) -> n <= u).
Proof.
  induction l as [|[k b] l IH]; intros n; cbn [number_buffers flat_map comp_stores comp_counts app]; [repeat split; try constructor; intros u []|].
  destruct (IH (2 + n)) as (H1 & H2 & H3 & H4). split; [|split; [|split]].
  - constructor; [|exact H1]. intros H. apply H2 in H. lia.
  - intros u [<-|H]; [lia|]. apply H2 in H. lia.
  - constructor; [|constructor; [|exact H3]].
    + intros [H|H]; [lia|]. apply H4 in H. lia.
    + intros H. apply H4 in H. lia.
  - intros u [<-|[<-|H]]; [lia|lia|]. apply H4 in H. lia.
Qed.
Lemma flat_none {A B C} (f : A -> B) (g : B -> list C) l : (forall a, g (f a) = []) -> flat_map g (map f l) = [].
Proof. intros H. induction l as [|a l IH]; cbn; [reflexivity|]. rewrite H, IH. reflexivity. Qed.
Lemma stores_of cwd vars w : flat_map comp_stores (net_of cwd vars w) = flat_map comp_stores (number_buffers (w_channels w) (w_buffer w)) /\
  flat_map comp_counts (net_of cwd vars w) = flat_map comp_counts (number_buffers (w_channels w) (w_buffer w)).
Proof. unfold net_of. rewrite !flat_map_app. rewrite !flat_none by reflexivity. rewrite !app_nil_r. split; reflexivity. Qed.

(** What the connections must be like *)
Record linked (m : connmap) : Prop := {
  lk_into : forall t n, is_mentioned m (t, n) -> t = CRegulator \/ t = CBuffer \/ t = CDrain -> exists l, In l (links m) /\ lk_dst l = (t, n);
  lk_from : forall t n, is_mentioned m (t, n) -> t = CRegulator \/ t = CBuffer \/ t = CJunction \/ t = CFaucet -> exists l, In l (links m) /\ lk_src l = (t, n);
  lk_self : forall l, In l (links m) -> fst (lk_src l) = CJunction -> lk_src l <> lk_dst l
}.
Section Made.
Variables (c : config) (cwd : option string) (vars : list (string * string)) (w : waiter).
Notation m := (cf_connection c).
Notation ls := (numbered_links (cf_connection c)).
Notation S := (seated cwd vars w).
Notation net := (net_of cwd vars w).
Hypothesis Hw : written_out (cf_connection c).
Hypothesis F : fabric c w ls.
Hypothesis Hch : List.length (links (cf_connection c)) <= w_channels w.
Hypothesis L : linked (cf_connection c).

Lemma numbers_once : NoDup (map fst ls).
Proof.
  unfold numbered_links. generalize (links m) 0. intros l. induction l as [|a l IH]; intros n; cbn; [constructor|]. constructor; [|apply IH].
  intros H. apply in_map_iff in H as ([k x] & E & H). cbn in E. subst k. apply in_combine_l, in_seq in H. lia.
Qed.
Lemma numbers_small n l : In (n, l) ls -> n < List.length (links m) /\ In l (links m).
Proof. unfold numbered_links. intros H. split; [apply in_combine_l, in_seq in H; lia|exact (in_combine_r _ _ _ _ H)]. Qed.
Lemma numbered_one l : In l (links m) -> exists n, In (n, l) ls.
Proof. intros H. apply In_nth_error in H as (n & H). exists n. apply (number_in (links m)). exact H. Qed.
Lemma leaves_true d kl : leaves d kl = true <-> lk_src (snd kl) = d.
Proof. unfold leaves. destruct (component_eqb_spec (lk_src (snd kl)) d); split; congruence. Qed.
Lemma arrives_true d kl : arrives d kl = true <-> lk_dst (snd kl) = d.
Proof. unfold arrives. destruct (component_eqb_spec (lk_dst (snd kl)) d); split; congruence. Qed.
Lemma links_mentioned l : In l (links m) -> is_mentioned m (lk_src l) /\ is_mentioned m (lk_dst l).
Proof. rewrite <- (flinks_links m Hw). intros H. apply link_comps in H. rewrite !(mentioned_all _ _ Hw). exact H. Qed.

Lemma seat_ins d x : In (d, x) S -> Permutation (comp_ins x) (map fst (filter (arrives d) ls)).
Proof.
  intros H. destruct (seated_plays _ _ _ _ _ (fb_once _ _ _ F) H) as (y & Hy & Hp). rewrite (ins_played _ _ _ _ _ (fb_wf _ _ _ F _ _ Hy) Hp), (fb_ins _ _ _ F _ _ Hy). reflexivity.
Qed.
Lemma seat_outs d x : In (d, x) S -> Permutation (comp_outs x) (map fst (filter (leaves d) ls)).
Proof.
  intros H. destruct (seated_plays _ _ _ _ _ (fb_once _ _ _ F) H) as (y & Hy & Hp). rewrite (outs_played _ _ _ _ _ (fb_wf _ _ _ F _ _ Hy) Hp). exact (fb_outs _ _ _ F _ _ Hy).
Qed.
Lemma seat_in d x n : In (d, x) S -> In n (comp_ins x) <-> exists l, In (n, l) ls /\ lk_dst l = d.
Proof.
  intros H. split.
  - intros Hn. apply (Permutation_in _ (seat_ins _ _ H)) in Hn. apply in_map_iff in Hn as ([k l] & <- & Hk). apply filter_In in Hk as [Hk Hs]. apply arrives_true in Hs. eauto.
  - intros (l & Hk & Hs). apply (Permutation_in _ (Permutation_sym (seat_ins _ _ H))). apply in_map_iff. exists (n, l). split; [reflexivity|]. apply filter_In. rewrite arrives_true. auto.
Qed.
Lemma seat_out d x n : In (d, x) S -> In n (comp_outs x) <-> exists l, In (n, l) ls /\ lk_src l = d.
Proof.
  intros H. split.
  - intros Hn. apply (Permutation_in _ (seat_outs _ _ H)) in Hn. apply in_map_iff in Hn as ([k l] & <- & Hk). apply filter_In in Hk as [Hk Hs]. apply leaves_true in Hs. eauto.
  - intros (l & Hk & Hs). apply (Permutation_in _ (Permutation_sym (seat_outs _ _ H))). apply in_map_iff. exists (n, l). split; [reflexivity|]. apply filter_In. rewrite leaves_true. auto.
Qed.
Lemma seat_mentioned d x : In (d, x) S -> is_mentioned m d.
Proof. intros H. destruct (seated_plays _ _ _ _ _ (fb_once _ _ _ F) H) as (y & Hy & _). apply (fb_all _ _ _ F). congruence. Qed.
Lemma mentioned_seat d : is_mentioned m d -> exists x, In (d, x) S.
Proof. intros H. apply seated_all; [exact (fb_once _ _ _ F)|]. apply (fb_all _ _ _ F). exact H. Qed.

Lemma seat_ready d x : In (d, x) S -> comp_ready x.
Proof.
  intros H. pose proof (seat_mentioned _ _ H) as Hm. destruct (seated_plays _ _ _ _ _ (fb_once _ _ _ F) H) as (y & Hy & Hp).
  pose proof (fb_wf _ _ _ F _ _ Hy) as Hwf. pose proof (fb_bare _ _ _ F _ _ Hy) as Hb. pose proof (get_type _ _ _ Hy) as Ht. pose proof (fb_knows _ _ _ F _ _ Hy) as Hk.
  pose proof (fun n => seat_in _ _ n H) as Hi. pose proof (fun n => seat_out _ _ n H) as Ho. pose proof (lk_into _ L (fst d) (snd d)) as Li. pose proof (lk_from _ L (fst d) (snd d)) as Lo.
  rewrite <- surjective_pairing in Li, Lo. specialize (Li Hm). specialize (Lo Hm). destruct d as [t k]. cbn [fst snd] in *. subst t.
  assert (Ei : (exists l, In l (links m) /\ lk_dst l = (cell_type y, k)) -> comp_ins x <> []).
  { intros (l & Hl & E). destruct (numbered_one _ Hl) as (n & Hn). intros En. assert (In n (comp_ins x)) by (apply Hi; eauto). rewrite En in *. contradiction. }
  assert (Eo : (exists l, In l (links m) /\ lk_src l = (cell_type y, k)) -> comp_outs x <> []).
  { intros (l & Hl & E). destruct (numbered_one _ Hl) as (n & Hn). intros En. assert (In n (comp_outs x)) by (apply Ho; eauto). rewrite En in *. contradiction. }
  destruct y as [f|l|j|b|dr|r]; cbn [cell_type plays cell_wf knows bare fresh fst snd] in *.
  - subst x. injection Hb as E1 E2 E3 E4. cbn [comp_outs comp_ready] in *. destruct Hwf as [Hwf _]. split; [exact E3|]. specialize (Eo (Lo ltac:(auto))).
    destruct (fc_stdout f) as [q|] eqn:Eq; [|exfalso; apply Eo; reflexivity]. destruct Hwf as (j & n & o & -> & _). exists j, n. unfold faucet_ready. rewrite E4. cbn [told].
    split; [exact E1|]. split; [reflexivity|]. split; [exact Eq|]. split; [exact I|]. apply Hk. discriminate.
  - subst x. destruct Hb as (lc & cmd & _ & _ & Hb). injection Hb as E1 E2 E3 E4 E5 E6. destruct Hwf as (W1 & W2 & _ & W4). cbn [comp_ready]. unfold launch_ready. split; [split; [exact E6|]; split; [|split]|split].
    + intros pl E. rewrite E in W4. destruct W4 as (pj & n & ->). split; exact I.
    + intros ps E. rewrite E in W1. destruct W1 as (j & n & o & -> & _). exact I.
    + intros ps E. rewrite E in W2. destruct W2 as (j & n & o & -> & _). exact I.
    + intros pl E. rewrite E in W4. destruct W4 as (pj & n & ->). eauto.
    + intros ps [E|E]; [rewrite E in W1; destruct W1 as (j & n & o & -> & _)|rewrite E in W2; destruct W2 as (j & n & o & -> & _)]; eauto.
  - subst x. injection Hb as E1 E2 E3. destruct Hwf as [W1 W2]. cbn [comp_ready]. unfold junction_ready. split; [exact E2|]. split; [exact E3|]. split; [|split].
    + eapply Forall_impl; [|exact W1]. intros q (j0 & n & o & -> & _). exact I.
    + eapply Forall_impl; [|exact W2]. intros q (j0 & n & E). rewrite E. exact I.
    + cbn [comp_ins comp_outs] in *. apply nodup_apart.
      * apply (Permutation_NoDup (Permutation_sym (seat_ins _ _ H))). apply nodup_kept, numbers_once.
      * apply (Permutation_NoDup (Permutation_sym (seat_outs _ _ H))). apply nodup_kept, numbers_once.
      * intros n H1 H2. apply Hi in H1 as (l1 & A1 & B1). apply Ho in H2 as (l2 & A2 & B2). pose proof (same_kept fst ls numbers_once _ _ A1 A2 eq_refl) as E. injection E as <-.
        apply numbers_small in A1 as [_ A1]. apply (lk_self _ L l1 A1); [rewrite B2; reflexivity|congruence].
  - destruct Hp as (u & Hu & ->). injection Hb as E1 E2. destruct Hwf as [W1 W2]. cbn [comp_ready comp_ins comp_outs] in *. split; [exact E2|]. specialize (Ei (Li ltac:(auto))). specialize (Eo (Lo ltac:(auto))).
    destruct (bf_stdin b) as [q|] eqn:Eq; [|exfalso; apply Ei; reflexivity]. destruct W2 as (pj & i & ->). destruct (bf_stdout b) as [q'|] eqn:Eq'; [|exfalso; apply Eo; reflexivity]. destruct W1 as (j & o & po & -> & _).
    exists pj, i, j, o. unfold buffer_wired. split; [exact Eq|]. split; [exact Eq'|]. split; [exact I|]. split; [exact I|]. split; [exact I|]. split; [lia|].
    assert (Hi' : i < u). { destruct (proj1 (Hi i)) as (l & A & _); [left; reflexivity|]. apply numbers_small in A as [A _]. lia. }
    assert (Ho' : o < u). { destruct (proj1 (Ho o)) as (l & A & _); [left; reflexivity|]. apply numbers_small in A as [A _]. lia. }
    intros e d [[= <-]|[= <-]]; cbn; intros [= E]; lia.
  - subst x. injection Hb as E1 E2. cbn [comp_ready comp_ins] in *. specialize (Ei (Li ltac:(auto))). destruct (dr_stdin dr) as [q|] eqn:Eq; [|exfalso; apply Ei; reflexivity]. destruct Hwf as (pj & i & ->).
    exists pj, i. unfold drain_ready. rewrite E2. cbn. split; [exact Eq|]. split; [reflexivity|]. split; [exact I|discriminate].
  - subst x. injection Hb as E1 E2 E3. destruct Hwf as [W1 W2]. cbn [comp_ready comp_ins comp_outs] in *. split; [exact E3|]. specialize (Ei (Li ltac:(auto))). specialize (Eo (Lo ltac:(auto))).
    destruct (rg_stdin r) as [q|] eqn:Eq; [|exfalso; apply Ei; reflexivity]. destruct W2 as (pj & i & ->). destruct (rg_stdout r) as [q'|] eqn:Eq'; [|exfalso; apply Eo; reflexivity]. destruct W1 as (j & o & po & -> & _).
    exists pj, i, j, o. unfold regulator_ready. split; [exact E1|]. split; [exact Eq|]. split; [exact Eq'|]. split; exact I.
Qed.

Lemma in_net x : In x net <-> exists d, In (d, x) S.
Proof.
  rewrite <- seated_net, in_map_iff. split; [intros ([d y] & <- & H); eauto|]. intros (d & H). exists (d, x). auto.
Qed.
Theorem made_wired : net_wired net.
Proof.
  constructor.
  - intros x H. apply in_net in H as (d & H). exact (seat_ready _ _ H).
  - intros n. rewrite <- seated_net. rewrite (in_spread ls leaves (fun kl => lk_src (snd kl)) comp_outs leaves_true S n seat_outs), (in_spread ls arrives (fun kl => lk_dst (snd kl)) comp_ins arrives_true S n seat_ins). cbn [snd]. split.
    + intros (d & x & l & _ & Hk & _). destruct (numbers_small _ _ Hk) as [_ Hl]. destruct (mentioned_seat _ (proj2 (links_mentioned _ Hl))) as (x' & Hx'). eauto 10.
    + intros (d & x & l & _ & Hk & _). destruct (numbers_small _ _ Hk) as [_ Hl]. destruct (mentioned_seat _ (proj1 (links_mentioned _ Hl))) as (x' & Hx'). eauto 10.
  - rewrite <- seated_net. exact (nodup_spread ls numbers_once arrives (fun kl => lk_dst (snd kl)) comp_ins arrives_true S (seated_once _ _ _ (fb_once _ _ _ F)) seat_ins).
  - destruct (stores_above (w_buffer w) (w_channels w)) as (H1 & H2 & _). rewrite <- (proj1 (stores_of cwd vars w)) in H1, H2. apply nodup_apart.
    + rewrite <- seated_net. exact (nodup_spread ls numbers_once leaves (fun kl => lk_src (snd kl)) comp_outs leaves_true S (seated_once _ _ _ (fb_once _ _ _ F)) seat_outs).
    + exact H1.
    + intros n Hn Hs. apply H2 in Hs. rewrite <- seated_net in Hn. apply (in_spread ls leaves (fun kl => lk_src (snd kl)) comp_outs leaves_true S n seat_outs) in Hn as (d & x & l & _ & Hk & _).
      apply numbers_small in Hk as [Hk _]. lia.
  - rewrite (proj2 (stores_of cwd vars w)). apply stores_above.
Qed.
Theorem made_roomy : roomy net.
Proof.
  intros x H. apply in_net in H as (d & H). destruct (seated_plays _ _ _ _ _ (fb_once _ _ _ F) H) as (y & Hy & Hp). pose proof (fb_bare _ _ _ F _ _ Hy) as Hb. pose proof (get_type _ _ _ Hy) as Ht.
  destruct d as [t k]. cbn [fst] in Ht. subst t. destruct y as [f|l|j|b|dr|r]; cbn [plays cell_type fresh bare fst snd] in *; try (subst x; injection Hb as E1 E2; cbn [comp_size comp_outs]; intros; try lia; congruence).
  - subst x. cbn. lia.
  - destruct Hp as (u & _ & ->). injection Hb as E1 E2. cbn [comp_size]. lia.
Qed.
Theorem made_polite : polite net.
Proof.
  intros j H. apply in_net in H as (d & H). pose proof (seat_mentioned _ _ H) as Hm. destruct (seated_plays _ _ _ _ _ (fb_once _ _ _ F) H) as (y & Hy & Hp). pose proof (get_type _ _ _ Hy) as Ht.
  assert (E : cell_type y = CJunction) by (destruct y; cbn in Hp; try discriminate; try reflexivity; destruct Hp as (u & _ & [=])). rewrite E in Ht. destruct d as [t k]. cbn [fst] in Ht. subst t.
  destruct (lk_from _ L _ _ Hm) as (l & Hl & El); [auto|]. destruct (numbered_one _ Hl) as (n & Hn). intros En. assert (Hin : In n (comp_outs (NJunction j))) by (apply (seat_out _ _ n H); eauto).
  cbn [comp_outs] in Hin. unfold out_chans in Hin. rewrite En in Hin. exact Hin.
Qed.

(** Ranks of components are ranks of what they are in the network. *)
Definition name_at (k : nat) : component := match nth_error S k with Some (d, _) => d | None => (CFaucet, EmptyString) end.
Lemma name_seat k x : nth_error net k = Some x -> In (name_at k, x) S.
Proof.
  rewrite <- seated_net. unfold name_at. intros H. rewrite nth_error_map in H. destruct (nth_error S k) as [[d y]|] eqn:E; [|discriminate]. cbn in H. injection H as <-. apply nth_error_In in E. exact E.
Qed.
Lemma between k x k' x' n : nth_error net k = Some x -> nth_error net k' = Some x' -> In n (comp_outs x) -> In n (comp_ins x') ->
  exists l, In l (links m) /\ lk_src l = name_at k /\ lk_dst l = name_at k'.
Proof.
  intros Hk Hk' H1 H2. apply name_seat in Hk, Hk'. apply (seat_out _ _ n Hk) in H1 as (l & A & B). apply (seat_in _ _ n Hk') in H2 as (l' & A' & B').
  pose proof (same_kept fst ls numbers_once _ _ A A' eq_refl) as E. injection E as <-. exists l. apply numbers_small in A as [_ A]. auto.
Qed.
Theorem made_acyclic : (exists rank : component -> nat, forall l, In l (links m) -> rank (lk_src l) < rank (lk_dst l)) -> acyclic net.
Proof. intros (rank & H). exists (fun k => rank (name_at k)). intros k x k' x' n Hk Hk' H1 H2. destruct (between _ _ _ _ _ Hk Hk' H1 H2) as (l & Hl & <- & <-). exact (H l Hl). Qed.
Theorem made_dammed : (exists rank : component -> nat, forall l, In l (links m) -> fst (lk_dst l) <> CBuffer -> rank (lk_src l) < rank (lk_dst l)) -> dammed net.
Proof.
  intros (rank & H). exists (fun k => rank (name_at k)). intros k x k' x' n Hk Hk' H1 H2. destruct (between _ _ _ _ _ Hk Hk' H1 H2) as (l & Hl & E1 & E2). specialize (H l Hl). rewrite E1, E2 in H.
  apply name_seat in Hk'. destruct (seated_plays _ _ _ _ _ (fb_once _ _ _ F) Hk') as (y & Hy & Hp). pose proof (get_type _ _ _ Hy) as Ht.
  destruct y as [f|la|j|b|dr|r]; cbn [plays cell_type] in *; try (right; apply H; rewrite <- Ht; discriminate). left. destruct Hp as (u & _ & ->). exact I.
Qed.
End Made.
