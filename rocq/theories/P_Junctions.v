(** * P_Junctions: adding junctions *)
From Coq Require Import Ascii String List Bool Arith ZArith Sorted Permutation Lia.
From Verif Require Import M_Prog M_Config M_Connectable M_Parser M_Manip S_Grammar S_Manip P_Map P_Pair.
Import ListNotations.
Local Open Scope string_scope.

Lemma ctype_eqb_spec a b : reflect (a = b) (ctype_eqb a b).
Proof. destruct a, b; constructor; congruence. Qed.
Lemma oport_eqb_spec a b : reflect (a = b) (oport_eqb a b).
Proof. destruct a, b; constructor; congruence. Qed.
Lemma component_eqb_spec (a b : component) : reflect (a = b) (component_eqb a b).
Proof.
  destruct a as [t n], b as [t' n']. unfold component_eqb. cbn. destruct (ctype_eqb_spec t t'), (String.eqb_spec n n'); cbn; constructor; congruence.
Qed.
Lemma source_eqb_spec (a b : source) : reflect (a = b) (source_eqb a b).
Proof.
  destruct a as [c o], b as [c' o']. unfold source_eqb. cbn [fst snd]. destruct (component_eqb_spec c c'), (oport_eqb_spec o o'); cbn; constructor; congruence.
Qed.

(** ** Maps of pairs *)
Lemma edge_at_cons k d m x : edge_at ((k, d) :: m) x = if String.eqb x k then edge_of d else edge_at m x.
Proof. unfold edge_at. cbn. destruct (String.eqb x k); reflexivity. Qed.
Lemma edge_at_bput k d m x : edge_at (bput k d m) x = if String.eqb x k then edge_of d else edge_at m x.
Proof. unfold edge_at. rewrite lookup_bput. destruct (String.eqb x k); reflexivity. Qed.
Lemma all_pairs_bput k d m : edge_of d <> None -> all_pairs m -> all_pairs (bput k d m).
Proof.
  unfold all_pairs. intros Hd. induction 1 as [|[a b] m Hb Hm IH]; cbn; [repeat constructor; auto|].
  destruct (String.compare k a); repeat constructor; auto.
Qed.
Lemma edge_key m x : all_pairs m -> In x (keys m) <-> edge_at m x <> None.
Proof.
  intros H. rewrite <- lookup_key. unfold edge_at. destruct (lookup x m) eqn:E; [|tauto]. apply lookup_in in E.
  unfold all_pairs in H. rewrite Forall_forall in H. specialize (H _ E). cbn in H. intuition congruence.
Qed.
Lemma edge_none m x : ~ In x (keys m) -> edge_at m x = None.
Proof. intros H. unfold edge_at. apply lookup_none in H. rewrite H. reflexivity. Qed.
Lemma edge_in_keys m x e : edge_at m x = Some e -> In x (keys m).
Proof. intros H. apply lookup_key. unfold edge_at in H. destruct (lookup x m); discriminate. Qed.

(** ** One pass over the connections *)
Section Pass.
Variable step : adding -> string * dconn -> outcome adding.
Variable test : edge -> bool.
Variables red dyn : edge -> edge.
Definition moved (e : edge) : edge := if test e then red e else e.
Definition nk (a : adding) : string := generate_new_key "dyn_connection" (ad_keys a).

Definition step_good : Prop := forall a k d e, edge_of d = Some e -> ordered (ad_acc a) -> all_pairs (ad_acc a) -> In k (ad_keys a) ->
  exists a', step a (k, d) = Good a' /\ ordered (ad_acc a') /\ all_pairs (ad_acc a') /\
  if test e && negb (ad_added a) then
    ad_keys a' = nk a :: ad_keys a /\ ad_added a' = true /\
    forall x, edge_at (ad_acc a') x = if String.eqb x k then Some (moved e) else if String.eqb x (nk a) then Some (dyn e) else edge_at (ad_acc a) x
  else
    ad_keys a' = ad_keys a /\ ad_added a' = ad_added a /\
    forall x, edge_at (ad_acc a') x = if String.eqb x k then Some (moved e) else edge_at (ad_acc a) x.

Hypothesis Hstep : step_good.

Lemma pass l : ordered l -> all_pairs l -> forall a, ordered (ad_acc a) -> all_pairs (ad_acc a) -> (forall x, In x (keys l) -> In x (ad_keys a)) ->
  exists a', ofold step l a = Good a' /\ ordered (ad_acc a') /\ all_pairs (ad_acc a') /\
  ((ad_keys a' = ad_keys a /\ ad_added a' = ad_added a /\ (ad_added a = false -> forall x e, edge_at l x = Some e -> test e = false) /\
    forall x, edge_at (ad_acc a') x = match edge_at l x with Some e => Some (moved e) | None => edge_at (ad_acc a) x end)
   \/
   (ad_keys a' = nk a :: ad_keys a /\ ad_added a = false /\ exists k0 e0, edge_at l k0 = Some e0 /\ test e0 = true /\ (forall x e, edge_at l x = Some e -> test e = true -> x = k0 \/ before k0 x) /\
    forall x, edge_at (ad_acc a') x = match edge_at l x with Some e => Some (moved e) | None => if String.eqb x (nk a) then Some (dyn e0) else edge_at (ad_acc a) x end)).
Proof.
  induction l as [|[k d] l IH]; intros Hn Hp a Ho Hpa Hk.
  - exists a. split; [reflexivity|]. split; auto. split; auto. left. repeat split; auto. intros _ x e H. discriminate H.
  - assert (Hk' : ~ In k (keys l)). { apply ordered_nodup in Hn. inversion Hn; assumption. }
    unfold ordered in Hn. cbn [keys map] in Hn. inversion Hn as [|? ? Hn' Hlt]; subst. inversion Hp as [|? ? Hd Hp']; subst. cbn in Hd.
    destruct (edge_of d) as [e|] eqn:Ed; [clear Hd|congruence].
    destruct (Hstep a k d e Ed Ho Hpa (Hk k (or_introl eq_refl))) as (a1 & E1 & Ho1 & Hp1 & H1).
    cbn [ofold]. rewrite E1. cbn [obind].
    assert (Hink : In k (ad_keys a)) by (apply Hk; left; reflexivity).
    assert (Hnk : nk a <> k). { intros Eq. apply (new_key_fresh "dyn_connection" (ad_keys a)). fold (nk a). rewrite Eq. exact Hink. }
    assert (Hlk : edge_at l k = None) by (apply edge_none; exact Hk').
    destruct (test e && negb (ad_added a)) eqn:Et.
    + apply andb_true_iff in Et as [Et Ea]. apply negb_true_iff in Ea. destruct H1 as (K1 & A1 & L1).
      destruct (IH Hn' Hp' a1 Ho1 Hp1) as (a' & E' & Ho' & Hp'' & [(K2 & A2 & _ & L2)|(_ & A2 & _)]); [| |congruence].
      { intros x Hx. rewrite K1. right. apply Hk. right. exact Hx. }
      exists a'. split; [exact E'|]. split; auto. split; auto. right. split; [congruence|]. split; auto. exists k, e.
      split; [rewrite edge_at_cons, String.eqb_refl; exact Ed|]. split; auto. split.
      { intros x y. rewrite edge_at_cons. destruct (String.eqb_spec x k) as [->|]; [auto|]. intros Hx _. right. unfold before in *. rewrite Forall_forall in Hlt. apply Hlt. eapply edge_in_keys; exact Hx. }
      intros x. rewrite L2, L1, edge_at_cons.
      destruct (String.eqb_spec x k) as [->|Hxk]; [|reflexivity]. rewrite Hlk, Ed. reflexivity.
    + destruct H1 as (K1 & A1 & L1). assert (Hnk1 : nk a1 = nk a) by (unfold nk; congruence).
      destruct (IH Hn' Hp' a1 Ho1 Hp1) as (a' & E' & Ho' & Hp'' & [(K2 & A2 & N2 & L2)|(K2 & A2 & k0 & e0 & Hk0 & He0 & F0 & L2)]).
      { intros x Hx. rewrite K1. apply Hk. right. exact Hx. }
      * exists a'. split; [exact E'|]. split; auto. split; auto. left. split; [congruence|]. split; [congruence|]. split.
        { intros Ea x y. rewrite edge_at_cons. destruct (String.eqb_spec x k) as [->|]; [|apply N2; congruence].
          rewrite Ed. intros [= <-]. rewrite Ea in Et. rewrite andb_true_r in Et. exact Et. }
        intros x. rewrite L2, L1, edge_at_cons. destruct (String.eqb_spec x k) as [->|Hxk]; [|reflexivity]. rewrite Hlk, Ed. reflexivity.
      * exists a'. split; [exact E'|]. split; auto. split; auto. right. split; [congruence|]. split; [congruence|]. exists k0, e0.
        assert (k0 <> k) by (intros ->; congruence).
        split; [rewrite edge_at_cons; destruct (String.eqb_spec k0 k); [congruence|exact Hk0]|]. split; auto. split.
        { intros x y. rewrite edge_at_cons. destruct (String.eqb_spec x k) as [->|]; [|apply F0]. rewrite Ed. intros [= <-] Ht. rewrite Ht in Et. cbn in Et.
          apply negb_false_iff in Et. congruence. }
        intros x. rewrite L2, L1, edge_at_cons, Hnk1. destruct (String.eqb_spec x k) as [->|Hxk]; [|reflexivity]. rewrite Hlk, Ed.
        destruct (String.eqb_spec k (nk a)); [congruence|reflexivity].
Qed.
End Pass.

Definition start_test (ms : source) (e : edge) : bool := source_eqb (e_src e) ms.
Definition start_red (jn : string) (e : edge) : edge := Edge (CJunction, jn, POut) (e_dst e) (e_in e).
Definition start_dyn (jn : string) (e : edge) : edge := Edge (e_src e) (CJunction, jn) (InPort Finish (ip_priority (e_in e))).
Definition end_test (me : component) (e : edge) : bool := component_eqb (e_dst e) me.
Definition end_red (jn : string) (e : edge) : edge := Edge (e_src e) (CJunction, jn) (e_in e).
Definition end_dyn (jn : string) (e : edge) : edge := Edge (CJunction, jn, POut) (e_dst e) (InPort Finish (ip_priority (e_in e))).

Lemma edge_shape d e : edge_of d = Some e -> exists t n o s t' n' i s', d = Connections [StartC t n o s; EndC t' n' i s'] /\ e = Edge (t, n, o) (t', n') i.
Proof.
  destruct d as [|[|a [|b [|]]]]; cbn; try discriminate; destruct a; try discriminate; destruct b; try discriminate.
  intros [= <-]. repeat eexists.
Qed.

Lemma start_step_good ms jn : step_good (add_start_step ms jn) (start_test ms) (start_red jn) (start_dyn jn).
Proof.
  intros a k d e Hd Ho Hp Hk. apply edge_shape in Hd as (t & n & o & s & t' & n' & i & s' & -> & ->).
  unfold add_start_step, moved, start_test. cbn [fst snd e_src]. destruct (source_eqb (t, n, o) ms) eqn:Et; cbn [andb].
  - destruct (ad_added a) eqn:Ea; cbn [negb]; (eexists; split; [reflexivity|]); cbn [ad_acc ad_keys ad_added].
    + split; [apply ordered_bput; auto|]. split; [apply all_pairs_bput; [discriminate|auto]|].
      split; [reflexivity|]. split; [auto|]. intros x. rewrite edge_at_bput. reflexivity.
    + split; [repeat apply ordered_bput; auto|]. split; [repeat (apply all_pairs_bput; [discriminate|]); auto|].
      split; [reflexivity|]. split; [reflexivity|]. intros x. rewrite !edge_at_bput. reflexivity.
  - eexists; split; [reflexivity|]. cbn [ad_acc ad_keys ad_added].
    split; [apply ordered_bput; auto|]. split; [apply all_pairs_bput; [discriminate|auto]|].
    split; [reflexivity|]. split; [reflexivity|]. intros x. rewrite edge_at_bput. reflexivity.
Qed.
Lemma end_step_good me jn : step_good (add_end_step me jn) (end_test me) (end_red jn) (end_dyn jn).
Proof.
  intros a k d e Hd Ho Hp Hk. apply edge_shape in Hd as (t & n & o & s & t' & n' & i & s' & -> & ->).
  unfold add_end_step, moved, end_test. cbn [fst snd e_dst]. destruct (component_eqb (t', n') me) eqn:Et; cbn [andb].
  - destruct (ad_added a) eqn:Ea; cbn [negb]; (eexists; split; [reflexivity|]); cbn [ad_acc ad_keys ad_added].
    + split; [apply ordered_bput; auto|]. split; [apply all_pairs_bput; [discriminate|auto]|].
      split; [reflexivity|]. split; [auto|]. intros x. rewrite edge_at_bput. reflexivity.
    + split; [repeat apply ordered_bput; auto|]. split; [repeat (apply all_pairs_bput; [discriminate|]); auto|].
      split; [reflexivity|]. split; [reflexivity|]. intros x. rewrite !edge_at_bput. fold (nk a).
      destruct (String.eqb_spec x k) as [->|]; [|reflexivity].
      destruct (String.eqb_spec k (nk a)) as [Eq|]; [|reflexivity].
      destruct (new_key_fresh "dyn_connection" (ad_keys a)). fold (nk a). rewrite <- Eq. exact Hk.
  - eexists; split; [reflexivity|]. cbn [ad_acc ad_keys ad_added].
    split; [apply ordered_bput; auto|]. split; [apply all_pairs_bput; [discriminate|auto]|].
    split; [reflexivity|]. split; [reflexivity|]. intros x. rewrite edge_at_bput. reflexivity.
Qed.

(** ** Names of junctions *)
Lemma junction_names m : NoDup (keys m) -> all_pairs m -> exists names, extract_junction_names m = Good names /\
  forall n, occurs m (CJunction, n) -> In n names.
Proof.
  intros Hn Hm. unfold extract_junction_names.
  match goal with |- context [ofold ?f m []] => set (F := f) end.
  assert (A : forall acc, exists names, ofold F m acc = Good names /\
    (forall n, In n acc -> In n names) /\ (forall k d e n, In (k, d) m -> edge_of d = Some e -> fst (e_src e) = (CJunction, n) \/ e_dst e = (CJunction, n) -> In n names)).
  { clear Hn. induction Hm as [|[k d] m Hd Hm IH]; intros acc.
    - exists acc. split; [reflexivity|]. split; [auto|]. intros k d e n H. destruct H.
    - cbn in Hd. destruct (edge_of d) as [e|] eqn:E; [clear Hd|congruence].
      pose proof (edge_shape _ _ E) as (t & n & o & s & t' & n' & i & s' & Ed & Ee).
      cbn [ofold]. unfold F at 1. cbn [snd]. rewrite Ed. cbn [omap junction_name obind].
      destruct (IH (acc ++ concat [if ctype_eqb t CJunction then [n] else []; if ctype_eqb t' CJunction then [n'] else []])%list) as (names & En & H1 & H2).
      exists names. split; [exact En|]. split.
      { intros x Hx. apply H1, in_app_iff. auto. }
      intros k1 d1 e1 n1 [Heq|Hin] He1; [|eapply H2; eauto]. assert (He : e1 = e) by (injection Heq as _ Hd1; congruence). rewrite He, Ee. cbn [e_src e_dst fst].
      intros Ho. apply H1, in_app_iff. right. cbn. destruct Ho as [[= -> ->]|[= -> ->]].
      + cbn. auto.
      + apply in_app_iff. right. cbn. auto. }
  destruct (A []) as (names & E & _ & H). exists names. split; [exact E|].
  intros n (k & e & He & Ho). unfold edge_at in He. destruct (lookup k m) as [d|] eqn:El; [|discriminate]. apply lookup_in in El.
  eapply H; eauto.
Qed.

(** ** What has been built so far *)
Section Built.
Variable m : connmap.   (* the connections at the start *)

Definition via_src (js : source -> option string) (s : source) : source := match js s with Some j => (CJunction, j, POut) | None => s end.
Definition via_dst (je : component -> option string) (c : component) : component := match je c with Some j => (CJunction, j) | None => c end.

Record built (js : source -> option string) (je : component -> option string) (ks : list string) (r : connmap) : Prop := Built {
  bt_ordered : ordered r;
  bt_pairs : all_pairs r;
  bt_keys : forall x, In x (keys r) -> In x ks;
  bt_mkeys : forall x e, edge_at m x = Some e -> In x ks;
  bt_kept : forall k e, edge_at m k = Some e -> edge_at r k = Some (Edge (via_src js (e_src e)) (via_dst je (e_dst e)) (e_in e));
  bt_made : forall k e, edge_at m k = None -> edge_at r k = Some e ->
    ip_breakable (e_in e) = Finish /\
    ((exists j, js (e_src e) = Some j /\ e_dst e = (CJunction, j)) \/ (exists j, je (e_dst e) = Some j /\ e_src e = (CJunction, j, POut)));
  bt_start : forall s j, js s = Some j -> exists k e, edge_at m k = None /\ edge_at r k = Some e /\ e_src e = s /\ e_dst e = (CJunction, j) /\
    forall k' e', edge_at m k' = None -> edge_at r k' = Some e' -> e_src e' = s -> k' = k;
  bt_end : forall c j, je c = Some j -> exists k e, edge_at m k = None /\ edge_at r k = Some e /\ e_dst e = c /\ e_src e = (CJunction, j, POut) /\
    forall k' e', edge_at m k' = None -> edge_at r k' = Some e' -> e_dst e' = c -> k' = k;
  bt_new_s : forall s j, js s = Some j -> ~ occurs m (CJunction, j);
  bt_new_e : forall c j, je c = Some j -> ~ occurs m (CJunction, j);
  bt_inj_s : forall s s' j, js s = Some j -> js s' = Some j -> s = s';
  bt_inj_e : forall c c' j, je c = Some j -> je c' = Some j -> c = c';
  bt_apart : forall s c j, js s = Some j -> je c = Some j -> False;
  bt_from_s : forall s, js s <> None -> exists k e, edge_at m k = Some e /\ e_src e = s;
  bt_from_e : forall c, je c <> None -> exists k e, edge_at m k = Some e /\ e_dst e = c;
  bt_mark_s : forall k e, edge_at m k = None -> edge_at r k = Some e -> js (e_src e) <> None ->
    exists k0 e0, first_such m (fun x => e_src x = e_src e) k0 e0 /\ ip_priority (e_in e) = ip_priority (e_in e0);
  bt_mark_e : forall k e, edge_at m k = None -> edge_at r k = Some e -> je (e_dst e) <> None ->
    exists k0 e0, first_such m (fun x => e_dst x = e_dst e) k0 e0 /\ ip_priority (e_in e) = ip_priority (e_in e0)
}.

Lemma occurs_src k e : edge_at m k = Some e -> occurs m (fst (e_src e)).
Proof. intros H. exists k, e. auto. Qed.
Lemma occurs_dst k e : edge_at m k = Some e -> occurs m (e_dst e).
Proof. intros H. exists k, e. auto. Qed.

Lemma still_there js je ks r c : built js je ks r -> occurs m c -> occurs r c.
Proof.
  intros B (k & e & He & Hc). pose proof (bt_kept _ _ _ _ B _ _ He) as Hr.
  destruct Hc as [<-|<-].
  - destruct (js (e_src e)) as [j|] eqn:E.
    + destruct (bt_start _ _ _ _ B _ _ E) as (k' & e' & _ & He' & Hs & _). exists k', e'. rewrite Hs. auto.
    + exists k. eexists. split; [exact Hr|]. cbn. unfold via_src. rewrite E. auto.
  - destruct (je (e_dst e)) as [j|] eqn:E.
    + destruct (bt_end _ _ _ _ B _ _ E) as (k' & e' & _ & He' & Hs & _). exists k', e'. rewrite Hs. auto.
    + exists k. eexists. split; [exact Hr|]. cbn. unfold via_dst. rewrite E. auto.
Qed.

Lemma add_start js je ks r ms : built js je ks r -> js ms = None -> (exists k e, edge_at m k = Some e /\ e_src e = ms) ->
  exists jn ks' r', add_start_junctions_for (ks, r) ms = Good (ks', r') /\
    built (fun s => if source_eqb s ms then Some jn else js s) je ks' r'.
Proof.
  intros B Hms Hex. pose proof (bt_ordered _ _ _ _ B) as Ho. pose proof (ordered_nodup _ Ho) as Hnd.
  destruct (junction_names r Hnd (bt_pairs _ _ _ _ B)) as (names & En & Hnames).
  unfold add_start_junctions_for. cbn [fst snd]. rewrite En. cbn [obind]. set (jn := generate_new_key "junction" names).
  assert (Fresh : ~ occurs r (CJunction, jn)) by (intros H; apply (new_key_fresh "junction" names); apply Hnames; exact H).
  assert (Freshm : ~ occurs m (CJunction, jn)) by (intros H; apply Fresh; eapply still_there; eauto).
  assert (Fs : forall s, js s <> Some jn).
  { intros s E. destruct (bt_start _ _ _ _ B _ _ E) as (k & e & _ & He & _ & Hd & _). apply Fresh. exists k, e. rewrite Hd. auto. }
  assert (Fe : forall c, je c <> Some jn).
  { intros c E. destruct (bt_end _ _ _ _ B _ _ E) as (k & e & _ & He & _ & Hd & _). apply Fresh. exists k, e. rewrite Hd. auto. }
  assert (Hocc : occurs m (fst ms)) by (destruct Hex as (k & e & He & <-); eapply occurs_src; eauto).
  assert (Old : forall j, js ms <> Some j) by (intros j; congruence).
  destruct (pass _ _ _ _ (start_step_good ms jn) r Ho (bt_pairs _ _ _ _ B) (Adding ks false []) (SSorted_nil _) (Forall_nil _) (bt_keys _ _ _ _ B))
    as (a' & E & Ho' & Hp' & [(K & _ & N & L)|(K & _ & k0 & e0 & Hk0 & Ht0 & F0 & L)]); cbn [ad_keys ad_added ad_acc] in *.
  { exfalso. destruct Hex as (k & e & He & Hs). pose proof (bt_kept _ _ _ _ B _ _ He) as Hr.
    specialize (N eq_refl _ _ Hr). unfold start_test in N. cbn in N. unfold via_src in N. rewrite Hs, Hms in N.
    destruct (source_eqb_spec ms ms); congruence. }
  unfold nk in *. cbn [ad_keys] in *. set (dk := generate_new_key "dyn_connection" ks) in *.
  assert (Hdk : ~ In dk ks) by apply new_key_fresh.
  assert (Hdkr : edge_at r dk = None) by (apply edge_none; intros H; apply Hdk, (bt_keys _ _ _ _ B); exact H).
  assert (Hdkm : edge_at m dk = None). { destruct (edge_at m dk) eqn:E1; [|reflexivity]. destruct Hdk. eapply bt_mkeys; eauto. }
  assert (Hdk' : edge_at (ad_acc a') dk = Some (start_dyn jn e0)) by (rewrite L, Hdkr, String.eqb_refl; reflexivity).
  assert (L' : forall x, x <> dk -> edge_at (ad_acc a') x = option_map (moved (start_test ms) (start_red jn)) (edge_at r x)).
  { intros x Hx. rewrite L. destruct (edge_at r x); [reflexivity|]. destruct (String.eqb_spec x dk); [congruence|reflexivity]. }
  unfold start_test in Ht0. destruct (source_eqb_spec (e_src e0) ms) as [He0|]; [|discriminate].
  (* edges that are not moved *)
  assert (Stay : forall e, e_src e <> ms -> moved (start_test ms) (start_red jn) e = e).
  { intros e He. unfold moved, start_test. destruct (source_eqb_spec (e_src e) ms); congruence. }
  assert (Move : forall e, e_src e = ms -> moved (start_test ms) (start_red jn) e = Edge (CJunction, jn, POut) (e_dst e) (e_in e)).
  { intros e He. unfold moved, start_test. destruct (source_eqb_spec (e_src e) ms); [reflexivity|congruence]. }
  (* made edges do not start at ms *)
  assert (Made : forall k e, edge_at m k = None -> edge_at r k = Some e -> e_src e <> ms).
  { intros k e Hk He Hs. destruct (bt_made _ _ _ _ B _ _ Hk He) as (_ & [(j & Hj & _)|(j & Hj & Hsj)]).
    - rewrite Hs in Hj. eapply Old; eauto.
    - rewrite Hs in Hsj. rewrite Hsj in Hocc. exact (bt_new_e _ _ _ _ B _ _ Hj Hocc). }
  exists jn, (dk :: ks), (ad_acc a'). split; [rewrite E; cbn [obind]; rewrite K; reflexivity|].
  constructor; auto.
  - (* keys *) intros x Hx. apply (edge_key _ _ Hp') in Hx. destruct (String.eqb_spec x dk) as [->|Hne]; [left; auto|]. right.
    rewrite L' in Hx by auto. apply (bt_keys _ _ _ _ B). destruct (edge_at r x) eqn:E1; [eapply edge_in_keys; eauto|cbn in Hx; congruence].
  - (* mkeys *) intros x e Hx. right. eapply bt_mkeys; eauto.
  - (* kept *) intros k e He. assert (k <> dk) by (intros ->; congruence). rewrite L' by auto. rewrite (bt_kept _ _ _ _ B _ _ He). cbn [option_map]. f_equal.
    unfold via_src at 2. destruct (source_eqb_spec (e_src e) ms) as [Heq|Hne].
    + rewrite Move; [reflexivity|]. cbn. unfold via_src. rewrite Heq, Hms. reflexivity.
    + rewrite Stay; [reflexivity|]. cbn. unfold via_src. destruct (js (e_src e)) as [j|] eqn:Ej; [|exact Hne].
      intros Heq. rewrite <- Heq in Hocc. exact (bt_new_s _ _ _ _ B _ _ Ej Hocc).
  - (* made *) intros k e Hk. destruct (String.eqb_spec k dk) as [->|Hne].
    + rewrite Hdk'. intros [= <-]. cbn. split; [reflexivity|]. left. exists jn. rewrite He0. destruct (source_eqb_spec ms ms); [auto|congruence].
    + rewrite L' by auto. destruct (edge_at r k) as [e1|] eqn:E1; [|discriminate]. cbn [option_map]. intros [= <-].
      rewrite Stay by eauto. destruct (bt_made _ _ _ _ B _ _ Hk E1) as (Hf & [(j & Hj & Hd)|(j & Hj & Hs)]); (split; [exact Hf|]).
      * left. exists j. destruct (source_eqb_spec (e_src e1) ms) as [Heq|]; [|auto]. destruct (Made _ _ Hk E1 Heq).
      * right. exists j. auto.
  - (* start *) intros s j. destruct (source_eqb_spec s ms) as [->|Hne].
    + intros [= <-]. exists dk. eexists. split; [exact Hdkm|]. split; [exact Hdk'|]. cbn. split; [exact He0|]. split; [reflexivity|].
      intros k' e' Hk' He' Hs. destruct (String.eqb_spec k' dk) as [|Hn']; [auto|]. rewrite L' in He' by auto.
      destruct (edge_at r k') as [e1|] eqn:E1; [|discriminate]. cbn in He'. injection He' as <-. rewrite Stay in Hs by eauto.
      destruct (Made _ _ Hk' E1 Hs).
    + intros Hj. destruct (bt_start _ _ _ _ B _ _ Hj) as (k & e & Hk & He & Hs & Hd & Hu). exists k, e. split; [exact Hk|].
      assert (k <> dk) by (intros ->; congruence). rewrite L' by auto. rewrite He. cbn [option_map]. rewrite Stay by congruence.
      split; [reflexivity|]. split; [exact Hs|]. split; [exact Hd|]. intros k' e' Hk' He' Hs'.
      destruct (String.eqb_spec k' dk) as [->|Hn']. { rewrite Hdk' in He'. injection He' as <-. cbn in Hs'. congruence. }
      rewrite L' in He' by auto. destruct (edge_at r k') as [e1|] eqn:E1; [|discriminate]. cbn in He'. injection He' as <-.
      rewrite Stay in Hs' by eauto. eapply Hu; eauto.
  - (* end *) intros c j Hj. destruct (bt_end _ _ _ _ B _ _ Hj) as (k & e & Hk & He & Hs & Hd & Hu). exists k, e. split; [exact Hk|].
    assert (k <> dk) by (intros ->; congruence). rewrite L' by auto. rewrite He. cbn [option_map]. rewrite Stay by eauto.
    split; [reflexivity|]. split; [exact Hs|]. split; [exact Hd|]. intros k' e' Hk' He' Hs'.
    destruct (String.eqb_spec k' dk) as [->|Hn'].
    { exfalso. rewrite Hdk' in He'. injection He' as <-. cbn in Hs'. subst c. apply Freshm. destruct (bt_from_e _ _ _ _ B (CJunction, jn)) as (k1 & e1 & H1 & <-); [congruence|]. eapply occurs_dst; eauto. }
    rewrite L' in He' by auto. destruct (edge_at r k') as [e1|] eqn:E1; [|discriminate]. cbn in He'. injection He' as <-.
    rewrite Stay in Hs' by eauto. eapply Hu; eauto.
  - (* new *) intros s j. destruct (source_eqb_spec s ms); [intros [= <-]; exact Freshm|eapply bt_new_s; eauto].
  - eapply bt_new_e; eauto.
  - intros s s' j. destruct (source_eqb_spec s ms), (source_eqb_spec s' ms); intros H1 H2; try congruence. eapply bt_inj_s; eauto.
  - eapply bt_inj_e; eauto.
  - intros s c j. destruct (source_eqb_spec s ms); intros H1 H2; [injection H1 as <-; exact (Fe _ H2)|eapply bt_apart; eauto].
  - intros s. destruct (source_eqb_spec s ms) as [->|]; [auto|]. eapply bt_from_s; eauto.
  - eapply bt_from_e; eauto.
  - (* mark *) intros k e Hk. destruct (String.eqb_spec k dk) as [->|Hne].
    + rewrite Hdk'. intros [= <-] _. cbn [start_dyn e_src e_in ip_priority]. destruct (edge_at m k0) as [f|] eqn:Ef; [|destruct (Made _ _ Ef Hk0 He0)].
      pose proof (bt_kept _ _ _ _ B _ _ Ef) as Hr. rewrite Hk0 in Hr. injection Hr as Hr. exists k0, f. split; [|rewrite Hr; reflexivity]. split; [exact Ef|].
      assert (Hsrc : forall g k', edge_at m k' = Some g -> e_src g = ms <-> via_src js (e_src g) = ms).
      { intros g k' Hg. unfold via_src. destruct (js (e_src g)) as [j|] eqn:Ej; [|reflexivity]. split; intros Hq; [congruence|].
        rewrite <- Hq in Hocc. destruct (bt_new_s _ _ _ _ B _ _ Ej Hocc). }
      split; [rewrite He0; apply (Hsrc f k0 Ef); rewrite <- He0, Hr; reflexivity|].
      intros k' g Hg Hs. rewrite He0 in Hs. apply (F0 k' _ (bt_kept _ _ _ _ B _ _ Hg)). unfold start_test. cbn [e_src]. rewrite (proj1 (Hsrc g k' Hg) Hs).
      destruct (source_eqb_spec ms ms); congruence.
    + rewrite L' by auto. destruct (edge_at r k) as [e1|] eqn:E1; [|discriminate]. cbn [option_map]. intros [= <-].
      rewrite Stay by eauto. destruct (source_eqb_spec (e_src e1) ms) as [Heq|]; [destruct (Made _ _ Hk E1 Heq)|]. apply (bt_mark_s _ _ _ _ B _ _ Hk E1).
  - intros k e Hk. destruct (String.eqb_spec k dk) as [->|Hne].
    + rewrite Hdk'. intros [= <-]. cbn [start_dyn e_dst]. intros Hj. destruct Freshm. destruct (bt_from_e _ _ _ _ B _ Hj) as (k1 & e1 & H1 & H2). rewrite <- H2. eapply occurs_dst; eauto.
    + rewrite L' by auto. destruct (edge_at r k) as [e1|] eqn:E1; [|discriminate]. cbn [option_map]. intros [= <-].
      rewrite Stay by eauto. apply (bt_mark_e _ _ _ _ B _ _ Hk E1).
Qed.

Lemma add_end js je ks r me : built js je ks r -> je me = None -> (exists k e, edge_at m k = Some e /\ e_dst e = me) ->
  exists jn ks' r', add_end_junctions_for (ks, r) me = Good (ks', r') /\
    built js (fun c => if component_eqb c me then Some jn else je c) ks' r'.
Proof.
  intros B Hme Hex. pose proof (bt_ordered _ _ _ _ B) as Ho. pose proof (ordered_nodup _ Ho) as Hnd.
  destruct (junction_names r Hnd (bt_pairs _ _ _ _ B)) as (names & En & Hnames).
  unfold add_end_junctions_for. cbn [fst snd]. rewrite En. cbn [obind]. set (jn := generate_new_key "junction" names).
  assert (Fresh : ~ occurs r (CJunction, jn)) by (intros H; apply (new_key_fresh "junction" names); apply Hnames; exact H).
  assert (Freshm : ~ occurs m (CJunction, jn)) by (intros H; apply Fresh; eapply still_there; eauto).
  assert (Fs : forall s, js s <> Some jn).
  { intros s E. destruct (bt_start _ _ _ _ B _ _ E) as (k & e & _ & He & _ & Hd & _). apply Fresh. exists k, e. rewrite Hd. auto. }
  assert (Fe : forall c, je c <> Some jn).
  { intros c E. destruct (bt_end _ _ _ _ B _ _ E) as (k & e & _ & He & _ & Hd & _). apply Fresh. exists k, e. rewrite Hd. auto. }
  assert (Hocc : occurs m me) by (destruct Hex as (k & e & He & <-); eapply occurs_dst; eauto).
  assert (Old : forall j, je me <> Some j) by (intros j; congruence).
  destruct (pass _ _ _ _ (end_step_good me jn) r Ho (bt_pairs _ _ _ _ B) (Adding ks false []) (SSorted_nil _) (Forall_nil _) (bt_keys _ _ _ _ B))
    as (a' & E & Ho' & Hp' & [(K & _ & N & L)|(K & _ & k0 & e0 & Hk0 & Ht0 & F0 & L)]); cbn [ad_keys ad_added ad_acc] in *.
  { exfalso. destruct Hex as (k & e & He & Hs). pose proof (bt_kept _ _ _ _ B _ _ He) as Hr.
    specialize (N eq_refl _ _ Hr). unfold end_test in N. cbn in N. unfold via_dst in N. rewrite Hs, Hme in N.
    destruct (component_eqb_spec me me); congruence. }
  unfold nk in *. cbn [ad_keys] in *. set (dk := generate_new_key "dyn_connection" ks) in *.
  assert (Hdk : ~ In dk ks) by apply new_key_fresh.
  assert (Hdkr : edge_at r dk = None) by (apply edge_none; intros H; apply Hdk, (bt_keys _ _ _ _ B); exact H).
  assert (Hdkm : edge_at m dk = None). { destruct (edge_at m dk) eqn:E1; [|reflexivity]. destruct Hdk. eapply bt_mkeys; eauto. }
  assert (Hdk' : edge_at (ad_acc a') dk = Some (end_dyn jn e0)) by (rewrite L, Hdkr, String.eqb_refl; reflexivity).
  assert (L' : forall x, x <> dk -> edge_at (ad_acc a') x = option_map (moved (end_test me) (end_red jn)) (edge_at r x)).
  { intros x Hx. rewrite L. destruct (edge_at r x); [reflexivity|]. destruct (String.eqb_spec x dk); [congruence|reflexivity]. }
  unfold end_test in Ht0. destruct (component_eqb_spec (e_dst e0) me) as [He0|]; [|discriminate].
  assert (Stay : forall e, e_dst e <> me -> moved (end_test me) (end_red jn) e = e).
  { intros e He. unfold moved, end_test. destruct (component_eqb_spec (e_dst e) me); congruence. }
  assert (Move : forall e, e_dst e = me -> moved (end_test me) (end_red jn) e = Edge (e_src e) (CJunction, jn) (e_in e)).
  { intros e He. unfold moved, end_test. destruct (component_eqb_spec (e_dst e) me); [reflexivity|congruence]. }
  (* made edges do not end at me *)
  assert (Made : forall k e, edge_at m k = None -> edge_at r k = Some e -> e_dst e <> me).
  { intros k e Hk He Hs. destruct (bt_made _ _ _ _ B _ _ Hk He) as (_ & [(j & Hj & Hsj)|(j & Hj & _)]).
    - rewrite Hs in Hsj. rewrite Hsj in Hocc. exact (bt_new_s _ _ _ _ B _ _ Hj Hocc).
    - rewrite Hs in Hj. eapply Old; eauto. }
  exists jn, (dk :: ks), (ad_acc a'). split; [rewrite E; cbn [obind]; rewrite K; reflexivity|].
  constructor; auto.
  - (* keys *) intros x Hx. apply (edge_key _ _ Hp') in Hx. destruct (String.eqb_spec x dk) as [->|Hne]; [left; auto|]. right.
    rewrite L' in Hx by auto. apply (bt_keys _ _ _ _ B). destruct (edge_at r x) eqn:E1; [eapply edge_in_keys; eauto|cbn in Hx; congruence].
  - (* mkeys *) intros x e Hx. right. eapply bt_mkeys; eauto.
  - (* kept *) intros k e He. assert (k <> dk) by (intros ->; congruence). rewrite L' by auto. rewrite (bt_kept _ _ _ _ B _ _ He). cbn [option_map]. f_equal.
    unfold via_dst at 2. destruct (component_eqb_spec (e_dst e) me) as [Heq|Hne].
    + rewrite Move; [reflexivity|]. cbn. unfold via_dst. rewrite Heq, Hme. reflexivity.
    + rewrite Stay; [reflexivity|]. cbn. unfold via_dst. destruct (je (e_dst e)) as [j|] eqn:Ej; [|exact Hne].
      intros Heq. rewrite <- Heq in Hocc. exact (bt_new_e _ _ _ _ B _ _ Ej Hocc).
  - (* made *) intros k e Hk. destruct (String.eqb_spec k dk) as [->|Hne].
    + rewrite Hdk'. intros [= <-]. cbn. split; [reflexivity|]. right. exists jn. rewrite He0. destruct (component_eqb_spec me me); [auto|congruence].
    + rewrite L' by auto. destruct (edge_at r k) as [e1|] eqn:E1; [|discriminate]. cbn [option_map]. intros [= <-].
      rewrite Stay by eauto. destruct (bt_made _ _ _ _ B _ _ Hk E1) as (Hf & [(j & Hj & Hd)|(j & Hj & Hs)]); (split; [exact Hf|]).
      * left. exists j. auto.
      * right. exists j. destruct (component_eqb_spec (e_dst e1) me) as [Heq|]; [|auto]. destruct (Made _ _ Hk E1 Heq).
  - (* start *) intros s j Hj. destruct (bt_start _ _ _ _ B _ _ Hj) as (k & e & Hk & He & Hs & Hd & Hu). exists k, e. split; [exact Hk|].
    assert (k <> dk) by (intros ->; congruence). rewrite L' by auto. rewrite He. cbn [option_map]. rewrite Stay by eauto.
    split; [reflexivity|]. split; [exact Hs|]. split; [exact Hd|]. intros k' e' Hk' He' Hs'.
    destruct (String.eqb_spec k' dk) as [->|Hn'].
    { exfalso. rewrite Hdk' in He'. injection He' as <-. cbn in Hs'. subst s. apply Freshm.
      destruct (bt_from_s _ _ _ _ B (CJunction, jn, POut)) as (k1 & e1 & H1 & Hs1); [congruence|].
      pose proof (occurs_src _ _ H1) as Ho1. rewrite Hs1 in Ho1. exact Ho1. }
    rewrite L' in He' by auto. destruct (edge_at r k') as [e1|] eqn:E1; [|discriminate]. cbn in He'. injection He' as <-.
    rewrite Stay in Hs' by eauto. eapply Hu; eauto.
  - (* end *) intros c j. destruct (component_eqb_spec c me) as [->|Hne].
    + intros [= <-]. exists dk. eexists. split; [exact Hdkm|]. split; [exact Hdk'|]. cbn. split; [exact He0|]. split; [reflexivity|].
      intros k' e' Hk' He' Hs. destruct (String.eqb_spec k' dk) as [|Hn']; [auto|]. rewrite L' in He' by auto.
      destruct (edge_at r k') as [e1|] eqn:E1; [|discriminate]. cbn in He'. injection He' as <-. rewrite Stay in Hs by eauto.
      destruct (Made _ _ Hk' E1 Hs).
    + intros Hj. destruct (bt_end _ _ _ _ B _ _ Hj) as (k & e & Hk & He & Hs & Hd & Hu). exists k, e. split; [exact Hk|].
      assert (k <> dk) by (intros ->; congruence). rewrite L' by auto. rewrite He. cbn [option_map]. rewrite Stay by congruence.
      split; [reflexivity|]. split; [exact Hs|]. split; [exact Hd|]. intros k' e' Hk' He' Hs'.
      destruct (String.eqb_spec k' dk) as [->|Hn']. { rewrite Hdk' in He'. injection He' as <-. cbn in Hs'. congruence. }
      rewrite L' in He' by auto. destruct (edge_at r k') as [e1|] eqn:E1; [|discriminate]. cbn in He'. injection He' as <-.
      rewrite Stay in Hs' by eauto. eapply Hu; eauto.
  - eapply bt_new_s; eauto.
  - (* new *) intros c j. destruct (component_eqb_spec c me); [intros [= <-]; exact Freshm|eapply bt_new_e; eauto].
  - eapply bt_inj_s; eauto.
  - intros c c' j. destruct (component_eqb_spec c me), (component_eqb_spec c' me); intros H1 H2; try congruence. eapply bt_inj_e; eauto.
  - intros s c j. destruct (component_eqb_spec c me); intros H1 H2; [injection H2 as <-; exact (Fs _ H1)|eapply bt_apart; eauto].
  - eapply bt_from_s; eauto.
  - intros c. destruct (component_eqb_spec c me) as [->|]; [auto|]. eapply bt_from_e; eauto.
  - intros k e Hk. destruct (String.eqb_spec k dk) as [->|Hne].
    + rewrite Hdk'. intros [= <-]. cbn [end_dyn e_src]. intros Hj. destruct Freshm. destruct (bt_from_s _ _ _ _ B _ Hj) as (k1 & e1 & H1 & H2).
      pose proof (occurs_src _ _ H1) as Ho1. rewrite H2 in Ho1. exact Ho1.
    + rewrite L' by auto. destruct (edge_at r k) as [e1|] eqn:E1; [|discriminate]. cbn [option_map]. intros [= <-].
      rewrite Stay by eauto. apply (bt_mark_s _ _ _ _ B _ _ Hk E1).
  - (* mark *) intros k e Hk. destruct (String.eqb_spec k dk) as [->|Hne].
    + rewrite Hdk'. intros [= <-] _. cbn [end_dyn e_dst e_in ip_priority]. destruct (edge_at m k0) as [f|] eqn:Ef; [|destruct (Made _ _ Ef Hk0 He0)].
      pose proof (bt_kept _ _ _ _ B _ _ Ef) as Hr. rewrite Hk0 in Hr. injection Hr as Hr. exists k0, f. split; [|rewrite Hr; reflexivity]. split; [exact Ef|].
      assert (Hdst : forall g k', edge_at m k' = Some g -> e_dst g = me <-> via_dst je (e_dst g) = me).
      { intros g k' Hg. unfold via_dst. destruct (je (e_dst g)) as [j|] eqn:Ej; [|reflexivity]. split; intros Hq; [congruence|].
        rewrite <- Hq in Hocc. destruct (bt_new_e _ _ _ _ B _ _ Ej Hocc). }
      split; [rewrite He0; apply (Hdst f k0 Ef); rewrite <- He0, Hr; reflexivity|].
      intros k' g Hg Hs. rewrite He0 in Hs. apply (F0 k' _ (bt_kept _ _ _ _ B _ _ Hg)). unfold end_test. cbn [e_dst]. rewrite (proj1 (Hdst g k' Hg) Hs).
      destruct (component_eqb_spec me me); congruence.
    + rewrite L' by auto. destruct (edge_at r k) as [e1|] eqn:E1; [|discriminate]. cbn [option_map]. intros [= <-].
      rewrite Stay by eauto. destruct (component_eqb_spec (e_dst e1) me) as [Heq|]; [destruct (Made _ _ Hk E1 Heq)|]. apply (bt_mark_e _ _ _ _ B _ _ Hk E1).
Qed.
End Built.
