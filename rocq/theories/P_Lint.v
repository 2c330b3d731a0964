(** * P_Lint: lint reports exactly the problems *)
From Coq Require Import Ascii String List Bool Arith ZArith Lia.
From Verif Require Import M_Prog M_Config M_Connectable M_Parser M_Manip M_Lint S_Grammar S_Manip S_Lint P_Map P_Parser P_Pair P_Junctions P_Junctions2 P_Manip.
Import ListNotations.
Local Open Scope string_scope.

(** ** Reading connections *)
Lemma load_cases s : (exists l, load_connection_from_string s = Good (Some l) /\ connection_text l s) \/
  (load_connection_from_string s = Good None /\ forall l, ~ connection_text l s).
Proof.
  destruct (load_connection_from_string s) as [[l|]|] eqn:E.
  - left. exists l. split; [reflexivity|]. apply load_exact, E.
  - right. split; [reflexivity|]. intros l H. apply load_exact in H. congruence.
  - right. assert (N : forall l, ~ connection_text l s) by (intros l H; apply load_exact in H; congruence). rewrite (load_rejects s N) in E. discriminate.
Qed.

(** Reading always succeeds; the warnings are the unreadable texts; what can be read has been. *)
Lemma convert_total m : exists m' ws, convert_connections m = Good (m', ws) /\ keys m' = keys m /\
  (forall w, In w ws <-> exists k s, w = InvalidConnection k s /\ In (k, JoinString s) m /\ forall l, ~ connection_text l s) /\
  (forall k l, In (k, Connections l) m' <-> reads m k l) /\
  (forall k s, In (k, JoinString s) m' <-> In (k, JoinString s) m /\ forall l, ~ connection_text l s).
Proof.
  unfold convert_connections. induction m as [|[k d] m IH].
  { exists [], []. split; [reflexivity|]. split; [reflexivity|]. split; [|split].
    - intros w. split; [intros []|intros (? & ? & ? & [] & ?)].
    - intros k l. split; [intros []|intros (? & [] & ?)].
    - intros k s. split; [intros []|intros [[] _]]. }
  destruct IH as (m' & ws & E & Hk & Hw & Hr & Hj). cbn [omap].
  destruct (omap convert_one m) as [r|] eqn:Er; [|discriminate]. cbn [obind] in E. injection E as Em Ew.
  assert (X : exists d' w', convert_one (k, d) = Good ((k, d'), w') /\
    (forall w, In w w' <-> exists s, w = InvalidConnection k s /\ d = JoinString s /\ forall l, ~ connection_text l s) /\
    (forall l, d' = Connections l <-> d = Connections l \/ exists s, d = JoinString s /\ connection_text l s) /\
    (forall s, d' = JoinString s <-> d = JoinString s /\ forall l, ~ connection_text l s)).
  { unfold convert_one. cbn [fst snd]. destruct d as [s|l].
    - destruct (load_cases s) as [(l & El & Hl)|[En Hn]].
      + rewrite El. cbn [obind]. exists (Connections l), []. split; [reflexivity|]. split; [|split].
        * intros w. split; [intros []|]. intros (s' & _ & Hs & Hn). injection Hs as <-. destruct (Hn _ Hl).
        * intros l'. split; [intros [= <-]; right; eauto|]. intros [H|(s' & Hs & Ht)]; [discriminate|]. injection Hs as <-. apply load_exact in Ht. rewrite El in Ht. congruence.
        * intros s'. split; [discriminate|]. intros [Hs Hn]. injection Hs as <-. destruct (Hn _ Hl).
      + rewrite En. cbn [obind]. exists (JoinString s), [InvalidConnection k s]. split; [reflexivity|]. split; [|split].
        * intros w. split; [intros [<-|[]]; eauto|]. intros (s' & -> & Hs & _). injection Hs as <-. left. reflexivity.
        * intros l'. split; [discriminate|]. intros [H|(s' & Hs & Ht)]; [discriminate|]. injection Hs as <-. destruct (Hn _ Ht).
        * intros s'. split; [intros [= <-]; auto|]. intros [[= <-] _]. reflexivity.
    - exists (Connections l), []. split; [reflexivity|]. split; [|split].
      + intros w. split; [intros []|]. intros (s' & _ & Hs & Hn). discriminate.
      + intros l'. split; [auto|]. intros [H|(s' & Hs & Ht)]; [exact H|discriminate].
      + intros s'. split; [discriminate|]. intros [Hs _]. discriminate. }
  destruct X as (d' & w' & Ex & Xw & Xr & Xj). rewrite Ex. cbn [obind map flat_map fst snd]. rewrite Em, Ew.
  exists ((k, d') :: m'), (w' ++ ws)%list. split; [reflexivity|]. split; [cbn [keys map fst]; unfold keys in Hk; rewrite Hk; reflexivity|]. split; [|split].
  - intros w. rewrite in_app_iff, Xw, Hw. split.
    + intros [(s & -> & -> & Hn)|(k' & s & -> & Hin & Hn)]; [exists k, s|exists k', s]; (split; [reflexivity|split; [|exact Hn]]); [left; reflexivity|right; exact Hin].
    + intros (k' & s & -> & [Hin|Hin] & Hn); [left|right; eauto]. injection Hin as -> ->. eauto.
  - intros k' l. cbn [In]. rewrite Hr. split.
    + intros [Heq|(d0 & Hin & Hd)]; [|exists d0; split; [right; exact Hin|exact Hd]]. injection Heq as -> Hd. exists d. split; [left; reflexivity|]. apply Xr, Hd.
    + intros (d0 & [Hin|Hin] & Hd); [left|right; exists d0; auto]. injection Hin as -> ->. f_equal. apply Xr, Hd.
  - intros k' s. cbn [In]. rewrite Hj. split.
    + intros [Heq|[Hin Hn]]; [|auto]. injection Heq as -> Hd. apply Xj in Hd as [-> Hn]. auto.
    + intros [[Hin|Hin] Hn]; [left|right; auto]. injection Hin as -> ->. f_equal. apply Xj. auto.
Qed.

Lemma known_in c l : known c l = true <-> In c l.
Proof.
  unfold known. rewrite existsb_exists. split.
  - intros (x & Hin & Hx). destruct (component_eqb_spec c x); [subst; exact Hin|discriminate].
  - intros H. exists c. split; [exact H|]. destruct (component_eqb_spec c c); congruence.
Qed.
Lemma known_out c l : known c l = false <-> ~ In c l.
Proof. rewrite <- known_in. destruct (known c l); split; congruence. Qed.
Lemma components_mentioned m m' : (forall k l, In (k, Connections l) m' <-> reads m k l) -> forall c, In c (known_components m') <-> is_mentioned m c.
Proof.
  intros H c. unfold known_components. rewrite in_flat_map. split.
  - intros ([k d] & Hin & Hc). destruct d as [s|l]; [destruct Hc|]. cbn [snd quick_deserialized_connection_to_connection] in Hc.
    apply in_map_iff in Hc as (x & Hx & Hxl). exists k, l, x. split; [apply H; exact Hin|auto].
  - intros (k & l & x & Hr & Hx & Hc). exists (k, Connections l). split; [apply H; exact Hr|]. cbn. apply in_map_iff. eauto.
Qed.

Lemma configured_lookup c t n : needs_config t -> exists_with_flow_config (registered c) (section_name t) n = true <-> ~ configured c (t, n).
Proof.
  intros [H1 H2].
  assert (G : forall l : list string, negb (existsb (fun h => h =? n) l) = true <-> ~ In n l).
  { intros l. rewrite negb_true_iff. rewrite <- not_true_iff_false, existsb_exists. split.
    - intros H Hin. apply H. exists n. split; [exact Hin|]. apply String.eqb_refl.
    - intros H (x & Hin & Hx). apply String.eqb_eq in Hx. subst. auto. }
  destruct t; try congruence; unfold exists_with_flow_config; cbn [registered lookup section_name String.eqb Ascii.eqb Bool.eqb]; apply G.
Qed.
Lemma missing_exact c comps w : In w (missing_config (registered c) comps) <->
  exists t n, w = InFlowConnectionButMissingConfig t n /\ In (t, n) comps /\ needs_config t /\ ~ configured c (t, n).
Proof.
  unfold missing_config. rewrite in_flat_map. split.
  - intros ([t n] & Hin & Hw). cbn [fst snd] in Hw. exists t, n.
    assert (K : needs_config t /\ ~ configured c (t, n) /\ w = InFlowConnectionButMissingConfig t n); [|tauto].
    pose proof (configured_lookup c t n) as L.
    destruct t; cbn [section_name] in L; try contradiction;
      (match type of Hw with In _ (if ?b then _ else _) => destruct b eqn:E end; [|destruct Hw]; destruct Hw as [<-|[]];
       assert (N : forall t, t <> CJunction -> t <> CBuffer -> needs_config t) by (split; assumption);
       split; [apply N; discriminate|split; [apply L; [apply N; discriminate|reflexivity]|reflexivity]]).
  - intros (t & n & -> & Hin & N & Hc). exists (t, n). split; [exact Hin|]. cbn [fst snd].
    pose proof (proj2 (configured_lookup c t n N) Hc) as L. destruct N as [N1 N2]. destruct t; try congruence; cbn [section_name] in L; rewrite L; left; reflexivity.
Qed.
Lemma unused_exact c comps acc : exists ws, ofold (unused_section comps) (registered c) acc = Good ws /\
  forall w, In w ws <-> In w acc \/ exists t n, w = InConfigButMissingFlowConnection (section_name t) t n /\ configured c (t, n) /\ ~ In (t, n) comps.
Proof.
  eexists. split; [reflexivity|]. intros w. rewrite !in_app_iff, !in_flat_map.
  assert (G : forall s t l, (exists n, In n l /\ In w (if known (t, n) comps then [] else [InConfigButMissingFlowConnection s t n])) <->
    exists n, w = InConfigButMissingFlowConnection s t n /\ In n l /\ ~ In (t, n) comps).
  { intros s t l. split.
    - intros (n & Hn & Hw). destruct (known (t, n) comps) eqn:E; [destruct Hw|]. destruct Hw as [<-|[]]. apply known_out in E. eauto.
    - intros (n & -> & Hn & Hc). exists n. split; [exact Hn|]. apply known_out in Hc. rewrite Hc. left. reflexivity. }
  cbn [fst snd]. rewrite !G. split.
  - intros [[[[H|(n & Hw & Hn & Hc)]|(n & Hw & Hn & Hc)]|(n & Hw & Hn & Hc)]|(n & Hw & Hn & Hc)]; [tauto|right..].
    + exists CRegulator, n. auto.
    + exists CDrain, n. auto.
    + exists CFaucet, n. auto.
    + exists CLaunch, n. auto.
  - intros [H|(t & n & Hw & Hn & Hc)]; [tauto|]. destruct t; cbn in Hn; try contradiction; eauto 12.
Qed.
Lemma watching_exact c comps w : In w (watching_missing c comps) <->
  exists r rc b, w = RegulatorWatchingMissingBuffer ("regulator[""" ++ r ++ """].monitored_buffers") CBuffer b /\
    In (r, rc) (cf_regulator c) /\ In b (rc_monitored rc) /\ ~ In (CBuffer, b) comps.
Proof.
  unfold watching_missing, regulator_buffers. rewrite in_flat_map. split.
  - intros ([r b] & Hin & Hw). apply in_flat_map in Hin as ([r' rc] & Hr & Hb). apply in_map_iff in Hb as (b' & Hb' & Hb).
    cbn [fst snd] in *. injection Hb' as -> ->. destruct (known (CBuffer, b) comps) eqn:E; [destruct Hw|]. destruct Hw as [<-|[]]. apply known_out in E. eauto 10.
  - intros (r & rc & b & -> & Hr & Hb & Hc). exists (r, b). split.
    + apply in_flat_map. exists (r, rc). split; [exact Hr|]. cbn [fst snd]. apply in_map_iff. eauto.
    + apply known_out in Hc. cbn [snd fst]. rewrite Hc. left. reflexivity.
Qed.

(** The set *)
Lemma warning_eqb_spec a b : reflect (a = b) (warning_eqb a b).
Proof.
  destruct a as [s t n|s t n|t n|k s], b as [s' t' n'|s' t' n'|t' n'|k' s']; cbn [warning_eqb]; try (constructor; discriminate).
  - destruct (String.eqb_spec s s'), (component_eqb_spec (t, n) (t', n')); constructor; congruence.
  - destruct (String.eqb_spec s s'), (component_eqb_spec (t, n) (t', n')); constructor; congruence.
  - destruct (component_eqb_spec (t, n) (t', n')); constructor; congruence.
  - destruct (String.eqb_spec k k'), (String.eqb_spec s s'); constructor; congruence.
Qed.
Lemma repeated w l : existsb (warning_eqb w) l = true <-> In w l.
Proof.
  rewrite existsb_exists. split.
  - intros (x & Hx & E). destruct (warning_eqb_spec w x); [subst; exact Hx|discriminate].
  - intros H. exists w. split; [exact H|]. destruct (warning_eqb_spec w w); congruence.
Qed.
Lemma as_set_in l w : In w (as_set l) <-> In w l.
Proof.
  induction l as [|x l IH]; [reflexivity|]. cbn [as_set In]. destruct (existsb (warning_eqb x) (as_set l)) eqn:E.
  - apply repeated in E. rewrite IH. split; [auto|]. intros [<-|H]; [apply IH, E|exact H].
  - cbn [In]. rewrite IH. reflexivity.
Qed.
Lemma as_set_once l : NoDup (as_set l).
Proof.
  induction l as [|x l IH]; [constructor|]. cbn [as_set]. destruct (existsb (warning_eqb x) (as_set l)) eqn:E; [exact IH|]. constructor; [|exact IH].
  rewrite <- repeated. congruence.
Qed.

Theorem lint_exact c : exists c' ws, lint c = Good (c', ws) /\
  ((exists w, unreadable c w) -> forall w, In w ws <-> unreadable c w) /\
  ((forall w, ~ unreadable c w) -> forall w, In w ws <-> problem c w) /\
  cf_faucet c' = cf_faucet c /\ cf_regulator c' = cf_regulator c /\ cf_drain c' = cf_drain c /\ cf_launch c' = cf_launch c /\
  keys (cf_connection c') = keys (cf_connection c) /\
  (forall k l, In (k, Connections l) (cf_connection c') <-> reads (cf_connection c) k l).
Proof.
  unfold lint. destruct (convert_total (cf_connection c)) as (m' & errs & E & Hk & Hw & Hr & _). rewrite E. cbn [obind].
  assert (U : forall w, unreadable c w <-> In w errs).
  { intros w. rewrite Hw. split; [intros [k s Hin Hn]; eauto|]. intros (k & s & -> & Hin & Hn). constructor; assumption. }
  destruct errs as [|e errs].
  - destruct (unused_exact (with_connection c m') (known_components m') (watching_missing (with_connection c m') (known_components m'))) as (ws & Ew & Hu).
    rewrite Ew. cbn [obind]. eexists. eexists. split; [reflexivity|]. split; [|split; [|auto 10]].
    + intros [w Hx]. apply U in Hx. destruct Hx.
    + intros _ w. rewrite as_set_in, in_app_iff, Hu, watching_exact, missing_exact. pose proof (components_mentioned _ _ Hr) as M. split.
      * intros [[(r & rc & b & -> & H1 & H2 & H3)|(t & n & -> & H1 & H2)]|(t & n & -> & H1 & H2 & H3)]; rewrite M in *.
        -- econstructor; eauto.
        -- econstructor; eauto.
        -- econstructor; eauto.
      * intros [r rc b H1 H2 H3|t n H1 H2|t n H1 H2 H3]; rewrite <- M in *; [left; left|left; right|right]; eauto 10.
  - exists (with_connection c m'), (as_set (e :: errs)). split; [reflexivity|]. split; [|split; [|auto 10]].
    + intros _ w. rewrite as_set_in. symmetry. apply U.
    + intros H. destruct (H e). apply U. left. reflexivity.
Qed.
Lemma lint_once c c' ws : lint c = Good (c', ws) -> NoDup ws.
Proof.
  unfold lint. destruct (convert_connections (cf_connection c)) as [[m errs]|]; cbn [obind]; [|discriminate]. destruct errs as [|e errs].
  - destruct (ofold _ _ _); cbn [obind]; [|discriminate]. intros [= _ <-]. apply as_set_once.
  - intros [= _ <-]. exact (as_set_once (e :: errs)).
Qed.
