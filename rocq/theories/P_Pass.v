(** * P_Pass: one pass of a junction over its inputs *)
From Coq Require Import Ascii String List Bool Arith Lia ZArith.
From Verif Require Import M_Prog P_Prog P_Exec M_Motion M_BackOff M_Utils M_Junction S_Trace S_Lines S_Motion S_Junction
  P_Split P_Read P_Motion P_Worker P_Flow P_Utils P_Ask.
Import ListNotations.

Inductive ares := RSkip | RRead | RFin.
Definition is_fin (r : ares) : bool := match r with RFin => true | _ => false end.
Definition is_skip (r : ares) : bool := match r with RSkip => true | _ => false end.
Definition skips (l : list ares) : nat := length (filter is_skip l).
Definition others (l : list ares) : nat := length (filter (fun r => negb (is_skip r)) l).
Definition chans (l : list pull) : list nat := map pl_chan l.
Definition cl (n : nat) : event := (EClose (CData n), AOk).

Lemma skips_others l : skips l + others l = length l.
Proof. induction l as [|[] l IH]; unfold skips, others in *; cbn in *; lia. Qed.

Lemma skips_all l : skips l = length l -> Forall (fun r => r = RSkip) l.
Proof.
  induction l as [|r l IH]; intro H; constructor.
  - destruct r; [reflexivity| |]; unfold skips in H; cbn in H; pose proof (skips_others l); unfold skips in *; lia.
  - apply IH. destruct r; unfold skips in *; cbn in H; pose proof (skips_others l); unfold skips in *; lia.
Qed.

Lemma vains_quiet ns : arrivals (map vain ns) = [] /\ ends (map vain ns) = [] /\ asked (map vain ns) = ns /\ closes (map vain ns) = [] /\ attempts (map vain ns) = [].
Proof. induction ns as [|n ns (I1 & I2 & I3 & I4 & I5)]; [repeat split|]. cbn in *. repeat split; auto. unfold asked in I3. now rewrite I3. Qed.

(** Only asks, writes and reports. *)
Definition act (ev : event) : Prop := match fst ev with ETryRecv _ => True | _ => is_output ev end.
Definition acts (w : trace) : Prop := Forall act w.
Lemma acts_closes w : acts w -> closes w = [].
Proof. induction 1 as [|[[] a] w H _ IH]; cbn in *; auto; contradiction. Qed.
Lemma acts_cons n x w : Forall is_output w -> acts ((ETryRecv (CData n), x) :: w).
Proof. intro H. constructor; [exact I|]. eapply Forall_impl; [|exact H]. intros [[] a] Ha; exact Ha || exact I. Qed.
Lemma acts_vains ns : acts (map vain ns).
Proof. induction ns; constructor; [exact I|assumption]. Qed.
Lemma acts_app a b : acts a -> acts b -> acts (a ++ b).
Proof. intros. apply Forall_app; split; assumption. Qed.

Lemma chans_app a b : chans (a ++ b) = chans a ++ chans b.
Proof. apply map_app. Qed.

Section Pass.
Variables (outs : list push) (spy : option nat).
Hypothesis Houts : Forall io_sender outs.

Notation base := (base outs).
Notation busy := (busy outs).
Notation all_gone := (all_gone outs).
Notation stopped := (stopped outs spy).

Lemma base_vains h l ns : base h l -> base (h ++ map vain ns) l.
Proof.
  intros (H1 & H2 & H3). destruct (vains_quiet ns) as (Q1 & _ & _ & _ & Q5).
  split; [|split; [|exact H3]].
  - now rewrite attempts_app, Q5, app_nil_r.
  - now rewrite arrivals_app, Q1, app_nil_r.
Qed.

(** Input [n] need not be asked again. *)
Definition over (n : nat) (h : trace) : Prop := In n (ends h) \/ all_gone h.

Lemma all_gone_app h w : all_gone h -> all_gone (h ++ w).
Proof.
  intros [H|H]; [left; exact H|right]. intros p HIn. destruct (H p HIn) as (H1 & d & e & H2 & H3).
  split; [exact H1|]. exists d, e. split; [exact H2|]. apply in_or_app; now left.
Qed.
Lemma over_app n h w : over n h -> over n (h ++ w).
Proof. intros [H|H]; [left; rewrite ends_app; apply in_or_app; now left|right; now apply all_gone_app]. Qed.

Definition jmw_post (pulls : list pull) (i : nat) (fin : list nat) (nrf nsk : nat) (h : trace) (h' : trace)
  (r : mres one_result * list pull * list push) : Prop :=
  exists r0 w, r = (r0, pulls, outs) /\ h' = h ++ w /\ acts w /\
  match r0 with
  | Ok o => exists res l', length res = length pulls /\
      finished_pulls o = fin ++ marked_from i (map is_fin res) /\
      length (read_from o) = nrf + others res /\ length (skipped o) = nsk + skips res /\
      base h' l' /\ asked w = chans pulls /\ length (arrivals w) + length (ends w) = others res /\
      (Forall (fun r => r = RSkip) res -> w = map vain (chans pulls)) /\
      (forall p, In p (picked (map is_fin res) pulls) -> over (pl_chan p) h') /\
      (forall n, In n (ends w) -> In n (chans (picked (map is_fin res) pulls)))
  | Err e => stopped h' e
  end.

Lemma jmw_sat : forall pulls i h l fin rf sk (N : trace -> eff -> Prop),
  Forall receiver pulls -> base h l -> Forall (fun f => f < i) fin ->
  (forall a p b w l', pulls = a ++ p :: b -> asked w = chans a -> (a = [] -> w = []) -> closes w = [] -> base (h ++ w) l' ->
     N (h ++ w) (ETryRecv (CData (pl_chan p)))) ->
  (forall w e, busy (h ++ w) e -> closes w = [] -> N (h ++ w) e) ->
  sat h (jmw_loop pulls i outs spy fin rf sk) N (jmw_post pulls i fin (length rf) (length sk) h).
Proof.
  induction pulls as [|p pulls IH]; intros i h l fin rf sk N HR HB HF HNa HNb.
  - cbn. apply sat_ret. exists (Ok (OneResult fin [] rf sk)), []. split; [reflexivity|]. split; [now rewrite app_nil_r|].
    split; [constructor|]. exists [], l. cbn. rewrite !Nat.add_0_r, !app_nil_r. repeat split; auto; try (intros; contradiction); apply HB.
  - inversion HR as [|? ? Hp HR']; subst. cbn [jmw_loop].
    assert (EX : existsb (Nat.eqb i) fin = false).
    { apply not_true_iff_false. rewrite existsb_exists. intros (x & HIn & E). apply Nat.eqb_eq in E. subst x.
      rewrite Forall_forall in HF. specialize (HF _ HIn). lia. }
    rewrite EX. apply sat_bind.
    apply sat_conseq with (N := N) (Q := fun h' r => exists r0, r = (r0, p, outs) /\ asked_post outs spy (pl_chan p) h h' l r0); [|auto|].
    { apply ask_sat; auto.
      - rewrite <- (app_nil_r h). apply HNa with (a := []) (b := pulls) (l' := l); auto. now rewrite app_nil_r.
      - intros h' e Hb (w & -> & _ & Hc). apply HNb; auto. }
    intros h1 r (r0 & -> & HP). cbn beta iota.
    destruct r0 as [[fin1 read1]|e].
    2:{ apply sat_ret. cbn in HP. destruct HP as ((x & w & -> & HO) & HS).
        exists (Err e), ((ETryRecv (CData (pl_chan p)), x) :: w). split; [reflexivity|]. split; [reflexivity|].
        split; [now apply acts_cons|exact HS]. }
    cbn [wr_read wr_finished].
    (* what the ask did *)
    assert (HQ : exists w1 r1 l1, h1 = h ++ w1 /\ acts w1 /\ asked w1 = [pl_chan p] /\ base h1 l1 /\
       length (arrivals w1) + length (ends w1) = (if is_skip r1 then 0 else 1) /\ read1 = negb (is_skip r1) /\ fin1 = is_fin r1 /\
       (r1 = RSkip -> w1 = [vain (pl_chan p)]) /\ (r1 = RFin -> over (pl_chan p) h1) /\
       (forall n, In n (ends w1) -> r1 = RFin /\ n = pl_chan p)).
    { destruct fin1, read1; cbn in HP.
      - destruct HP as [(w & -> & HO & HB')|(d & os & w & -> & HO & HB' & HG)]; destruct (output_quiet _ HO) as (Q1 & Q2 & Q3 & Q4).
        + exists ((ETryRecv (CData (pl_chan p)), AClosed) :: w), RFin, l. repeat split; try (apply acts_cons; assumption); auto; try discriminate; try apply HB'.
          * change (pl_chan p :: asked w = [pl_chan p]). now rewrite Q3.
          * change (length (arrivals w) + S (length (ends w)) = 1). now rewrite Q1, Q2.
          * intros _. left. rewrite ends_app. apply in_or_app. right. now left.
          * change (In n (pl_chan p :: ends w)) in H. rewrite Q2 in H. destruct H as [<-|[]]. reflexivity.
        + exists ((ETryRecv (CData (pl_chan p)), AMsg (VData d)) :: w), RFin, (l ++ [(d, os)]). repeat split; try (apply acts_cons; assumption); auto; try discriminate; try apply HB'.
          * change (pl_chan p :: asked w = [pl_chan p]). now rewrite Q3.
          * change (S (length (arrivals w)) + length (ends w) = 1). now rewrite Q1, Q2.
          * intros _. right. exact HG.
          * change (In n (ends w)) in H. rewrite Q2 in H. destruct H.
      - contradiction.
      - destruct HP as (d & os & w & -> & HO & HB'); destruct (output_quiet _ HO) as (Q1 & Q2 & Q3 & Q4).
        exists ((ETryRecv (CData (pl_chan p)), AMsg (VData d)) :: w), RRead, (l ++ [(d, os)]). repeat split; try (apply acts_cons; assumption); auto; try discriminate; try apply HB'.
        + change (pl_chan p :: asked w = [pl_chan p]). now rewrite Q3.
        + change (S (length (arrivals w)) + length (ends w) = 1). now rewrite Q1, Q2.
        + change (In n (ends w)) in H. rewrite Q2 in H. destruct H.
        + change (In n (ends w)) in H. rewrite Q2 in H. destruct H.
      - subst h1. exists [vain (pl_chan p)], RSkip, l. repeat split; try apply (acts_vains [pl_chan p]); auto; try discriminate; try contradiction.
        + apply (base_vains h l [pl_chan p]); assumption. + apply (base_vains h l [pl_chan p]); assumption.
        + apply (base_vains h l [pl_chan p]); assumption. }
    destruct HQ as (w1 & r1 & l1 & -> & Hac1 & Ha1 & HB1 & Hn1 & -> & -> & Hsk1 & Hfi1 & Hen1). clear HP. pose proof (acts_closes _ Hac1) as Hc1.
    apply sat_bind.
    eapply sat_conseq.
    + apply (IH (S i) (h ++ w1) l1 _ _ _ N HR' HB1).
      * destruct (is_fin r1); [apply Forall_app; split|]; try (eapply Forall_impl; [|exact HF]; cbn; lia).
        constructor; [lia|constructor].
      * intros a q b w l' E Haw _ Hcw HB'. rewrite <- app_assoc in *. eapply HNa with (a := p :: a) (b := b) (l' := l'); [now rewrite E| |discriminate| |exact HB'].
        -- rewrite asked_app, Ha1, Haw. reflexivity.
        -- rewrite closes_app, Hc1, Hcw. reflexivity.
      * intros w e Hb Hcw. rewrite <- app_assoc in *. apply HNb; [exact Hb|]. now rewrite closes_app, Hc1, Hcw.
    + auto.
    + intros h2 r (r2 & w2 & -> & -> & Hac2 & HP). cbn beta iota. apply sat_ret.
      exists r2, (w1 ++ w2). split; [reflexivity|]. split; [now rewrite app_assoc|]. split; [now apply acts_app|].
      destruct r2 as [o|e]; [|exact HP].
      destruct HP as (res & l' & E1 & E2 & E3 & E4 & E5 & E6 & E7 & E8 & E9 & E10).
      exists (r1 :: res), l'. split; [cbn; congruence|]. split.
      { rewrite E2. cbn [map marked_from]. destruct (is_fin r1); [now rewrite <- app_assoc|reflexivity]. }
      split. { rewrite E3. unfold others. cbn. destruct r1; cbn; try rewrite app_length; cbn; lia. }
      split. { rewrite E4. unfold skips. cbn. destruct r1; cbn; try rewrite app_length; cbn; lia. }
      split; [exact E5|]. split; [rewrite asked_app, Ha1, E6; reflexivity|].
      split. { rewrite arrivals_app, ends_app, !app_length. unfold others in *. cbn. destruct r1; cbn in *; lia. }
      split. { intro HA. inversion HA as [|? ? HA1 HA2]; subst. rewrite (Hsk1 eq_refl), (E8 HA2). reflexivity. }
      split.
      { intros q HIn. cbn [map picked] in HIn. destruct (is_fin r1) eqn:Ef.
        - destruct HIn as [<-|HIn]; [|auto]. apply over_app. apply Hfi1. destruct r1; try discriminate; reflexivity.
        - auto. }
      intros n HIn. rewrite ends_app in HIn. apply in_app_or in HIn. cbn [map picked]. destruct HIn as [HIn|HIn].
      * destruct (Hen1 _ HIn) as [-> ->]. cbn. now left.
      * specialize (E10 _ HIn). destruct (is_fin r1); [right|]; exact E10.
Qed.

Definition groups_post (groups : list (list pull)) (gi : nat) (fin : list (nat * nat)) (count : nat) (h h' : trace)
  (r : mres pass * list (list pull) * list push) : Prop :=
  exists r0 w, r = (r0, groups, outs) /\ h' = h ++ w /\ acts w /\
  match r0 with
  | Ok ps => exists l', base h' l' /\ ps_count ps = count + length (arrivals w) + length (ends w) /\
     ((ps_any_read ps = false /\ ps_finished ps = fin /\ w = map vain (chans (concat groups))) \/
      (ps_any_read ps = true /\ exists pre g post res w', groups = pre ++ g :: post /\
         w = map vain (chans (concat pre)) ++ w' /\ length res = length g /\
         ps_finished ps = fin ++ map (fun f => (gi + length pre, f)) (marked_from 0 (map is_fin res)) /\
         asked w' = chans g /\ length (arrivals w) + length (ends w) <> 0 /\
         (forall p, In p (picked (map is_fin res) g) -> over (pl_chan p) h') /\
         (forall n, In n (ends w) -> In n (chans (picked (map is_fin res) g)))))
  | Err e => stopped h' e
  end.

Lemma groups_sat : forall groups gi h l fin count (N : trace -> eff -> Prop),
  Forall (Forall receiver) groups -> base h l ->
  (forall pre g post a p b w l', groups = pre ++ g :: post -> g = a ++ p :: b -> asked w = chans a -> (a = [] -> w = []) -> closes w = [] ->
     base (h ++ map vain (chans (concat pre)) ++ w) l' ->
     N (h ++ map vain (chans (concat pre)) ++ w) (ETryRecv (CData (pl_chan p)))) ->
  (forall w e, busy (h ++ w) e -> closes w = [] -> N (h ++ w) e) ->
  sat h (groups_loop groups gi outs spy fin count) N (groups_post groups gi fin count h).
Proof.
  induction groups as [|g groups IH]; intros gi h l fin count N HR HB HNa HNb.
  - cbn. apply sat_ret. eexists (Ok _), []. split; [reflexivity|]. split; [now rewrite app_nil_r|]. split; [constructor|].
    exists l. split; [exact HB|]. cbn. split; [lia|]. left. auto.
  - inversion HR as [|? ? Hg HR']; subst. cbn [groups_loop]. apply sat_bind.
    eapply sat_conseq.
    + unfold junction_motion_worker. apply (jmw_sat g 0 h l [] [] [] N Hg HB); [constructor| |exact HNb].
      intros a p b w l' E Ha Hz Hc HB'. apply (HNa [] g groups a p b w l'); auto.
    + auto.
    + intros h1 r (r0 & w1 & -> & -> & Hc1 & HP). cbn beta iota.
      destruct r0 as [o|e].
      2:{ apply sat_ret. exists (Err e), w1. auto. }
      destruct HP as (res & l1 & E1 & E2 & E3 & E4 & HB1 & E6 & E7 & E8 & E9 & E10).
      cbn [length app plus] in E2, E3, E4. rewrite E4.
      destruct (Nat.ltb_spec (skips res) (length g)) as [Hlt|Hge].
      * apply sat_ret. eexists (Ok _), w1. split; [reflexivity|]. split; [reflexivity|]. split; [exact Hc1|].
        exists l1. split; [exact HB1|]. cbn [ps_count ps_any_read ps_finished]. split; [rewrite E3; lia|]. right. split; [reflexivity|].
        exists [], g, groups, res, w1. split; [reflexivity|]. split; [reflexivity|]. split; [exact E1|].
        split; [rewrite E2; cbn [length]; now rewrite Nat.add_0_r|]. split; [exact E6|]. split; [pose proof (skips_others res); lia|]. auto.
      * assert (HA : Forall (fun r => r = RSkip) res). { apply skips_all. pose proof (skips_others res). lia. }
        pose proof (E8 HA) as Ew. subst w1. destruct (vains_quiet (chans g)) as (Q1 & Q2 & _ & Q4 & _).
        assert (EM : marked_from 0 (map is_fin res) = []).
        { clear -HA. generalize 0. induction HA as [|r res Hr HA IH]; intro n; [reflexivity|]. subst r. cbn. apply IH. }
        rewrite E2, EM. cbn [map]. rewrite app_nil_r.
        assert (E3' : length (read_from o) = 0). { rewrite E3. rewrite Q1, Q2 in E7. cbn in E7. lia. }
        rewrite E3', Nat.add_0_r.
        apply sat_bind. eapply sat_conseq.
        -- apply (IH (S gi) (h ++ map vain (chans g)) l1 fin count N HR' HB1).
           ++ intros pre g' post a p b w l' E Eg Ha Hz Hc HB'. subst groups.
              specialize (HNa (g :: pre) g' post a p b w l' eq_refl Eg Ha Hz Hc).
              cbn [concat] in HNa. rewrite chans_app, map_app in HNa. rewrite !app_assoc in *. apply HNa. exact HB'.
           ++ intros w e Hb Hc. rewrite <- app_assoc in *. apply HNb; [exact Hb|]. rewrite closes_app, Q4. exact Hc.
        -- auto.
        -- intros h2 r (r2 & w2 & -> & -> & Hac2 & HP). cbn beta iota. apply sat_ret.
           exists r2, (map vain (chans g) ++ w2). split; [reflexivity|]. split; [now rewrite app_assoc|].
           split; [apply acts_app; [apply acts_vains|exact Hac2]|].
           destruct r2 as [ps|e]; [|exact HP].
           destruct HP as (l2 & HB2 & Hcnt & HP). exists l2. split; [exact HB2|].
           split; [rewrite arrivals_app, ends_app, Q1, Q2; exact Hcnt|].
           destruct HP as [(K1 & K2 & ->)|(K1 & pre & g' & post & res' & w' & -> & -> & K2 & K3 & K4 & K4' & K5 & K6)].
           ++ left. split; [exact K1|]. split; [exact K2|]. cbn [concat]. now rewrite chans_app, map_app.
           ++ right. split; [exact K1|]. exists (g :: pre), g', post, res', w'. split; [reflexivity|].
              split; [cbn [concat]; rewrite chans_app, map_app, <- app_assoc; reflexivity|]. split; [exact K2|].
              split; [rewrite K3; cbn [length]; now rewrite Nat.add_succ_r|]. split; [exact K4|]. split; [rewrite arrivals_app, ends_app, Q1, Q2; exact K4'|]. split; [exact K5|].
              intros n HIn. apply K6. rewrite ends_app, Q2 in HIn. exact HIn.
Qed.

(** ** Dropping and closing *)
Lemma picked_app : forall (a : list pull) bs b cs, length bs = length a -> picked (bs ++ cs) (a ++ b) = picked bs a ++ picked cs b.
Proof.
  induction a as [|x a IH]; intros [|c bs] b cs H; try discriminate; [reflexivity|].
  cbn. rewrite IH; [|cbn in H; lia]. now destruct c.
Qed.

Lemma remove_all_sat (ga gb : list (list pull)) (N : trace -> eff -> Prop) : forall g bs rest h,
  length bs = length g -> Forall receiver g ->
  (forall c1 p c2, rev (picked bs g) = c1 ++ p :: c2 -> N (h ++ map cl (chans c1)) (EClose (CData (pl_chan p)))) ->
  sat h (remove_all (rev (map (fun j => (length ga, j)) (marked_from 0 bs))) (ga ++ (g ++ rest) :: gb)) N
    (fun h' r => r = ga ++ (unmarked bs g ++ rest) :: gb /\ h' = h ++ map cl (chans (rev (picked bs g)))).
Proof.
  induction g as [|x g IH] using rev_ind; intros bs rest h Hl HR HN.
  - destruct bs; [|discriminate]. cbn. apply sat_ret. now rewrite app_nil_r.
  - destruct (exists_last (l := bs)) as (bs' & b & ->).
    { intro E; subst bs. rewrite app_length in Hl. cbn in Hl. lia. }
    rewrite !app_length in Hl. cbn in Hl. assert (Hl' : length bs' = length g) by lia.
    apply Forall_app in HR. destruct HR as [HR Hx]. inversion Hx as [|? ? Hx' _]; subst.
    rewrite picked_app in HN |- * by exact Hl'. rewrite marked_from_app, map_app, rev_app_distr. cbn [plus marked_from].
    assert (EU : unmarked (bs' ++ [b]) (g ++ [x]) = unmarked bs' g ++ (if b then [] else [x])).
    { clear -Hl'. revert g Hl'. induction bs' as [|c bs' IH]; intros [|y l] Hl; try discriminate.
      - cbn. now destruct b.
      - cbn. injection Hl as Hl. rewrite (IH _ Hl). now destruct c. }
    rewrite EU. destruct b; cbn [app map rev picked].
    + rewrite rev_app_distr in HN |- *. cbn [rev app remove_all] in HN |- *. rewrite <- app_assoc. cbn [app].
      rewrite Hl', remove_index_mid. destruct x as [ |xj xn| | ]; try contradiction. cbn [drop_pull].
      apply sat_bind. unfold close at 1. apply sat_vis.
      * specialize (HN [] (PlReceiver xj xn) (rev (picked bs' g)) eq_refl). cbn in HN. now rewrite app_nil_r in HN.
      * intros a Ha. destruct a; try discriminate Ha. apply sat_ret. eapply sat_conseq.
        -- apply (IH bs' rest (h ++ [cl xn]) Hl' HR).
           intros c1 p c2 E. specialize (HN (PlReceiver xj xn :: c1) p c2). rewrite E in HN. specialize (HN eq_refl).
           cbn [chans map] in HN. rewrite <- app_assoc. exact HN.
        -- auto.
        -- intros h' r (-> & ->). rewrite app_nil_r. split; [reflexivity|]. cbn [chans map pl_chan]. now rewrite <- app_assoc.
    + rewrite app_nil_r in HN |- *. rewrite <- app_assoc. cbn [app]. eapply sat_conseq; [apply (IH bs' (x :: rest) h Hl' HR HN)|auto|].
      intros h' r (-> & ->). split; [now rewrite <- app_assoc|reflexivity].
Qed.

Lemma close_all_senders (N : trace -> eff -> Prop) : forall ps h, Forall io_sender ps ->
  (forall c1 p c2, ps = c1 ++ p :: c2 -> N (h ++ map cl (map ps_chan c1)) (EClose (CData (ps_chan p)))) ->
  sat h (close_all ps) N (fun h' r => r = Ok tt /\ h' = h ++ map cl (map ps_chan ps)).
Proof.
  induction ps as [|p ps IH]; intros h HS HN; cbn [close_all].
  - apply sat_ret. cbn. now rewrite app_nil_r.
  - inversion HS as [|? ? Hp HS']; subst. destruct p as [ | | |pj pn| ]; try contradiction. cbn [motion_close].
    apply sat_bind. apply sat_bind. unfold close. apply sat_vis.
    + specialize (HN [] (PsIoSender pj pn) ps eq_refl). cbn in HN. now rewrite app_nil_r in HN.
    + intros a Ha. destruct a; try discriminate Ha. apply sat_ret. apply sat_ret.
      eapply sat_conseq; [apply (IH (h ++ [cl pn]) HS')|auto|].
      * intros c1 q c2 E. specialize (HN (PsIoSender pj pn :: c1) q c2). rewrite E in HN. specialize (HN eq_refl).
        cbn [map] in HN. rewrite <- app_assoc. exact HN.
      * intros h' r (-> & ->). split; [reflexivity|]. cbn. now rewrite <- app_assoc.
Qed.

Lemma drop_pulls_recv (N : trace -> eff -> Prop) : forall ps h, Forall receiver ps ->
  (forall c1 p c2, ps = c1 ++ p :: c2 -> N (h ++ map cl (chans c1)) (EClose (CData (pl_chan p)))) ->
  sat h (drop_pulls ps) N (fun h' _ => h' = h ++ map cl (chans ps)).
Proof.
  induction ps as [|p ps IH]; intros h HS HN; cbn [drop_pulls].
  - apply sat_ret. cbn. now rewrite app_nil_r.
  - inversion HS as [|? ? Hp HS']; subst. destruct p as [ |pj pn| | ]; try contradiction. cbn [drop_pull].
    apply sat_bind. unfold close. apply sat_vis.
    + specialize (HN [] (PlReceiver pj pn) ps eq_refl). cbn in HN. now rewrite app_nil_r in HN.
    + intros a Ha. destruct a; try discriminate Ha. apply sat_ret.
      eapply sat_conseq; [apply (IH (h ++ [cl pn]) HS')|auto|].
      * intros c1 q c2 E. specialize (HN (PlReceiver pj pn :: c1) q c2). rewrite E in HN. specialize (HN eq_refl).
        cbn [chans map] in HN. rewrite <- app_assoc. exact HN.
      * intros h' r ->. cbn. now rewrite <- app_assoc.
Qed.
End Pass.
