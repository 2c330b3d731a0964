(** * P_Split: proofs about reading messages from byte sources *)
From Coq Require Import Ascii String List Bool Arith Lia.
From Verif Require Import M_Prog P_Prog P_Exec M_Motion M_ReadAll S_Trace S_Lines.
Import ListNotations.

(** ** Delimiters *)
Lemma bytes_eqb_eq a b : bytes_eqb a b = true <-> a = b.
Proof.
  revert b; induction a as [|x a IH]; intros [|y b]; cbn; try (split; congruence).
  rewrite andb_true_iff, Ascii.eqb_eq, IH. split; [intros [-> ->]; reflexivity|intros [= -> ->]; auto].
Qed.

Lemma is_split_some buf splits l :
  is_split buf splits = Some l -> exists v, In v splits /\ l = length v /\ exists x, buf = v ++ x.
Proof.
  induction splits as [|v rest IH]; cbn [is_split]; [discriminate|].
  destruct (length buf <? length v) eqn:Hlen.
  - intro H. destruct (IH H) as (u & Hu & Hl & Hx). exists u. split; [now right|auto].
  - destruct (bytes_eqb (firstn (length v) buf) v) eqn:Heq.
    + intros [= <-]. exists v. split; [now left|]. split; [reflexivity|].
      apply bytes_eqb_eq in Heq. exists (skipn (length v) buf).
      rewrite <- Heq at 1. symmetry. apply firstn_skipn.
    + intro H. destruct (IH H) as (u & Hu & Hl & Hx). exists u. split; [now right|auto].
Qed.

Lemma is_split_none buf splits :
  is_split buf splits = None -> forall v, In v splits -> ~ exists x, buf = v ++ x.
Proof.
  induction splits as [|v rest IH]; cbn [is_split]; [intros _ v []|].
  destruct (length buf <? length v) eqn:Hlen.
  - intros H u [->|Hu]; [|now apply IH].
    intros [x Hx]. subst buf. apply Nat.ltb_lt in Hlen. rewrite app_length in Hlen. lia.
  - destruct (bytes_eqb (firstn (length v) buf) v) eqn:Heq; [discriminate|].
    intros H u [->|Hu]; [|now apply IH].
    intros [x Hx]. subst buf. rewrite firstn_app, firstn_all, Nat.sub_diag, app_nil_r in Heq.
    assert (bytes_eqb u u = true) by now apply bytes_eqb_eq. congruence.
Qed.

Lemma is_split_ext2 buf splits x :
  (forall v, In v splits -> length v <= 2) -> 2 <= length buf ->
  is_split (buf ++ x) splits = is_split buf splits.
Proof.
  intros Hs Hb. induction splits as [|v rest IH]; cbn [is_split]; [reflexivity|].
  assert (Hv : length v <= 2) by (apply Hs; now left).
  rewrite IH by (intros u Hu; apply Hs; now right).
  rewrite app_length.
  assert (E1 : (length buf + length x <? length v) = false) by (apply Nat.ltb_ge; lia).
  assert (E2 : (length buf <? length v) = false) by (apply Nat.ltb_ge; lia).
  rewrite E1, E2, firstn_app.
  replace (length v - length buf) with 0 by lia. cbn. rewrite app_nil_r. reflexivity.
Qed.

Lemma prefix_common {A} (u v x y : list A) :
  u ++ x = v ++ y -> (exists z, v = u ++ z) \/ (exists z, u = v ++ z).
Proof.
  revert v; induction u as [|a u IH]; intros [|b v] H; cbn in *.
  - left; exists []; reflexivity.
  - left; exists (b :: v); reflexivity.
  - right; exists (a :: u); reflexivity.
  - inversion H; subst. destruct (IH v) as [[z ->]|[z ->]]; [assumption|left|right]; exists z; reflexivity.
Qed.

Lemma is_split_complete splits v x buf :
  good_splits splits -> In v splits -> buf = v ++ x -> is_split buf splits = Some (length v).
Proof.
  intros [_ Hpf] Hv ->. destruct (is_split (v ++ x) splits) as [l|] eqn:E.
  - destruct (is_split_some _ _ _ E) as (u & Hu & -> & y & Hy).
    destruct (prefix_common _ _ _ _ Hy) as [Hz|Hz].
    + now rewrite (Hpf v u Hv Hu Hz).
    + now rewrite <- (Hpf u v Hu Hv Hz).
  - exfalso. apply (is_split_none _ _ E v Hv). now exists x.
Qed.

Lemma is_split_ext_some splits buf l x :
  good_splits splits -> is_split buf splits = Some l -> is_split (buf ++ x) splits = Some l.
Proof.
  intros Hg E. destruct (is_split_some _ _ _ E) as (v & Hv & -> & y & ->).
  apply is_split_complete with (x := y ++ x); auto. now rewrite app_assoc.
Qed.

(** ** The first cut of a buffer *)
Fixpoint fc (splits : list bytes) (s : bytes) : option nat :=
  match s with
  | [] => None
  | _ :: tl => match is_split s splits with Some l => Some l | None => option_map S (fc splits tl) end
  end.

Lemma scan_fc splits rest : forall pos sf,
  snd (scan splits rest pos sf) = option_map (plus pos) (fc splits rest).
Proof.
  induction rest as [|b tl IH]; intros pos sf; cbn [scan fc]; [reflexivity|].
  destruct (is_split (b :: tl) splits) as [l|] eqn:E; cbn; [reflexivity|].
  rewrite IH. destruct (fc splits tl); cbn; [|reflexivity]. f_equal. lia.
Qed.

Lemma scan_none_pos splits rest : forall pos sf,
  fc splits rest = None ->
  fst (scan splits rest pos sf) = match rest with [] => sf | _ => pos + (length rest - 1) end.
Proof.
  induction rest as [|b tl IH]; intros pos sf; cbn [scan fc]; [reflexivity|].
  destruct (is_split (b :: tl) splits) as [l|] eqn:E; [discriminate|].
  destruct (fc splits tl) as [e|] eqn:Ef; cbn; [discriminate|]. intros _.
  rewrite IH by reflexivity. destruct tl; cbn; lia.
Qed.

Lemma fc_ext_some splits s e x :
  good_splits splits -> fc splits s = Some e -> fc splits (s ++ x) = Some e.
Proof.
  intro Hg. revert e; induction s as [|b tl IH]; intros e; cbn [fc app]; [discriminate|].
  destruct (is_split (b :: tl) splits) as [l|] eqn:E.
  - intros [= ->]. change (b :: tl ++ x) with ((b :: tl) ++ x).
    now rewrite (is_split_ext_some _ _ _ x Hg E).
  - destruct (fc splits tl) as [e'|] eqn:Ef; cbn; [|discriminate]. intros [= <-].
    change (b :: tl ++ x) with ((b :: tl) ++ x).
    rewrite is_split_ext2, E, (IH e' eq_refl); [reflexivity| |].
    + intros v Hv. apply (proj1 Hg). exact Hv.
    + destruct tl; [discriminate|cbn; lia].
Qed.

Lemma fc_skip splits s x :
  good_splits splits -> fc splits s = None ->
  fc splits (s ++ x) = option_map (plus (length s - 1)) (fc splits (skipn (length s - 1) s ++ x)).
Proof.
  intro Hg. induction s as [|b tl IH]; intro Hn.
  - cbn. destruct (fc splits x); reflexivity.
  - destruct tl as [|c tl].
    + cbn [length skipn Nat.sub]. destruct (fc splits ([b] ++ x)); reflexivity.
    + cbn [fc] in Hn. destruct (is_split (b :: c :: tl) splits) as [l|] eqn:E; [discriminate|].
      destruct (fc splits (c :: tl)) as [e|] eqn:Ef; [cbn [fc] in Ef; rewrite Ef in Hn; discriminate|].
      specialize (IH eq_refl).
      replace (length (b :: c :: tl) - 1) with (S (length (c :: tl) - 1)) by (cbn; lia).
      cbn [skipn]. cbn [app fc]. change (b :: c :: tl ++ x) with ((b :: c :: tl) ++ x).
      rewrite is_split_ext2, E.
      * change (c :: tl ++ x) with ((c :: tl) ++ x).
        change (fc splits ((c :: tl) ++ x)) with (fc splits ((c :: tl) ++ x)) in IH.
        cbn [app] in IH |- *. cbn [fc] in IH. rewrite IH.
        destruct (fc splits (skipn (length (c :: tl) - 1) (c :: tl) ++ x)); cbn; reflexivity.
      * intros v Hv. apply (proj1 Hg). exact Hv.
      * cbn; lia.
Qed.

Lemma fc_pos splits s e : good_splits splits -> fc splits s = Some e -> 1 <= e <= length s.
Proof.
  intro Hg. revert e; induction s as [|b tl IH]; intro e; cbn [fc]; [discriminate|].
  destruct (is_split (b :: tl) splits) as [l|] eqn:E.
  - intros [= <-]. destruct (is_split_some _ _ _ E) as (v & Hv & -> & x & Hx).
    destruct (proj1 Hg v Hv). rewrite Hx, app_length. lia.
  - destruct (fc splits tl) as [e'|]; cbn; [|discriminate]. intros [= <-].
    specialize (IH e' eq_refl). cbn. lia.
Qed.

(** ** One call of motion_read_buffer *)
Definition start_ok (splits : list bytes) (ov : bytes) (start : nat) : Prop :=
  start <= length ov /\
  forall x, fc splits (ov ++ x) = option_map (plus start) (fc splits (skipn start ov ++ x)).

Lemma start_ok_0 splits ov : start_ok splits ov 0.
Proof. split; [lia|]. intro x. cbn. destruct (fc splits (ov ++ x)); reflexivity. Qed.

Lemma skipn_app_le {A} n (a b : list A) : n <= length a -> skipn n (a ++ b) = skipn n a ++ b.
Proof. intro H. rewrite skipn_app. replace (n - length a) with 0 by lia. reflexivity. Qed.

Lemma start_ok_next splits ov start d :
  good_splits splits -> start_ok splits ov start -> fc splits ov = None -> 
  start_ok splits (ov ++ d) (fst (scan splits (skipn start ov) start start)).
Proof.
  intros Hg [Hle Hst] Hn.
  assert (Hrest : fc splits (skipn start ov) = None).
  { specialize (Hst []). rewrite !app_nil_r in Hst. rewrite Hn in Hst.
    destruct (fc splits (skipn start ov)); [discriminate|reflexivity]. }
  rewrite scan_none_pos by exact Hrest.
  destruct (skipn start ov) as [|b tl] eqn:Esk.
  - split; [rewrite app_length; lia|]. intro x.
    rewrite <- app_assoc, Hst. rewrite skipn_app_le by exact Hle. rewrite Esk. reflexivity.
  - set (k := length (b :: tl) - 1).
    assert (Hlen : length (b :: tl) = length ov - start) by (rewrite <- Esk; apply skipn_length).
    split.
    + rewrite app_length. unfold k. rewrite Hlen. lia.
    + intro x. rewrite <- app_assoc, Hst.
      rewrite fc_skip by assumption.
      rewrite skipn_app_le by (unfold k; rewrite Hlen; lia).
      replace (skipn (start + k) ov) with (skipn k (b :: tl)).
      * fold k. rewrite <- app_assoc.
        destruct (fc splits (skipn k (b :: tl) ++ d ++ x)); cbn [option_map]; [f_equal; lia|reflexivity].
      * rewrite <- Esk. clear. revert ov; induction start as [|s IH]; intro ov; [reflexivity|].
        destruct ov as [|c ov]; cbn [skipn plus]; [apply skipn_nil|apply IH].
Qed.

Lemma read_loop_eq f splits ov start :
  read_loop f splits ov start =
  match scan splits (skipn start ov) start start with
  | (_, Some e) => Ret (Some (firstn e ov), skipn e ov)
  | (start', None) =>
    Vis (ERead f) (fun a =>
      match a with
      | AData [] => Ret (Some ov, [])
      | AData d => read_loop f splits (ov ++ d) start'
      | AErr => Ret (None, ov)
      | _ => ill
      end)
  end.
Proof.
  etransitivity; [apply frob_eq|]. unfold frob. unfold read_loop at 1; fold read_loop.
  destruct (scan splits (skipn start ov) start start) as [s' [e|]]; reflexivity.
Qed.

Definition only_reads (f : fd) (tr : trace) : Prop := Forall (fun ev => fst ev = ERead f) tr.

Lemma reads_cons_data f d tr : reads f ((ERead f, AData d) :: tr) = d :: reads f tr.
Proof. cbn. now rewrite Nat.eqb_refl. Qed.

Lemma reads_app f a b : reads f (a ++ b) = reads f a ++ reads f b.
Proof. apply flat_map_app. Qed.

(** What one call does, for any answers: it reads non-empty chunks as long as there is no
    delimiter, and then cuts at the first one, or stops at end of file or error. *)
Lemma read_loop_spec splits f : good_splits splits ->
  forall p tr st, exec p tr st -> forall ov start, p = read_loop f splits ov start -> start_ok splits ov start ->
  only_reads f tr /\
  match st with
  | At e => e = ERead f /\ Forall (fun d => d <> []) (reads f tr) /\ fc splits (ov ++ concat (reads f tr)) = None
  | Panicked _ => False
  | Done (Some m, ov') =>
    (Forall (fun d => d <> []) (reads f tr) /\
     exists e, fc splits (ov ++ concat (reads f tr)) = Some e /\
               m = firstn e (ov ++ concat (reads f tr)) /\ ov' = skipn e (ov ++ concat (reads f tr)))
    \/ (exists ds, reads f tr = ds ++ [[]] /\ Forall (fun d => d <> []) ds /\
        m = ov ++ concat ds /\ ov' = [] /\ fc splits m = None)
  | Done (None, ov') =>
    Forall (fun d => d <> []) (reads f tr) /\ ov' = ov ++ concat (reads f tr) /\ fc splits ov' = None
  end.
Proof.
  intros Hg p tr st HX.
  induction HX as [a|s|e k|p tr st HX IH|e k a tr st Hwt HX IH]; intros ov start Hp Hst;
    rewrite read_loop_eq in Hp;
    pose proof (scan_fc splits (skipn start ov) start start) as Hscan;
    pose proof (start_ok_next splits ov start) as Hnext;
    pose proof (proj2 Hst []) as Hfc; rewrite !app_nil_r in Hfc;
    destruct (scan splits (skipn start ov) start start) as [s' [c|]]; cbn [fst snd] in *; try discriminate.
  - (* found *)
    injection Hp as Hp; subst a. split; [constructor|]. left. cbn. split; [constructor|].
    exists c. rewrite app_nil_r. rewrite Hfc, <- Hscan. auto.
  - injection Hp as He _; subst e. cbn. rewrite app_nil_r. split; [constructor|].
    split; [reflexivity|]. split; [constructor|]. rewrite Hfc, <- Hscan. reflexivity.
  - injection Hp as He Hk; subst e k.
    rewrite <- Hscan in Hfc.
    assert (Hret : forall X (v : X) t s, exec (Ret v) t s -> t = [] /\ s = Done v).
    { intros X v t s HE. inversion HE; auto. }
    destruct a; try discriminate Hwt; try (exfalso; clear -HX; unfold ill in HX; inversion HX; fail).
    + (* error *)
      destruct (Hret _ _ _ _ HX) as [-> ->].
      cbn. split; [repeat constructor|]. split; [constructor|].
      rewrite app_nil_r. split; [reflexivity|exact Hfc].
    + destruct d as [|b d].
      * destruct (Hret _ _ _ _ HX) as [-> ->].
        split; [repeat constructor|]. right. exists [].
        rewrite reads_cons_data. cbn. rewrite app_nil_r. auto.
      * destruct (IH _ _ eq_refl (Hnext _ Hg Hst Hfc)) as [Hor IH'].
        split; [constructor; [reflexivity|exact Hor]|].
        rewrite reads_cons_data. cbn [concat].
        assert (Hne : b :: d <> []) by discriminate.
        destruct st as [e|[[m|] ov']|s]; cbn in IH' |- *.
        -- rewrite <- app_assoc in IH'. destruct IH' as (H1 & H2 & H3). auto.
        -- rewrite <- app_assoc in IH'. destruct IH' as [(H1 & e & H2)|(ds & H1 & H2 & H3)].
           ++ left. split; [auto|]. exists e. exact H2.
           ++ right. exists ((b :: d) :: ds). rewrite H1. cbn.
              rewrite <- app_assoc in H3. split; [reflexivity|]. auto.
        -- rewrite <- app_assoc in IH'. destruct IH' as (H1 & H2 & H3). auto.
        -- exact IH'.
Qed.

(** ** Reading everything *)

(** Messages of a complete stream, by repeated first cuts. *)
Fixpoint gcut (fuel : nat) (splits : list bytes) (s : bytes) : list bytes :=
  match fuel with
  | O => []
  | S fuel' =>
    match s with
    | [] => []
    | _ => match fc splits s with
           | Some e => firstn e s :: gcut fuel' splits (skipn e s)
           | None => [s]
           end
    end
  end.

Definition gmsgs splits s := gcut (length s) splits s.

Lemma gcut_fuel splits : good_splits splits -> forall n m s, length s <= n -> length s <= m -> gcut n splits s = gcut m splits s.
Proof.
  intro Hg. induction n as [|n IH]; intros m s Hn Hm.
  - destruct s; [|cbn in Hn; lia]. destruct m; reflexivity.
  - destruct s as [|b tl]; [destruct m; reflexivity|].
    destruct m as [|m]; [cbn in Hm; lia|].
    cbn [gcut]. destruct (fc splits (b :: tl)) as [e|] eqn:E; [|reflexivity].
    f_equal. destruct (fc_pos _ _ _ Hg E). apply IH; rewrite skipn_length; cbn [length] in *; lia.
Qed.

Lemma gmsgs_cut splits s e : good_splits splits -> fc splits s = Some e ->
  gmsgs splits s = firstn e s :: gmsgs splits (skipn e s).
Proof.
  intros Hg E. unfold gmsgs. destruct (fc_pos _ _ _ Hg E).
  destruct s as [|b tl]; [discriminate|]. cbn [length gcut]. rewrite E. f_equal.
  apply gcut_fuel; [exact Hg| |]; rewrite skipn_length; cbn [length] in *; lia.
Qed.

Lemma gmsgs_nocut splits s : fc splits s = None -> gmsgs splits s = match s with [] => [] | _ => [s] end.
Proof. intro E. unfold gmsgs. destruct s as [|b tl]; [reflexivity|]. cbn [length gcut]. now rewrite E. Qed.

(** Messages of a list of reads, for any delimiters. *)
Definition gmsgs_of_reads splits (cur : bytes) (rs : list bytes) : list bytes :=
  flat_map (gmsgs splits) (segments cur rs).

Lemma segments_nonempty ds : Forall (fun d : bytes => d <> []) ds ->
  forall cur more, segments cur (ds ++ more) = segments (cur ++ concat ds) more.
Proof.
  induction 1 as [|d ds Hd Hds IH]; intros cur more; cbn [app concat].
  - now rewrite app_nil_r.
  - destruct d as [|b d]; [congruence|]. cbn [segments]. rewrite IH, <- app_assoc. reflexivity.
Qed.

Lemma gmsgs_of_reads_cut splits e : good_splits splits -> forall more s, fc splits s = Some e ->
  gmsgs_of_reads splits s more = firstn e s :: gmsgs_of_reads splits (skipn e s) more.
Proof.
  intro Hg. unfold gmsgs_of_reads. induction more as [|d more IH]; intros s E.
  - cbn. rewrite !app_nil_r. now apply gmsgs_cut.
  - destruct d as [|b d]; cbn [segments flat_map].
    + rewrite (gmsgs_cut _ _ _ Hg E). reflexivity.
    + destruct (fc_pos _ _ _ Hg E) as [_ Hle].
      rewrite (IH (s ++ b :: d)) by (now apply fc_ext_some).
      rewrite firstn_app, skipn_app.
      replace (e - length s) with 0 by lia. cbn [firstn skipn]. rewrite app_nil_r. reflexivity.
Qed.

(** Reading on from any point: [acc] and [ov] stand for the data [rs] read so far. *)
Definition read_inv splits (f : fd) (k : bsrc) (j : pjourney) (h : trace) (s : pull * list bytes) : Prop :=
  exists ov, fst s = PlBytes k j f (SC splits ov) /\ forall more, gmsgs_of_reads splits [] (reads f h ++ more) = snd s ++ gmsgs_of_reads splits ov more.

Lemma read_all_sat splits f k j : good_splits splits -> forall ov0,
  forall acc0, acc0 = [] -> ov0 = [] ->
  sat [] (iter read_all_body (PlBytes k j f (SC splits ov0), acc0))
    (fun h e => e = ERead f /\ exists acc ov, forall more, gmsgs_of_reads splits [] (reads f h ++ more) = acc ++ gmsgs_of_reads splits ov more)
    (fun h r => match r with
                | Ok msgs => msgs = gmsgs_of_reads splits [] (reads f h)
                | Err e => e = ReadIOError j
                end).
Proof.
  intros Hg ov0 acc0 -> ->.
  apply sat_iter with (Inv := read_inv splits f k j).
  2:{ exists []. split; [reflexivity|]. intro more. reflexivity. }
  intros h [p acc] (ov & Hp & Hinv). cbn [fst snd] in *. subst p.
  unfold read_all_body. cbn [motion_read].
  apply sat_bind. apply sat_bind. unfold motion_read_buffer. apply sat_bind.
  intros tr st HX.
  destruct (read_loop_spec splits f Hg _ _ _ HX ov 0 eq_refl (start_ok_0 _ _)) as [_ HS].
  destruct st as [e|[[m|] ov']|s].
  - destruct HS as (-> & Hne & Hfc). split; [reflexivity|].
    exists acc, (ov ++ concat (reads f tr)). intro more.
    rewrite reads_app, <- app_assoc, Hinv. f_equal. unfold gmsgs_of_reads.
    now rewrite segments_nonempty.
  - apply sat_ret. cbn [split_at]. apply sat_ret.
    destruct HS as [(Hne & e & Hfc & -> & ->)|(ds & Hrd & Hne & -> & -> & Hfc)].
    + destruct (fc_pos _ _ _ Hg Hfc) as [He1 He2].
      set (s := ov ++ concat (reads f tr)) in *.
      destruct (do_match_stuff (firstn e s)) as [d| |] eqn:Ed.
      * assert (d = firstn e s) as -> by (destruct (firstn e s); cbn in Ed; congruence).
        apply sat_ret. exists (skipn e s). split; [reflexivity|]. intro more. cbn [snd].
        rewrite reads_app, <- app_assoc, Hinv.
        unfold gmsgs_of_reads at 1. rewrite segments_nonempty by assumption. fold s.
        change (flat_map (gmsgs splits) (segments s more)) with (gmsgs_of_reads splits s more).
        rewrite (gmsgs_of_reads_cut _ e Hg more s Hfc), <- app_assoc. reflexivity.
      * exfalso. destruct (firstn e s) eqn:E; [|discriminate].
        assert (H0 : length (firstn e s) = 0) by now rewrite E. rewrite firstn_length in H0. lia.
      * exfalso. destruct (firstn e s); discriminate.
    + set (s := ov ++ concat ds) in *.
      assert (Hmore : forall more, gmsgs_of_reads splits [] (reads f (h ++ tr) ++ more) =
                              acc ++ (match s with [] => [] | _ => [s] end) ++ gmsgs_of_reads splits [] more).
      { intro more. rewrite reads_app, Hrd, <- app_assoc, Hinv. f_equal. unfold gmsgs_of_reads.
        rewrite <- app_assoc, segments_nonempty by assumption. fold s. cbn [segments app flat_map].
        now rewrite gmsgs_nocut. }
      destruct s as [|b s']; cbn [do_match_stuff].
      * apply sat_ret. specialize (Hmore []). cbn in Hmore. rewrite !app_nil_r in Hmore. symmetry; exact Hmore.
      * apply sat_ret. exists []. split; [reflexivity|]. intro more. cbn [snd].
        rewrite Hmore, <- app_assoc. reflexivity.
  - apply sat_ret. apply sat_ret. apply sat_ret. reflexivity.
  - exact HS.
Qed.

(** ** The delimiters of the code *)
Lemma default_good : good_splits (split_at split_control_new).
Proof.
  split.
  - cbn. intros v [<-|[<-|[]]]; cbn; lia.
  - cbn. intros u v [<-|[<-|[]]] [<-|[<-|[]]] [x Hx]; cbn in Hx; try reflexivity; discriminate Hx.
Qed.

Lemma fc_default_char b tl :
  fc (split_at split_control_new) (b :: tl) =
  if Ascii.eqb b lf then Some 1
  else option_map S (fc (split_at split_control_new) tl).
Proof.
  cbn [fc]. destruct (Ascii.eqb b lf) eqn:E.
  - apply Ascii.eqb_eq in E; subst b.
    rewrite (is_split_complete _ [lf] tl (lf :: tl) default_good); [reflexivity|cbn; auto|reflexivity].
  - destruct (is_split (b :: tl) (split_at split_control_new)) as [l|] eqn:Es; [|reflexivity].
    destruct (is_split_some _ _ _ Es) as (v & [<-|[<-|[]]] & -> & x & Hx); cbn in Hx; inversion Hx; subst.
    + rewrite (is_split_complete _ [cr; lf] x _ default_good) in Es; [|cbn; auto|reflexivity].
      assert (Hl : fc (split_at split_control_new) (lf :: x) = Some 1).
      { cbn [fc]. rewrite (is_split_complete _ [lf] x (lf :: x) default_good); [reflexivity|cbn; auto|reflexivity]. }
      change ([cr; lf] ++ x) with (cr :: lf :: x) in *. inversion Hx. rewrite Hl. reflexivity.
    + rewrite Ascii.eqb_refl in E. discriminate.
Qed.

Lemma cut_spec : forall s cur,
  cut cur s = match fc (split_at split_control_new) s with
              | Some e => (cur ++ firstn e s) :: cut [] (skipn e s)
              | None => match cur ++ s with [] => [] | _ => [cur ++ s] end
              end.
Proof.
  induction s as [|b s IH]; intro cur.
  - cbn. now rewrite app_nil_r.
  - rewrite fc_default_char. cbn [cut]. change newline with lf.
    destruct (Ascii.eqb b lf) eqn:E; [reflexivity|].
    rewrite IH. destruct (fc (split_at split_control_new) s) as [e|]; cbn [option_map firstn skipn];
      rewrite <- app_assoc; reflexivity.
Qed.

Lemma gmsgs_lines s : gmsgs (split_at split_control_new) s = lines s.
Proof.
  remember (length s) as n eqn:Hn. revert s Hn.
  induction n as [n IH] using lt_wf_ind; intros s ->.
  unfold lines. rewrite cut_spec.
  destruct (fc (split_at split_control_new) s) as [e|] eqn:E.
  - rewrite (gmsgs_cut _ _ _ default_good E). f_equal.
    destruct (fc_pos _ _ _ default_good E).
    apply (IH (length (skipn e s))); [rewrite skipn_length; lia|reflexivity].
  - now apply gmsgs_nocut.
Qed.

Lemma default_messages rs : gmsgs_of_reads (split_at split_control_new) [] rs = messages_of_reads rs.
Proof.
  unfold gmsgs_of_reads, messages_of_reads.
  induction (segments [] rs) as [|s l IH]; [reflexivity|]. cbn [flat_map]. now rewrite IH, gmsgs_lines.
Qed.

(** Properties of [lines] *)
Lemma cut_concat s : forall cur, concat (cut cur s) = cur ++ s.
Proof.
  induction s as [|b s IH]; intro cur; cbn.
  - destruct cur; cbn; now rewrite ?app_nil_r.
  - destruct (Ascii.eqb b newline); cbn; rewrite IH; cbn; rewrite <- app_assoc; reflexivity.
Qed.

Lemma lines_concat s : concat (lines s) = s.
Proof. apply cut_concat. Qed.

Lemma concat_flat_map {A} (f : A -> list bytes) l : concat (flat_map f l) = concat (map (fun x => concat (f x)) l).
Proof. induction l as [|x l IH]; cbn; [reflexivity|]. now rewrite concat_app, IH. Qed.

Lemma concat_segments rs : forall cur, concat (segments cur rs) = cur ++ concat rs.
Proof.
  induction rs as [|d rs IH]; intro cur; cbn; [reflexivity|].
  destruct d as [|b d]; cbn.
  - now rewrite IH.
  - now rewrite IH, <- app_assoc.
Qed.

Lemma messages_concat rs : concat (messages_of_reads rs) = concat rs.
Proof.
  unfold messages_of_reads. rewrite concat_flat_map.
  rewrite (map_ext _ (fun x => x)) by (intro; apply lines_concat).
  rewrite map_id, concat_segments. reflexivity.
Qed.

Lemma lines_nil_concat l : Forall (fun d : bytes => d = []) l -> flat_map lines l = [].
Proof. induction 1 as [|d l -> Hl IH]; [reflexivity|exact IH]. Qed.

Lemma segments_empty rs : Forall (fun d : bytes => d = []) rs -> Forall (fun d : bytes => d = []) (segments [] rs).
Proof. induction 1 as [|d rs -> Hrs IH]; cbn; auto. Qed.

Lemma concat_all_nil (rs : list bytes) : Forall (fun d => d = []) rs -> concat rs = [].
Proof. induction 1 as [|d l -> Hl IH]; [reflexivity|exact IH]. Qed.

Lemma messages_eof_final_gen rs : forall cur, eof_final rs -> flat_map lines (segments cur rs) = lines (cur ++ concat rs).
Proof.
  induction rs as [|d rs IH]; intros cur He.
  - cbn. now rewrite !app_nil_r.
  - destruct d as [|b d]; cbn [segments eof_final concat] in *.
    + cbn [flat_map]. rewrite lines_nil_concat by (now apply segments_empty).
      cbn [app]. rewrite concat_all_nil by assumption. now rewrite !app_nil_r.
    + rewrite IH by assumption. now rewrite <- app_assoc.
Qed.

Lemma messages_eof_final rs : eof_final rs -> messages_of_reads rs = lines (concat rs).
Proof. intro H. apply (messages_eof_final_gen rs [] H). Qed.

(** Shape of lines *)
Lemma cut_shape s : forall cur, ~ In newline cur ->
  forall pre m post, cut cur s = pre ++ m :: post ->
  m <> [] /\ (exists body, ~ In newline body /\ (m = body ++ [newline] \/ (m = body /\ post = []))).
Proof.
  induction s as [|b s IH]; intros cur Hcur pre m post H.
  - cbn in H. destruct cur as [|c cur].
    + destruct pre; discriminate.
    + destruct pre as [|x pre]; [|destruct pre; discriminate].
      inversion H; subst. split; [discriminate|]. exists (c :: cur). auto.
  - cbn in H. destruct (Ascii.eqb b newline) eqn:E.
    + apply Ascii.eqb_eq in E; subst b. destruct pre as [|x pre].
      * inversion H; subst. split; [intro HH; destruct cur; discriminate|]. exists cur. auto.
      * inversion H; subst. apply (IH [] (fun x => x) pre m post). assumption.
    + apply (IH (cur ++ [b])) with (pre := pre); [|assumption].
      rewrite in_app_iff. intros [Hi|[Hi|[]]]; [auto|]. subst b. rewrite Ascii.eqb_refl in E. discriminate.
Qed.

(** ** Whole runs *)
Lemma read_all_messages k j f tr msgs :
  exec (read_all (PlBytes k j f split_control_new)) tr (Done (Ok msgs)) ->
  msgs = messages_of_reads (reads f tr).
Proof.
  intro HX. rewrite <- default_messages.
  exact (read_all_sat _ f k j default_good [] [] eq_refl eq_refl tr _ HX).
Qed.

Lemma read_all_bytes k j f tr msgs :
  exec (read_all (PlBytes k j f split_control_new)) tr (Done (Ok msgs)) ->
  concat msgs = concat (reads f tr).
Proof. intro HX. rewrite (read_all_messages _ _ _ _ _ HX). apply messages_concat. Qed.

Lemma read_all_lines k j f tr msgs :
  exec (read_all (PlBytes k j f split_control_new)) tr (Done (Ok msgs)) ->
  eof_final (reads f tr) ->
  msgs = lines (concat (reads f tr)).
Proof. intros HX He. rewrite (read_all_messages _ _ _ _ _ HX). now apply messages_eof_final. Qed.

Lemma messages_shape rs pre m post :
  messages_of_reads rs = pre ++ m :: post ->
  m <> [] /\ exists body, ~ In newline body /\ (m = body ++ [newline] \/ m = body).
Proof.
  unfold messages_of_reads. revert pre.
  induction (segments [] rs) as [|s l IH]; intros pre H; cbn in H.
  - destruct pre; discriminate.
  - assert (Hcase : In m (lines s) \/ exists pre', flat_map lines l = pre' ++ m :: post).
    { clear IH. revert pre H. induction (lines s) as [|x xs IHx]; intros pre H; cbn in H.
      - right. now exists pre.
      - destruct pre as [|y pre]; cbn in H; inversion H; subst.
        + left. now left.
        + destruct (IHx pre H2) as [Hi|Hi]; [left; now right|right; exact Hi]. }
    destruct Hcase as [Hin|[pre' Hpre]]; [|now apply (IH pre')].
    destruct (in_split _ _ Hin) as (l1 & l2 & Hl).
    destruct (cut_shape s [] (fun x => x) l1 m l2 Hl) as (Hne & body & Hb & Hm).
    split; [exact Hne|]. exists body. split; [exact Hb|]. destruct Hm as [->|[-> _]]; auto.
Qed.

Lemma lines_shape s pre m post :
  lines s = pre ++ m :: post ->
  m <> [] /\ exists body, ~ In newline body /\ (m = body ++ [newline] \/ (m = body /\ post = [])).
Proof. apply cut_shape. intros []. Qed.

(** Other delimiters *)
Lemma gmsgs_eof_final splits rs : good_splits splits -> forall cur, eof_final rs ->
  gmsgs_of_reads splits cur rs = gmsgs splits (cur ++ concat rs).
Proof.
  intro Hg. unfold gmsgs_of_reads. induction rs as [|d rs IH]; intros cur He.
  - cbn. now rewrite !app_nil_r.
  - destruct d as [|b d]; cbn [segments eof_final concat] in *.
    + cbn [flat_map app]. rewrite concat_all_nil by assumption. rewrite app_nil_r.
      assert (Hn : flat_map (gmsgs splits) (segments [] rs) = []).
      { pose proof (segments_empty _ He) as Hs. induction Hs as [|x l -> Hl IHl]; [reflexivity|exact IHl]. }
      now rewrite Hn, app_nil_r.
    + rewrite IH by assumption. now rewrite <- app_assoc.
Qed.

Lemma read_all_good splits k j f tr msgs : good_splits splits ->
  exec (read_all (PlBytes k j f (SC splits []))) tr (Done (Ok msgs)) -> eof_final (reads f tr) ->
  msgs = gmsgs splits (concat (reads f tr)).
Proof.
  intros Hg HX He.
  pose proof (read_all_sat splits f k j Hg [] [] eq_refl eq_refl tr _ HX) as H. cbn in H.
  rewrite H. exact (gmsgs_eof_final _ _ Hg [] He).
Qed.

Lemma read_all_independent splits k j f k' j' f' tr tr' msgs msgs' :
  good_splits splits ->
  exec (read_all (PlBytes k j f (SC splits []))) tr (Done (Ok msgs)) ->
  exec (read_all (PlBytes k' j' f' (SC splits []))) tr' (Done (Ok msgs')) ->
  eof_final (reads f tr) -> eof_final (reads f' tr') ->
  concat (reads f tr) = concat (reads f' tr') ->
  msgs = msgs'.
Proof.
  intros Hg H1 H2 E1 E2 Heq.
  rewrite (read_all_good _ _ _ _ _ _ Hg H1 E1), (read_all_good _ _ _ _ _ _ Hg H2 E2). now rewrite Heq.
Qed.

Notation b s := (list_ascii_of_string s).

Lemma good_splits_example : good_splits [b ";"; b "--"].
Proof.
  split.
  - cbn. intros v [<-|[<-|[]]]; cbn; lia.
  - cbn. intros u v [<-|[<-|[]]] [<-|[<-|[]]] [x Hx]; cbn in Hx; try reflexivity; discriminate Hx.
Qed.


Lemma three_byte_refuted : exists splits tr tr' msgs msgs',
  (forall d, In d splits -> d <> []) /\
  exec (read_all (PlBytes SrcFile (PJ 0 1) 7 (SC splits []))) tr (Done (Ok msgs)) /\
  exec (read_all (PlBytes SrcFile (PJ 0 1) 7 (SC splits []))) tr' (Done (Ok msgs')) /\
  eof_final (reads 7 tr) /\ eof_final (reads 7 tr') /\
  concat (reads 7 tr) = concat (reads 7 tr') /\
  msgs <> msgs'.
Proof.
  exists [b "abc"]. do 4 eexists.
  split; [intros d [<-|[]]; discriminate|].
  split; [eapply drive_sound with (fuel := 60) (answers := [AData (b "xab"); AData (b "cd"); AData []; AData []]); vm_compute; reflexivity|].
  split; [eapply drive_sound with (fuel := 60) (answers := [AData (b "xabcd"); AData []; AData []]); vm_compute; reflexivity|].
  vm_compute. repeat split; auto. discriminate.
Qed.

Lemma prefix_delimiter_refuted : exists tr tr' msgs msgs',
  exec (read_all (PlBytes SrcFile (PJ 0 1) 7 (SC [[cr; lf]; [cr]] []))) tr (Done (Ok msgs)) /\
  exec (read_all (PlBytes SrcFile (PJ 0 1) 7 (SC [[cr; lf]; [cr]] []))) tr' (Done (Ok msgs')) /\
  eof_final (reads 7 tr) /\ eof_final (reads 7 tr') /\
  concat (reads 7 tr) = concat (reads 7 tr') /\
  msgs <> msgs'.
Proof.
  do 4 eexists.
  split; [eapply drive_sound with (fuel := 60) (answers := [AData (b "x" ++ [cr]); AData ([lf] ++ b "y"); AData []; AData []]); vm_compute; reflexivity|].
  split; [eapply drive_sound with (fuel := 60) (answers := [AData (b "x" ++ [cr; lf] ++ b "y"); AData []; AData []]); vm_compute; reflexivity|].
  vm_compute. repeat split; auto. discriminate.
Qed.
