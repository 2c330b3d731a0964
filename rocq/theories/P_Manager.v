(** * P_Manager: what the controller of a regulator does *)
From Coq Require Import Ascii String List Bool Arith Lia.
From Verif Require Import M_Prog P_Prog P_Exec M_Motion M_BackOff M_Utils M_Regulator M_Manager S_Trace S_World S_Regulator.
From Verif Require Import P_Read P_World.
Import ListNotations.

(** ** Reading the trace *)
Lemma gone_app n a b : gone n (a ++ b) = gone n a || gone n b.
Proof. unfold gone. apply existsb_app. Qed.
Lemma latest_other n a ev : taken (CSize n) [ev] = [] -> latest n (a ++ [ev]) = latest n a.
Proof. intro H. unfold latest. rewrite taken_app, H, app_nil_r. reflexivity. Qed.
Lemma latest_size n a k : latest n (a ++ [(ETryRecv (CSize n), AMsg (VSize k))]) = k.
Proof.
  unfold latest. rewrite taken_app. replace (taken (CSize n) [(ETryRecv (CSize n), AMsg (VSize k))]) with [VSize k].
  - now rewrite fold_left_app.
  - cbn. now rewrite Nat.eqb_refl.
Qed.

(** What does not touch the size reports. *)
Definition no_size (ev : event) : Prop :=
  match ev with (ETryRecv (CSize _), _) | (ERecv (CSize _), _) => False | _ => True end.
Lemma no_size_gone n a ev : no_size ev -> gone n (a ++ [ev]) = gone n a.
Proof. intro H. rewrite gone_app. unfold gone at 2. destruct ev as [[[]|[]| | | | | | | | | | | | | | | |] []]; cbn in *; try contradiction; now rewrite orb_false_r. Qed.
Lemma no_size_latest n a ev : no_size ev -> latest n (a ++ [ev]) = latest n a.
Proof. intro H. apply latest_other. destruct ev as [[[]|[]| | | | | | | | | | | | | | | |] []]; cbn in *; try contradiction; reflexivity. Qed.

Lemma level_same chans a b : (forall n, gone n a = gone n b /\ latest n a = latest n b) -> level chans a = level chans b.
Proof.
  intro H. unfold level. induction chans as [|n l IH]; [reflexivity|]. cbn [fold_right]. rewrite IH.
  destruct (H n) as [-> ->]. reflexivity.
Qed.
Lemma no_size_level chans a ev : no_size ev -> level chans (a ++ [ev]) = level chans a.
Proof. intro H. apply level_same. intro n. split; [now apply no_size_gone|now apply no_size_latest]. Qed.

(** The watched buffers. *)
Definition watched (chans : list nat) (tr : trace) : list nat := filter (fun n => negb (gone n tr)) chans.
Lemma no_size_watched chans a ev : no_size ev -> watched chans (a ++ [ev]) = watched chans a.
Proof. intro H. unfold watched. apply filter_ext. intro n. now rewrite no_size_gone. Qed.
Lemma level_watched chans a t : level (watched chans a) (a ++ t) = level chans (a ++ t).
Proof.
  unfold watched, level. induction chans as [|n l IH]; [reflexivity|]. cbn [filter fold_right].
  destruct (gone n a) eqn:E; cbn [negb].
  - rewrite IH. rewrite gone_app, E. reflexivity.
  - cbn [fold_right]. rewrite IH. reflexivity.
Qed.
Lemma watched_watched chans a t : watched (watched chans a) (a ++ t) = watched chans (a ++ t).
Proof.
  unfold watched. induction chans as [|n l IH]; [reflexivity|]. cbn [filter].
  rewrite gone_app. destruct (gone n a) eqn:E; cbn [negb orb]; [exact IH|].
  cbn [filter]. rewrite gone_app, E. cbn [orb]. destruct (gone n t); cbn [negb]; now rewrite IH.
Qed.

(** Sum over the monitors. *)
Lemma level_monitors (ms : list bsm) tr : (forall m, In m ms -> bm_size m = latest (bm_chan m) tr) ->
  level (map bm_chan ms) tr = fold_right (fun m sum => if gone (bm_chan m) tr then sum else bm_size m + sum) 0 ms.
Proof.
  unfold level. induction ms as [|m ms IH]; intro H; [reflexivity|]. cbn [map fold_right].
  rewrite IH by (intros; apply H; now right). rewrite (H m (or_introl eq_refl)). reflexivity.
Qed.

Section Manager.
Variables (low high c : nat) (chans : list nat).
Hypothesis Hnd : NoDup chans.

Local Notation settled := (settled low high c chans).
Local Notation report_count := (report_count chans).
Local Notation held := (held chans).

(** What the controller may be doing. *)
Definition manager_now (h : trace) (e : eff) : Prop :=
  match e with
  | ETryRecv (CSize n) => In n (held h) /\ gone n h = false /\ (hd_error (held h) = Some n -> settled h)
  | ESend (CCtl c') VUnit => c' = c /\ (if told_to_pause c h then level chans h <= low else high <= level chans h)
  | EClose (CSize n) => gone n h = true
  | EClose (CCtl c') => c' = c /\ held h = [] /\ (forall n, In n chans -> gone n h = true) /\ told_to_pause c h = false
  | ESleep _ => settled h
  | _ => False
  end.

Fixpoint gone_at (i : nat) (ms : list bsm) (tr : trace) : list nat :=
  match ms with
  | [] => []
  | m :: rest => (if gone (bm_chan m) tr then [i] else []) ++ gone_at (S i) rest tr
  end.

Lemma signals_app a b : signals c (a ++ b) = signals c a + signals c b.
Proof. unfold signals, offered. rewrite flat_map_app, app_length. reflexivity. Qed.
Lemma signals_none a ev : (forall x v, ev <> (ESend x v, snd ev)) -> signals c (a ++ [ev]) = signals c a.
Proof.
  intro H. rewrite signals_app. unfold signals at 2. destruct ev as [[] an]; cbn; try lia. exfalso. eapply H. reflexivity.
Qed.

Lemma taken_size_one n m an : taken (CSize n) [(ETryRecv (CSize m), an)] = match an with AMsg v => if n =? m then [v] else [] | _ => [] end.
Proof. destruct an; cbn; try reflexivity. destruct (n =? m); reflexivity. Qed.

Lemma count_one l m v : NoDup l -> In m l -> length (flat_map (fun n => if n =? m then [v : val] else []) l) = 1.
Proof.
  induction l as [|x l IH]; intros Hn HIn; [contradiction|]. inversion Hn as [|x' l' Hx Hl]; subst. cbn [flat_map]. rewrite app_length.
  destruct (Nat.eqb_spec x m) as [->|Hx'].
  - replace (flat_map (fun n => if n =? m then [v] else []) l) with (@nil val); [reflexivity|].
    clear - Hx. induction l as [|y l IH]; [reflexivity|]. cbn. destruct (Nat.eqb_spec y m); [subst; exfalso; apply Hx; now left|].
    apply IH. intro H. apply Hx. now right.
  - destruct HIn as [E|HIn]; [congruence|]. rewrite IH; [reflexivity|exact Hl|exact HIn].
Qed.
Lemma count_app l (f g : nat -> list val) : length (flat_map (fun n => f n ++ g n) l) = length (flat_map f l) + length (flat_map g l).
Proof. induction l as [|x l IH]; [reflexivity|]. cbn. rewrite !app_length. lia. Qed.
Lemma report_count_app a t : report_count (a ++ t) = report_count a + report_count t.
Proof.
  unfold S_Regulator.report_count. rewrite <- count_app. f_equal. apply flat_map_ext. intro n. apply taken_app.
Qed.
Lemma report_none t : (forall n, taken (CSize n) t = []) -> report_count t = 0.
Proof. intro H. unfold S_Regulator.report_count. induction chans as [|x l IH]; [reflexivity|]. cbn. rewrite H. inversion Hnd; subst. apply IH. assumption. Qed.

Definition poll_post (h : trace) (ms : list bsm) (i : nat) (rm : list nat) (total reads : nat) (h' : trace)
  (r : list bsm * list nat * nat * nat) : Prop :=
  let '(ms', rm', total', reads') := r in
  exists t, h' = h ++ t /\ signals c t = 0 /\ (forall n, let_go n t = false) /\ map bm_chan ms' = map bm_chan ms /\
    (forall m, In m ms' -> bm_size m = latest (bm_chan m) h') /\
    (forall n, ~ In n (map bm_chan ms) -> gone n h' = gone n h /\ latest n h' = latest n h) /\
    rm' = rm ++ gone_at i ms' h' /\
    total' = total + level (map bm_chan ms) h' /\
    reads' = reads + report_count t.

Lemma let_go_app n a b : let_go n (a ++ b) = let_go n a || let_go n b.
Proof. unfold let_go. apply existsb_app. Qed.
Lemma held_same h ev : (forall n, let_go n [ev] = false) -> held (h ++ [ev]) = held h.
Proof. intro H. unfold S_Regulator.held. apply filter_ext. intro n. rewrite let_go_app, H, orb_false_r. reflexivity. Qed.

Lemma poll_sat : forall ms h i rm total reads pre,
  held h = pre ++ map bm_chan ms -> NoDup (held h) ->
  (forall m, In m ms -> gone (bm_chan m) h = false /\ bm_size m = latest (bm_chan m) h) ->
  (pre = [] -> settled h) ->
  sat h (poll_monitors ms i rm total reads) manager_now (poll_post h ms i rm total reads).
Proof.
  induction ms as [|m ms IH]; intros h i rm total reads pre Hheld Hd Hms Hset.
  { cbn. apply sat_ret. exists []. rewrite app_nil_r. cbn. rewrite app_nil_r, !Nat.add_0_r.
    repeat split; try reflexivity; [contradiction|]. rewrite report_none; [lia|reflexivity]. }
  cbn [poll_monitors]. apply sat_bind. unfold try_recv.
  destruct (Hms m (or_introl eq_refl)) as (Hng & Hsz). apply sat_vis.
  { cbn. rewrite Hheld. split; [apply in_or_app; right; now left|]. split; [exact Hng|]. intro H. apply Hset.
    destruct pre as [|p pre]; [reflexivity|]. exfalso. cbn in H. injection H as E.
    rewrite Hheld in Hd. cbn in Hd. inversion Hd as [|x l Hx Hl]; subst. apply Hx. apply in_or_app. right. now left. }
  intros a Ha.
  set (ev := (ETryRecv (CSize (bm_chan m)), a)).
  assert (Hgo : forall n, n <> bm_chan m -> gone n (h ++ [ev]) = gone n h).
  { intros n Hn. rewrite gone_app. unfold gone at 2. cbn. destruct a; rewrite ?orb_false_r; try reflexivity.
    destruct (Nat.eqb_spec n (bm_chan m)); [contradiction|]. now rewrite !orb_false_r. }
  assert (Hlo : forall n, n <> bm_chan m -> latest n (h ++ [ev]) = latest n h).
  { intros n Hn. apply latest_other. unfold ev. rewrite taken_size_one. destruct a; try reflexivity.
    destruct (Nat.eqb_spec n (bm_chan m)); [contradiction|reflexivity]. }
  assert (Hx : ~ In (bm_chan m) (map bm_chan ms)).
  { rewrite Hheld in Hd. cbn in Hd. apply NoDup_remove_2 in Hd. intro H. apply Hd. apply in_or_app. now right. }
  assert (Hrest : forall m', In m' ms -> bm_chan m' <> bm_chan m).
  { intros m' Hm' E. apply Hx. rewrite <- E. now apply in_map. }
  assert (Hin : In (bm_chan m) chans).
  { assert (H : In (bm_chan m) (held h)) by (rewrite Hheld; apply in_or_app; right; now left).
    unfold S_Regulator.held in H. apply filter_In in H. apply H. }
  assert (Hh' : held (h ++ [ev]) = held h) by (apply held_same; intro n; reflexivity).
  assert (HIH : forall rm' total' reads',
    sat (h ++ [ev]) (poll_monitors ms (S i) rm' total' reads') manager_now (poll_post (h ++ [ev]) ms (S i) rm' total' reads')).
  { intros. apply IH with (pre := pre ++ [bm_chan m]).
    - rewrite Hh', Hheld, <- app_assoc. reflexivity.
    - now rewrite Hh'.
    - intros m' Hm'. destruct (Hms m' (or_intror Hm')) as (Hg' & Hs'). rewrite Hgo, Hlo by now apply Hrest. auto.
    - intro E. destruct pre; discriminate. }
  assert (Hcomb : forall m' r rm' total' reads', bm_chan m' = bm_chan m -> bm_size m' = latest (bm_chan m) (h ++ [ev]) ->
     rm' = rm ++ (if gone (bm_chan m) (h ++ [ev]) then [i] else []) ->
     total' = total + (if gone (bm_chan m) (h ++ [ev]) then 0 else latest (bm_chan m) (h ++ [ev])) ->
     reads' = reads + report_count [ev] -> forall h',
     poll_post (h ++ [ev]) ms (S i) rm' total' reads' h' r ->
     let '(ms', rm1, tot, rd) := r in poll_post h (m :: ms) i rm total reads h' (m' :: ms', rm1, tot, rd)).
  { intros m' r rm' total' reads' Ec Es -> -> -> h' HP. destruct r as [[[ms' rm1] tot] rd].
    destruct HP as (t & -> & Hsig & Hlet & Hmap & Hszs & Hout & -> & -> & ->).
    destruct (Hout _ Hx) as [Hgm Hlm].
    exists (ev :: t). rewrite <- app_assoc. cbn [app].
    replace ((h ++ [ev]) ++ t) with (h ++ ev :: t) in * by now rewrite <- app_assoc.
    split; [reflexivity|]. split; [change (ev :: t) with ([ev] ++ t); rewrite signals_app, Hsig; reflexivity|].
    split; [intro n; exact (Hlet n)|]. unfold trace, event in *.
    split; [cbn; now rewrite Hmap, Ec|]. split; [intros m0 [<-|H0]; [rewrite Ec, Es; symmetry; exact Hlm|now apply Hszs]|].
    split; [intros n Hn; cbn in Hn; rewrite <- Hgo, <- Hlo by (intro; apply Hn; left; congruence); apply Hout; intro; apply Hn; now right|].
    split; [cbn [gone_at]; rewrite Ec, Hgm, <- app_assoc; reflexivity|].
    split.
    - cbn [map level fold_right]. fold (level (map bm_chan ms) (h ++ ev :: t)). rewrite Hgm, Hlm. destruct (gone (bm_chan m) (h ++ [ev])); cbn; lia.
    - change (ev :: t) with ([ev] ++ t). rewrite report_count_app. lia. }
  assert (Hc1 : report_count [ev] = match a with AMsg _ => 1 | _ => 0 end).
  { destruct a; try (apply report_none; intro; unfold ev; rewrite taken_size_one; reflexivity).
    unfold S_Regulator.report_count. rewrite <- (count_one chans (bm_chan m) v Hnd Hin). f_equal.
    apply flat_map_ext. intro n. unfold ev. now rewrite taken_size_one. }
  destruct a as [v| | | | | | | | | |]; try discriminate Ha.
  - destruct v; try discriminate Ha. apply sat_ret. apply sat_bind. eapply sat_conseq; [apply HIH|auto|].
    intros h' [[[ms' rm1] tot] rd] HP. cbn beta. apply sat_ret.
    assert (Hng' : gone (bm_chan m) (h ++ [ev]) = false) by (rewrite gone_app, Hng; reflexivity).
    assert (Hl' : latest (bm_chan m) (h ++ [ev]) = n) by apply latest_size.
    eapply (Hcomb (Bsm n (bm_chan m)) (ms', rm1, tot, rd)); try exact HP; rewrite ?Hng', ?Hl', ?Hc1, ?app_nil_r; reflexivity || lia.
  - apply sat_ret. apply sat_bind. eapply sat_conseq; [apply HIH|auto|].
    intros h' [[[ms' rm1] tot] rd] HP. cbn beta. apply sat_ret.
    assert (Hng' : gone (bm_chan m) (h ++ [ev]) = false) by (rewrite gone_app, Hng; reflexivity).
    assert (Hl' : latest (bm_chan m) (h ++ [ev]) = bm_size m) by (rewrite Hsz; apply latest_other; reflexivity).
    eapply (Hcomb m (ms', rm1, tot, rd)); try exact HP; rewrite ?Hng', ?Hl', ?Hc1, ?app_nil_r; reflexivity || lia.
  - apply sat_ret. apply sat_bind. eapply sat_conseq; [apply HIH|auto|].
    intros h' [[[ms' rm1] tot] rd] HP. cbn beta. apply sat_ret.
    assert (Hng' : gone (bm_chan m) (h ++ [ev]) = true) by (rewrite gone_app; apply orb_true_iff; right; cbn; now rewrite Nat.eqb_refl).
    assert (Hl' : latest (bm_chan m) (h ++ [ev]) = bm_size m) by (rewrite Hsz; apply latest_other; reflexivity).
    eapply (Hcomb m (ms', rm1, tot, rd)); try exact HP; rewrite ?Hng', ?Hl', ?Hc1, ?app_nil_r; reflexivity || lia.
Qed.

(** ** Removal *)
Lemma vec_remove_at {X} (pre : list X) x l : vec_remove (length pre) (pre ++ x :: l) = (Some x, pre ++ l).
Proof. induction pre as [|y pre IH]; [reflexivity|]. cbn. now rewrite IH. Qed.

Definition plain_close (ev : event) : Prop := match ev with (EClose (CSize _), _) => True | _ => False end.
Definition remaining (h0 h : trace) (ms : list bsm) : Prop :=
  exists t, h = h0 ++ t /\ Forall plain_close t.
Lemma plain_no_size ev : plain_close ev -> no_size ev.
Proof. destruct ev as [[| | |[]| | | | | | | | | | | | | |] []]; cbn; tauto. Qed.
Lemma plain_closes_frame h t : Forall plain_close t ->
  (forall n, gone n (h ++ t) = gone n h) /\ (forall n, latest n (h ++ t) = latest n h) /\ signals c (h ++ t) = signals c h /\ report_count (h ++ t) = report_count h.
Proof.
  induction t as [|ev t IH] using rev_ind; intro HF; [rewrite app_nil_r; auto|].
  apply Forall_app in HF. destruct HF as [HF He]. inversion He as [|x l Hev _]; subst.
  destruct (IH HF) as (H1 & H2 & H3 & H4). rewrite app_assoc. repeat split; intros.
  - rewrite no_size_gone by now apply plain_no_size. apply H1.
  - rewrite no_size_latest by now apply plain_no_size. apply H2.
  - rewrite signals_none; [exact H3|]. intros x v E. destruct ev as [[] ?]; try contradiction; discriminate.
  - rewrite report_count_app, H4, (report_none [ev]); [lia|]. intro n. destruct ev as [[[]|[]| |[]| | | | | | | | | | | | | |] []]; try contradiction; reflexivity.
Qed.

Lemma gone_at_app tr : forall l1 l2 i, gone_at i (l1 ++ l2) tr = gone_at i l1 tr ++ gone_at (length l1 + i) l2 tr.
Proof.
  induction l1 as [|m l1 IH]; intros l2 i; [reflexivity|]. cbn [app gone_at]. rewrite IH, <- app_assoc. do 3 f_equal. cbn. lia.
Qed.

Lemma remove_sat h0 : forall pre post h t,
  h = h0 ++ t -> Forall plain_close t ->
  sat h (remove_monitors (rev (gone_at 0 pre h0)) (pre ++ post)) manager_now
    (fun h' ms => exists t', h' = h ++ t' /\ Forall plain_close t' /\ (forall n, let_go n t' = existsb (fun m => (n =? bm_chan m) && gone (bm_chan m) h0) pre) /\
       ms = filter (fun m => negb (gone (bm_chan m) h0)) pre ++ post).
Proof.
  induction pre as [|m pre IH] using rev_ind; intros post h t Eh Ht.
  { cbn. apply sat_ret. exists []. rewrite app_nil_r. repeat split; constructor. }
  rewrite gone_at_app, rev_app_distr, filter_app. cbn [gone_at filter rev app]. rewrite Nat.add_0_r, app_nil_r.
  destruct (gone (bm_chan m) h0) eqn:Eg; cbn [negb rev app].
  - rewrite <- app_assoc. cbn [app remove_monitors]. rewrite vec_remove_at. apply sat_bind. unfold close. apply sat_vis.
    { cbn. subst h. rewrite (proj1 (plain_closes_frame h0 t Ht)). exact Eg. }
    intros a Ha. destruct a; try discriminate Ha. apply sat_ret.
    eapply sat_conseq; [eapply (IH post (h ++ [(EClose (CSize (bm_chan m)), AOk)]) (t ++ [(EClose (CSize (bm_chan m)), AOk)]))|auto|].
    + subst h. now rewrite app_assoc.
    + apply Forall_app. split; [exact Ht|]. constructor; [exact I|constructor].
    + intros h' ms (t' & -> & HF & Hlg & ->). exists ((EClose (CSize (bm_chan m)), AOk) :: t'). rewrite <- app_assoc. repeat split.
      * constructor; [exact I|exact HF].
      * intro n. rewrite existsb_app. cbn [let_go existsb]. change (existsb _ t') with (let_go n t'). rewrite Hlg, Eg, andb_true_r, orb_false_r. apply orb_comm.
      * now rewrite app_nil_r.
  - rewrite <- app_assoc. cbn [app]. eapply sat_conseq; [apply (IH (m :: post) h t Eh Ht)|auto|].
    intros h' ms (t' & -> & HF & Hlg & ->). exists t'. repeat split; [exact HF| |].
    + intro n. rewrite existsb_app, Hlg. cbn. rewrite Eg, andb_false_r, !orb_false_r. reflexivity.
    + now rewrite <- app_assoc.
Qed.

(** ** The loop *)
Definition minv (h : trace) (s : mstate) : Prop :=
  held h = map bm_chan (ms_monitors s) /\
  (forall n, In n chans -> let_go n h = gone n h) /\
  (forall m, In m (ms_monitors s) -> bm_size m = latest (bm_chan m) h) /\
  ms_control s = RC (ms_shut s) c /\ ms_shut s = told_to_pause c h /\ settled h /\ ms_count s = report_count h.

Lemma filter_nil {X} (f : X -> bool) l : filter f l = [] -> forall x, In x l -> f x = false.
Proof. intros H x Hx. destruct (f x) eqn:E; [|reflexivity]. assert (In x (filter f l)) by (apply filter_In; auto). rewrite H in *. contradiction. Qed.
Lemma filter_map_chan (f : nat -> bool) ms : map bm_chan (filter (fun m => f (bm_chan m)) ms) = filter f (map bm_chan ms).
Proof. induction ms as [|m ms IH]; [reflexivity|]. cbn. destruct (f (bm_chan m)); cbn; now rewrite IH. Qed.

Lemma told_step h v a : told_to_pause c (h ++ [(ESend (CCtl c) v, a)]) = negb (told_to_pause c h).
Proof.
  unfold told_to_pause. rewrite signals_app. unfold signals at 2. cbn. rewrite Nat.eqb_refl. cbn [app length].
  rewrite Nat.add_1_r, Nat.odd_succ. symmetry. apply Nat.negb_odd.
Qed.
Lemma told_same h ev : (forall x v, ev <> (ESend x v, snd ev)) -> told_to_pause c (h ++ [ev]) = told_to_pause c h.
Proof. intro H. unfold told_to_pause. now rewrite signals_none. Qed.

(** A signal touches nothing but the parity. *)
Definition is_signal (ev : event) : Prop := match ev with (ESend (CCtl x) VUnit, _) => x = c | _ => False end.
Lemma signal_frame h t : Forall is_signal t ->
  (forall n, gone n (h ++ t) = gone n h) /\ (forall n, latest n (h ++ t) = latest n h) /\ (forall n, let_go n (h ++ t) = let_go n h) /\ report_count (h ++ t) = report_count h.
Proof.
  induction t as [|ev t IH] using rev_ind; intro HF; [rewrite app_nil_r; auto|].
  apply Forall_app in HF. destruct HF as [HF He]. inversion He as [|x l Hev _]; subst.
  destruct (IH HF) as (H1 & H2 & H3 & H4). rewrite app_assoc.
  destruct ev as [[| |x v| | | | | | | | | | | | | | |] an]; try contradiction Hev. destruct x; try contradiction Hev. destruct v; try contradiction Hev.
  repeat split; intros.
  - rewrite no_size_gone by exact I. apply H1.
  - rewrite no_size_latest by exact I. apply H2.
  - rewrite let_go_app, H3. cbn. now rewrite orb_false_r.
  - rewrite report_count_app, H4, (report_none [_]); [lia|reflexivity].
Qed.

Lemma pause_sat cond rc shut h :
  rc = RC shut c -> shut = told_to_pause c h -> (cond = true -> shut = false /\ high <= level chans h) ->
  sat h (pause_if cond rc shut) manager_now (fun h' r => exists t, h' = h ++ t /\ Forall is_signal t /\
     fst r = RC (snd r) c /\ snd r = told_to_pause c h' /\ snd r = (if cond then true else shut)).
Proof.
  intros -> Hs Hc. unfold pause_if. destruct cond.
  - destruct (Hc eq_refl) as [-> Hl]. unfold rc_pause. cbn [rc_paused rc_control]. apply sat_bind. apply sat_bind. unfold send. apply sat_vis.
    { cbn. split; [reflexivity|]. now rewrite <- Hs. }
    intros a Ha. destruct a; try discriminate Ha; apply sat_ret; apply sat_ret; apply sat_ret;
      (eexists; split; [reflexivity|]; split; [constructor; [reflexivity|constructor]|]; cbn [fst snd]; rewrite told_step, <- Hs; auto).
  - apply sat_ret. exists []. rewrite app_nil_r. cbn. auto.
Qed.
Lemma resume_sat cond rc shut h :
  rc = RC shut c -> shut = told_to_pause c h -> (cond = true -> shut = true /\ level chans h <= low) ->
  sat h (resume_if cond rc shut) manager_now (fun h' r => exists t, h' = h ++ t /\ Forall is_signal t /\
     fst r = RC (snd r) c /\ snd r = told_to_pause c h' /\ snd r = (if cond then false else shut)).
Proof.
  intros -> Hs Hc. unfold resume_if. destruct cond.
  - destruct (Hc eq_refl) as [-> Hl]. unfold rc_resume. cbn [rc_paused rc_control negb]. apply sat_bind. apply sat_bind. unfold send. apply sat_vis.
    { cbn. split; [reflexivity|]. now rewrite <- Hs. }
    intros a Ha. destruct a; try discriminate Ha; apply sat_ret; apply sat_ret; apply sat_ret;
      (eexists; split; [reflexivity|]; split; [constructor; [reflexivity|constructor]|]; cbn [fst snd]; rewrite told_step, <- Hs; auto).
  - apply sat_ret. exists []. rewrite app_nil_r. cbn. auto.
Qed.

Definition manager_post (h : trace) (n : nat) : Prop :=
  held h = [] /\ (forall n, In n chans -> gone n h = true) /\ told_to_pause c h = false /\ n = report_count h /\ closed_by (CCtl c) h.

Lemma told_closes h t : Forall plain_close t -> told_to_pause c (h ++ t) = told_to_pause c h.
Proof. intro H. unfold told_to_pause. destruct (plain_closes_frame h t H) as (_ & _ & -> & _). reflexivity. Qed.

Lemma level_frame h t : (forall n, gone n (h ++ t) = gone n h) -> (forall n, latest n (h ++ t) = latest n h) -> level chans (h ++ t) = level chans h.
Proof. intros H1 H2. apply level_same. auto. Qed.

Lemma held_level h : (forall n, In n chans -> let_go n h = gone n h) -> held h = watched chans h.
Proof. intro H. unfold S_Regulator.held, watched. apply filter_ext_in. intros n Hn. now rewrite H. Qed.

Lemma body_sat h s : minv h s ->
  sat h (manage_body low high s) manager_now (fun h' r => match r with inl s' => minv h' s' | inr n => manager_post h' n end).
Proof.
  intros (Hheld & Hlg & Hsz & Hrc & Hsh & Hset & Hcnt). unfold manage_body.
  assert (Hndh : NoDup (held h)) by (apply NoDup_filter; exact Hnd).
  assert (Hww : watched chans h = map bm_chan (ms_monitors s)) by (rewrite <- held_level by exact Hlg; exact Hheld).
  apply sat_bind. eapply sat_conseq; [apply (poll_sat (ms_monitors s) h 0 [] 0 0 []); auto| auto|].
  { intros m Hm. split; [|now apply Hsz]. assert (HI : In (bm_chan m) (held h)) by (rewrite Hheld; now apply in_map).
    unfold S_Regulator.held in HI. apply filter_In in HI. destruct HI as [HI1 HI2]. rewrite Hlg in HI2 by exact HI1. now destruct (gone (bm_chan m) h). }
  intros h1 [[[ms1 rm] total] reads] (t1 & -> & Hsig1 & Hlet1 & Hmap1 & Hsz1 & Hout1 & Erm & Etot & Erd).
  cbn [app] in Erm. cbn [Nat.add] in Etot, Erd. subst rm reads.
  rewrite <- Hww, level_watched in Etot. subst total.
  set (h1 := h ++ t1) in *.
  assert (Hlg1 : forall n, let_go n h1 = let_go n h) by (intro n; unfold h1; now rewrite let_go_app, Hlet1, orb_false_r).
  assert (Htold1 : ms_shut s = told_to_pause c h1).
  { unfold h1, told_to_pause. now rewrite signals_app, Hsig1, Nat.add_0_r. }
  apply sat_bind. eapply sat_conseq; [apply pause_sat; [exact Hrc|exact Htold1|]|auto|].
  { rewrite andb_true_iff, negb_true_iff, Nat.leb_le. tauto. }
  intros h2 [c1 shut1] (t2 & -> & Hs2 & Hc1 & Hsh1 & Ev1). cbn [fst snd] in Hc1, Hsh1, Ev1.
  destruct (signal_frame h1 t2 Hs2) as (Fg2 & Fl2 & Fh2 & Fr2).
  pose proof (level_frame h1 t2 Fg2 Fl2) as FL2.
  apply sat_bind. eapply sat_conseq; [apply resume_sat; [exact Hc1|exact Hsh1|]|auto|].
  { rewrite andb_true_iff, Nat.leb_le, FL2. tauto. }
  intros h3 [c2 shut2] (t3 & -> & Hs3 & Hc2 & Hsh2 & Ev2). cbn [fst snd] in Hc2, Hsh2, Ev2.
  destruct (signal_frame (h1 ++ t2) t3 Hs3) as (Fg3 & Fl3 & Fh3 & Fr3).
  pose proof (level_frame (h1 ++ t2) t3 Fg3 Fl3) as FL3.
  set (h3 := (h1 ++ t2) ++ t3) in *.
  assert (Eg : forall ms, gone_at 0 ms h1 = gone_at 0 ms h3).
  { intro ms. generalize 0. induction ms as [|m ms IH]; intro i; [reflexivity|]. cbn. rewrite IH, Fg3, Fg2. reflexivity. }
  rewrite Eg. replace (remove_monitors (rev (gone_at 0 ms1 h3)) ms1) with (remove_monitors (rev (gone_at 0 ms1 h3)) (ms1 ++ [])) by now rewrite app_nil_r.
  apply sat_bind. eapply sat_conseq;
    [apply (remove_sat h3 ms1 [] h3 []); [now rewrite app_nil_r|constructor]|auto|]. 
  intros h4 ms2 (t4 & -> & Hp4 & Hlg4 & Ems2). rewrite app_nil_r in Ems2.
  destruct (plain_closes_frame h3 t4 Hp4) as (Fg4 & Fl4 & Fs4 & Fr4).
  set (h4 := h3 ++ t4) in *.
  assert (G : forall n, gone n h4 = gone n h1) by (intro n; now rewrite Fg4, Fg3, Fg2).
  assert (La : forall n, latest n h4 = latest n h1) by (intro n; now rewrite Fl4, Fl3, Fl2).
  assert (L4 : level chans h4 = level chans h1) by (apply level_same; auto).
  assert (T4 : shut2 = told_to_pause c h4) by (rewrite Hsh2; symmetry; now apply told_closes).
  assert (Hset4 : settled h4).
  { unfold S_Regulator.settled. rewrite <- T4, L4, Ev2, Ev1.
    destruct (Nat.leb_spec high (level chans h1)), (Nat.leb_spec (level chans h1) low), (ms_shut s); cbn; lia. }
  assert (Hlg4' : forall n, In n chans -> let_go n h4 = gone n h4).
  { intros n Hn. unfold h4 at 1. rewrite let_go_app, Hlg4, Fh3, Fh2, Hlg1, G.
    destruct (in_dec Nat.eq_dec n (map bm_chan ms1)) as [Hi|Hi].
    - assert (E : let_go n h = false).
      { rewrite Hmap1, <- Hheld in Hi. unfold S_Regulator.held in Hi. apply filter_In in Hi. destruct Hi as [_ Hi]. now destruct (let_go n h). }
      rewrite E. cbn [orb]. apply in_map_iff in Hi. destruct Hi as (m & Em & Hm). subst n.
      apply eq_true_iff_eq. rewrite existsb_exists. split.
      + intros (m' & _ & H). apply andb_true_iff in H. destruct H as [H1 H2]. apply Nat.eqb_eq in H1. rewrite H1, <- Fg2, <- Fg3. exact H2.
      + intro H. exists m. split; [exact Hm|]. rewrite Nat.eqb_refl, Fg3, Fg2, H. reflexivity.
    - replace (existsb _ ms1) with false.
      + rewrite orb_false_r, Hlg by exact Hn. symmetry. apply Hout1. now rewrite <- Hmap1.
      + symmetry. apply not_true_is_false. intro H. apply existsb_exists in H. destruct H as (m & Hm & H). apply andb_true_iff in H. destruct H as [H1 _].
        apply Nat.eqb_eq in H1. apply Hi. subst n. now apply in_map. }
  assert (Hheld4 : held h4 = map bm_chan ms2).
  { rewrite held_level by exact Hlg4'. rewrite Ems2.
    rewrite (filter_map_chan (fun n => negb (gone n h3))), Hmap1, <- Hww.
    transitivity (watched chans h1); [unfold watched; apply filter_ext; intro n; now rewrite G|].
    unfold h1. rewrite <- watched_watched. fold h1. unfold watched at 1. apply filter_ext. intro n. now rewrite Fg3, Fg2. }
  assert (Hcnt4 : ms_count s + report_count t1 = report_count h4).
  { rewrite Fr4, Fr3, Fr2. unfold h1. rewrite report_count_app. lia. }
  assert (Hinv : forall s', ms_monitors s' = ms2 -> ms_control s' = c2 -> ms_shut s' = shut2 -> ms_count s' = ms_count s + report_count t1 -> minv h4 s').
  { intros s' E1 E2 E3 E4. unfold minv. rewrite E1, E2, E3, E4. repeat split; auto.
    intros m Hm. rewrite Ems2 in Hm. apply filter_In in Hm. rewrite La. apply Hsz1. apply Hm. }
  destruct ms2 as [|m0 ms2'] eqn:Em2.
  - assert (Hall : forall n, In n chans -> gone n h4 = true).
    { intros n Hn. rewrite held_level in Hheld4 by exact Hlg4'. unfold watched in Hheld4.
      pose proof (filter_nil _ _ Hheld4 n Hn) as H. cbn beta in H. destruct (gone n h4); [reflexivity|discriminate]. }
    assert (Hz : level chans h4 = 0).
    { unfold level. clear - Hall. induction chans as [|x l IH]; [reflexivity|]. cbn. rewrite Hall by now left. apply IH. intros. apply Hall. now right. }
    assert (Hf : told_to_pause c h4 = false).
    { destruct (told_to_pause c h4) eqn:E; [|reflexivity]. unfold S_Regulator.settled in Hset4. rewrite E in Hset4. lia. }
    rewrite Hc2. cbn [rc_control]. apply sat_bind. unfold close. apply sat_vis.
    { cbn. repeat split; auto. }
    intros a Ha. destruct a; try discriminate Ha. apply sat_ret. apply sat_ret. unfold manager_post.
    rewrite held_same by reflexivity. repeat split.
    + exact Hheld4.
    + intros n Hn. rewrite no_size_gone by exact I. now apply Hall.
    + rewrite told_same; [exact Hf|]. intros; discriminate.
    + rewrite report_count_app, (report_none [_]); [lia|reflexivity].
    + apply in_or_app. right. now left.
  - destruct (report_count t1 =? 0).
    + unfold back_off_wait. apply sat_bind. apply sat_bind. unfold sleep. apply sat_vis; [exact Hset4|].
      intros a Ha. destruct a; try discriminate Ha. apply sat_ret. apply sat_ret. apply sat_ret.
      set (s' := MS _ _ _ _ _). destruct (Hinv s') as (I1 & I2 & I3 & I4 & I5 & I6 & I7); try reflexivity.
      unfold minv. rewrite held_same by reflexivity. unfold S_Regulator.settled. rewrite told_same by (intros; discriminate).
      rewrite no_size_level by exact I. repeat split; auto.
      * intros n Hn. rewrite no_size_gone by exact I. rewrite let_go_app. cbn. rewrite orb_false_r. now apply I2.
      * intros m Hm. rewrite no_size_latest by exact I. now apply I3.
      * rewrite report_count_app, (report_none [_]); [lia|reflexivity].
    + apply sat_ret. apply Hinv; reflexivity.
Qed.

Lemma manager_sat : sat [] (manage_regulator low high (RC false c) chans) manager_now manager_post.
Proof.
  unfold manage_regulator. eapply (sat_iter _ minv); [exact body_sat|]. unfold minv. cbn [ms_monitors ms_control ms_shut ms_count].
  assert (E : held [] = chans).
  { unfold S_Regulator.held. clear. induction chans as [|x l IH]; [reflexivity|]. cbn [filter let_go existsb negb]. f_equal. exact IH. }
  rewrite E. repeat split.
  - rewrite map_map. cbn. now rewrite map_id.
  - intros m Hm. apply in_map_iff in Hm. destruct Hm as (x & <- & _). reflexivity.
  - unfold S_Regulator.settled. cbn. right. unfold level. clear. induction chans as [|x l IH]; [cbn; lia|]. cbn. exact IH.
  - rewrite report_none; reflexivity.
Qed.
End Manager.

Section Results.
Variables (low high c : nat) (chans : list nat).
Hypothesis Hnd : NoDup chans.
Let p := manage_regulator low high (RC false c) chans.

Lemma manager_at tr e : exec p tr (At e) -> manager_now low high c chans tr e.
Proof. intro HX. exact (manager_sat low high c chans Hnd _ _ HX). Qed.
Lemma manager_signal tr x v : exec p tr (At (ESend x v)) ->
  x = CCtl c /\ v = VUnit /\ (if told_to_pause c tr then level chans tr <= low else high <= level chans tr).
Proof. intro HX. pose proof (manager_at _ _ HX) as H. cbn in H. destruct x; try contradiction. destruct v; try contradiction. destruct H as [-> H]. auto. Qed.
Lemma manager_settled tr e : exec p tr (At e) ->
  (exists n, e = ESleep n) \/ (exists n, e = ETryRecv (CSize n) /\ hd_error (held chans tr) = Some n) -> settled low high c chans tr.
Proof.
  intros HX He. pose proof (manager_at _ _ HX) as H. destruct He as [(n & ->)|(n & -> & He)]; cbn in H; [exact H|]. now apply H.
Qed.
Lemma manager_effects tr e : exec p tr (At e) ->
  match e with
  | ETryRecv (CSize n) => In n (held chans tr) /\ gone n tr = false
  | EClose (CSize n) => gone n tr = true
  | EClose (CCtl c') => c' = c
  | ESend (CCtl c') VUnit => c' = c
  | ESleep _ => True
  | _ => False
  end.
Proof.
  intro HX. pose proof (manager_at _ _ HX) as H. destruct e as [|[]|[] []|[]| | | | | | | | | | | | | |]; cbn in H; try contradiction; tauto.
Qed.
Lemma held_nil tr : held chans tr = [] -> forall m, In m chans -> let_go m tr = true.
Proof. intros H m Hm. pose proof (filter_nil _ _ H m Hm) as E. cbn beta in E. destruct (let_go m tr); [reflexivity|discriminate]. Qed.
Lemma manager_done tr n : exec p tr (Done n) ->
  (forall m, In m chans -> gone m tr = true /\ let_go m tr = true) /\ told_to_pause c tr = false /\
  n = report_count chans tr /\ closed_by (CCtl c) tr.
Proof.
  intro HX. pose proof (manager_sat low high c chans Hnd _ _ HX) as (H1 & H2 & H3 & H4 & H5). cbn [app] in *.
  split; [|auto]. intros m Hm. split; [now apply H2|now apply held_nil].
Qed.
Lemma manager_closing tr c' : exec p tr (At (EClose (CCtl c'))) ->
  c' = c /\ told_to_pause c tr = false /\ (forall m, In m chans -> gone m tr = true /\ let_go m tr = true).
Proof.
  intro HX. pose proof (manager_at _ _ HX) as (H1 & H2 & H3 & H4). split; [exact H1|]. split; [exact H4|].
  intros m Hm. split; [now apply H3|now apply held_nil].
Qed.
Lemma manager_no_panic tr s : ~ exec p tr (Panicked s).
Proof. intro HX. exact (manager_sat low high c chans Hnd _ _ HX). Qed.
End Results.
