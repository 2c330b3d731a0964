(** * P_BufWriter: what of a drain's writes is in its file *)
From Coq Require Import Ascii String List Bool Arith Lia.
From Verif Require Import M_Prog M_Motion M_Drain M_BufWriter S_Trace S_Motion S_Drain P_Exec P_Read P_Worker P_Flow P_Copy P_Phase P_Conduit P_Drain.
Import ListNotations.

Lemma flush_keeps s s' ok : flush_buf s s' ok -> bw_file s' ++ bw_held s' = bw_file s ++ bw_held s /\ length (bw_held s') <= length (bw_held s) /\ (ok = true -> bw_held s' = []).
Proof.
  induction 1 as [s H|s n s' ok Hn HF (H1 & H2 & H3)|s H]; [auto|..].
  - unfold hand_over in *. cbn [bw_held bw_file] in *. rewrite H1, <- app_assoc, firstn_skipn. rewrite skipn_length in H2. split; [reflexivity|]. split; [lia|exact H3].
  - split; [reflexivity|]. split; [auto|discriminate].
Qed.
Lemma flush_all_keeps s s' ok : flush_all s s' ok -> bw_file s' ++ bw_held s' = bw_file s ++ bw_held s /\ length (bw_held s') <= length (bw_held s) /\ (ok = true -> bw_held s' = []).
Proof. intros [s0 s1 H|s0 s1 ok0 H]; destruct (flush_keeps _ _ _ H) as (H1 & H2 & H3); auto. Qed.
Lemma room_keeps d s s' ok : make_room d s s' ok -> bw_file s' ++ bw_held s' = bw_file s ++ bw_held s /\ length (bw_held s') <= length (bw_held s) /\
  (ok = true -> length (bw_held s') + length d <= bw_capacity \/ bw_held s' = []).
Proof.
  intros [s0 H|s0 s1 ok0 H HF]; [auto|]. destruct (flush_keeps _ _ _ HF) as (H1 & H2 & H3). auto.
Qed.
Lemma write_keeps d s s' ok : write_whole d s s' ok -> length (bw_held s) <= bw_capacity ->
  length (bw_held s') <= bw_capacity /\ exists t, bw_file s' ++ bw_held s' = bw_file s ++ bw_held s ++ t /\ prefix t d /\ (ok = true -> t = d).
Proof.
  assert (C : forall d : bytes, d <> [] -> 0 < length d) by (intros [|x r] H; [congruence|cbn; lia]).
  induction 1 as [s|d s s' Hd HR|d s s' Hd HR Hl|d s s1 n s' ok Hd HR Hl Hn HW IH|d s s' Hd HR Hl]; intros Hs.
  - split; [exact Hs|]. exists []. rewrite app_nil_r. split; [reflexivity|]. split; [exists []; reflexivity|auto].
  - destruct (room_keeps _ _ _ _ HR) as (H1 & H2 & H3). split; [lia|]. exists []. rewrite app_nil_r. split; [exact H1|]. split; [exists d; reflexivity|discriminate].
  - destruct (room_keeps _ _ _ _ HR) as (H1 & H2 & H3). cbn [bw_held bw_file]. rewrite app_length. split.
    + destruct (H3 eq_refl) as [H4| ->]; [lia|cbn [length]; lia].
    + exists d. rewrite (app_assoc (bw_file s') (bw_held s') d), H1, <- app_assoc. split; [reflexivity|]. split; [exists []; now rewrite app_nil_r|auto].
  - destruct (room_keeps _ _ _ _ HR) as (H1 & H2 & H3). cbn [bw_held bw_file] in IH. destruct (IH ltac:(lia)) as (H4 & t & H5 & H6 & H7). split; [exact H4|].
    assert (Hh : bw_held s1 = []).
    { destruct (H3 eq_refl) as [H8|H8]; [|exact H8]. destruct (bw_held s1); [reflexivity|]. cbn [length] in H8. lia. }
    exists (firstn n d ++ t). rewrite H5, Hh in *. cbn [app] in *. rewrite app_nil_r in H1. rewrite (app_assoc (bw_file s) (bw_held s)), <- H1, <- app_assoc. split; [reflexivity|]. split.
    + destruct H6 as [r H6]. exists r. rewrite <- app_assoc, <- H6, firstn_skipn. reflexivity.
    + intros E. rewrite (H7 E), firstn_skipn. reflexivity.
  - destruct (room_keeps _ _ _ _ HR) as (H1 & H2 & H3). split; [lia|]. exists []. rewrite app_nil_r. split; [exact H1|]. split; [exists d; reflexivity|discriminate].
Qed.

(** ** Over a trace *)
Definition offered_w (f : fd) (tr : trace) : list bytes := flat_map (fun ev => match ev with (EWrite g d, _) => if f =? g then [d] else [] | _ => [] end) tr.
Lemma offered_w_app f a b : offered_w f (a ++ b) = offered_w f a ++ offered_w f b.
Proof. apply flat_map_app. Qed.
Definition all_ok (f : fd) (tr : trace) : Prop := forall d a, In (EWrite f d, a) tr -> a = AOk.

Lemma stored_small f tr s : stored f tr s -> length (bw_held s) <= bw_capacity.
Proof.
  induction 1 as [|tr s d a s' ok HS IH HW E|tr s a s' ok HS IH HF E|tr s e a HS IH HN]; [cbn; lia| | |exact IH].
  - apply (write_keeps _ _ _ _ HW IH).
  - destruct (flush_all_keeps _ _ _ HF) as (_ & H & _). lia.
Qed.
Lemma stored_ok f tr s : stored f tr s -> all_ok f tr -> bw_file s ++ bw_held s = concat (written f tr).
Proof.
  induction 1 as [|tr s d a s' ok HS IH HW E|tr s a s' ok HS IH HF E|tr s e a HS IH HN]; intros HA; [reflexivity|..].
  all: assert (HA' : all_ok f tr) by (intros x y K; apply (HA x y), in_or_app; left; exact K); specialize (IH HA').
  - assert (Ha : a = AOk) by (apply (HA d), in_or_app; right; left; reflexivity). apply E in Ha as Ho.
    destruct (write_keeps _ _ _ _ HW (stored_small _ _ _ HS)) as (_ & t & H1 & _ & H2). rewrite H1, app_assoc, IH, (H2 Ho), Ha, written_app, concat_app. cbn. rewrite Nat.eqb_refl. cbn. now rewrite app_nil_r.
  - destruct (flush_all_keeps _ _ _ HF) as (H1 & _). rewrite H1, IH, written_app. cbn. now rewrite app_nil_r.
  - rewrite IH, written_app. replace (written f [(e, a)]) with (@nil bytes); [now rewrite app_nil_r|]. destruct e; try reflexivity. cbn in *. destruct a; try reflexivity. destruct (Nat.eqb_spec f f0); [congruence|reflexivity].
Qed.
(** At most the last write has failed. *)
Definition last_fails (f : fd) (tr : trace) : Prop := forall t1 d a t2, tr = t1 ++ (EWrite f d, a) :: t2 -> a = AOk \/ offered_w f t2 = [].
Lemma stored_last f tr s : stored f tr s -> last_fails f tr -> prefix (bw_file s ++ bw_held s) (concat (offered_w f tr)).
Proof.
  assert (Hall : forall tr, all_ok f tr -> written f tr = offered_w f tr).
  { induction tr0 as [|[e a] tr0 IH]; [reflexivity|]. intros HA. unfold written, offered_w in *. cbn [flat_map]. rewrite IH by (intros x y K; apply (HA x y); right; exact K). f_equal.
    destruct e; try reflexivity. destruct (Nat.eqb_spec f f0) as [<-|N]; [|destruct a; reflexivity]. rewrite (HA d a (or_introl eq_refl)). reflexivity. }
  induction 1 as [|tr s d a s' ok HS IH HW E|tr s a s' ok HS IH HF E|tr s e a HS IH HN]; intros HL; [exists []; reflexivity|..].
  - assert (HA : all_ok f tr).
    { intros x y K. apply in_split in K as (t1 & t2 & ->). destruct (HL t1 x y (t2 ++ [(EWrite f d, a)])) as [H|H]; [rewrite <- app_assoc; reflexivity|exact H|].
      rewrite offered_w_app in H. cbn in H. rewrite Nat.eqb_refl in H. apply app_eq_nil in H as [_ H]. discriminate. }
    destruct (write_keeps _ _ _ _ HW (stored_small _ _ _ HS)) as (_ & t & H1 & [r Hr] & _). rewrite H1, app_assoc, (stored_ok _ _ _ HS HA), (Hall _ HA), offered_w_app, concat_app. cbn. rewrite Nat.eqb_refl. cbn.
    rewrite app_nil_r. exists r. rewrite Hr, app_assoc. reflexivity.
  - destruct (flush_all_keeps _ _ _ HF) as (H1 & _). rewrite H1, offered_w_app. cbn. rewrite app_nil_r. apply IH.
    intros t1 x y t2 Et. destruct (HL t1 x y (t2 ++ [(EFlush f, a)])) as [H|H]; [rewrite Et, <- app_assoc; reflexivity|auto|]. right. rewrite offered_w_app in H. cbn in H. now rewrite app_nil_r in H.
  - assert (Ho : offered_w f [(e, a)] = []) by (destruct e; try reflexivity; cbn in *; destruct (Nat.eqb_spec f f0); [congruence|reflexivity]).
    rewrite offered_w_app, Ho, app_nil_r. apply IH.
    intros t1 x y t2 Et. destruct (HL t1 x y (t2 ++ [(e, a)])) as [H|H]; [rewrite Et, <- app_assoc; reflexivity|auto|]. right. rewrite offered_w_app, Ho, app_nil_r in H. exact H.
Qed.
(** After a flush nothing is held until the next write. *)
Lemma stored_flushed f t1 t2 s : stored f (t1 ++ (EFlush f, AOk) :: t2) s -> offered_w f t2 = [] -> bw_held s = [].
Proof.
  intros HS. remember (t1 ++ (EFlush f, AOk) :: t2) as tr eqn:E. revert t2 E. induction HS as [|tr s d a s' ok HS IH HW Ea|tr s a s' ok HS IH HF Ea|tr s e a HS IH HN]; intros t2 E Ho.
  - destruct t1; discriminate E.
  - exfalso. destruct (exists_last (l := (EFlush f, AOk) :: t2)) as (t2' & x & Ex); [discriminate|]. rewrite Ex, app_assoc in E. apply app_inj_tail in E as [_ E].
    destruct t2' as [|y t2']; cbn in Ex; [injection Ex as Ex _; congruence|]. injection Ex as _ Ex. rewrite Ex, offered_w_app, <- E in Ho. cbn in Ho. rewrite Nat.eqb_refl in Ho. apply app_eq_nil in Ho as [_ Ho]. discriminate.
  - destruct (exists_last (l := (EFlush f, AOk) :: t2)) as (t2' & x & Ex); [discriminate|]. rewrite Ex, app_assoc in E. apply app_inj_tail in E as [E1 E2].
    destruct t2' as [|y t2']; cbn in Ex.
    + injection Ex as Ex _. rewrite <- Ex in E2. injection E2 as ->. apply (flush_all_keeps _ _ _ HF), Ea. reflexivity.
    + injection Ex as <- Ex. rewrite Ex, offered_w_app in Ho. apply app_eq_nil in Ho as [Ho _]. pose proof (IH _ E1 Ho) as Hh. destruct (flush_all_keeps _ _ _ HF) as (_ & H & _). rewrite Hh in H.
      destruct (bw_held s'); [reflexivity|cbn in H; lia].
  - destruct (exists_last (l := (EFlush f, AOk) :: t2)) as (t2' & x & Ex); [discriminate|]. rewrite Ex, app_assoc in E. apply app_inj_tail in E as [E1 E2].
    destruct t2' as [|y t2']; cbn in Ex.
    + injection Ex as Ex _. exfalso. apply HN. rewrite <- Ex in E2. injection E2 as -> _. reflexivity.
    + injection Ex as <- Ex. rewrite Ex, offered_w_app in Ho. apply app_eq_nil in Ho as [Ho _]. exact (IH _ E1 Ho).
Qed.

(** ** The drain *)
Lemma offered_attempts f tr : offered_w f tr = flat_map (fun x => match fst (fst x) with EWrite g _ => if f =? g then [snd (fst x)] else [] | _ => [] end) (attempts tr).
Proof.
  induction tr as [|[e a] tr IH]; [reflexivity|]. unfold offered_w, attempts in *. cbn [flat_map]. rewrite flat_map_app, <- IH. f_equal.
  destruct e as [ | |[] []| | | | | | | | | | | | | | | ]; cbn; rewrite ?app_nil_r; reflexivity.
Qed.
Lemma rounds_fine k j f l : j_brk j = Terminate -> Forall (round_ok [PsBytes k j f]) l -> rounds [PsBytes k j f] l = map (fun x => (EWrite f (fst x), fst x, AOk)) l.
Proof.
  intros Hb. induction 1 as [|[d os] l [H _] HF IH]; [reflexivity|]. change (rounds [PsBytes k j f] ((d, os) :: l)) with (round [PsBytes k j f] d os ++ rounds [PsBytes k j f] l). rewrite IH.
  cbn in H. inversion H as [|? o ? os' [Hc Hf] H']; subst. cbn [round]. rewrite app_nil_r. cbn. f_equal. unfold push_fail in Hf. cbn in Hf. rewrite Hb in Hf. destruct o; [reflexivity|discriminate..].
Qed.
Section Copy.
Variables (pl : pull) (k : bdst) (j : journey) (f : fd) (tr : trace) (st : status (mres nat)).
Hypothesis Hfresh : fresh_pull pl.
Hypothesis Hj : pull_journey pl <> None.
Hypothesis Hb : j_brk j = Terminate.
Hypothesis HX : exec (motion pl mn_empty None (PsBytes k j f)) tr st.
Lemma copy_shape : exists ds last, attempts tr = map (fun d => (EWrite f d, d, AOk)) ds ++ last /\ prefix (offered_w f tr) (got pl tr) /\
  (last = [] \/ exists d a, last = [(EWrite f d, d, a)]).
Proof.
  destruct (motion_position pl mn_empty None _ Hfresh (or_introl Hj) _ _ HX) as (l & x & HO & [Hs _] & H). rewrite offered_attempts.
  pose proof (rounds_fine _ _ _ _ Hb HO) as HR. exists (map fst l).
  assert (Hm : forall z : list (bytes * list wout), flat_map (fun x0 : eff * bytes * ans => match fst (fst x0) with EWrite g _ => if f =? g then [snd (fst x0)] else [] | _ => [] end)
    (map (fun x0 => (EWrite f (fst x0), fst x0, AOk)) z) = map fst z) by (induction z as [|y z IH]; [reflexivity|cbn; rewrite Nat.eqb_refl, IH; reflexivity]).
  rewrite map_map. destruct Hs as [r Hs]. destruct H as [[-> H]|(d & -> & [H|(o & _ & H)])]; rewrite H, HR.
  - exists []. rewrite app_nil_r in *. rewrite Hm. split; [reflexivity|]. split; [exists r; exact Hs|auto].
  - exists []. rewrite app_nil_r, Hm. split; [reflexivity|]. split; [|auto]. exists ([d] ++ r). rewrite Hs, <- app_assoc. reflexivity.
  - exists (attempt (PsBytes k j f) d o). rewrite flat_map_app, Hm. cbn. rewrite Nat.eqb_refl. split; [reflexivity|]. split; [exists r; exact Hs|]. right. eauto.
Qed.
Lemma copy_last_fails : last_fails f tr.
Proof.
  destruct copy_shape as (ds & last & HA & _ & HL). intros t1 d a t2 E. rewrite E in HA. rewrite attempts_app in HA. change (attempts ((EWrite f d, a) :: t2)) with ((EWrite f d, d, a) :: attempts t2) in HA.
  rewrite offered_attempts. destruct (attempts t2) as [|y r] eqn:E2; [auto|left].
  assert (Hin : In (EWrite f d, d, a) (map (fun d => (EWrite f d, d, AOk)) ds)).
  { assert (K : exists q, map (fun d => (EWrite f d, d, AOk)) ds = attempts t1 ++ (EWrite f d, d, a) :: q).
    { destruct HL as [->|(d' & a' & ->)]; [rewrite app_nil_r in HA; eauto|]. destruct (exists_last (l := y :: r)) as (r' & z & Ez); [discriminate|]. rewrite Ez in HA.
      change (attempts t1 ++ (EWrite f d, d, a) :: r' ++ [z]) with (attempts t1 ++ ((EWrite f d, d, a) :: r') ++ [z]) in HA. rewrite app_assoc in HA. apply app_inj_tail in HA as [HA _]. eauto. }
    destruct K as [q ->]. apply in_or_app. right. left. reflexivity. }
  apply in_map_iff in Hin as (d0 & Hd & _). congruence.
Qed.
End Copy.

Lemma drain_file d pl name n f tr st s : drain_ready d pl name -> actual_destination name = ToFile n ->
  exec (drain_start d None) ((ECreate n, AFd f) :: tr) st -> stored f tr s ->
  prefix (bw_file s) (concat (got pl tr)) /\
  length (bw_held s) <= 8 * 1024 /\ ((forall x a, In (EWrite f x, a) tr -> a = AOk) -> bw_file s ++ bw_held s = concat (written f tr)) /\
  (forall k, st = Done (Ok k) -> bw_file s = concat (got pl tr)).
Proof.
  intros HR Hn HX HS. assert (Hf : fresh_pull pl) by apply HR. assert (Hj : pull_journey pl <> None) by apply HR.
  destruct (drain_run _ _ _ _ _ HR HX) as [(E & _)|(e' & E & H)]; [rewrite Hn in E; discriminate E|]. rewrite Hn in E. cbn in E. injection E as <-.
  destruct H as [(E & _)|[(g & rest & k & pj & E & Ej & H)|(rest & pj & E & _)]]; [discriminate E| |discriminate E]. injection E as <- <-.
  assert (Hb : j_brk (drain_journey pj) = Terminate) by reflexivity.
  destruct (copy_shape _ _ _ _ _ _ Hf Hj Hb H) as (ds & last & HA & [r Hr] & HL). pose proof (copy_last_fails _ _ _ _ _ _ Hf Hj Hb H) as HF.
  destruct (stored_last _ _ _ HS HF) as [q Hq].
  assert (Hp : prefix (bw_file s) (concat (got pl tr))) by (exists (bw_held s ++ q ++ concat r); rewrite Hr, concat_app, Hq, <- !app_assoc; reflexivity).
  split; [exact Hp|]. split; [exact (stored_small _ _ _ HS)|]. split; [exact (stored_ok _ _ _ HS)|]. intros m ->.
  set (ps := PsBytes k (drain_journey pj) f) in *.
  pose proof (copy_terminate_all pl mn_empty None ps Hf (or_introl Hj) Logic.I _ _ H eq_refl) as K1. cbn in K1.
  pose proof (copy_shut pl mn_empty None ps Hf (or_introl Hj) _ _ H) as K2. cbn in K2.
  destruct (orderly_all _ _ _ (motion_orderly _ _ _ _) _ _ H) as [_ HO].
  assert (Hok : all_ok f tr).
  { intros x a Hin. apply in_split in Hin as (t1 & t2 & E). destruct (HF _ _ _ _ E) as [|He]; [assumption|]. destruct a; try reflexivity; exfalso.
    all: assert (L1 : List.length (offered_w f tr) <= List.length (got pl tr)) by (rewrite Hr, app_length; lia).
    all: rewrite <- K1, E, offered_w_app, written_app, !app_length in L1; cbn in L1; rewrite Nat.eqb_refl in L1; cbn in L1.
    all: assert (W : forall t, List.length (written f t) <= List.length (offered_w f t)) by
      (induction t as [|[e1 a1] t IH]; [cbn; lia|]; unfold written, offered_w in *; cbn [flat_map]; rewrite !app_length; destruct e1; try (cbn; lia); destruct a1; cbn; destruct (f =? _); cbn; lia).
    all: pose proof (W t1); pose proof (W t2); unfold written, offered_w in *; lia. }
  apply in_split in K2 as (t1 & t2 & E2).
  assert (Ho : offered_w f t2 = []).
  { pose proof (HO _ _ _ _ E2 Logic.I) as Hc. clear - Hc. induction Hc as [|[e a] t Hx _ IH]; [reflexivity|]. unfold offered_w in *. cbn [flat_map]. rewrite IH. destruct e; cbn in Hx; try contradiction; reflexivity. }
  rewrite E2 in HS. pose proof (stored_flushed _ _ _ _ HS Ho) as Hh. rewrite <- E2 in HS. pose proof (stored_ok _ _ _ HS Hok) as K. rewrite Hh, app_nil_r, K1 in K. exact K.
Qed.
