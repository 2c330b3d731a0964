(** * P_Delivery: after a run that ends well the files hold what was read *)
From Coq Require Import Ascii String List Bool Arith Lia Permutation.
From Verif Require Import M_Prog M_Motion M_Drain M_BufWriter M_Config M_Manip M_Lint M_Cli M_Waiter M_Start M_Join S_Trace S_Lines S_Motion S_World S_Network S_Net S_Drain S_Grammar S_Manip S_Waiter S_Shape S_Watch S_Flow S_Path S_Bytes S_Soft S_Lead M_Errors M_Report S_Errors S_Report S_Delivery
  P_Exec P_Read P_Worker P_Flow P_Copy P_Phase P_Conduit P_Drain P_Soft P_Calm P_BufWriter P_PathRun P_LeadRun P_Bytes P_Report.
From Verif Require Import P_SoftRun P_Split P_Shape P_Watch P_Prog P_Network.
Import ListNotations.
Local Open Scope list_scope.

(** ** A drain that ends well was never refused *)
Definition flushes_ok (f : fd) (tr : trace) : Prop := forall g a, In (EFlush g, a) tr -> a = AOk.
Lemma flushes_app f a b : flushes_ok f a -> flushes_ok f b -> flushes_ok f (a ++ b).
Proof. intros H1 H2 g x H. apply in_app_or in H as [H|H]; eauto. Qed.
Lemma flushes_none f tr : within_eff (fun e => forall g, e <> EFlush g) tr -> flushes_ok f tr.
Proof. intros H g a Hin. unfold within_eff in H. rewrite Forall_forall in H. destruct (H _ Hin g eq_refl). Qed.
Lemma works_drops : (forall pl, works (fun e => forall g, e <> EFlush g) (fun _ => True) (drop_pull pl)) /\ (forall ps, works (fun e => forall g, e <> EFlush g) (fun _ => True) (drop_pushes ps)).
Proof.
  split; [intros []; cbn; try (now apply works_ret); [apply works_drop_fd|apply works_close]; discriminate|].
  induction ps as [|p ps IH]; cbn [drop_pushes]; [now apply works_ret|]. eapply works_bind with (Q := fun _ => True); [|intros; exact IH]. destruct p; cbn; try (now apply works_ret); [apply works_drop_fd|apply works_close..]; discriminate.
Qed.
Lemma motion_flushes pl k j f tr n : exec (motion pl mn_empty None (PsBytes k j f)) tr (Done (Ok n)) -> flushes_ok f tr.
Proof.
  set (ps := PsBytes k j f). assert (HU : unmocked ps) by exact Logic.I.
  intros HX. unfold motion in HX. apply done_bind in HX. destruct HX as (t1 & t2 & [[r pl'] pushs'] & -> & H1 & H2).
  apply done_bind in H2. destruct H2 as (u1 & u2 & x & -> & D1 & H2). apply done_bind in H2. destruct H2 as (u3 & u4 & x1 & -> & D2 & H2). cbn [close_mon mn_empty mon_read mon_written] in H2. rewrite !bind_ret in H2. apply exec_ret_inv in H2. destruct H2 as [-> E]. injection E as <-.
  apply flushes_app; [|apply flushes_app; [apply flushes_none, (proj1 works_drops _ _ _ D1)|rewrite app_nil_r; apply flushes_none, (proj2 works_drops _ _ _ D2)]].
  assert (HT : tsat [] (iter (motion_body mn_empty None) (pl, [ps], 0)) (fun _ _ => True) (fun h x => forall m, fst (fst x) = Ok m -> flushes_ok f h)).
  { apply (tsat_iter _ (fun h (s : motion_state) => snd (fst s) = [ps] /\ flushes_ok f h)); [|split; [reflexivity|intros g a []]].
    intros h [[pl1 pushs] m0] [HP HF] tr st HB. cbn [fst snd] in HP. subst pushs. destruct st as [e1|y|s]; try exact Logic.I. unfold motion_body in HB. apply done_bind in HB. destruct HB as (v1 & v2 & [[r1 pl2] ps2] & -> & W & HB). destruct (worker_cause _ _ _ _ _ _ _ HU W) as (-> & _ & _).
    assert (HW : flushes_ok f v1).
    { apply flushes_none. refine (proj1 (works_worker _ pl1 mn_empty None [ps] false _ pl1 [ps] _ _ _ _ W)); [|destruct pl1; cbn; auto|repeat constructor].
      intros e He g ->. exact (work_not_closing _ _ _ _ _ _ He Logic.I). }
    destruct r1 as [wr|e1].
    - destruct (wr_finished wr).
      + apply done_bind in HB. destruct HB as (u3' & u4' & z & -> & C & HB). destruct z as [u|e1].
        * cbn [close_mon mn_empty mon_read mon_written] in HB. rewrite !bind_ret in HB. apply exec_ret_inv in HB. destruct HB as [-> E]. injection E as ->. intros m _. apply flushes_app; [exact HF|]. apply flushes_app; [exact HW|]. rewrite app_nil_r.
          cbn [close_all] in C. apply done_bind in C. destruct C as (c1 & c2 & q & -> & C1 & C2). destruct q as [q|e1]; apply exec_ret_inv in C2; destruct C2 as [-> E]; [|discriminate E]. rewrite app_nil_r. cbn in C1. unfold flush in C1. rewrite bind_eq in C1.
          apply exec_vis_inv in C1. destruct C1 as [[_ K]|(a & tr' & -> & _ & HX)]; [discriminate K|].
          destruct a; unfold ill in HX; try (rewrite bind_eq in HX); try (apply exec_panic_inv in HX; destruct HX as [_ K]; discriminate K); apply exec_ret_inv in HX; destruct HX as [-> E']; try discriminate E'. intros g a [K|[]]. now injection K as _ <-.
        * apply exec_ret_inv in HB. destruct HB as [_ E]. injection E as ->. intros m K. discriminate K.
      + apply exec_ret_inv in HB. destruct HB as [-> E]. injection E as ->. split; [reflexivity|]. apply flushes_app; [exact HF|]. rewrite app_nil_r. exact HW.
    - apply exec_ret_inv in HB. destruct HB as [_ E]. injection E as ->. intros m K. discriminate K. }
  exact (HT _ _ H1 n eq_refl).
Qed.

Section Copy.
Variables (pl : pull) (k : bdst) (j : journey) (f : fd) (tr : trace) (n : nat).
Hypothesis Hfresh : fresh_pull pl.
Hypothesis Hj : pull_journey pl <> None.
Hypothesis Hb : j_brk j = Terminate.
Hypothesis HX : exec (motion pl mn_empty None (PsBytes k j f)) tr (Done (Ok n)).
Lemma done_all_ok : all_ok f tr.
Proof.
  destruct (copy_shape _ _ _ _ _ _ Hfresh Hj Hb HX) as (ds & last & HA & [r Hr] & HL). pose proof (copy_last_fails _ _ _ _ _ _ Hfresh Hj Hb HX) as HF.
  pose proof (copy_terminate_all pl mn_empty None (PsBytes k j f) Hfresh (or_introl Hj) Logic.I _ _ HX Hb) as K1. cbn in K1.
  intros x a Hin. apply in_split in Hin as (t1 & t2 & E). destruct (HF _ _ _ _ E) as [|He]; [assumption|]. destruct a; try reflexivity; exfalso.
  all: assert (L1 : List.length (offered_w f tr) <= List.length (got pl tr)) by (rewrite Hr, app_length; lia).
  all: rewrite <- K1, E, offered_w_app, written_app, !app_length in L1; cbn in L1; rewrite Nat.eqb_refl in L1; cbn in L1.
  all: assert (W : forall t, List.length (S_Trace.written f t) <= List.length (offered_w f t)) by
    (induction t as [|[e1 a1] t IH]; [cbn; lia|]; unfold S_Trace.written, offered_w in *; cbn [flat_map]; rewrite !app_length; destruct e1; try (cbn; lia); destruct a1; cbn; destruct (f =? _); cbn; lia).
  all: pose proof (W t1); pose proof (W t2); unfold S_Trace.written, offered_w in *; lia.
Qed.
Lemma done_not_held s : stored f tr s -> bw_held s = [].
Proof.
  intros HS. pose proof (copy_shut pl mn_empty None (PsBytes k j f) Hfresh (or_introl Hj) _ _ HX) as K2. cbn in K2. destruct (orderly_all _ _ _ (motion_orderly _ _ _ _) _ _ HX) as [_ HO].
  apply in_split in K2 as (t1 & t2 & E2). rewrite E2 in HS. refine (stored_flushed _ _ _ _ HS _).
  pose proof (HO _ _ _ _ E2 Logic.I) as Hc. clear - Hc. induction Hc as [|[e a] t Hx _ IH]; [reflexivity|]. unfold offered_w in *. cbn [flat_map]. rewrite IH. destruct e; cbn in Hx; try contradiction; reflexivity.
Qed.
End Copy.
(** The writer has a state after all that succeeds. *)
Lemma flush_succeeds s : flush_buf s (BufW [] (bw_file s ++ bw_held s)) true.
Proof.
  destruct s as [h fi]. cbn [bw_file bw_held]. destruct h as [|x h]; [rewrite app_nil_r; now apply FB_done|]. apply (FB_some _ (length (x :: h))); [cbn; lia|]. unfold hand_over. cbn [bw_held bw_file]. rewrite skipn_all, firstn_all. now apply FB_done.
Qed.
Lemma room_comes d s : exists s', make_room d s s' true.
Proof. destruct (le_lt_dec (length (bw_held s) + length d) bw_capacity); [exists s; now apply MR_room|]. eexists. apply MR_flush; [assumption|apply flush_succeeds]. Qed.
Lemma write_succeeds d s : exists s', write_whole d s s' true.
Proof.
  destruct d as [|x d]; [exists s; constructor|]. destruct (room_comes (x :: d) s) as [s1 H1]. destruct (le_lt_dec bw_capacity (length (x :: d))) as [L|L].
  - eexists. apply (WW_past _ _ s1 (length (x :: d))); [discriminate|exact H1|exact L|cbn; lia|]. rewrite skipn_all. constructor.
  - eexists. apply WW_kept; [discriminate|exact H1|exact L].
Qed.
Lemma stored_comes f tr : all_ok f tr -> flushes_ok f tr -> exists s, stored f tr s.
Proof.
  induction tr as [|[e a] tr IH] using rev_ind; intros HA HF; [eexists; constructor|]. destruct IH as [s Hs]; [intros x y H; apply (HA x y), in_or_app; now left|intros x y H; apply (HF x y), in_or_app; now left|].
  assert (HN : ~ concerns f e -> exists s, stored f (tr ++ [(e, a)]) s) by (intros N; exists s; now apply St_other).
  destruct e; try (apply HN; intros []; fail).
  - destruct (Nat.eq_dec f0 f) as [->|N]; [|exact (HN N)]. destruct (write_succeeds d s) as [s' H']. exists s'. apply (St_write _ _ s d a s' true Hs H'). split; [|reflexivity]. intros _. apply (HA d a), in_or_app. right. now left.
  - destruct (Nat.eq_dec f0 f) as [->|N]; [|exact (HN N)]. eexists. refine (St_flush _ _ s a _ true Hs (FA_file _ _ true (flush_succeeds s)) _). split; [|reflexivity]. intros _. apply (HF f a), in_or_app. right. now left.
Qed.

Lemma drain_well d pj i name tr m : drain_ready d (PlReceiver pj i) name -> exec (drain_start d None) tr (Done (Ok m)) ->
  ~ hurt tr /\ (forall e f rest, opened_for (actual_destination name) = Some e -> tr = (e, AFd f) :: rest -> (exists s, stored f rest s) /\ forall s, stored f rest s -> bw_file s = concat (S_Trace.written f tr)).
Proof.
  intros HR HX. destruct (drain_run _ _ _ _ _ HR HX) as [(E & H)|(e' & E & H)].
  - split; [|intros e f rest K; congruence]. intros (x & a & Hin & Ho & _). destruct (orderly_all _ _ _ (motion_orderly _ _ _ _) _ _ H) as [HW _]. unfold within_eff in HW. rewrite Forall_forall in HW. specialize (HW _ Hin). cbn [fst] in HW.
    destruct HW as [[K|[(p & d0 & [<-|[]] & K)|[(c & K & _)|[(c & K & _)|(s & v & K & _)]]]]|[K|[(p & [<-|[]] & K)|(c & [K|K] & _)]]]; try discriminate K; try contradiction K; cbn in K; try (injection K as <-); subst; discriminate Ho.
  - destruct H as [(E1 & K)|[(f & rest & kk & pj' & E1 & Ej & H)|(rest & pj' & E1 & Ej & H)]]; [discriminate K| |].
    2:{ apply done_bind in H. destruct H as (t1 & t2 & y & _ & _ & H). apply exec_ret_inv in H. destruct H as [_ K]. discriminate K. }
    assert (Hf : fresh_pull (PlReceiver pj i)) by apply HR. assert (Hj : pull_journey (PlReceiver pj i) <> None) by apply HR. assert (Hb : j_brk (drain_journey pj') = Terminate) by reflexivity.
    pose proof (done_all_ok _ _ _ _ _ _ Hf Hj Hb H) as HA. pose proof (motion_flushes _ _ _ _ _ _ H) as HF. split.
    + intros (x & a & Hin & Ho & Hbad). rewrite E1 in Hin. destruct Hin as [K|Hin]; [injection K as <- <-; destruct Hbad; discriminate|]. destruct (orderly_all _ _ _ (motion_orderly _ _ _ _) _ _ H) as [HW _]. unfold within_eff in HW. rewrite Forall_forall in HW. pose proof (HW _ Hin) as HM. cbn [fst] in HM.
      assert (Ha : a = AOk); [|subst a; destruct Hbad; discriminate].
      destruct HM as [[K|[(p & d0 & [<-|[]] & K)|[(c & K & _)|[(c & K & _)|(s & v & K & _)]]]]|[K|[(p & [<-|[]] & K)|(c & [K|K] & _)]]]; try discriminate K; cbn in K; try (injection K as <-); try (subst x; discriminate Ho); try discriminate Ho.
      * exact (HA _ _ Hin).
      * destruct K as [->| ->]; [discriminate Ho|]. exact (HF _ _ Hin).
    + intros e f1 rest1 Ee E2. rewrite E in Ee. injection Ee as <-. rewrite E1 in E2. injection E2 as <- <-. split; [exact (stored_comes _ _ HA HF)|]. intros s Hs.
      pose proof (stored_ok _ _ _ Hs HA) as K. rewrite (done_not_held _ _ _ _ _ _ Hf Hj H s Hs), app_nil_r in K. rewrite K, E1. destruct e'; reflexivity.
Qed.

(** ** In a run *)
Section Prepared.
Variables (sh : shuffles) (cwd : option string) (vars : list (string * string)) (c : config) (w : waiter) (cs : list capture).
Hypothesis Hf : S_Manip.fair sh.
Hypothesis Hgc : good_connections (cf_connection c).
Hypothesis Hpr : prepares sh c w cs.
Hypothesis Hpa : passing (cf_connection c).
Hypothesis Hap : apart (cf_connection c).
Notation net := (net_of cwd vars w).
Variables (w0 : world) (l : list nevent) (wl : world) (ocs : nat -> S_Net.outcome).
Hypothesis HR : free_run net cs w0 l wl ocs.

Lemma drain_at_run n k m : drain_at c w cwd vars n k -> ocs k = Ended (Ok m) ->
  exists d pj i, drain_ready d (PlReceiver pj i) (location n (cf_drain c)) /\ exec (drain_start d None) (own (4 * k) l) (Done (Ok m)) /\ forall x, In x (did k l) -> In x (own (4 * k) l).
Proof.
  intros (d & _ & Hk) Ho. destruct (prepared_shape _ cwd vars _ _ _ Hf Hgc Hpr Hpa Hap) as (HN & _).
  assert (Hk' : nth_error (map plain_comp net) k = Some (NDrain d (location n (cf_drain c)))) by now rewrite nth_error_map, Hk.
  pose proof (nw_ready _ HN _ (nth_error_In _ _ Hk')) as (pj & i & Hr). pose proof (fr_comps _ _ _ _ _ _ HR _ _ Hk) as (st & (HI & s & -> & HC) & HG). rewrite Ho in HG. destruct s as [e|r|b]; try discriminate HG. injection HG as <-.
  exists d, pj, i. split; [exact Hr|]. rewrite own_seen in HC by lia. rewrite Nat.add_0_r in HC. split; [exact HC|].
  intros x Hx. unfold did in Hx. apply in_map_iff in Hx as ([i0 ev] & <- & Hx). apply filter_In in Hx as [Hx Hd]. cbn [fst snd] in *. apply Nat.eqb_eq in Hd.
  assert (i0 = 4 * k + i0 mod 4) by (rewrite <- Hd; apply Nat.div_mod; lia). pose proof (Nat.mod_upper_bound i0 4 ltac:(lia)).
  destruct (i0 mod 4) as [|t] eqn:Et.
  - unfold own. apply in_map_iff. exists (i0, ev). split; [reflexivity|]. apply filter_In. split; [exact Hx|]. cbn [fst]. apply Nat.eqb_eq. lia.
  - exfalso. assert (K : In ev (own (S t) (seen_by k l))) by (rewrite own_seen by lia; unfold own; apply in_map_iff; exists (i0, ev); split; [reflexivity|]; apply filter_In; split; [exact Hx|]; cbn [fst]; apply Nat.eqb_eq; lia).
    rewrite (HI (S t)) in K by (cbn; lia). destruct K.
Qed.
Hypothesis HA : all_succeeded net ocs.
Lemma drain_number n k : drain_at c w cwd vars n k -> exists m, ocs k = Ended (Ok m).
Proof. intros (d & _ & Hk). apply HA. apply nth_error_Some. congruence. Qed.
Variable ps : list (connection * connection).
Hypothesis Hsp : spelled (cf_connection c) ps.

Theorem delivered n ss : arrivals ps (CDrain, n) <> [] -> supplied ps (CDrain, n) ss -> Forall (at_end c w cwd vars l) ss /\
  exists rss, Forall2 (has_read c w cwd vars l) ss rss /\
  (forall name, actual_destination (location n (cf_drain c)) = ToFile name -> exists data, file_holds c w cwd vars l n data) /\
  forall data, file_holds c w cwd vars l n data -> Permutation data (concat (map (@concat _) rss)) /\ forall rs, rss = [rs] -> data = concat rs.
Proof.
  intros Harr Hs.
  destruct (path_led sh cwd vars c w cs Hf Hgc Hpr Hpa Hap ps Hsp w0 l wl ocs (CDrain, n) ss (or_introl eq_refl) Harr Hs HR) as (H1 & H2 & mss & ms & H3 & H4 & H5).
  - intros k Hk. destruct (HA _ Hk) as [m Hm]. eexists. exact Hm.
  - intros k Hk. destruct (drain_number _ _ Hk) as [m Hm]. split; [eexists; exact Hm|]. destruct (drain_at_run _ _ _ Hk Hm) as (d & pj & i & Hr & HX & Hd). destruct (drain_well _ _ _ _ _ _ Hr HX) as [Hu _].
    intros Hh. apply Hu. revert Hh. apply hurt_in. exact Hd.
  - intros s k Hin Hk. assert (Hl : exists y, nth_error net k = Some y) by (destruct s as [[[] nm] o]; try contradiction Hk; destruct Hk as (d & _ & Hk); eauto). destruct Hl as [y Hy]. apply HA. apply nth_error_Some. congruence.
  - split; [exact H1|]. destruct (given_reads sh cwd vars c w cs Hf Hgc Hpr Hpa w0 l wl ocs Hap HR _ _ H3) as (rss & H6 & ->). exists rss. split; [exact H6|]. split.
    + intros name Hn. destruct H2 as (k & Hk & H2). destruct (H2 (ECreate name)) as (f & rest & Eo & _); [rewrite Hn; reflexivity|]. destruct (drain_number _ _ Hk) as [m Hm]. destruct (drain_at_run _ _ _ Hk Hm) as (d & pj & i & Hr & HX & _). destruct (drain_well _ _ _ _ _ _ Hr HX) as [_ Hw].
      destruct (Hw (ECreate name) f rest) as [[s Hst] _]; [rewrite Hn; reflexivity|exact Eo|]. eexists. econstructor; eassumption.
    + intros data [k name f rest s Hk Hn Eo Hst]. destruct (drain_number _ _ Hk) as [m Hm]. destruct (drain_at_run _ _ _ Hk Hm) as (d & pj & i & Hr & HX & _). destruct (drain_well _ _ _ _ _ _ Hr HX) as [_ Hw].
      assert (He : opened_for (actual_destination (location n (cf_drain c))) = Some (ECreate name)) by (rewrite Hn; reflexivity). destruct (Hw _ _ _ He Eo) as [_ Hw']. rewrite (Hw' _ Hst).
      rewrite (H5 _ (HO_drain c w cwd vars l n k _ f rest Hk He Eo)). split.
      * apply (perm_trans (mix_concat _ _ H4)). rewrite map_map. erewrite map_ext by (intros; apply messages_concat). reflexivity.
      * intros rs ->. cbn [map] in H4. rewrite (mix_one _ _ H4). apply messages_concat.
Qed.
End Prepared.

Theorem exit_delivers mc os sh typed c w cs : S_Manip.fair sh -> good_connections (cf_connection c) -> asked_to_run os typed c -> prepares sh c w cs -> (forall l, mc_settings mc l = l) ->
  passing (cf_connection c) -> apart (cf_connection c) -> forall ps, spelled (cf_connection c) ps ->
  forall cwd vars w0 l wl ocs time, free_run (net_of cwd vars w) cs w0 l wl ocs -> run_results ocs time w cs = Some (mc_run mc w cs) ->
  forall en, main mc os sh typed = Some (Good en) -> en_code en = 0 ->
  forall n ss, arrivals ps (CDrain, n) <> [] -> supplied ps (CDrain, n) ss -> Forall (at_end c w cwd vars l) ss /\
  exists rss, Forall2 (has_read c w cwd vars l) ss rss /\
  (forall name, actual_destination (location n (cf_drain c)) = ToFile name -> exists data, file_holds c w cwd vars l n data) /\
  forall data, file_holds c w cwd vars l n data -> Permutation data (concat (map (@concat _) rss)) /\ forall rs, rss = [rs] -> data = concat rs.
Proof.
  intros Hf Hg Ha Hp Hs Hpa Hap ps Hsp cwd vars w0 l wl ocs time HR Hr en Em Ec n ss. apply (delivered sh cwd vars c w cs Hf Hg Hp Hpa Hap w0 l wl ocs HR); [|exact Hsp].
  destruct (exit_reports mc os sh typed c w cs Hf Hg Ha Hp Hs cwd vars w0 l wl ocs time HR Hr) as (names & _ & [[_ H]|(es & _ & _ & E)]); [intros k Hk; apply H; now rewrite <- (net_length cwd vars w)|].
  rewrite Em in E. injection E as ->. discriminate Ec.
Qed.
