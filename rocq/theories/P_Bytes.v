(** * P_Bytes: bytes and lines *)
From Coq Require Import Ascii String List Bool Arith ZArith NArith Lia Permutation.
From Verif Require Import M_Prog M_Motion M_Config M_Manip M_Waiter S_Trace S_Lines S_Motion S_World S_Launch S_Regulator S_Drain S_Junction S_Network S_Net M_Start S_Start S_Shape S_Manip S_Waiter S_Watch S_Delay S_Flow S_Path S_Bytes P_Split P_Shape P_Watch P_Act P_Path P_SpringRun P_PathRun.
Import ListNotations.
Local Open Scope list_scope.

(** ** Mixes *)
Lemma mix_one {A} (a s : list A) : interleave [a] s -> s = a.
Proof.
  remember [a] as ls eqn:E. intros H. revert a E. induction H as [ls H|pre x l post s H IH]; intros a E; subst.
  - inversion H; subst; congruence.
  - destruct pre as [|? [|? ?]]; cbn in *; try discriminate. injection E as <- ->. now rewrite (IH l eq_refl).
Qed.
Lemma mix_concat (ls : list (list bytes)) s : interleave ls s -> Permutation (concat s) (concat (map (@concat _) ls)).
Proof.
  induction 1 as [ls H|pre x l post s _ IH]; cbn [concat].
  - replace (concat (map (@concat ascii) ls)) with (@nil ascii); [constructor|]. induction H as [|a ls -> _ IH]; [reflexivity|exact IH].
  - rewrite map_app, concat_app in *. cbn [map concat] in *. rewrite <- !app_assoc in *. apply (perm_trans (Permutation_app_head x IH)). rewrite !app_assoc. do 2 apply Permutation_app_tail. apply Permutation_app_comm.
Qed.
Lemma mix_map {A B} (f : A -> B) ls s : interleave ls s -> interleave (map (map f) ls) (map f s).
Proof.
  induction 1 as [ls H|pre x l post s _ IH]; cbn [map].
  - constructor. apply Forall_forall. intros y Hy. apply in_map_iff in Hy as (z & <- & Hz). now rewrite (proj1 (Forall_forall _ _) H _ Hz).
  - rewrite map_app in *. cbn [map] in *. now constructor.
Qed.
Lemma mix_in {A} (ls : list (list A)) s : interleave ls s -> forall x, In x s -> exists l, In l ls /\ In x l.
Proof.
  induction 1 as [ls H|pre y l post s _ IH]; intros x Hx; [destruct Hx|]. destruct Hx as [<-|Hx].
  - exists (y :: l). split; [apply in_or_app; right; now left|now left].
  - destruct (IH _ Hx) as (l' & H1 & H2). apply in_app_or in H1 as [H1|[<-|H1]]; [exists l'; split; [apply in_or_app; now left|exact H2]|exists (y :: l); split; [apply in_or_app; right; now left|now right]|exists l'; split; [apply in_or_app; right; now right|exact H2]].
Qed.

(** ** Lines *)
Lemma cut_line b : ~ In newline b -> forall cur r, cut cur (b ++ newline :: r) = (cur ++ b ++ [newline]) :: cut [] r.
Proof.
  induction b as [|a b IH]; intros Hb cur r; cbn [app cut].
  - rewrite Ascii.eqb_refl. reflexivity.
  - destruct (Ascii.eqb_spec a newline) as [->|_]; [exfalso; apply Hb; now left|]. rewrite IH by (intros H; apply Hb; now right). now rewrite <- app_assoc.
Qed.
Definition a_line (m : bytes) : Prop := exists b, ~ In newline b /\ m = b ++ [newline].
Lemma lines_of_lines ms : Forall a_line ms -> lines (concat ms) = ms.
Proof.
  unfold lines. induction 1 as [|m ms (b & Hb & ->) _ IH]; [reflexivity|]. cbn [concat]. rewrite <- app_assoc. cbn [app]. rewrite cut_line by exact Hb. now rewrite IH.
Qed.
Lemma full_all b : full_lines b -> Forall a_line (lines b).
Proof.
  intros H. apply Forall_forall. intros m Hm. apply in_split in Hm as (pre & post & E). pose proof (lines_concat b) as EC. unfold lines in E. destruct (cut_shape b [] ltac:(intros []) pre m post E) as (Hn & body & Hb & [->|[-> ->]]); [exists body; auto|].
  exfalso. unfold lines in EC. rewrite E, concat_app in EC. cbn [concat] in EC. rewrite app_nil_r in EC. destruct H as [->|(b' & ->)].
  - destruct body; [now apply Hn|]. destruct (concat pre); discriminate.
  - destruct (exists_last Hn) as (u & z & ->). rewrite app_assoc in EC. apply app_inj_tail in EC as [_ ->]. apply Hb, in_or_app. right. now left.
Qed.
Lemma no_line m : m <> [] -> ~ In newline m -> messages_of_reads [m] = [m].
Proof.
  intros Hn Hi. rewrite messages_eof_final by (destruct m; cbn; auto). cbn [concat]. rewrite app_nil_r. unfold lines. assert (H : forall cur b, ~ In newline b -> cut cur b = match cur ++ b with [] => [] | x => [x] end).
  { intros cur b. revert cur. induction b as [|a b IH]; intros cur Hb; cbn [cut]; [rewrite app_nil_r; destruct cur; reflexivity|]. destruct (Ascii.eqb_spec a newline) as [->|_]; [exfalso; apply Hb; now left|]. rewrite IH by (intros H; apply Hb; now right). now rewrite <- app_assoc. }
  rewrite H by exact Hi. destruct m; [now contradiction Hn|reflexivity].
Qed.
Lemma digits_no_line t : forall acc v, value_from acc t = Some v -> ~ In newline t.
Proof.
  induction t as [|a t IH]; intros acc v H; [intros []|]. cbn [value_from] in H. destruct (digit a) eqn:E; [|discriminate]. intros [->|Hin]; [vm_compute in E; discriminate|exact (IH _ _ H Hin)].
Qed.
Lemma exit_message_alone code m : exit_text code m -> messages_of_reads [m] = [m].
Proof.
  assert (HN : forall n t, S_Launch.number n t -> t <> [] /\ ~ In newline t) by (intros n t (H1 & H2 & _); split; [exact H1|exact (digits_no_line _ _ _ H2)]).
  destruct code as [z|]; cbn [exit_text]; [|intros ->; reflexivity]. unfold decimal. destruct (z <? 0)%Z; intros H.
  - destruct H as (r & -> & H). destruct (HN _ _ H) as [_ H2]. apply no_line; [discriminate|]. intros [E|Hin]; [discriminate E|contradiction].
  - destruct (HN _ _ H) as [H1 H2]. now apply no_line.
Qed.

Section Path.
Variables (sh : shuffles) (cwd : option string) (vars : list (string * string)) (c : config) (w : waiter) (cs : list capture).
Hypothesis Hf : S_Manip.fair sh.
Hypothesis Hgc : good_connections (cf_connection c).
Hypothesis Hpr : prepares sh c w cs.
Notation net := (net_of cwd vars w).
Variable ps : list (connection * connection).
Hypothesis Hsp : spelled (cf_connection c) ps.
Hypothesis Hpa : passing (cf_connection c).
Section Runs.
Variables (w0 : world) (l : list nevent) (wl : world) (ocs : nat -> S_Net.outcome) (x : component).
Hypothesis Ht : fst x = CDrain \/ fst x = CLaunch.
Hypothesis Ha : arrivals ps x <> [].
Hypothesis Hap : apart (cf_connection c).
Hypothesis HR : free_run net cs w0 l wl ocs.
Lemma given_read s ms : has_given c w cwd vars l s ms -> exists rs, has_read c w cwd vars l s rs /\ ms = messages_of_reads rs.
Proof.
  intros H. inversion H as [n k Hk|n k fin fout ferr Hk Hc|n k fin fout ferr Hk Hc|n k code m Hk Hc Hx|n k o Hk Ho Hc|n k Hk Hc]; subst.
  - pose proof Hk as (f & _ & Hnk). destruct (prepared_shape sh cwd vars c w cs Hf Hgc Hpr Hpa Hap) as (HN & _). destruct (faucet_first net cs w0 l wl ocs HN HR k f _ Hnk) as [E|(a & rest & E & _)].
    + exists []. split; [apply HR_unopened with (k := k); [exact Hk|intros; rewrite E; discriminate]|]. rewrite E. reflexivity.
    + destruct (match a with AFd d => Some d | _ => None end) as [d|] eqn:Ea.
      * destruct a; try discriminate Ea. injection Ea as ->. eexists. split; [eapply HR_faucet; [exact Hk|exact E]|]. rewrite (read_head _ _ _ _ E). reflexivity.
      * exists []. split; [apply HR_unopened with (k := k); [exact Hk|]; intros e d rest'; rewrite E; intros [= _ -> _]; discriminate|]. rewrite (read_head _ _ _ _ E). destruct a; try reflexivity. discriminate.
  - eexists. split; [eapply HR_out; eassumption|reflexivity].
  - eexists. split; [eapply HR_err; eassumption|reflexivity].
  - exists [m]. split; [eapply HR_exit; eassumption|]. symmetry. exact (exit_message_alone _ _ Hx).
  - exists []. split; [eapply HR_none; eassumption|reflexivity].
  - exists []. split; [eapply HR_running; eassumption|reflexivity].
Qed.
Lemma given_reads ss mss : Forall2 (has_given c w cwd vars l) ss mss -> exists rss, Forall2 (has_read c w cwd vars l) ss rss /\ mss = map messages_of_reads rss.
Proof.
  induction 1 as [|s ms ss mss H _ (rss & H1 & ->)]; [exists []; split; [constructor|reflexivity]|]. destruct (given_read _ _ H) as (rs & H2 & ->). exists (rs :: rss). split; [now constructor|reflexivity].
Qed.
Lemma prefix_concat (a b : list bytes) : prefix a b -> prefix (concat a) (concat b).
Proof. intros (r & ->). exists (concat r). apply concat_app. Qed.
Theorem copied_so_far s ms : supplied ps x [s] -> has_got c w cwd vars l x ms -> exists rs, has_read c w cwd vars l s rs /\ prefix (concat ms) (concat rs).
Proof.
  intros Hs Hg. destruct (path_begins sh cwd vars c w cs Hf Hgc Hpr ps Hsp Hpa w0 l wl ocs x [s] Ht Ha Hs Hap HR ms Hg) as (mss & pss & H1 & H2 & H3). destruct (given_reads _ _ H1) as (rss & H4 & ->).
  inversion H4 as [|? rs ? rss' H5 H6]; subst. inversion H6; subst. exists rs. split; [exact H5|]. inversion H2 as [|p1 ? pss' ? H7 H8]; subst. inversion H8; subst. rewrite (mix_one _ _ H3), <- (messages_concat rs). apply prefix_concat; exact H7.
Qed.
Section End.
Variable ss : list M_Manip.source.
Hypothesis Hs : supplied ps x ss.
Hypothesis HW : willing l.
Hypothesis HA : all_succeeded net ocs.
Theorem ended_reads : exists rss, Forall2 (has_read c w cwd vars l) ss rss /\ forall ms, has_got c w cwd vars l x ms -> interleave (map messages_of_reads rss) ms.
Proof.
  destruct (path_ends sh cwd vars c w cs Hf Hgc Hpr ps Hsp Hpa w0 l wl ocs x ss Ht Ha Hs Hap HR HW HA) as (_ & _ & mss & ms & H1 & H2 & H3). destruct (given_reads _ _ H1) as (rss & H4 & ->). exists rss. split; [exact H4|]. intros ms' Hg. now rewrite (H3 _ Hg).
Qed.
Theorem same_bytes : exists rss, Forall2 (has_read c w cwd vars l) ss rss /\ forall ms, has_got c w cwd vars l x ms -> Permutation (concat ms) (concat (map (@concat _) rss)).
Proof.
  destruct ended_reads as (rss & H1 & H2). exists rss. split; [exact H1|]. intros ms Hg. apply (perm_trans (mix_concat _ _ (H2 _ Hg))). rewrite map_map. erewrite map_ext by (intros; apply messages_concat). reflexivity.
Qed.
Theorem whole_lines : exists rss, Forall2 (has_read c w cwd vars l) ss rss /\
  (Forall (fun rs => eof_final rs /\ full_lines (concat rs)) rss -> forall ms, has_got c w cwd vars l x ms -> interleave (map (fun rs => lines (concat rs)) rss) (lines (concat ms))).
Proof.
  destruct ended_reads as (rss & H1 & H2). exists rss. split; [exact H1|]. intros HF ms Hg. specialize (H2 _ Hg). assert (E : map messages_of_reads rss = map (fun rs => lines (concat rs)) rss).
  { apply map_ext_in. intros rs Hin. apply messages_eof_final. exact (proj1 (proj1 (Forall_forall _ _) HF _ Hin)). }
  rewrite E in H2. rewrite lines_of_lines; [exact H2|]. apply Forall_forall. intros m Hm. destruct (mix_in _ _ H2 _ Hm) as (ms' & H3 & H4). apply in_map_iff in H3 as (rs & <- & Hin). destruct (proj1 (Forall_forall _ _) HF _ Hin) as [_ Hl]. exact (proj1 (Forall_forall _ _) (full_all _ Hl) _ H4).
Qed.
End End.
Theorem copied s : supplied ps x [s] -> willing l -> all_succeeded net ocs -> exists rs, has_read c w cwd vars l s rs /\ forall ms, has_got c w cwd vars l x ms -> concat ms = concat rs.
Proof.
  intros Hs HW HA. destruct (ended_reads [s] Hs HW HA) as (rss & H1 & H2). inversion H1 as [|? rs ? rss' H3 H4]; subst. inversion H4; subst. exists rs. split; [exact H3|]. intros ms Hg. cbn [map] in H2. rewrite (mix_one _ _ (H2 _ Hg)). apply messages_concat.
Qed.
End Runs.
End Path.

(** ** One reading only *)
Section Once.
Variables (c : config) (w : waiter) (cwd : option string) (vars : list (string * string)) (l : list nevent).
Lemma read_given s rs : has_read c w cwd vars l s rs -> has_given c w cwd vars l s (messages_of_reads rs).
Proof.
  intros H. destruct H as [n k d rest Hk E|n k Hk E|n k fin fout ferr Hk Hc|n k fin fout ferr Hk Hc|n k code m Hk Hc Hx|n k o Hk Ho Hc|n k Hk Hc].
  - rewrite <- (read_head _ _ (AFd d) rest E). now apply HG_faucet.
  - replace (messages_of_reads []) with (read_from (own (4 * k) l)); [now apply HG_faucet|]. unfold read_from. destruct (own (4 * k) l) as [|[e a] rest]; [reflexivity|]. destruct a; try reflexivity. exfalso. exact (E _ _ _ eq_refl).
  - eapply HG_out; eassumption.
  - eapply HG_err; eassumption.
  - rewrite (exit_message_alone _ _ Hx). eapply HG_exit; eassumption.
  - eapply HG_none; eassumption.
  - eapply HG_running; eassumption.
Qed.
End Once.
Theorem read_once sh cwd vars c w cs : S_Manip.fair sh -> good_connections (cf_connection c) -> prepares sh c w cs ->
  forall ps, spelled (cf_connection c) ps -> passing (cf_connection c) -> apart (cf_connection c) ->
  forall l x ss s, fst x = CDrain \/ fst x = CLaunch -> arrivals ps x <> [] -> supplied ps x ss -> In s ss ->
  forall rs rs', has_read c w cwd vars l s rs -> has_read c w cwd vars l s rs' -> concat rs' = concat rs.
Proof.
  intros Hf Hgc Hpr ps Hsp Hpa Hap l x ss s Ht Ha Hs Hin rs rs' H H'. rewrite <- (messages_concat rs), <- (messages_concat rs').
  now rewrite (given_once sh cwd vars c w cs Hf Hgc Hpr ps Hsp Hpa Hap l x ss s Ht Ha Hs Hin _ _ (read_given _ _ _ _ _ _ _ H) (read_given _ _ _ _ _ _ _ H')).
Qed.

(** ** When nothing moves any more *)
Theorem copied_still sh cwd vars c w cs : S_Manip.fair sh -> good_connections (cf_connection c) -> prepares sh c w cs ->
  forall ps, spelled (cf_connection c) ps -> passing (cf_connection c) -> no_loop (cf_connection c) ->
  forall w0 l wl ocs, whole_run (net_of cwd vars w) cs w0 l wl ocs -> willing l -> whole_locked (net_of cwd vars w) cs w0 l ->
  (exists k m cp, ocs k = Going /\ choked (net_of cwd vars w) cs l wl k m cp) \/
  forall x s, fst x = CDrain \/ fst x = CLaunch -> arrivals ps x <> [] -> supplied ps x [s] -> exists rs, has_read c w cwd vars l s rs /\ forall ms, has_got c w cwd vars l x ms -> concat ms = concat rs.
Proof.
  intros Hf Hgc Hpr ps Hsp Hpa Hno w0 l wl ocs HR HW HL. destruct (prepared_standstill sh cwd vars c w cs Hf Hgc Hpr Hpa Hno w0 l wl ocs HR HW HL) as [HE|HC]; [right|left; exact HC].
  intros x s Ht Ha Hs. apply (copied sh cwd vars c w cs Hf Hgc Hpr ps Hsp Hpa w0 l wl ocs x Ht Ha (loops_apart _ (no_loop_buffered _ Hno)) (proj1 HR) s Hs HW). intros k Hk. apply HE. lia.
Qed.
Lemma exit_no_line code m : exit_text code m -> m <> [] /\ ~ In newline m.
Proof.
  assert (HN : forall n t, S_Launch.number n t -> t <> [] /\ ~ In newline t) by (intros n t (H1 & H2 & _); split; [exact H1|exact (digits_no_line _ _ _ H2)]).
  destruct code as [z|]; cbn [exit_text]; [|intros ->; split; [discriminate|]; vm_compute; intuition discriminate]. unfold decimal. destruct (z <? 0)%Z; intros H; [|exact (HN _ _ H)].
  destruct H as (r & -> & H). destruct (HN _ _ H) as [_ H2]. split; [discriminate|]. intros [E|Hin]; [discriminate E|contradiction].
Qed.
