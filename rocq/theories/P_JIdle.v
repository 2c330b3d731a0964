(** * P_JIdle: junctions go on, and do not ask in vain for ever *)
From Coq Require Import Ascii String List Bool Arith Lia ZArith.
From Verif Require Import M_Prog P_Prog P_Exec M_Motion M_BackOff M_Utils M_Junction S_Trace S_Lines S_Motion S_Junction
  P_Split P_Read P_Motion P_Worker P_Flow P_Utils P_Ask P_Pass P_Junction P_JStart P_Phase P_JPass P_Respond.
Import ListNotations.

(** ** It goes on when answered *)
Lemma resp_jmw : forall pulls i pushs spy fin rf sk, responds (jmw_loop pulls i pushs spy fin rf sk).
Proof.
  induction pulls as [|p pulls IH]; intros; cbn [jmw_loop]; [apply resp_ret|]. destruct (existsb _ _).
  - apply resp_bind; [apply IH|]. intros tr [[r rest'] pushs'] _. apply resp_ret.
  - apply resp_bind; [apply resp_worker|]. intros tr [[[w|e] p'] pushs'] _; [|apply resp_ret]. apply resp_bind; [apply IH|]. intros tr' [[r rest'] pushs''] _. apply resp_ret.
Qed.
Lemma resp_groups : forall groups gi pushs spy fin count, responds (groups_loop groups gi pushs spy fin count).
Proof.
  induction groups as [|g groups IH]; intros; cbn [groups_loop]; [apply resp_ret|]. apply resp_bind; [apply resp_jmw|]. intros tr [[[o|e] g'] pushs'] _; [|apply resp_ret].
  destruct (_ <? _); [apply resp_ret|]. apply resp_bind; [apply IH|]. intros tr' [[r rest'] pushs''] _. apply resp_ret.
Qed.
Lemma resp_remove_all : forall fins stdin, responds (remove_all fins stdin).
Proof.
  induction fins as [|[a b] fins IH]; intros; cbn [remove_all]; [apply resp_ret|]. destruct (remove_vec_vec_index stdin a b) as [[p|] s']; [|apply IH].
  apply resp_bind; [apply resp_drop_pull|]. intros. apply IH.
Qed.
Lemma resp_junction_body spy s : responds (junction_body spy s).
Proof.
  destruct s as [[[groups outs] bo] count]. unfold junction_body. apply resp_bind.
  - unfold junction_iteration. apply resp_bind; [apply resp_groups|]. intros tr [[[ps|e] g1] p1] _; [|apply resp_ret]. apply resp_bind; [apply resp_remove_all|]. intros tr' st2 _.
    destruct (remove_vec_vec st2).
    + apply resp_bind; [apply resp_close_all|]. intros tr2 [u|e] _; apply resp_ret.
    + apply resp_bind; [|intros tr2 [u b] _; apply resp_ret]. destruct (ps_any_read ps); [apply resp_ret|]. unfold back_off_wait. apply resp_bind; [apply resp_sleep|]. intros; apply resp_ret.
  - intros tr [[[[|] n]|e] st'] _; try apply resp_ret. apply resp_bind; [apply resp_drop_pulls|]. intros; apply resp_ret.
Qed.

(** ** One pass *)
Section Vain.
Variables (groups : list (list pull)) (outs : list push) (spy : option nat) (bo : back_off).
Hypothesis Hrecv : Forall (Forall receiver) groups.
Hypothesis Houts : Forall io_sender outs.

(** A sleep comes after asking somebody in vain; a pass that is not the last sleeps or has learnt something. *)
Definition VN (h : trace) (e : eff) : Prop := match e with ESleep _ => exists b, h = map vain b /\ b <> [] | _ => True end.
Definition telling (ev : event) : Prop := forall n, ev <> vain n.
Definition VQ (h : trace) (r : mres (bool * nat) * junction_state) : Prop :=
  match fst r with Ok (false, _) => exists ev, In ev h /\ telling ev | _ => True end.

Lemma telling_some w : acts w -> length (arrivals w) + length (ends w) <> 0 -> exists ev, In ev w /\ telling ev.
Proof.
  intros HA H. induction w as [|[e a] w IH]; [destruct H; reflexivity|]. inversion HA; subst.
  destruct e as [c|c| | | | | | | | | | | | | | | |]; try (exists (ESpawn (Spawning "" None [] [] true true true), a); fail);
    try (destruct (IH H3 H) as (ev & K1 & K2); exists ev; split; [now right|exact K2]).
  destruct c as [n| | | |]; try (destruct (IH H3 H) as (ev & K1 & K2); exists ev; split; [now right|exact K2]).
  destruct a; try (eexists; split; [now left|]; intros m E; discriminate E).
  destruct (IH H3 H) as (ev & K1 & K2). exists ev. split; [now right|exact K2].
Qed.
Lemma remove_all_vain : forall fins stdin h, sat h (remove_all fins stdin) VN (fun h' r => (exists w, h' = h ++ w) /\ (fins = [] -> h' = h /\ r = stdin)).
Proof.
  induction fins as [|[i0 i1] fins IH]; intros stdin h; cbn [remove_all]; [apply sat_ret; split; [exists []; now rewrite app_nil_r|auto]|].
  assert (G : forall h1 s, (exists w, h1 = h ++ w) -> sat h1 (remove_all fins s) VN (fun h' r => (exists w, h' = h ++ w) /\ ((i0, i1) :: fins = [] -> h' = h /\ r = stdin))).
  { intros h1 s (w & ->). eapply sat_conseq; [apply IH|auto|]. intros h' r ((w' & ->) & _). split; [|discriminate]. exists (w ++ w'). now rewrite app_assoc. }
  destruct (remove_vec_vec_index stdin i0 i1) as [[p|] stdin']; [|apply G; exists []; now rewrite app_nil_r].
  apply sat_bind. destruct p; cbn [drop_pull]; try (apply sat_ret; apply G; exists []; now rewrite app_nil_r);
    (apply sat_vis; [exact I|]; intros a Ha; destruct a; try discriminate Ha; apply sat_ret; apply G; eauto).
Qed.
Lemma pass_vain : sat [] (junction_iteration (groups, outs, bo) spy) VN VQ.
Proof.
  unfold junction_iteration. apply sat_bind. eapply sat_conseq; [apply (groups_sat outs spy Houts groups 0 [] [] [] 0 VN Hrecv)|auto|].
  - repeat split; constructor.
  - intros pre g post a p b w l' E1 E2 Ha _ _ _. exact I.
  - intros w e Hb _. destruct e; try exact I. exfalso. destruct Hb as [(l & _ & H)|(l & d & done & rest & os & _ & [H|(p & rest' & _ & H)])]; [exact H|exact H|]. destruct p; discriminate H.
  - intros h1 [[r g1] p1] (r0 & w & E & -> & Hac & HP). inversion E; subst. cbn beta iota. destruct r0 as [ps|e]; [|now apply sat_ret].
    destruct HP as (l' & _ & _ & HP). apply sat_bind. eapply sat_conseq; [apply remove_all_vain|auto|]. intros h2 stdin2 ((w2 & E2) & HF). cbn [app] in E2, HF. subst h2.
    destruct (remove_vec_vec stdin2) as [|x xs] eqn:Erm.
    + apply sat_bind. eapply sat_conseq; [apply (close_all_senders VN outs _ Houts)|auto|]; [intros; exact I|]. intros h3 r (-> & ->). apply sat_ret. exact I.
    + apply sat_bind. destruct HP as [(Ha & Hf & Hw)|(Ha & pre & g & post & res & w' & _ & _ & _ & _ & _ & Hn & _)]; rewrite Ha.
      * rewrite Hf in HF. destruct (HF eq_refl) as [HF1 HF2]. cbn [rev] in HF1, HF2. rewrite HF1. subst stdin2.
        unfold back_off_wait. apply sat_bind. unfold sleep. apply sat_vis.
        -- exists (chans (concat groups)). split; [exact Hw|]. intro E0. apply map_eq_nil in E0.
           assert (HN : remove_vec_vec groups = []); [|rewrite HN in Erm; discriminate Erm].
           clear - E0. rewrite remove_vec_vec_spec. induction groups as [|g gs IH]; [reflexivity|]. cbn in E0. apply app_eq_nil in E0. destruct E0 as [-> E0]. cbn. apply IH, E0.
        -- intros a Hwt. destruct a; try discriminate Hwt. apply sat_ret, sat_ret, sat_ret. cbn. eexists. split; [apply in_or_app; right; now left|]. intros m E0. discriminate E0.
      * apply sat_ret, sat_ret. cbn. destruct (telling_some _ Hac Hn) as (ev & K1 & K2). exists ev. split; [apply in_or_app; now left|exact K2].
Qed.
End Vain.

Section Body.
Variables (j : junction) (spy : option nat).
Hypothesis HR : junction_ready j.
Let outs := jn_stdout j.
Let ins := in_chans j.
Notation JI := (JI outs ins (prio_of (jn_inputs j)) (first_inputs j)).

Lemma ji_small h groups bo count : JI h groups bo count -> length (chans (concat groups)) <= length ins.
Proof. intros []. apply NoDup_incl_length; assumption. Qed.

Lemma body_start groups bo count tr st : JI [] groups bo count \/ Forall (Forall receiver) groups -> exec (junction_body spy ((groups, outs, bo), count)) tr st ->
  prefix (asked tr) (chans (concat groups)) /\ (forall s, st = Done (inl s) -> exists ev, In ev tr /\ telling ev) /\
  (forall ms, st = At (ESleep ms) -> exists b, tr = map vain b /\ b <> []).
Proof.
  intros HJ HX. assert (Hrecv : Forall (Forall receiver) groups) by (destruct HJ as [[]|]; assumption). clear HJ.
  pose proof (Houts j HR) as HO. fold outs in HO. unfold junction_body in HX.
  destruct (exec_bind_inv _ _ _ _ HX) as [(t1 & t2 & [r st'] & -> & H1 & H2)|[(e & -> & H1)|(s & -> & H1)]].
  - destruct (pass_asks groups outs spy bo Hrecv HO _ _ H1) as [HA _]. pose proof (pass_vain groups outs spy bo Hrecv HO _ _ H1) as HV. cbn in HV.
    destruct r as [[[|] n]|e].
    + apply exec_ret_inv in H2. destruct H2 as [-> ->]. rewrite app_nil_r. split; [exact HA|]. split; discriminate.
    + apply exec_ret_inv in H2. destruct H2 as [-> ->]. rewrite app_nil_r. split; [exact HA|]. split; [intros s _; exact HV|discriminate].
    + assert (HC : within_eff (fun e => exists c, e = EClose c \/ exists f, e = EDropFd f) t2 /\ match st with At e => (exists c, e = EClose c \/ exists f, e = EDropFd f) | Done (inl _) => False | _ => True end).
      { assert (W : works (fun e => exists c, e = EClose c \/ exists f, e = EDropFd f) (fun x => match x with inl _ => False | _ => True end) (drop_pulls (concat (fst (fst st'))) ;;; Ret (@inr (junction_state * nat) _ (Err (A := nat) e)))).
        { apply works_bind with (Q := fun _ => True); [|intros; now apply works_ret]. clear H2. induction (concat (fst (fst st'))) as [|p ps IH]; cbn [drop_pulls]; [now apply works_ret|].
          apply works_bind with (Q := fun _ => True); [|intros; exact IH]. destruct p; cbn [drop_pull]; try (now apply works_ret); [apply works_drop_fd; exists (CData 0); eauto|apply works_close; eauto]. }
        exact (W _ _ H2). }
      destruct HC as [HC1 HC2]. assert (E : asked t2 = []).
      { clear - HC1. induction HC1 as [|[e a] t (c & [H|(f & H)]) _ IH]; [reflexivity| |]; cbn in H; subst e; exact IH. }
      rewrite asked_app, E, app_nil_r. split; [exact HA|]. split; [intros s ->; contradiction HC2|]. intros ms ->. destruct HC2 as (c & [K|(f & K)]); discriminate K.
  - destruct (pass_asks groups outs spy bo Hrecv HO _ _ H1) as [HA _]. pose proof (pass_vain groups outs spy bo Hrecv HO _ _ H1) as HV. cbn in HV.
    split; [exact HA|]. split; [discriminate|]. intros ms E. injection E as ->. exact HV.
  - destruct (pass_asks groups outs spy bo Hrecv HO _ _ H1) as [HA _]. split; [exact HA|]. split; discriminate.
Qed.

Definition JInv (s : junction_state * nat) : Prop := exists h, let '((groups, outs', bo), count) := s in outs' = outs /\ JI h groups bo count.
Lemma body_inv s tr s' : JInv s -> exec (junction_body spy s) tr (Done (inl s')) -> JInv s'.
Proof.
  destruct s as [[[groups outs'] bo] count]. intros (h & -> & HJ) HX.
  pose proof (body_sat outs spy ins (prio_of (jn_inputs j)) (first_inputs j) (Houts j HR) h groups bo count HJ _ _ HX) as H. cbn in H.
  destruct s' as [[[groups' outs''] bo'] count']. exists (h ++ tr). exact H.
Qed.
Lemma resp_junction_iter s : JInv s -> responds (iter (junction_body spy) s).
Proof.
  apply (resp_iter _ JInv); [intros; apply resp_junction_body|]. intros i tr i' Hi HX. split; [eapply body_inv; eassumption|].
  destruct i as [[[groups outs'] bo] count]. destruct Hi as (h & -> & HJ). destruct (body_start _ _ _ _ _ (or_intror (ji_recv _ _ _ _ _ _ _ _ HJ)) HX) as (_ & H & _).
  destruct (H _ eq_refl) as (ev & K & _). intros ->. destruct K.
Qed.

Lemma vains_asked b : asked (map vain b) = b.
Proof. apply vains_quiet. Qed.
Lemma prefix_length {X} (a b : list X) : prefix a b -> length a <= length b.
Proof. intros (c & ->). rewrite app_length. lia. Qed.

Lemma vains_only s b st : JInv s -> exec (iter (junction_body spy) s) (map vain b) st -> length b <= length ins.
Proof.
  destruct s as [[[groups outs'] bo] count]. intros (h & -> & HJ) HX.
  assert (G : forall st', exec (junction_body spy (groups, outs, bo, count)) (map vain b) st' -> length b <= length ins).
  { intros st' H. destruct (body_start _ _ _ _ _ (or_intror (ji_recv _ _ _ _ _ _ _ _ HJ)) H) as (HA & _). rewrite vains_asked in HA. apply prefix_length in HA.
    pose proof (ji_small _ _ _ _ HJ). lia. }
  destruct (exec_iter_inv _ _ _ _ HX) as [(t1 & t2 & i' & E & H1 & H2)|[(r & _ & H)|[(e & _ & H)|(m & _ & H)]]]; try (eapply G; exact H).
  exfalso. destruct (body_start _ _ _ _ _ (or_intror (ji_recv _ _ _ _ _ _ _ _ HJ)) H1) as (_ & H & _). destruct (H _ eq_refl) as (ev & K1 & K2).
  assert (K : In ev (map vain b)) by (rewrite E; apply in_or_app; now left). apply in_map_iff in K. destruct K as (n & K & _). exact (K2 n (eq_sym K)).
Qed.
(** No more than two rounds of asking in vain without anything else. *)
Lemma vains_iter : forall x s b st, JInv s -> exec (iter (junction_body spy) s) (x ++ map vain b) st -> length b <= 2 * length ins.
Proof.
  intro x. remember (length x) as n eqn:En. revert x En. induction n as [n IH] using lt_wf_ind. intros x En s b st HI HX.
  destruct s as [[[groups outs'] bo] count]. assert (HI' := HI). destruct HI' as (h & -> & HJ).
  assert (G : forall y st', exec (junction_body spy (groups, outs, bo, count)) (y ++ map vain b) st' -> length b <= length ins).
  { intros y st' H. destruct (body_start _ _ _ _ _ (or_intror (ji_recv _ _ _ _ _ _ _ _ HJ)) H) as (HA & _). rewrite asked_app, vains_asked in HA. apply prefix_length in HA. rewrite app_length in HA.
    pose proof (ji_small _ _ _ _ HJ). lia. }
  destruct (exec_iter_inv _ _ _ _ HX) as [(t1 & t2 & i' & E & H1 & H2)|[(r & _ & H)|[(e & _ & H)|(m & _ & H)]]]; try (apply G in H; lia).
  pose proof (body_inv _ _ _ HI H1) as HI2. destruct (body_start _ _ _ _ _ (or_intror (ji_recv _ _ _ _ _ _ _ _ HJ)) H1) as (HA & Ht & _). destruct (Ht _ eq_refl) as (ev & K1 & K2).
  destruct (app_eq_app _ _ _ _ E) as (m & [[E1 E2]|[E1 E2]]).
  - subst x t2. assert (length m < n) by (subst n; rewrite app_length; destruct t1; [destruct K1|cbn; lia]). eapply (IH _ H m eq_refl); eassumption.
  - apply map_eq_app in E2. destruct E2 as (b1 & b2 & -> & <- & <-). apply (vains_only _ _ _ HI2) in H2. subst t1.
    rewrite asked_app, vains_asked in HA. apply prefix_length in HA. rewrite app_length in HA. rewrite app_length. pose proof (ji_small _ _ _ _ HJ). lia.
Qed.
(** Before every sleep somebody has been asked in vain. *)
Lemma sleep_iter : forall tr s ms, JInv s -> exec (iter (junction_body spy) s) tr (At (ESleep ms)) -> exists a n, tr = a ++ [vain n].
Proof.
  intro tr. remember (length tr) as n eqn:En. revert tr En. induction n as [n IH] using lt_wf_ind. intros tr En s ms HI HX.
  destruct s as [[[groups outs'] bo] count]. assert (HI' := HI). destruct HI' as (h & -> & HJ).
  destruct (exec_iter_inv _ _ _ _ HX) as [(t1 & t2 & i' & -> & H1 & H2)|[(r & E & _)|[(e & E & H)|(m & E & _)]]]; try discriminate E.
  - pose proof (body_inv _ _ _ HI H1) as HI2. destruct (body_start _ _ _ _ _ (or_intror (ji_recv _ _ _ _ _ _ _ _ HJ)) H1) as (_ & Ht & _). destruct (Ht _ eq_refl) as (ev & K1 & _).
    assert (HL : length t2 < n) by (subst n; rewrite app_length; destruct t1; [destruct K1|cbn; lia]). destruct (IH _ HL t2 eq_refl _ _ HI2 H2) as (a & m & ->). exists (t1 ++ a), m. now rewrite app_assoc.
  - injection E as <-. destruct (body_start _ _ _ _ _ (or_intror (ji_recv _ _ _ _ _ _ _ _ HJ)) H) as (_ & _ & Hs). destruct (Hs _ eq_refl) as (b & -> & Hb).
    destruct (exists_last Hb) as (b' & m & ->). exists (map vain b'), m. apply map_app.
Qed.

Lemma junction_as_iter : exists s, JInv s /\ junction_start j spy = iter (junction_body spy) s.
Proof.
  unfold junction_start. destruct HR as (E & _). rewrite E.
  assert (EO : jn_stdout (initialize_stdin j) = outs).
  { unfold initialize_stdin. now destruct (fold_left init_step (sort_inputs (jn_inputs j)) (jn_stdin j, 0%Z)). }
  rewrite EO. eexists. split; [|reflexivity]. exists []. split; [reflexivity|]. apply start_JI. exact HR.
Qed.
Lemma resp_junction : responds (junction_start j spy).
Proof. destruct junction_as_iter as (s & HI & ->). now apply resp_junction_iter. Qed.
Lemma vains_short x b st : exec (junction_start j spy) (x ++ map vain b) st -> length b <= 2 * length (in_chans j).
Proof. destruct junction_as_iter as (s & HI & ->). now apply vains_iter. Qed.
Lemma sleep_after tr ms : exec (junction_start j spy) tr (At (ESleep ms)) -> exists a n, tr = a ++ [vain n].
Proof. destruct junction_as_iter as (s & HI & ->). now apply sleep_iter. Qed.
End Body.
