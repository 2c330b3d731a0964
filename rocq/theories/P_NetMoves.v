(** * P_NetMoves: a component of a network that has not ended moves, or waits for its neighbours *)
From Coq Require Import Ascii String List Bool Arith Lia.
From Verif Require Import M_Prog P_Prog P_Exec M_Motion M_Regulator M_Faucet M_Drain M_Buffer M_Junction M_Launch M_Join S_Trace S_Lines S_Motion S_World S_Launch S_Regulator S_Drain S_Buffer S_Junction S_Network S_Net
  P_Reach P_Split P_Read P_Motion P_Worker P_Flow P_World P_Utils P_Ask P_Pass P_Copy P_Control P_Drain P_Launch P_Buffer P_BufferJoint P_BufferRun P_BufferEnd P_Link P_Junction P_JStart P_Phase P_Conduit P_Network P_JPass P_Respond P_JIdle P_NetComp.
Import ListNotations.

(** ** Runs and the events of others *)
Definition foreign (F : list nevent) : Prop := forall i ev, In (i, ev) F -> 4 <= i.
Lemma own_foreign F i : foreign F -> i < 4 -> own i F = [].
Proof.
  intros HF Hi. induction F as [|[k ev] F IH]; [reflexivity|]. rewrite own_one, IH by (intros i' ev' K; apply (HF i' ev'); now right).
  pose proof (HF k ev (or_introl eq_refl)). destruct (Nat.eqb_spec k i); [lia|reflexivity].
Qed.
Lemma idle_foreign is L F : foreign F -> (forall i, In i is -> i < 4) -> idle is L -> idle is (L ++ F).
Proof. intros HF Hs HI i Hin. now rewrite own_app, (HI i Hin), (own_foreign F i HF (Hs i Hin)). Qed.
Lemma small_three : forall i, In i [1; 2; 3] -> i < 4.
Proof. cbn. lia. Qed.
Lemma small_zero : forall i, In i [0] -> i < 4.
Proof. cbn. lia. Qed.
Lemma joined_foreign {X A B C R} (pre : prog (R + X)) p1 p2 p3 (post : X -> A -> B -> C -> prog R) L st F :
  joined pre p1 p2 p3 post L st -> foreign F -> joined pre p1 p2 p3 post (L ++ F) st.
Proof.
  intros HX HF. assert (HO : forall i l, i < 4 -> own i (l ++ F) = own i l) by (intros i l Hi; now rewrite own_app, (own_foreign F i HF Hi), app_nil_r).
  destruct HX as [L e Hi HX|L s Hi HX|L r Hi HX|L0 L x a b c K0 K1 HX HA HB HZ|L0 L L1 x a b c st K0 K1 K2 HX HA HB HZ HP].
  - constructor; [apply idle_foreign; [exact HF|exact small_three|exact Hi]|now rewrite HO by lia].
  - constructor; [apply idle_foreign; [exact HF|exact small_three|exact Hi]|now rewrite HO by lia].
  - constructor; [apply idle_foreign; [exact HF|exact small_three|exact Hi]|now rewrite HO by lia].
  - rewrite <- app_assoc. econstructor; [exact K0|apply idle_foreign; [exact HF|exact small_zero|exact K1]|exact HX|now rewrite HO by lia..].
  - rewrite <- !app_assoc. econstructor; [exact K0|exact K1|apply idle_foreign; [exact HF|exact small_three|exact K2]|exact HX|exact HA|exact HB|exact HZ|now rewrite HO by lia].
Qed.
Lemma alone_foreign p L st F : alone p L st -> foreign F -> alone p (L ++ F) st.
Proof.
  intros (HI & s & E & HX) HF. split; [apply idle_foreign; [exact HF|exact small_three|exact HI]|]. exists s. split; [exact E|]. now rewrite own_app, (own_foreign F 0 HF), app_nil_r by lia.
Qed.
Lemma comp_foreign c L oc F : comp_runs c L oc -> foreign F -> comp_runs c (L ++ F) oc.
Proof.
  intros HX HF. destruct c; destruct HX as (st & HX & H); exists st; (split; [first [now apply alone_foreign|now apply joined_foreign]|exact H]).
Qed.

(** ** Runs that go on *)
Definition by_task (t : nat) (s : trace) : list nevent := map (pair t) s.
Lemma own_by t i s : own i (by_task t s) = if t =? i then s else [].
Proof. induction s as [|ev s IH]; [now destruct (t =? i)|]. unfold by_task in *. cbn [map]. rewrite own_one, IH. now destruct (t =? i). Qed.
Lemma all_by t s : all_of (by_task t s) = s.
Proof. unfold all_of, by_task. rewrite map_map. apply map_id. Qed.
Lemma idle_by is L t s : idle is L -> ~ In t is -> idle is (L ++ by_task t s).
Proof. intros HI Ht i Hin. rewrite own_app, (HI i Hin), own_by. destruct (Nat.eqb_spec t i); [subst; contradiction|reflexivity]. Qed.

Section Join.
Context {X A B C R : Type} (pre : prog (R + X)) (p1 : X -> prog A) (p2 : X -> prog B) (p3 : X -> prog C) (post : X -> A -> B -> C -> prog R).
Definition runs_on (L : list nevent) : Prop := exists st, joined pre p1 p2 p3 post L st /\ moved_on st.
Definition goes_on (L : list nevent) (t : nat) {Y} (p : prog Y) (tr : trace) : Prop := forall s st, exec p (tr ++ s) st -> runs_on (L ++ by_task t s).
Hypothesis H1 : forall tr x, exec pre tr (Done (inr x)) -> starts (p1 x) /\ starts (p2 x) /\ starts (p3 x).
Hypothesis HP : forall x a b c, starts (post x a b c).

Lemma during_on L0 L x a b c : idle [1; 2; 3] L0 -> idle [0] L -> exec pre (own 0 L0) (Done (inr x)) ->
  exec (p1 x) (own 1 L) a -> exec (p2 x) (own 2 L) b -> exec (p3 x) (own 3 L) c -> runs_on (L0 ++ L).
Proof.
  intros K0 K1 HX Ha Hb Hc.
  assert (HJ : joined pre p1 p2 p3 post (L0 ++ L) (During a b c)) by (econstructor; eassumption).
  destruct a as [ea|a|sa]; [exists (During (At ea) b c); split; [exact HJ|exact I]| |exists (During (Panicked sa) b c); split; [exact HJ|exact I]].
  destruct b as [eb|b|sb]; [exists (During (Done a) (At eb) c); split; [exact HJ|exact I]| |exists (During (Done a) (Panicked sb) c); split; [exact HJ|exact I]].
  destruct c as [ec|c|sc]; [exists (During (Done a) (Done b) (At ec)); split; [exact HJ|exact I]| |exists (During (Done a) (Done b) (Panicked sc)); split; [exact HJ|exact I]].
  destruct (HP x a b c) as (st & HS). exists (After st). split; [|exact I].
  rewrite <- (app_nil_r (L0 ++ L)), <- app_assoc. eapply J_after; try eassumption. intros i _. reflexivity.
Qed.
Lemma joined_goes L st : joined pre p1 p2 p3 post L st ->
  match st with
  | Before s => forall e, s = At e -> exec pre (own 0 L) (At e) /\ goes_on L 0 pre (own 0 L)
  | During a b c => exists x tr, exec pre tr (Done (inr x)) /\ exec (p1 x) (own 1 L) a /\ exec (p2 x) (own 2 L) b /\ exec (p3 x) (own 3 L) c /\
      goes_on L 1 (p1 x) (own 1 L) /\ goes_on L 2 (p2 x) (own 2 L) /\ goes_on L 3 (p3 x) (own 3 L)
  | After s => exists x a b c tr, exec (p1 x) (own 1 L) (Done a) /\ exec (p2 x) (own 2 L) (Done b) /\ exec (p3 x) (own 3 L) (Done c) /\ exec (post x a b c) tr s /\ goes_on L 0 (post x a b c) tr
  end.
Proof.
  intro HX. destruct HX as [L e Hi HX|L s Hi HX|L r Hi HX|L0 L x a b c K0 K1 HX HA HB HZ|L0 L L1 x a b c st K0 K1 K2 HX HA HB HZ HF].
  - intros e' E. injection E as <-. split; [exact HX|]. intros s st HS.
    assert (HI : idle [1; 2; 3] (L ++ by_task 0 s)) by (apply idle_by; [exact Hi|cbn; lia]).
    assert (EO : own 0 (L ++ by_task 0 s) = own 0 L ++ s) by (rewrite own_app, own_by; reflexivity).
    destruct st as [e1|[r|x]|m].
    + eexists. split; [apply J_before_at; [exact HI|rewrite EO; exact HS]|exact I].
    + eexists. split; [apply J_before_done; [exact HI|rewrite EO; exact HS]|exact I].
    + destruct (H1 _ _ HS) as ((a & Ha) & (b & Hb) & (c & Hc)). rewrite <- (app_nil_r (L ++ by_task 0 s)). eapply during_on; try eassumption; [intros i _; reflexivity|rewrite EO; exact HS].
    + eexists. split; [apply J_before_panic; [exact HI|rewrite EO; exact HS]|exact I].
  - intros e E. discriminate E.
  - intros e E. discriminate E.
  - assert (EO : forall i, 0 < i < 4 -> own i (L0 ++ L) = own i L) by (intros i Hi; rewrite own_app, (K0 i) by (cbn; lia); reflexivity).
    rewrite !EO by lia. exists x, (own 0 L0). repeat split; try assumption; intros s st HS; rewrite <- app_assoc; (eapply during_on; [exact K0|apply idle_by; [exact K1|cbn; lia]|exact HX|..]); rewrite own_app, own_by; cbn [Nat.eqb]; try (rewrite app_nil_r); eassumption.
  - assert (EO : forall i, 0 < i < 4 -> own i (L0 ++ L ++ L1) = own i L) by (intros i Hi; rewrite !own_app, (K0 i), (K2 i) by (cbn; lia); cbn; now rewrite app_nil_r).
    rewrite !EO by lia. exists x, a, b, c, (own 0 L1). repeat split; try assumption. intros s st' HS. exists (After st'). split; [|exact I].
    rewrite <- !app_assoc. eapply J_after; try eassumption; [apply idle_by; [exact K2|cbn; lia]|]. rewrite own_app, own_by. exact HS.
Qed.
End Join.

(** ** The tasks of a component that go on *)
Definition live (c : comp) (L : list nevent) (t : nat) {Y} (p : prog Y) (tr : trace) (st : status Y) : Prop :=
  t < 4 /\ responds p /\ exec p tr st /\ forall s st', exec p (tr ++ s) st' -> exists oc, comp_runs c (L ++ by_task t s) oc.

Lemma alone_live c p L st e : (forall L st, alone p L st -> comp_runs c L (outcome_of st)) -> responds p -> alone p L st -> outcome_of st = Going -> st = Before (At e) \/ True -> exists e, live c L 0 p (own 0 L) (At e).
Proof.
  intros HC HR (HI & s & -> & HX) HG _. destruct s as [e'|r|m]; try discriminate HG. exists e'. split; [lia|]. split; [exact HR|]. split; [exact HX|].
  intros s st' HS. exists (outcome_of (Before st' : standing)). apply HC. split; [apply idle_by; [exact HI|cbn; lia]|]. exists st'. split; [reflexivity|]. now rewrite own_app, own_by.
Qed.

Lemma buffer_ends_eq b pl ps u mi mo : buffer_wired b pl ps u mi mo -> buffer_ends b = Ret (inr (pl, ps)).
Proof. intros (E1 & E2 & _ & _ & Hr & _). unfold buffer_ends. rewrite E1, E2. destruct ps; cbn in Hr; try contradiction; reflexivity. Qed.
Lemma buffer_tasks b u mi mo L pl ps : buffer_wired b pl ps u mi mo -> busy_ends pl ps -> comp_runs (NBuffer b u mi mo) L Going ->
  exists sa sb sc, live (NBuffer b u mi mo) L 1 (half_a u mi (pl, ps)) (own 1 L) sa /\ live (NBuffer b u mi mo) L 2 (half_b u mo None (pl, ps)) (own 2 L) sb /\
    live (NBuffer b u mi mo) L 3 (total_in_buffer (bf_monitor b) mi mo) (own 3 L) sc /\
    (forall m, sa <> Panicked m) /\ (forall m, sb <> Panicked m) /\ (forall m, sc <> Panicked m) /\ ~ ((exists r, sa = Done r) /\ (exists r, sb = Done r) /\ (exists r, sc = Done r)).
Proof.
  intros HW HB (st & HX & HM & HG). pose proof (buffer_ends_eq _ _ _ _ _ _ HW) as EE.
  assert (Ra : responds (half_a u mi (pl, ps))) by (apply resp_motion; destruct pl; try contradiction HB; exact I).
  assert (Rb : responds (half_b u mo None (pl, ps))) by (apply resp_motion; exact I).
  pose proof (resp_total (bf_monitor b) mi mo) as Rc.
  assert (HS : forall tr x, exec (buffer_ends b) tr (Done (inr x)) -> starts (half_a u mi x) /\ starts (half_b u mo None x) /\ starts ((fun _ : pull * push => total_in_buffer (bf_monitor b) mi mo) x)).
  { rewrite EE. intros tr x K. apply exec_ret_inv in K. destruct K as [_ K]. injection K as ->. split; [apply Ra|]. split; [apply Rb|apply Rc]. }
  assert (HP : forall (x : pull * push) ra rb (rc : option nat), starts (Ret (buffer_result ra rb rc))) by (intros; eexists; constructor).
  pose proof (joined_goes _ _ _ _ _ HS HP _ _ HX) as HJ. destruct st as [s|sa sb sc|s].
  - exfalso. pose proof (buffer_parts _ _ _ _ _ _ _ _ _ HW HX) as (? & ? & ? & _ & _ & _ & []).
  - destruct HJ as (x & tr & E & Ha & Hb & Hc & Ga & Gb & Gc). rewrite EE in E. apply exec_ret_inv in E. destruct E as [_ E]. injection E as ->.
    assert (HL : forall t Y (p : prog Y) tr st, t < 4 -> responds p -> exec p tr st -> goes_on (buffer_ends b) (half_a u mi) (half_b u mo None) (fun _ => total_in_buffer (bf_monitor b) mi mo) (fun _ r_a r_b total => Ret (buffer_result r_a r_b total)) L t p tr ->
      live (NBuffer b u mi mo) L t p tr st).
    { intros t Y p tr0 st Ht Hp Hx Hg. split; [exact Ht|]. split; [exact Hp|]. split; [exact Hx|]. intros s st' HS'. destruct (Hg _ _ HS') as (st2 & K1 & K2). exists (outcome_of st2), st2. auto. }
    exists sa, sb, sc. split; [apply HL; auto|]. split; [apply HL; auto|]. split; [apply HL; auto|].
    split; [intros m ->; discriminate HG|]. split; [intros m ->; destruct sa; discriminate HG|]. split; [intros m ->; destruct sa, sb; discriminate HG|].
    intros ((ra & ->) & (rb & ->) & (rc & ->)). exact HM.
  - exfalso. pose proof (buffer_parts _ _ _ _ _ _ _ _ _ HW HX) as (? & ? & ? & _ & _ & _ & ra & rb & rc & _ & _ & _ & ->). discriminate HG.
Qed.

Lemma launch_tasks cwd vars la L : comp_ready (NLaunch cwd vars la) -> comp_runs (NLaunch cwd vars la) L Going ->
  exists t (p : prog (mres nat)) tr e, live (NLaunch cwd vars la) L t p tr (At e) /\ (t = 0 -> exists r1 r2 r3, p = launch_finish la None r1 r2 r3) \/
   live (NLaunch cwd vars la) L 0 (launch_spawn cwd vars la) tr (At (ESpawn (launch_spawning cwd vars la))).
Proof.
  intros (HR & Hin & Hout) (st & HX & HM & HG).
  assert (RI : forall fin fout ferr, let x := launch_relays la fin fout ferr in responds (relay (rl_in x) None) /\ responds (relay (rl_out x) None) /\ responds (relay (rl_err x) None)).
  { intros fin fout ferr x. subst x. unfold launch_relays, relay. cbn [rl_in rl_out rl_err fst snd]. (split; [|split]); apply resp_motion.
    - destruct (la_stdin la) as [pl|] eqn:E; [|exact I]. destruct (Hin _ eq_refl) as (pj & i & ->). exact I.
    - destruct (la_stdout la) as [ps|] eqn:E; [|exact I]. destruct (Hout ps (or_introl eq_refl)) as (j & o & ->). exact I.
    - destruct (la_stderr la) as [ps|] eqn:E; [|exact I]. destruct (Hout ps (or_intror eq_refl)) as (j & o & ->). exact I. }
  assert (HS0 : forall tr x, exec (launch_spawn cwd vars la) tr (Done (inr x)) -> exists fin fout ferr, x = launch_relays la fin fout ferr).
  { intros tr x K. destruct (spawn_inv _ _ _ _ _ (proj1 HR) K) as [(_ & E)|[(_ & m & E)|(fin & fout & ferr & _ & E)]]; try discriminate E. injection E as ->. eauto. }
  assert (HS : forall tr x, exec (launch_spawn cwd vars la) tr (Done (inr x)) -> starts ((fun x => relay (rl_in x) None) x) /\ starts ((fun x => relay (rl_out x) None) x) /\ starts ((fun x => relay (rl_err x) None) x)).
  { intros tr x K. destruct (HS0 _ _ K) as (fin & fout & ferr & ->). destruct (RI fin fout ferr) as (R1 & R2 & R3). split; [apply R1|]. split; [apply R2|apply R3]. }
  assert (HP : forall (x : relays) ra rb rc, starts (launch_finish la None ra rb rc)) by (intros; apply resp_finish).
  pose proof (joined_goes _ _ _ _ _ HS HP _ _ HX) as HJ.
  assert (HL : forall t Y (p : prog Y) tr st, t < 4 -> responds p -> exec p tr st -> goes_on (launch_spawn cwd vars la) (fun x => relay (rl_in x) None) (fun x => relay (rl_out x) None) (fun x => relay (rl_err x) None) (fun _ r1 r2 r3 => launch_finish la None r1 r2 r3) L t p tr ->
    live (NLaunch cwd vars la) L t p tr st).
  { intros t Y p tr0 st0 Ht Hp Hx Hg. split; [exact Ht|]. split; [exact Hp|]. split; [exact Hx|]. intros s st' HS'. destruct (Hg _ _ HS') as (st2 & K1 & K2). exists (outcome_of st2), st2. auto. }
  destruct st as [[e|r|m]|sa sb sc|[e|r|m]]; try discriminate HG.
  - destruct (HJ e eq_refl) as [H1 H2]. exists 0, (Ret (Ok 0)), (own 0 L), e. right. destruct (spawn_inv _ _ _ _ _ (proj1 HR) H1) as [(_ & E)|[(_ & m & E)|(fin & fout & ferr & _ & E)]]; try discriminate E. injection E as ->.
    apply HL; [lia|apply resp_spawn|exact H1|exact H2].
  - destruct HJ as (x & tr & E & Ha & Hb & Hc & Ga & Gb & Gc). destruct (HS0 _ _ E) as (fin & fout & ferr & ->). destruct (RI fin fout ferr) as (R1 & R2 & R3).
    destruct sa as [ea|ra|ma]; [|destruct sb as [eb|rb|mb]; [|destruct sc as [ec|rc|mc]; [|destruct HM|discriminate HG]|discriminate HG]|discriminate HG].
    + exists 1. do 2 eexists. exists ea. left. split; [apply HL; [lia|exact R1|exact Ha|exact Ga]|discriminate].
    + exists 2. do 2 eexists. exists eb. left. split; [apply HL; [lia|exact R2|exact Hb|exact Gb]|discriminate].
    + exists 3. do 2 eexists. exists ec. left. split; [apply HL; [lia|exact R3|exact Hc|exact Gc]|discriminate].
  - destruct HJ as (x & ra & rb & rc & tr & _ & _ & _ & HY & HG'). exists 0, (launch_finish la None ra rb rc), tr, e. left. split; [|intros _; eauto]. apply HL; [lia|apply resp_finish|exact HY|exact HG'].
Qed.

(** ** One step *)
Definition fitting (w : world) : Prop := forall c v, In v (cs_queue (w c)) -> fits c v = true.

Definition moves {Y} (p : prog Y) (tr : trace) (w : world) : Prop :=
  exists s st w', exec p (tr ++ s) st /\ wrun w (by_task 0 s) w' /\ existsb useful s = true /\ forallb friendly s = true.
Definition full (s : cstate) : Prop := cs_closed s = false /\ ~ room s.
Definition dry (s : cstate) : Prop := cs_closed s = false /\ cs_queue s = [].
Definition vacant (w : world) (e : eff) : Prop :=
  match e with ETryRecv c => cs_queue (w c) = [] /\ (cs_closed (w c) = false \/ exists m, c = CMon m) | ESleep _ | EIsEmpty _ | EIsClosed _ => True | _ => False end.

Lemma room_dec s : room s \/ ~ room s.
Proof. unfold room. destruct (cs_cap s) as [n|]; [|now left]. destruct (lt_dec (length (cs_queue s)) n); auto. Qed.

Lemma one_move {Y} (p : prog Y) tr e a w w' : responds p -> exec p tr (At e) -> wt e a = true -> wstep w (e, a) w' -> useful (e, a) = true -> friendly (e, a) = true -> moves p tr w.
Proof.
  intros HR HX Hw HS HU HB. destruct (proj2 HR _ _ _ HX Hw) as (st & K). exists [(e, a)], st, w'. split; [exact K|]. split; [econstructor; [exact HS|constructor]|]. split; [cbn [existsb]; now rewrite HU|].
  cbn [forallb]. now rewrite HB.
Qed.
Lemma then_moves {Y} (p : prog Y) tr e a w w' : wstep w (e, a) w' -> friendly (e, a) = true -> moves p (tr ++ [(e, a)]) w' -> moves p tr w.
Proof.
  intros HS HB (s & st & w2 & HX & HW & HU & HN). exists ((e, a) :: s), st, w2. split; [rewrite <- app_assoc in HX; exact HX|]. split; [econstructor; eassumption|]. split; [cbn [existsb]; rewrite HU; apply orb_true_r|].
  cbn [forallb]. now rewrite HB, HN.
Qed.

Lemma step_or_block {Y} (p : prog Y) tr e w : responds p -> exec p tr (At e) -> fitting w ->
  moves p tr w \/ (exists c, e = ERecv c /\ dry (w c)) \/ (exists c v, e = ESend c v /\ full (w c)) \/ vacant w e.
Proof.
  intros HR HX HF.
  assert (HO : forall a, on_chan e = None -> wt e a = true -> useful (e, a) = true -> friendly (e, a) = true -> moves p tr w).
  { intros a H1 H2 H3 H4. eapply one_move; [exact HR|exact HX|exact H2|apply W_other; [exact H1|exact H2]|exact H3|exact H4]. }
  destruct e as [c|c|c v|c|c|c|f|f d|f|f|ms|nm|nm| | | |sp|].
  - destruct (cs_queue (w c)) as [|v q] eqn:Eq.
    + destruct (cs_closed (w c)) eqn:Ec; [left|right; left; exists c; split; [reflexivity|split; assumption]].
      eapply one_move with (a := AClosed); [exact HR|exact HX|reflexivity|now apply W_recv_end|reflexivity|reflexivity].
    + left. eapply one_move with (a := AMsg v); [exact HR|exact HX|cbn; apply HF; rewrite Eq; now left|eapply W_recv; exact Eq|reflexivity|reflexivity].
  - destruct (cs_queue (w c)) as [|v q] eqn:Eq.
    + destruct (cs_closed (w c)) eqn:Ec; [|right; right; right; cbn; auto]. destruct c as [n|m| | |]; try (left; eapply one_move with (a := AClosed); [exact HR|exact HX|reflexivity|now apply W_try_end|reflexivity|reflexivity]).
      right; right; right. cbn. eauto.
    + left. eapply one_move with (a := AMsg v); [exact HR|exact HX|cbn; apply HF; rewrite Eq; now left|eapply W_try; exact Eq| |]; [now destruct c|reflexivity].
  - destruct (cs_closed (w c)) eqn:Ec.
    + left. eapply one_move with (a := AClosed); [exact HR|exact HX|reflexivity|now apply W_send_closed|reflexivity|reflexivity].
    + destruct (room_dec (w c)) as [Hr|Hr]; [left|right; right; left; exists c, v; split; [reflexivity|split; assumption]].
      eapply one_move with (a := AOk); [exact HR|exact HX|reflexivity|now apply W_send|reflexivity|reflexivity].
  - left. eapply one_move with (a := AOk); [exact HR|exact HX|reflexivity|apply W_close|reflexivity|reflexivity].
  - right; right; right. exact I.
  - right; right; right. exact I.
  - left. apply (HO (AData [])); reflexivity.
  - left. apply (HO AOk); reflexivity.
  - left. apply (HO AOk); reflexivity.
  - left. apply (HO AOk); reflexivity.
  - right; right; right. exact I.
  - left. apply (HO (AFd 0)); reflexivity.
  - left. apply (HO (AFd 0)); reflexivity.
  - left. apply (HO (AFd 0)); reflexivity.
  - left. apply (HO (AFd 0)); reflexivity.
  - left. apply (HO (AFd 0)); reflexivity.
  - left. apply (HO (AChild 0 0 0)); reflexivity.
  - left. apply (HO (AStatus None)); reflexivity.
Qed.

(** ** A component *)
(** Looks and waits, then something useful. *)
Definition brisk (s : trace) : Prop := exists s0 ev, s = s0 ++ [ev] /\ forallb (fun ev => negb (useful ev)) s0 = true /\ useful ev = true.
Lemma first_useful s : existsb useful s = true -> exists s0 ev s1, s = s0 ++ ev :: s1 /\ forallb (fun ev => negb (useful ev)) s0 = true /\ useful ev = true.
Proof.
  induction s as [|x s IH]; [discriminate|]. cbn [existsb]. destruct (useful x) eqn:E; intro H.
  - exists [], x, s. auto.
  - destruct (IH H) as (s0 & ev & s1 & -> & H1 & H2). exists (x :: s0), ev, s1. split; [reflexivity|]. split; [|exact H2]. cbn [forallb]. now rewrite E, H1.
Qed.
Lemma brisk_useful s : brisk s -> existsb useful s = true.
Proof. intros (s0 & ev & -> & _ & H). rewrite existsb_app. cbn [existsb]. rewrite H. apply orb_true_r. Qed.
Lemma exec_cut {Y} (p : prog Y) a b st : exec p (a ++ b) st -> exists st', exec p a st'.
Proof. destruct b as [|[e x] b]; intro H; [rewrite app_nil_r in H; eauto|]. exists (At e). eapply exec_prefix; [exact H|reflexivity]. Qed.
Lemma moves_brisk {Y} (p : prog Y) tr w : moves p tr w -> exists s st w', exec p (tr ++ s) st /\ wrun w (by_task 0 s) w' /\ brisk s /\ forallb friendly s = true.
Proof.
  intros (s & st & w' & HX & HW & HU & HF). destruct (first_useful _ HU) as (s0 & ev & s1 & -> & H1 & H2).
  change (s0 ++ ev :: s1) with (s0 ++ [ev] ++ s1) in *. rewrite !app_assoc in *. rewrite <- (app_assoc tr) in HX. rewrite (app_assoc tr) in HX. destruct (exec_cut _ _ _ _ HX) as (st' & HX').
  unfold by_task in HW. rewrite map_app in HW. apply wrun_app in HW. destruct HW as (w1 & HW & _). rewrite forallb_app in HF. apply andb_prop in HF. destruct HF as [HF _].
  exists (s0 ++ [ev]), st', w1. split; [rewrite app_assoc; exact HX'|]. split; [exact HW|]. split; [exists s0, ev; auto|exact HF].
Qed.
Definition can_move (c : comp) (L : list nevent) (w : world) : Prop :=
  exists t s w' oc, t < 4 /\ comp_runs c (L ++ by_task t s) oc /\ wrun w (by_task t s) w' /\ brisk s /\ forallb friendly s = true.
Definition blocked_out (c : comp) (w : world) : Prop := exists n, In n (comp_outs c) /\ full (w (CData n)).
Definition blocked_in (c : comp) (w : world) : Prop :=
  (exists n, In n (comp_ins c) /\ dry (w (CData n))) /\ forall n, In n (comp_ins c) -> cs_closed (w (CData n)) = false -> cs_queue (w (CData n)) = [].
Record world_ok (c : comp) (L : list nevent) (w : world) : Prop := {
  wo_fit : fitting w;
  wo_closed : forall t ch, t < 4 -> closed_by ch (own t L) -> cs_closed (w ch) = true;
  wo_store : forall u, In u (comp_stores c) -> cs_cap (w (CData u)) = None;
  wo_counts : forall m, In m (comp_counts c) -> cs_cap (w (CMon m)) = Some 8
}.

Lemma wrun_by t t' s w w' : wrun w (by_task t s) w' -> wrun w (by_task t' s) w'.
Proof. intro H. apply (wrun_map (fun _ => t')) in H. unfold by_task in *. now rewrite map_map in H. Qed.
Lemma live_moves c L t {Y} (p : prog Y) tr st w : live c L t p tr st -> moves p tr w -> can_move c L w.
Proof.
  intros (Ht & _ & _ & HG) HM. destruct (moves_brisk _ _ _ HM) as (s & st' & w' & HX & HW & HU & HN). destruct (HG _ _ HX) as (oc & K). exists t, s, w', oc. split; [exact Ht|]. split; [exact K|]. split; [now apply (wrun_by 0)|auto].
Qed.
Lemma wt_some e : exists a, wt e a = true.
Proof.
  destruct e; try (exists AOk; reflexivity); try (exists AClosed; reflexivity); try (exists (ABool true); reflexivity); try (exists (AFd 0); reflexivity); try (exists AErr; reflexivity).
Qed.
Lemma live_may c L t {Y} (p : prog Y) tr e : comp_ready c -> live c L t p tr (At e) -> comp_may c t e.
Proof.
  intros HR (Ht & Hp & HX & HG). destruct (wt_some e) as (a & Ha). destruct (proj2 Hp _ _ _ HX Ha) as (st & K). destruct (HG _ _ K) as (oc & KK).
  eapply comp_within; [exact HR|exact KK|exact Ht|]. apply in_or_app. right. now left.
Qed.

Lemma short_in c w n : length (comp_ins c) <= 1 -> In n (comp_ins c) -> dry (w (CData n)) -> blocked_in c w.
Proof.
  intros Hl Hin HD. split; [eauto|]. intros m Hm _. destruct (comp_ins c) as [|x [|y l]]; [destruct Hin| |cbn in Hl; lia]. destruct Hin as [<-|[]], Hm as [<-|[]]. apply HD.
Qed.
Lemma plain_moves c L t {Y} (p : prog Y) tr e w : comp_ready c -> world_ok c L w -> live c L t p tr (At e) -> ~ is_junction c -> comp_stores c = [] -> comp_counts c = [] -> length (comp_ins c) <= 1 -> (forall n, e <> ESleep n) ->
  moves p tr w \/ blocked_out c w \/ blocked_in c w.
Proof.
  intros HR HO HL HJ HS HC Hi He. pose proof (live_may _ _ _ _ _ _ HR HL) as HM. destruct HL as (Ht & Hp & HX & HG).
  destruct (step_or_block _ _ _ _ Hp HX (wo_fit _ _ _ HO)) as [H|[(ch & -> & H)|[(ch & v & -> & H)|H]]]; [now left| | |].
  - right; right. destruct ch; try contradiction HM. cbn in HM. rewrite HS, app_nil_r in HM. eapply short_in; [exact Hi|apply HM|exact H].
  - right; left. destruct ch as [n|m| | |]; try contradiction HM.
    + destruct v; try contradiction HM. cbn in HM. rewrite HS, app_nil_r in HM. exists n. auto.
    + exfalso. cbn in HM. rewrite HC in HM. destruct v; exact HM.
  - exfalso. destruct e as [ch|ch|ch v|ch|ch|ch| | | | |ms| | | | | | |]; try contradiction H; [| | |now apply (He ms)]; (destruct ch; try contradiction HM; cbn in HM; try rewrite HC in HM; try tauto).
Qed.

Lemma queue_cases s : cs_queue s = [] \/ exists v q, cs_queue s = v :: q.
Proof. destruct (cs_queue s); eauto. Qed.

(** *** The counter of a buffer *)
Section Counter.
Variables (mi mo : nat).
Notation stat := (tstat None mi mo).
Notation nxt := (tnext None).
Definition tgoes (w : world) (t : tplace) : Prop := exists s t' w', reach _ _ stat nxt t s t' /\ wrun w (by_task 0 s) w' /\ existsb useful s = true /\ forallb friendly s = true.

Lemma tgoes_now w t e a w' : stat t = At e -> wt e a = true -> wstep w (e, a) w' -> useful (e, a) = true -> friendly (e, a) = true -> tgoes w t.
Proof.
  intros He Hw HS HU HB. exists [(e, a)], (nxt t a), w'. split; [apply (R_snoc _ _ _ _ t [] t e a (R_nil _ _ _ _ t) He Hw)|]. split; [econstructor; [exact HS|constructor]|]. split; [cbn [existsb]; now rewrite HU|].
  cbn [forallb]. now rewrite HB.
Qed.
Lemma tgoes_then w t e a : stat t = At e -> wt e a = true -> wstep w (e, a) w -> friendly (e, a) = true -> tgoes w (nxt t a) -> tgoes w t.
Proof.
  intros He Hw HS HB (s & t' & w' & HR & HW & HU & HN). exists ((e, a) :: s), t', w'. split; [now apply reach_cons|]. split; [econstructor; eassumption|]. split; [cbn [existsb]; rewrite HU; apply orb_true_r|].
  cbn [forallb]. now rewrite HB, HN.
Qed.
Variable w : world.
Hypothesis HF : fitting w.
Hypothesis HC : cs_queue (w (CMon mi)) <> [] \/ cs_queue (w (CMon mo)) <> [] \/ (cs_closed (w (CMon mi)) = true /\ cs_closed (w (CMon mo)) = true).

Lemma go_dropO r : tgoes w (TDropO r).
Proof. eapply tgoes_now with (a := AOk); [reflexivity|reflexivity|apply W_close|reflexivity|reflexivity]. Qed.
Lemma go_dropI r : tgoes w (TDropI r).
Proof. eapply tgoes_now with (a := AOk); [reflexivity|reflexivity|apply W_close|reflexivity|reflexivity]. Qed.
Lemma go_C2 size moved back last : tgoes w (go_turn size moved back last) -> tgoes w (TC2 size moved back last).
Proof.
  intro HT. eapply tgoes_then with (a := ABool (cs_closed (w (CMon mo)))); [reflexivity|reflexivity|apply W_is_closed|reflexivity|]. cbn [tnext]. case (cs_closed (w (CMon mo))); [apply go_dropO|exact HT].
Qed.
Lemma go_E2 size moved back last : tgoes w (go_turn size moved back last) -> tgoes w (TE2 size moved back last).
Proof.
  intro HT. eapply tgoes_then with (a := ABool (is_nil (cs_queue (w (CMon mo))))); [reflexivity|reflexivity|apply W_is_empty|reflexivity|]. cbn [tnext]. case (is_nil (cs_queue (w (CMon mo)))); [now apply go_C2|exact HT].
Qed.
Lemma go_C1 size moved back last : tgoes w (go_turn size moved back last) -> tgoes w (TC1 size moved back last).
Proof.
  intro HT. eapply tgoes_then with (a := ABool (cs_closed (w (CMon mi)))); [reflexivity|reflexivity|apply W_is_closed|reflexivity|]. cbn [tnext]. case (cs_closed (w (CMon mi))); [now apply go_E2|exact HT].
Qed.
Lemma go_E1 size moved back last : tgoes w (go_turn size moved back last) -> tgoes w (TE1 size moved back last).
Proof.
  intro HT. eapply tgoes_then with (a := ABool (is_nil (cs_queue (w (CMon mi))))); [reflexivity|reflexivity|apply W_is_empty|reflexivity|]. cbn [tnext]. case (is_nil (cs_queue (w (CMon mi)))); [now apply go_C1|exact HT].
Qed.
Lemma try_mon m : cs_queue (w (CMon m)) = [] -> exists a, wstep w (ETryRecv (CMon m), a) w /\ (a = AEmpty \/ a = AClosed).
Proof. intro H. destruct (cs_closed (w (CMon m))) eqn:E; [exists AClosed; split; [now apply W_try_end|auto]|exists AEmpty; split; [now apply W_try_empty|auto]]. Qed.
Lemma go_In size back last : tgoes w (TIn size back last).
Proof.
  destruct (cs_queue (w (CMon mi))) as [|v q] eqn:Ei.
  - destruct (try_mon mi Ei) as (a & HS & Ha).
    eapply tgoes_then with (a := a); [reflexivity|now destruct Ha; subst a|exact HS|now destruct Ha; subst a|].
    assert (HN : nxt (TIn size back last) a = TOut size false back last) by (destruct Ha; subst a; reflexivity). rewrite HN.
    destruct (cs_queue (w (CMon mo))) as [|v q] eqn:Eo.
    + destruct HC as [H|[H|[H1 H2]]]; [contradiction|contradiction|].
      destruct (try_mon mo Eo) as (a' & HS' & Ha'). eapply tgoes_then with (a := a'); [reflexivity|now destruct Ha'; subst a'|exact HS'|now destruct Ha'; subst a'|].
      assert (HN' : nxt (TOut size false back last) a' = TE1 size false back last) by (destruct Ha'; subst a'; reflexivity). rewrite HN'.
      eapply tgoes_then with (a := ABool (is_nil (cs_queue (w (CMon mi))))); [reflexivity|reflexivity|apply W_is_empty|reflexivity|]. rewrite Ei. cbn [is_nil tnext].
      eapply tgoes_then with (a := ABool (cs_closed (w (CMon mi)))); [reflexivity|reflexivity|apply W_is_closed|reflexivity|]. rewrite H1. cbn [tnext].
      eapply tgoes_then with (a := ABool (is_nil (cs_queue (w (CMon mo))))); [reflexivity|reflexivity|apply W_is_empty|reflexivity|]. rewrite Eo. cbn [is_nil tnext].
      eapply tgoes_then with (a := ABool (cs_closed (w (CMon mo)))); [reflexivity|reflexivity|apply W_is_closed|reflexivity|]. rewrite H2. cbn [tnext]. apply go_dropO.
    + eapply tgoes_now with (a := AMsg v); [reflexivity| |eapply W_try; exact Eo|reflexivity|reflexivity]. cbn [wt]. apply HF. rewrite Eo. now left.
  - eapply tgoes_now with (a := AMsg v); [reflexivity| |eapply W_try; exact Ei|reflexivity|reflexivity]. cbn [wt]. apply HF. rewrite Ei. now left.
Qed.
Lemma go_Wait size back last : tgoes w (TWait size back last).
Proof. eapply tgoes_then with (a := AOk); [reflexivity|reflexivity|now apply W_other|reflexivity|]. apply go_In. Qed.
Lemma go_next size moved back last : tgoes w (go_turn size moved back last).
Proof. destruct moved; [apply go_In|apply go_Wait]. Qed.
Lemma go_Out size moved back last : tgoes w (TOut size moved back last).
Proof.
  destruct (queue_cases (w (CMon mo))) as [Eo|(v & q & Eo)].
  - destruct (try_mon mo Eo) as (a' & HS' & Ha'). eapply tgoes_then with (a := a'); [reflexivity|now destruct Ha'; subst a'|exact HS'|now destruct Ha'; subst a'|].
    assert (HN' : nxt (TOut size moved back last) a' = TE1 size moved back last) by (destruct Ha'; subst a'; reflexivity). rewrite HN'. apply go_E1, go_next.
  - eapply tgoes_now with (a := AMsg v); [reflexivity| |eapply W_try; exact Eo|reflexivity|reflexivity]. cbn [wt]. apply HF. rewrite Eo. now left.
Qed.
Lemma counter_goes t e : stat t = At e -> t_valid None t -> tgoes w t.
Proof.
  intros He HV. destruct t; try discriminate He; [apply go_In|apply go_Out|apply go_E1, go_next|apply go_C1, go_next|apply go_E2, go_next|apply go_C2, go_next|apply go_Wait|apply go_dropO|apply go_dropI].
Qed.
Lemma counter_moves tr e : exec (total_in_buffer None mi mo) tr (At e) -> moves (total_in_buffer None mi mo) tr w.
Proof.
  intro HX. destruct (total_reach _ _ _ _ _ HX) as (t & HR & He & HV). destruct (counter_goes t e He HV) as (s & t' & w' & HR' & HW & HU & HN).
  exists s, (stat t'), w'. split; [|auto]. apply reach_total. clear - HR HR'. unfold treach in *. induction HR' as [|s t1 e1 a1 H IH He Hw]; [now rewrite app_nil_r|]. rewrite app_assoc. now constructor.
Qed.
End Counter.
Lemma counter_done mi mo tr r : exec (total_in_buffer None mi mo) tr (Done r) -> closed_by (CMon mi) tr /\ closed_by (CMon mo) tr.
Proof.
  intro HX. destruct (total_reach _ _ _ _ _ HX) as (t & HR & He & _). destruct t; try discriminate He.
  assert (K : forall tr t, treach None mi mo tr t -> match t with TDropI _ => closed_by (CMon mo) tr | TDone _ => closed_by (CMon mi) tr /\ closed_by (CMon mo) tr | _ => True end).
  { clear. intros tr t HR. induction HR as [|tr t e a H IH He Hw]; [exact I|]. unfold closed_by in *.
    destruct t; cbn in He; try discriminate He; injection He as <-; destruct a; try discriminate Hw; cbn; try exact I.
    all: cbv beta iota delta [tnext go_turn go_rep go_dropS]; repeat (match goal with |- context [match ?x with _ => _ end] => is_var x; destruct x end; try exact I).
    all: try (apply in_or_app; right; now left). all: split; apply in_or_app; [right; now left|left; exact IH]. }
  exact (K _ _ HR).
Qed.

Lemma at_motion pl mon ps tr e : exec (motion pl mon None ps) tr (At e) -> motion_eff pl mon None ps e.
Proof. intro HX. assert (HN : forall s, At e <> @Panicked (mres nat) s) by discriminate. destruct (orderly_run _ _ (motion_orderly _ _ _ _) _ _ HX HN) as (_ & _ & H). now apply (H e). Qed.
Lemma full_some s : cs_cap s = Some 8 -> full s -> cs_queue s <> [].
Proof. intros E [_ H] Hq. apply H. unfold room. rewrite E, Hq. cbn. lia. Qed.

Lemma buffer_moves b u mi mo L w : let c := NBuffer b u mi mo in comp_ready c -> comp_runs c L Going -> world_ok c L w -> can_move c L w \/ blocked_out c w \/ blocked_in c w.
Proof.
  intros c HR HX HO. assert (HR' := HR). destruct HR as (HC & pj & i & j & o & HW).
  destruct (buffer_tasks _ _ _ _ _ _ _ HW I HX) as (sa & sb & sc & La & Lb & Lc & Na & Nb & Nc & Nall). rewrite HC in Lc. fold c in La, Lb, Lc.
  assert (Ei : comp_ins c = [i]) by (subst c; cbn; now rewrite (proj1 HW)). assert (Eo : comp_outs c = [o]) by (subst c; cbn; now rewrite (proj1 (proj2 HW))).
  assert (HNP : forall t Y (p : prog Y) tr e, live c L t p tr (At e) -> t <> 3 -> ~ vacant w e).
  { intros t Y p tr e HL Ht HV. pose proof (live_may _ _ _ _ _ _ HR' HL) as HM. destruct e as [ch|ch|ch v|ch|ch|ch| | | | |ms| | | | | | |]; try contradiction HV; try (destruct ch; try contradiction HM; cbn in HM; tauto). now apply Ht. }
  assert (HCnt : forall m, (m = mi \/ m = mo) -> full (w (CMon m)) -> can_move c L w).
  { intros m Hm Hf. assert (Hcap : cs_cap (w (CMon m)) = Some 8) by (apply (wo_counts _ _ _ HO); subst c; cbn; intuition).
    pose proof (full_some _ Hcap Hf) as Hq. destruct Lc as (Ht & Hp & Hc & HG). destruct sc as [e|r|x]; [|exfalso|destruct (Nc x eq_refl)].
    - apply (live_moves c L 3 (total_in_buffer None mi mo) (own 3 L) (At e) w); [exact (conj Ht (conj Hp (conj Hc HG)))|]. apply (counter_moves mi mo w (wo_fit _ _ _ HO)) with (e := e); [|exact Hc]. destruct Hm; subst m; auto.
    - destruct (counter_done _ _ _ _ Hc) as [H1 H2]. destruct Hf as [Hf _]. assert (HX' : cs_closed (w (CMon m)) = true) by (apply (wo_closed _ _ _ HO 3); [lia|]; destruct Hm; subst m; assumption). congruence. }
  destruct sa as [e|ra|x]; [| |destruct (Na x eq_refl)].
  { destruct (step_or_block _ _ _ _ (proj1 (proj2 La)) (proj1 (proj2 (proj2 La))) (wo_fit _ _ _ HO)) as [H|[(ch & -> & H)|[(ch & v & -> & H)|H]]].
    - left. now apply (live_moves _ _ _ _ _ _ _ La).
    - right; right. pose proof (at_motion _ _ _ _ _ (proj1 (proj2 (proj2 La)))) as [[K|[(q & d & [<-|[]] & K)|[(m & K & E)|[(m & K & E)|(s & v & K & _)]]]]|[K|[(q & [<-|[]] & K)|(m & K & E)]]]; try discriminate K; try discriminate E.
      injection K as <-. apply (short_in _ _ i); [rewrite Ei; cbn; lia|rewrite Ei; now left|exact H].
    - pose proof (at_motion _ _ _ _ _ (proj1 (proj2 (proj2 La)))) as [[K|[(q & d & [<-|[]] & K)|[(m & K & E)|[(m & K & E)|(s & v' & K & _)]]]]|[K|[(q & [<-|[]] & K)|(m & K & E)]]]; try discriminate K; try discriminate E.
      + injection K as <- <-. exfalso. apply (proj2 H). unfold room. rewrite (wo_store _ _ _ HO u) by (subst c; now left). exact I.
      + injection K as <-. injection E as -> ->. left. apply (HCnt mi); auto.
    - exfalso. now apply (HNP _ _ _ _ _ La). }
  assert (Ha : closed_by (CData u) (own 1 L) /\ closed_by (CMon mi) (own 1 L)).
  { destruct (copy_released (PlReceiver pj i) (MN None (Some mi)) None (PsSender (J 0 None 0 (push_brk (PsIoSender j o))) u) I ltac:(left; discriminate) _ _ (proj1 (proj2 (proj2 La)))) as (_ & K1 & _ & K2). split; [exact K1|now apply K2]. }
  destruct Ha as [Hu Hmi]. apply (wo_closed _ _ _ HO 1) in Hu; [|lia]. apply (wo_closed _ _ _ HO 1) in Hmi; [|lia].
  destruct sb as [e|rb|x]; [| |destruct (Nb x eq_refl)].
  { destruct (step_or_block _ _ _ _ (proj1 (proj2 Lb)) (proj1 (proj2 (proj2 Lb))) (wo_fit _ _ _ HO)) as [H|[(ch & -> & H)|[(ch & v & -> & H)|H]]].
    - left. now apply (live_moves _ _ _ _ _ _ _ Lb).
    - exfalso. pose proof (at_motion _ _ _ _ _ (proj1 (proj2 (proj2 Lb)))) as [[K|[(q & d & [<-|[]] & K)|[(m & K & E)|[(m & K & E)|(s & v & K & _)]]]]|[K|[(q & [<-|[]] & K)|(m & K & E)]]]; try discriminate K; try discriminate E.
      injection K as <-. destruct H as [H _]. congruence.
    - pose proof (at_motion _ _ _ _ _ (proj1 (proj2 (proj2 Lb)))) as [[K|[(q & d & [<-|[]] & K)|[(m & K & E)|[(m & K & E)|(s & v' & K & _)]]]]|[K|[(q & [<-|[]] & K)|(m & K & E)]]]; try discriminate K; try discriminate E.
      + injection K as <- <-. right; left. exists o. split; [rewrite Eo; now left|exact H].
      + injection K as <-. injection E as -> ->. left. apply (HCnt mo); auto.
    - exfalso. now apply (HNP _ _ _ _ _ Lb). }
  assert (Hmo : closed_by (CMon mo) (own 2 L)).
  { destruct (copy_released (PlReceiver (PJ 0 0) u) (MN (Some mo) None) None (PsIoSender j o) I ltac:(left; discriminate) _ _ (proj1 (proj2 (proj2 Lb)))) as (_ & _ & K & _). now apply K. }
  apply (wo_closed _ _ _ HO 2) in Hmo; [|lia].
  destruct sc as [e|rc|x]; [|exfalso; apply Nall; split; [|split]; eexists; reflexivity|destruct (Nc x eq_refl)].
  left. apply (live_moves _ _ _ _ _ _ _ Lc). apply (counter_moves mi mo w (wo_fit _ _ _ HO)) with (e := e); [auto|apply Lc].
Qed.

(** *** Junctions *)
Lemma junction_at j tr e : junction_ready j -> exec (junction_start j None) tr (At e) -> comp_may (NJunction j) 0 e.
Proof.
  intros HR HX. destruct (wt_some e) as (a & Ha). destruct (proj2 (resp_junction j None HR) _ _ _ HX Ha) as (st & K).
  eapply (comp_within (NJunction j) (by_task 0 (tr ++ [(e, a)]))); [exact HR| |lia|apply in_map; apply in_or_app; right; now left].
  exists (Before st). split; [|reflexivity]. split; [|exists st; split; [reflexivity|now rewrite own_by]]. intros i Hi. rewrite own_by. destruct i; [|reflexivity]. cbn in Hi. lia.
Qed.
(** One that is about to ask has not finished yet. *)
Lemma not_yet j : junction_ready j -> forall tr n, forall r, exec (junction_start j None) tr (At (ETryRecv (CData n))) -> forall s, Forall (fun ev => fst ev <> EClose (CData n)) s -> exec (junction_start j None) (tr ++ s) (Done r) -> False.
Proof.
  intros HR tr n r HX s Hs HD. destruct (start_at j None HR _ _ HX) as (m & E & _ & Hin & HC & _). injection E as <-.
  pose proof (releases_inputs j None HR _ _ HD n Hin) as K. unfold closed_by in K. apply in_app_or in K. destruct K as [K|K]; [apply HC; now apply closed_by_closes|].
  rewrite Forall_forall in Hs. exact (Hs _ K eq_refl).
Qed.
(** From any point it moves, or waits for room, or comes to sleep having looked in vain. *)
Lemma junction_look j w : junction_ready j -> fitting w -> forall k tr e x b, tr = x ++ map vain b -> 2 * length (in_chans j) - length b <= k -> exec (junction_start j None) tr (At e) ->
  moves (junction_start j None) tr w \/ blocked_out (NJunction j) w \/
  exists b' ms, (forall n, In n b' -> In n (in_chans j) /\ dry (w (CData n))) /\ exec (junction_start j None) (tr ++ map vain b') (At (ESleep ms)).
Proof.
  intros HR HF. induction k as [k IH] using lt_wf_ind. intros tr e x b Et Hk HX. pose proof (resp_junction j None HR) as Hp. pose proof (junction_at _ _ _ HR HX) as HM.
  destruct (step_or_block _ _ _ _ Hp HX HF) as [H|[(ch & -> & H)|[(ch & v & -> & H)|H]]]; [now left| | |].
  - exfalso. destruct ch; try contradiction HM. destruct HM as [_ HM]. now apply HM.
  - right; left. destruct ch as [n|m| | |]; try contradiction HM; destruct v; try contradiction HM; try (destruct HM; fail). cbn in HM. rewrite app_nil_r in HM. exists n. auto.
  - destruct e as [ch|ch|ch v|ch|ch|ch| | | | |ms| | | | | | |]; try contradiction H; try (exfalso; destruct ch; try contradiction HM; destruct HM as [[] _]; fail).
    + destruct ch as [n|m| | |]; try contradiction HM; [|destruct HM as [[] _]]. cbn in H, HM. destruct H as [Hq [Hc|(m & E)]]; [|discriminate E]. destruct HM as [HI _].
      destruct (proj2 Hp _ _ AEmpty HX eq_refl) as (st & K). change [(ETryRecv (CData n), AEmpty)] with (map vain [n]) in K.
      assert (Et' : tr ++ map vain [n] = x ++ map vain (b ++ [n])) by (rewrite Et, map_app, app_assoc; reflexivity).
      assert (Hlen : length (b ++ [n]) <= 2 * length (in_chans j)) by (apply (vains_short j None HR x _ st); now rewrite <- Et').
      rewrite app_length in Hlen. cbn [length] in Hlen. assert (HS : wstep w (ETryRecv (CData n), AEmpty) w) by now apply W_try_empty.
      destruct st as [e'|r|m].
      * destruct (IH (2 * length (in_chans j) - length (b ++ [n]))) with (tr := tr ++ map vain [n]) (e := e') (x := x) (b := b ++ [n]) as [G|[G|(b' & ms & G1 & G2)]]; try assumption; try lia.
        -- rewrite app_length. cbn [length]. lia.
        -- left. eapply then_moves; [exact HS|reflexivity|exact G].
        -- right; left. exact G.
        -- right; right. exists (n :: b'), ms. split; [intros m [<-|Hm]; [split; [exact HI|split; assumption]|now apply G1]|]. rewrite <- app_assoc in G2. exact G2.
      * exfalso. exact (not_yet j HR _ _ _ HX [(ETryRecv (CData n), AEmpty)] ltac:(repeat constructor; discriminate) K).
      * exfalso. exact (start_no_panic j None HR _ _ K).
    + right; right. exists [], ms. split; [intros n []|]. cbn [map]. now rewrite app_nil_r.
Qed.
Lemma vain_tail : forall b b' a y ev, a ++ map vain b = y ++ ev :: map vain b' -> (forall n, ev <> vain n) -> incl b b'.
Proof.
  induction b as [|n b IH] using rev_ind; intros b' a y ev E Hev; [intros x []|].
  rewrite map_app, app_assoc in E. cbn [map] in E. destruct b' as [|m b' _] using rev_ind.
  - exfalso. change (y ++ ev :: map vain []) with (y ++ [ev]) in E. apply app_inj_tail in E. destruct E as [_ E]. exact (Hev _ (eq_sym E)).
  - assert (E' : y ++ ev :: map vain (b' ++ [m]) = (y ++ ev :: map vain b') ++ [vain m]) by (rewrite map_app, <- app_assoc; reflexivity).
    rewrite E' in E. apply app_inj_tail in E. destruct E as [E Em]. injection Em as <-. intros x Hx. apply in_app_or in Hx. apply in_or_app. destruct Hx as [Hx|Hx]; [left; exact (IH _ _ _ _ E Hev x Hx)|now right].
Qed.
Lemma junction_moves j L w : let c := NJunction j in comp_ready c -> comp_runs c L Going -> world_ok c L w -> can_move c L w \/ blocked_out c w \/ blocked_in c w.
Proof.
  intros c HR (st & HX & HG). pose proof (resp_junction j None HR) as Hp. symmetry in HG. intro HO.
  destruct (alone_live c (junction_start j None) L st (ESleep 0)) as (e & HL); [intros; eexists; split; [eassumption|reflexivity]|exact Hp|exact HX|exact HG|now right|].
  assert (HXe := proj1 (proj2 (proj2 HL))). set (tr := own 0 L) in *.
  destruct (junction_look j w HR (wo_fit _ _ _ HO) _ tr e tr [] ltac:(symmetry; apply app_nil_r) (le_n _) HXe) as [H|[H|(b & ms & Hb & HS)]]; [left; now apply (live_moves _ _ _ _ _ _ _ HL)|now right; left|].
  destruct (proj2 Hp _ _ AOk HS eq_refl) as (st2 & K2).
  assert (HW1 : wrun w (by_task 0 (map vain b)) w).
  { clear - Hb. induction b as [|n b IH]; [constructor|]. cbn [map by_task]. econstructor; [apply W_try_empty; [apply (Hb n); now left|apply (Hb n); now left]|]. apply IH. intros m Hm. apply Hb. now right. }
  assert (HW2 : wstep w (ESleep ms, AOk) w) by now apply W_other.
  assert (Hlift : moves (junction_start j None) ((tr ++ map vain b) ++ [(ESleep ms, AOk)]) w -> can_move c L w).
  { intro HM. apply (live_moves _ _ _ _ _ _ _ HL). apply then_moves with (1 := HW2) in HM; [|reflexivity]. clear - HM HW1. destruct HM as (s & st & w' & K1 & K2 & K3 & K4). exists (map vain b ++ s), st, w'.
    split; [now rewrite app_assoc|]. split; [unfold by_task; rewrite map_app; apply wrun_app; eauto|]. split; [rewrite existsb_app, K3; apply orb_true_r|].
    rewrite forallb_app, K4, andb_true_r. clear. induction b as [|n b IH]; [reflexivity|exact IH]. }
  destruct st2 as [e2|r|m]; [| |exfalso; exact (start_no_panic j None HR _ _ K2)].
  - destruct (junction_look j w HR (wo_fit _ _ _ HO) _ _ e2 ((tr ++ map vain b) ++ [(ESleep ms, AOk)]) [] ltac:(symmetry; apply app_nil_r) (le_n _) K2) as [H|[H|(b2 & ms2 & Hb2 & HS2)]]; [left; now apply Hlift|now right; left|].
    right; right. destruct (sleep_after j None HR _ _ HS2) as (a & n & Ea). destruct (sleeps_idle j None HR _ _ HS2) as (_ & a' & b' & Ea' & Hi).
    assert (Hne : b2 <> []).
    { intros ->. cbn [map] in Ea. rewrite app_nil_r in Ea. apply app_inj_tail in Ea. destruct Ea as [_ Ea]. discriminate Ea. }
    split.
    + destruct b2 as [|m b2]; [contradiction|]. exists m. subst c. cbn. apply Hb2. now left.
    + intros m Hm Hc. apply Hb2. rewrite <- app_assoc in Ea'. symmetry in Ea'. apply (vain_tail b' b2 a' (tr ++ map vain b) (ESleep ms, AOk) Ea' ltac:(discriminate)). apply Hi; [exact Hm|].
      intro Hcb. assert (HX' : closed_by (CData m) tr).
      { unfold closed_by in *. clear - Hcb. rewrite !in_app_iff in Hcb. destruct Hcb as [[[H|H]|H]|H]; [exact H| | |]; exfalso; [|destruct H as [H|[]]; discriminate H|]; apply in_map_iff in H; destruct H as (k & E & _); discriminate E. }
      apply (wo_closed _ _ _ HO 0) in HX'; [|lia]. congruence.
  - exfalso. destruct (sleep_after j None HR _ _ HS) as (a & n & Ea).
    assert (HA : exec (junction_start j None) a (At (ETryRecv (CData n)))) by (eapply exec_prefix; [exact HS|exact Ea]).
    rewrite Ea, <- app_assoc in K2. refine (not_yet j HR _ _ _ HA _ _ K2); repeat constructor; discriminate.
Qed.

(** *** Launches *)
Lemma launch_moves cwd vars la L w : let c := NLaunch cwd vars la in comp_ready c -> comp_runs c L Going -> world_ok c L w -> can_move c L w \/ blocked_out c w \/ blocked_in c w.
Proof.
  intros c HR HX HO. destruct (launch_tasks _ _ _ _ HR HX) as (t & p & tr & e & [(HL & H0)|HL]).
  - assert (Hins : length (comp_ins c) <= 1) by (subst c; cbn; destruct (la_stdin la) as [[]|]; cbn; lia).
    assert (HP : (forall n, e <> ESleep n) -> can_move c L w \/ blocked_out c w \/ blocked_in c w).
    { intro He. destruct (plain_moves c L t p tr e w HR HO HL) as [H|H]; auto; [left; now apply (live_moves _ _ _ _ _ _ _ HL)]. }
    destruct e as [ | | | | | | | | | |ms| | | | | | |]; try (apply HP; discriminate). clear HP.
    pose proof (live_may _ _ _ _ _ _ HR HL) as Ht. cbn in Ht. subst t. destruct (H0 eq_refl) as (r1 & r2 & r3 & ->). destruct HL as (Ht & Hp & HXe & HG).
    destruct (la_exit_status la) as [[j n]|] eqn:HE; [|exfalso; unfold launch_finish in HXe; rewrite HE in HXe; apply exec_ret_inv in HXe; destruct HXe as [_ HXe]; discriminate HXe].
    assert (Ho : In n (comp_outs c)) by (subst c; cbn; rewrite HE; rewrite !in_app_iff; right; right; now left).
    destruct (proj2 Hp _ _ AOk HXe eq_refl) as (st & K). assert (HW : wstep w (ESleep ms, AOk) w) by now apply W_other.
    assert (Hlift : moves (launch_finish la None r1 r2 r3) (tr ++ [(ESleep ms, AOk)]) w -> can_move c L w).
    { intro HM. apply (live_moves c L 0 (launch_finish la None r1 r2 r3) tr (At (ESleep ms))); [exact (conj Ht (conj Hp (conj HXe HG)))|]. eapply then_moves; [exact HW|reflexivity|exact HM]. }
    destruct st as [e|r|m]; pose proof (finish_inv la None j n HE _ _ _ _ _ K) as HI; [| |contradiction HI].
    + destruct (step_or_block _ _ _ _ Hp K (wo_fit _ _ _ HO)) as [H|H]; [left; now apply Hlift|].
      destruct HI as (k & [(_ & ->)|[(E & _)|(code & m & rest & _ & _ & [(_ & ->)|[(_ & s & port & E & _)|(t & _ & _ & _ & _ & ->)]])]]).
      * destruct H as [(ch & E & _)|[(ch & v & E & _)|[]]]; discriminate E.
      * apply app_inj_tail in E. destruct E as [_ E]. discriminate E.
      * destruct H as [(ch & E & _)|[(ch & v & E & HF)|[]]]; [discriminate E|]. injection E as <- <-. right; left. exists n. auto.
      * discriminate E.
      * destruct H as [(ch & E & _)|[(ch & v & E & _)|[]]]; discriminate E.
    + exfalso. destruct HI as (x & (k & code & m & rest & _ & E & [(-> & _)|[(s & port & _ & E' & _)|(t & -> & _)]]) & _).
      * rewrite app_assoc in E. apply app_inj_tail in E. destruct E as [_ E]. discriminate E.
      * discriminate E'.
      * rewrite app_comm_cons, !app_assoc in E. apply app_inj_tail in E. destruct E as [_ E]. discriminate E.
  - left. apply (live_moves _ _ _ _ _ _ _ HL). destruct HL as (_ & Hp & HXe & _). eapply one_move with (a := AChild 0 0 0); [exact Hp|exact HXe|reflexivity|now apply W_other|reflexivity|reflexivity].
Qed.

(** *** The others *)
Lemma alone_moves c p L st w : (forall L st, alone p L st -> comp_runs c L (outcome_of st)) -> responds p -> alone p L st -> outcome_of st = Going -> comp_ready c -> world_ok c L w ->
  ~ is_junction c -> comp_stores c = [] -> comp_counts c = [] -> length (comp_ins c) <= 1 -> ~ polls c 0 -> can_move c L w \/ blocked_out c w \/ blocked_in c w.
Proof.
  intros HC Hp HA HG HR HO HJ HS HK Hi HP. destruct (alone_live c p L st (ESleep 0) HC Hp HA HG (or_intror I)) as (e & HL).
  assert (He : forall n, e <> ESleep n) by (intros n ->; exact (HP (live_may _ _ _ _ _ _ HR HL))).
  destruct (plain_moves c L 0 p _ e w HR HO HL) as [H|H]; auto. left. now apply (live_moves _ _ _ _ _ _ _ HL).
Qed.
Lemma comp_moves c L w : comp_ready c -> comp_runs c L Going -> world_ok c L w -> can_move c L w \/ blocked_out c w \/ blocked_in c w.
Proof.
  destruct c as [f name|r|b u mi mo|j|cwd vars la|d name]; intros HR HX HO; [| |now apply buffer_moves|now apply junction_moves|now apply launch_moves|].
  - assert (HR' := HR). destruct HR' as (HC & j & o & HF). destruct HX as (st & HA & HG). apply (alone_moves _ (faucet_start f None) L st w); auto; cbn; try lia; try tauto; [intros; eexists; split; [eassumption|reflexivity]|now apply (resp_faucet f name (PsIoSender j o))].
  - assert (HR' := HR). destruct HR' as (HC & pj & i & j & o & HF). destruct HX as (st & HA & HG).
    apply (alone_moves _ (regulator_start r None) L st w); auto; cbn; try lia; try tauto; [intros; eexists; split; [eassumption|reflexivity]| |destruct (rg_stdin r) as [[]|]; cbn; lia].
    destruct HF as (H1 & H2 & H3 & _). unfold regulator_start. rewrite H1, H2, H3, HC. apply resp_gate. exact I.
  - assert (HR' := HR). destruct HR' as (pj & i & HF). destruct HX as (st & HA & HG). apply (alone_moves _ (drain_start d None) L st w); auto; cbn; try lia; try tauto; [intros; eexists; split; [eassumption|reflexivity]|now apply (resp_drain d pj i name)|destruct (dr_stdin d) as [[]|]; cbn; lia].
Qed.
