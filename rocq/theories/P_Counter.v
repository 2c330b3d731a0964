(** * P_Counter: what the counter of a buffer knows *)
From Coq Require Import Ascii String List Bool Arith Lia.
From Verif Require Import M_Prog P_Prog P_Exec M_Motion M_BackOff M_Connectable S_Trace S_Lines S_Motion S_World P_World P_Machine P_Reach M_Join M_Buffer S_Buffer P_Buffer.
Import ListNotations.

Definition reports_of (sender : option nat) (tr : trace) : list nat := match sender with Some s => reports s tr | None => [] end.
Definition told (sender : option nat) (tr : trace) : nat := last (reports_of sender tr) 0.
Definition unheard (sender : option nat) (tr : trace) : bool := match sender with Some s => refusedb (CSize s) tr | None => false end.

Lemma reports_app s a b : reports s (a ++ b) = reports s a ++ reports s b.
Proof. unfold reports. rewrite sent_app'. apply flat_map_app. Qed.
Lemma changing_snoc l : forall p x, changing p (l ++ [x]) <-> changing p l /\ x <> last l p.
Proof.
  induction l as [|y l IH]; intros p x; cbn [app changing].
  - cbn. tauto.
  - rewrite IH. assert (E : last (y :: l) p = last l y).
    { clear. revert y p. induction l as [|z l IH]; intros y p; [reflexivity|]. change (last (y :: z :: l) p) with (last (z :: l) p). now rewrite !IH. }
    rewrite E. tauto.
Qed.
Lemma last_snoc {A} (l : list A) x d : last (l ++ [x]) d = x.
Proof. apply last_last. Qed.

Section Counter.
Variables (sender : option nat) (mi mo : nat).
Hypothesis Hm : mi <> mo.

Definition inv_t (tr : trace) (t : tplace) : Prop :=
  let tw := ntak (CMon mi) tr in
  let tk := ntak (CMon mo) tr in
  let CI := closedb (CMon mi) tr in
  let CO := closedb (CMon mo) tr in
  changing 0 (reports_of sender tr) /\
  match t with
  | TIn size _ l => tw = tk + size /\ CI = false /\ CO = false /\ l = told sender tr /\ (sender <> None -> l = size)
  | TOut size _ _ l => tw = tk + size /\ CI = false /\ CO = false /\ l = told sender tr
  | TRep size _ _ l => tw = tk + size /\ CI = false /\ CO = false /\ l = told sender tr /\ l <> size
  | TE1 size _ _ l | TC1 size _ _ l | TE2 size _ _ l | TC2 size _ _ l | TWait size _ l =>
    tw = tk + size /\ CI = false /\ CO = false /\ l = told sender tr /\ (sender <> None -> l = size)
  | TDropO (Some size) => tw = tk + size /\ CI = false /\ CO = false /\ (sender <> None -> told sender tr = size)
  | TDropI (Some size) => tw = tk + size /\ CI = false /\ CO = true /\ (sender <> None -> told sender tr = size)
  | TDropS (Some size) | TDone (Some size) => tw = tk + size /\ CI = true /\ CO = true /\ (sender <> None -> told sender tr = size)
  | TDropO None => unheard sender tr = true /\ CI = false /\ CO = false
  | TDropI None => unheard sender tr = true /\ CI = false /\ CO = true
  | TDropS None | TDone None => unheard sender tr = true /\ CI = true /\ CO = true
  | TBad _ => CI = false /\ CO = false
  end.

Lemma reports_of_snoc tr e a : reports_of sender (tr ++ [(e, a)]) = reports_of sender tr ++ reports_of sender [(e, a)].
Proof. destruct sender; [apply reports_app|reflexivity]. Qed.
Lemma unheard_snoc tr e a : unheard sender (tr ++ [(e, a)]) = unheard sender tr || unheard sender [(e, a)].
Proof. destruct sender; [apply refusedb_snoc|reflexivity]. Qed.
Lemma quiet tr e a : (forall s, e <> ESend (CSize s) (match e with ESend _ v => v | _ => VUnit end)) -> reports_of sender (tr ++ [(e, a)]) = reports_of sender tr.
Proof.
  intro H. rewrite reports_of_snoc. assert (E : reports_of sender [(e, a)] = []); [|now rewrite E, app_nil_r].
  destruct sender as [s|]; [|reflexivity]. unfold reports_of, reports. destruct e; try reflexivity. destruct a; try reflexivity. cbn. destruct c; try reflexivity. now contradiction (H n).
Qed.

Ltac sums tr :=
  counts;
  generalize dependent (ntak (CMon mi) tr); intro v1; generalize dependent (ntak (CMon mo) tr); intro v2;
  generalize dependent (closedb (CMon mi) tr); intro v3; generalize dependent (closedb (CMon mo) tr); intro v4;
  generalize dependent (told sender tr); intro v5; intros;
  unfold ntak; cbn; rewrite ?Nat.eqb_refl;
  repeat match goal with H : (_ =? _) = false |- _ => rewrite ?H; clear H end; cbn; rewrite ?Nat.add_0_r, ?orb_false_r, ?orb_true_r;
  intuition (subst; try lia; try congruence).

Lemma counter_inv tr t : treach sender mi mo tr t -> inv_t tr t.
Proof.
  assert (Hm' : (mi =? mo) = false) by now apply Nat.eqb_neq. assert (Hm'' : (mo =? mi) = false) by (apply Nat.eqb_neq; congruence).
  apply reach_inv.
  - unfold inv_t, told, reports_of. cbn. destruct sender; repeat split; auto.
  - clear tr t. intros tr t e a [HC HI] He Hw.
    destruct t as [size back last|size moved back last|size moved back last|size moved back last|size moved back last|size moved back last|size moved back last|size back last|r|r|r|r|m];
      cbn in He; try discriminate He.
    + injection He as <-. assert (EQ : reports_of sender (tr ++ [(ETryRecv (CMon mi), a)]) = reports_of sender tr) by (apply quiet; discriminate).
      split; [now rewrite EQ|]. destruct a as [v| | | | | | |b| | | ]; try discriminate Hw; [destruct v; try discriminate Hw|..]; cbn [tnext]; unfold told; rewrite ?EQ; fold (told sender tr); sums tr.
    + injection He as <-. assert (EQ : reports_of sender (tr ++ [(ETryRecv (CMon mo), a)]) = reports_of sender tr) by (apply quiet; discriminate).
      assert (HG : forall n moved', ntak (CMon mi) tr = ntak (CMon mo) tr + ntak (CMon mo) (@cons event (ETryRecv (CMon mo), a) nil) + n ->
        inv_t (tr ++ [(ETryRecv (CMon mo), a)]) (go_rep sender n moved' back last)).
      { intros n moved' En. split; [now rewrite EQ|]. unfold go_rep. destruct sender as [s|] eqn:Es; [destruct (last =? n)%nat eqn:El|]; unfold told; rewrite EQ; fold (told sender tr); rewrite <- ?Es in *.
        all: assert (E0 : ntak (CMon mi) (@cons event (ETryRecv (CMon mo), a) nil) = 0) by (unfold ntak; destruct a; cbn; rewrite ?Hm'; reflexivity).
        all: counts; rewrite E0; clear E0; revert En HI; cbn [closedb existsb]; rewrite !orb_false_r; generalize (ntak (CMon mo) (@cons event (ETryRecv (CMon mo), a) nil)); intros d En HI.
        - apply Nat.eqb_eq in El. subst n. intuition lia.
        - apply Nat.eqb_neq in El. intuition lia.
        - intuition (try lia; congruence). }
      destruct a as [v| | | | | | |b| | | ]; try discriminate Hw; cbn [tnext].
      * destruct v; try discriminate Hw; [destruct size as [|m]|].
        -- split; [now rewrite EQ|]. sums tr.
        -- apply HG. unfold ntak at 3. cbn. rewrite Nat.eqb_refl. cbn. lia.
        -- split; [now rewrite EQ|]. sums tr.
      * apply HG. unfold ntak at 3. cbn. lia.
      * apply HG. unfold ntak at 3. cbn. lia.
    + destruct sender as [s|] eqn:Es; [|discriminate He]. injection He as <-. destruct HI as (H1 & H2 & H3 & H4 & H5). unfold inv_t. rewrite <- Es in *.
      destruct a as [v| | | | | | |b| | | ]; try discriminate Hw; cbn [tnext].
      * assert (EQ : reports_of sender (tr ++ [(ESend (CSize s) (VSize size), AClosed)]) = reports_of sender tr).
        { rewrite reports_of_snoc, Es. cbn. apply app_nil_r. }
        split; [now rewrite EQ|]. rewrite unheard_snoc. replace (unheard sender [(ESend (CSize s) (VSize size), AClosed)]) with true by (rewrite Es; cbn; now rewrite Nat.eqb_refl).
        rewrite orb_true_r. counts. cbn [closedb existsb]. rewrite !orb_false_r. auto.
      * assert (EQ : reports_of sender (tr ++ [(ESend (CSize s) (VSize size), AOk)]) = reports_of sender tr ++ [size]).
        { rewrite reports_of_snoc, Es. unfold reports_of at 2. unfold reports. cbn. now rewrite Nat.eqb_refl. }
        unfold told. rewrite EQ, last_snoc. split; [apply changing_snoc; split; [exact HC|]; fold (told sender tr); congruence|].
        counts. cbn [closedb existsb]. rewrite !orb_false_r. unfold ntak at 2 4. cbn. rewrite !Nat.add_0_r. auto.
    + injection He as <-. assert (EQ : reports_of sender (tr ++ [(EIsEmpty (CMon mi), a)]) = reports_of sender tr) by (apply quiet; discriminate).
      split; [now rewrite EQ|]. destruct a as [v| | | | | | |b| | | ]; try discriminate Hw. unfold told, go_turn; destruct b, moved; cbn [tnext go_turn]; rewrite EQ; fold (told sender tr); sums tr.
    + injection He as <-. assert (EQ : reports_of sender (tr ++ [(EIsClosed (CMon mi), a)]) = reports_of sender tr) by (apply quiet; discriminate).
      split; [now rewrite EQ|]. destruct a as [v| | | | | | |b| | | ]; try discriminate Hw. unfold told; destruct b, moved; cbn [tnext go_turn]; rewrite EQ; fold (told sender tr); sums tr.
    + injection He as <-. assert (EQ : reports_of sender (tr ++ [(EIsEmpty (CMon mo), a)]) = reports_of sender tr) by (apply quiet; discriminate).
      split; [now rewrite EQ|]. destruct a as [v| | | | | | |b| | | ]; try discriminate Hw. unfold told; destruct b, moved; cbn [tnext go_turn]; rewrite EQ; fold (told sender tr); sums tr.
    + injection He as <-. assert (EQ : reports_of sender (tr ++ [(EIsClosed (CMon mo), a)]) = reports_of sender tr) by (apply quiet; discriminate).
      split; [now rewrite EQ|]. destruct a as [v| | | | | | |b| | | ]; try discriminate Hw. unfold told; destruct b, moved; cbn [tnext go_turn]; rewrite EQ; fold (told sender tr); sums tr.
    + injection He as <-. assert (EQ : reports_of sender (tr ++ [(ESleep (back * back), a)]) = reports_of sender tr) by (apply quiet; discriminate).
      split; [now rewrite EQ|]. destruct a as [v| | | | | | |b| | | ]; try discriminate Hw. unfold told; cbn [tnext go_turn]; rewrite EQ; fold (told sender tr); sums tr.
    + injection He as <-. assert (EQ : reports_of sender (tr ++ [(EClose (CMon mo), a)]) = reports_of sender tr) by (apply quiet; discriminate).
      split; [now rewrite EQ|]. destruct a as [v| | | | | | |b| | | ]; try discriminate Hw. unfold told; destruct r as [r|]; cbn [tnext go_turn]; rewrite ?EQ, ?unheard_snoc; [fold (told sender tr); sums tr|].
      destruct HI as (-> & H2 & H3). cbn [orb]. sums tr.
    + injection He as <-. assert (EQ : reports_of sender (tr ++ [(EClose (CMon mi), a)]) = reports_of sender tr) by (apply quiet; discriminate).
      split; [now rewrite EQ|]. destruct a as [v| | | | | | |b| | | ]; try discriminate Hw. 
      assert (HG : match r with Some size => ntak (CMon mi) (tr ++ [(EClose (CMon mi), AOk)]) = ntak (CMon mo) (tr ++ [(EClose (CMon mi), AOk)]) + size /\ (sender <> None -> told sender (tr ++ [(EClose (CMon mi), AOk)]) = size) | None => unheard sender (tr ++ [(EClose (CMon mi), AOk)]) = true end
        /\ closedb (CMon mi) (tr ++ [(EClose (CMon mi), AOk)]) = true /\ closedb (CMon mo) (tr ++ [(EClose (CMon mi), AOk)]) = true).
      { destruct r as [r|]; unfold told; rewrite ?EQ, ?unheard_snoc; [fold (told sender tr); sums tr|]. destruct HI as (-> & H2 & H3). cbn [orb]. sums tr. }
      cbn [tnext]. unfold go_dropS. destruct sender as [s|] eqn:Es; rewrite <- ?Es in *; destruct r; tauto.
    + destruct sender as [s|] eqn:Es; [|discriminate He]. injection He as <-. rewrite <- ?Es in *. assert (EQ : reports_of sender (tr ++ [(EClose (CSize s), a)]) = reports_of sender tr) by (apply quiet; discriminate).
      unfold inv_t. rewrite <- ?Es in *. split; [now rewrite EQ|]. destruct a as [v| | | | | | |b| | | ]; try discriminate Hw. unfold told; destruct r as [r|]; cbn [tnext go_turn]; rewrite ?EQ, ?unheard_snoc; [fold (told sender tr); sums tr|].
      destruct HI as (-> & H2 & H3). cbn [orb]. sums tr.
Qed.
End Counter.
