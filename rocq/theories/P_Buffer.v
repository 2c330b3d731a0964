(** * P_Buffer: the halves of a buffer and its counter *)
From Coq Require Import Ascii String List Bool Arith Lia.
From Verif Require Import M_Prog P_Prog P_Exec M_Motion M_BackOff M_Connectable S_Trace S_Lines S_Motion S_World P_World P_Machine P_Reach M_Join M_Buffer.
Import ListNotations.

(** ** Counting *)
Definition nsent (c : chan) (tr : trace) : nat := length (sent c tr).
Definition noff (c : chan) (tr : trace) : nat := length (offered c tr).
Definition ntak (c : chan) (tr : trace) : nat := length (taken c tr).
Definition closedb (c : chan) (tr : trace) : bool := existsb (fun ev => match ev with (EClose c', AOk) => chan_eqb c c' | _ => false end) tr.
Definition refusedb (c : chan) (tr : trace) : bool := existsb (fun ev => match ev with (ESend c' _, AClosed) => chan_eqb c c' | _ => false end) tr.
Definition sawb (c : chan) (tr : trace) : bool := existsb (fun ev => match ev with (ERecv c', AClosed) | (ETryRecv c', AClosed) => chan_eqb c c' | _ => false end) tr.

Lemma nsent_snoc c tr ev : nsent c (tr ++ [ev]) = nsent c tr + nsent c [ev].
Proof. unfold nsent. rewrite sent_app'. apply app_length. Qed.
Lemma noff_snoc c tr ev : noff c (tr ++ [ev]) = noff c tr + noff c [ev].
Proof. unfold noff, offered. rewrite flat_map_app. apply app_length. Qed.
Lemma ntak_snoc c tr ev : ntak c (tr ++ [ev]) = ntak c tr + ntak c [ev].
Proof. unfold ntak, taken. rewrite flat_map_app. apply app_length. Qed.
Lemma closedb_snoc c tr ev : closedb c (tr ++ [ev]) = closedb c tr || closedb c [ev].
Proof. apply existsb_app. Qed.
Lemma refusedb_snoc c tr ev : refusedb c (tr ++ [ev]) = refusedb c tr || refusedb c [ev].
Proof. apply existsb_app. Qed.
Lemma sawb_snoc c tr ev : sawb c (tr ++ [ev]) = sawb c tr || sawb c [ev].
Proof. apply existsb_app. Qed.

Lemma chan_eqb_refl c : chan_eqb c c = true.
Proof. destruct c; apply Nat.eqb_refl. Qed.

Lemma closedb_spec c tr : closedb c tr = true <-> closed_by c tr.
Proof.
  unfold closedb, closed_by. rewrite existsb_exists. split.
  - intros ([e a] & HI & H). destruct e; try discriminate H. destruct a; try discriminate H. apply chan_eqb_eq in H. now subst.
  - intro HI. exists (EClose c, AOk). split; [exact HI|]. apply chan_eqb_refl.
Qed.
Lemma sawb_spec c tr : sawb c tr = true <-> saw_end c tr.
Proof.
  unfold sawb, saw_end. rewrite existsb_exists. split.
  - intros ([e a] & HI & H). destruct e; try discriminate H; destruct a; try discriminate H; apply chan_eqb_eq in H; subst; auto.
  - intros [HI|HI]; [exists (ERecv c, AClosed)|exists (ETryRecv c, AClosed)]; (split; [exact HI|]); apply chan_eqb_refl.
Qed.
Lemma refusedb_spec c tr : refusedb c tr = true <-> exists v, In (ESend c v, AClosed) tr.
Proof.
  unfold refusedb. rewrite existsb_exists. split.
  - intros ([e a] & HI & H). destruct e; try discriminate H; destruct a; try discriminate H. apply chan_eqb_eq in H. subst. eauto.
  - intros (v & HI). exists (ESend c v, AClosed). split; [exact HI|]. apply chan_eqb_refl.
Qed.

Ltac counts := rewrite ?nsent_snoc, ?noff_snoc, ?ntak_snoc, ?closedb_snoc, ?refusedb_snoc, ?sawb_snoc.

(** ** The half that takes in *)
Definition read_failed (pl : pull) (tr : trace) : bool :=
  match pl with
  | PlBytes _ _ f _ => existsb (fun ev => match ev with (ERead f', AErr) => f =? f' | _ => false end) tr
  | _ => false
  end.
Lemma read_failed_snoc pl tr ev : read_failed pl (tr ++ [ev]) = read_failed pl tr || read_failed pl [ev].
Proof. unfold read_failed. destruct pl; try reflexivity. apply existsb_app. Qed.

Lemma rf_send pl c v a : read_failed pl [(ESend c v, a)] = false.
Proof. now destruct pl. Qed.
Lemma rf_close pl c a : read_failed pl [(EClose c, a)] = false.
Proof. now destruct pl. Qed.
Lemma rf_drop pl f a : read_failed pl [(EDropFd f, a)] = false.
Proof. now destruct pl. Qed.
Lemma rf_ok pl f d : read_failed pl [(ERead f, AData d)] = false.
Proof. now destruct pl. Qed.

Definition inv_a (pl : pull) (u mi : nat) (tr : trace) (s : place) : Prop :=
  let S := nsent (CData u) tr in
  let O := noff (CData u) tr in
  let W := nsent (CMon mi) tr in
  let RU := refusedb (CData u) tr in
  let RM := refusedb (CMon mi) tr in
  let C := closedb (CData u) tr in
  let CM := closedb (CMon mi) tr in
  S <= O /\ (RU = true -> S < O) /\ (RU = false -> S = O) /\
  match s with
  | LRead _ _ _ | LWrite _ _ _ => W = O /\ C = false /\ CM = false /\ RM = false /\ read_failed pl tr = false
  | LNoteW x dec _ _ => W + 1 = O + (if is_finished x then 1 else 0) /\ C = false /\ CM = false /\ RM = false /\ read_failed pl tr = false /\ (dec = true -> RU = true)
  | LShut _ _ => (W = O + 1 \/ (W = O /\ RU = true)) /\ C = false /\ CM = false /\ RM = false /\ read_failed pl tr = false
  | LShutW _ _ => (W = O + 1 \/ (W = O /\ RU = true)) /\ C = true /\ CM = false /\ RM = false /\ read_failed pl tr = false
  | LDropIn (Ok _) | LDropOut (Ok _) | LDropW (Ok _) | LDone (Ok _) => (W = O + 1 \/ (W = O /\ RU = true)) /\ C = true /\ CM = true /\ RM = false /\ read_failed pl tr = false
  | LDropIn (Err _) | LDropOut (Err _) | LDropW (Err _) | LDone (Err _) =>
    (RM = true \/ (W + 1 = O /\ RU = true /\ RM = false) \/ (W = O /\ read_failed pl tr = true /\ RM = false)) /\ O <= W + 1
  | _ => False
  end.

Section HalfA.
Variables (brk : breakable) (u mi : nat).
Let ps := PsSender (J 0 None 0 brk) u.
Let mon := MN None (Some mi).

Ltac sum_a tr :=
  unfold inv_a in *; cbv zeta in *; rewrite ?read_failed_snoc, ?rf_send, ?rf_close, ?rf_drop, ?rf_ok; counts;
  generalize dependent (nsent (CData u) tr); intro vS; generalize dependent (noff (CData u) tr); intro vO; generalize dependent (nsent (CMon mi) tr); intro vW;
  generalize dependent (refusedb (CData u) tr); intro vRU; generalize dependent (refusedb (CMon mi) tr); intro vRM;
  generalize dependent (closedb (CData u) tr); intro vC; generalize dependent (closedb (CMon mi) tr); intro vCM;
  let q := fresh in match goal with |- context [read_failed ?p tr] => generalize dependent (read_failed p tr); intro q | _ => idtac end;
  intros; cbn; rewrite ?Nat.eqb_refl, ?orb_true_r, ?Nat.add_0_r, ?orb_false_r; cbn; rewrite ?Nat.add_0_r, ?orb_false_r, ?orb_true_r; intuition (try lia; try congruence; try (subst; reflexivity)).

Lemma inv_a_some pl tr ov cnt x : x <> Skipped -> inv_a pl u mi tr (LRead [] 0 0) -> inv_a pl u mi tr (go_noteR mon x ov cnt (spy_last mon None ps)).
Proof.
  unfold inv_a. cbv zeta. intros Hx (H1 & H2 & H3 & H4). destruct x; cbn; try contradiction; repeat split; try tauto; try lia; try discriminate.
Qed.
Lemma inv_a_read pl tr ov start cnt : inv_a pl u mi tr (LRead [] 0 0) -> inv_a pl u mi tr (go_read pl mon None ps ov start cnt).
Proof.
  intros HI. unfold go_read, go_read0. destruct pl as [k j f sc|j n|j q|]; try exact HI.
  destruct (scan _ _ _ _) as [st [e|]]; [|exact HI]. apply inv_a_some; [apply match_stuff|exact HI].
Qed.

Lemma half_a_inv pl tr s : match pl with PlBytes _ _ _ _ | PlReceiver _ _ => True | _ => False end -> match pl with PlReceiver _ n => n <> u | _ => True end ->
  mreach pl mon None ps tr s -> inv_a pl u mi tr s.
Proof.
  intros Hin Hnot. apply reach_inv.
  - unfold start_place. assert (H0 : inv_a pl u mi [] (LRead [] 0 0)).
    { unfold inv_a, read_failed. cbn. destruct pl; repeat split; auto; discriminate. }
    destruct pl; now apply inv_a_read.
  - clear tr s. intros tr s e a HI He Hw. unfold mstat in He. destruct (view pl mon None ps s) as [e0|] eqn:EV; [|discriminate He]. injection He as <-.
    destruct s as [ov st cnt|x ov cnt|d ov cnt|x dec ov cnt|x dec ov cnt|ov cnt|ov cnt|ov cnt|r|r|r|r|r]; try (exfalso; unfold inv_a in HI; tauto).
    + (* LRead *)
      destruct pl as [k j f sc|j n|j q|] eqn:Epl; try contradiction; cbn in EV; injection EV as <-.
      * destruct a as [| | | | | |d| | | | ]; try discriminate Hw; rewrite <- Epl in HI.
        -- rewrite Epl in HI. cbn [next]. sum_a tr.
        -- assert (HR : inv_a pl u mi (tr ++ [(ERead f, AData d)]) (LRead [] 0 0)).
           { rewrite Epl in *. sum_a tr. }
           rewrite Epl in *. destruct d as [|c d]; cbn [next]; [apply inv_a_some; [apply match_stuff|exact HR]|now apply inv_a_read].
      * destruct a as [v| | | | | | | | | | ]; try discriminate Hw.
        -- destruct v; try discriminate Hw. cbn [next]. apply inv_a_some; [discriminate|]. sum_a tr.
        -- cbn [next]. apply inv_a_some; [discriminate|]. sum_a tr.
    + (* LWrite *) cbn in EV. injection EV as <-. destruct a as [| | | | | | | | | | ]; try discriminate Hw.
      * unfold ps, mon; destruct brk; cbn [next push_brk push_journey j_brk]; sum_a tr.
      * unfold ps, mon; cbn [next go_spy go_noteW]; sum_a tr.
    + (* LNoteW *) cbn in EV. injection EV as <-. destruct a as [| | | | | | | | | | ]; try discriminate Hw.
      * cbn [next]. sum_a tr.
      * cbn [next]. unfold go_after. destruct (dec || is_finished x) eqn:ED.
        -- assert (dec = true \/ is_finished x = true) as [->|EF] by (destruct dec; auto). 
          ++ unfold inv_a in HI; cbv zeta in HI. destruct (is_finished x); sum_a tr.
          ++ unfold inv_a in HI; cbv zeta in HI. rewrite EF in HI. sum_a tr.
        -- apply orb_false_elim in ED. destruct ED as [-> EF]. apply inv_a_read. unfold inv_a in HI; cbv zeta in HI. rewrite EF in HI. sum_a tr.
    + (* LShut *) cbn in EV. injection EV as <-. destruct a as [| | | | | | | | | | ]; try discriminate Hw. cbn [next]. unfold mon; cbn [go_shutR go_shutW mon_read mon_written]. sum_a tr.
    + (* LShutW *) cbn in EV. injection EV as <-. destruct a as [| | | | | | | | | | ]; try discriminate Hw. cbn [next]. sum_a tr.
    + (* LDropIn *) destruct pl as [k j f sc|j n|j q|] eqn:Epl; try contradiction; cbn in EV; injection EV as <-; destruct a as [| | | | | | | | | | ]; try discriminate Hw; cbn [next]; destruct r as [r|r]; sum_a tr.
    + cbn in EV; injection EV as <-; destruct a as [| | | | | | | | | | ]; try discriminate Hw; cbn [next]; unfold mon; cbn [go_dropR go_dropW mon_read mon_written]; destruct r as [r|r]; sum_a tr.
    + cbn in EV; injection EV as <-; destruct a as [| | | | | | | | | | ]; try discriminate Hw; cbn [next]; destruct r as [r|r]; sum_a tr.
    + discriminate EV.
Qed.
End HalfA.

(** ** The half that gives out *)
Definition inv_b (u mo : nat) (tr : trace) (s : place) : Prop :=
  let T := ntak (CData u) tr in
  let R := nsent (CMon mo) tr in
  let SE := sawb (CData u) tr in
  let RM := refusedb (CMon mo) tr in
  let C := closedb (CData u) tr in
  let CM := closedb (CMon mo) tr in
  match s with
  | LRead _ _ _ | LWrite _ _ _ => R = T /\ SE = false /\ C = false /\ CM = false /\ RM = false
  | LNoteR x _ _ => R + (if is_finished x then 0 else 1) = T /\ SE = is_finished x /\ C = false /\ CM = false /\ RM = false
  | LSpy x _ _ _ => R = T + (if is_finished x then 1 else 0) /\ SE = is_finished x /\ C = false /\ CM = false /\ RM = false
  | LShut _ _ | LShutR _ _ => R = T + (if SE then 1 else 0) /\ C = false /\ CM = false /\ RM = false
  | LDropIn (Ok _) => R = T + (if SE then 1 else 0) /\ C = false /\ CM = true /\ RM = false
  | LDropIn (Err _) => R <= T + (if SE then 1 else 0) /\ T <= R + 1 /\ C = false
  | LDropOut (Ok _) | LDropR (Ok _) => R = T + (if SE then 1 else 0) /\ C = true /\ CM = true /\ RM = false
  | LDropOut (Err _) | LDropR (Err _) => R <= T + (if SE then 1 else 0) /\ T <= R + 1 /\ C = true
  | LDone (Ok _) => R = T + (if SE then 1 else 0) /\ C = true /\ CM = true /\ RM = false
  | LDone (Err _) => R <= T + (if SE then 1 else 0) /\ T <= R + 1 /\ C = true /\ CM = true
  | _ => False
  end.

Section HalfB.
Variables (u mo : nat) (spy : option nat).
Let pl := PlReceiver (PJ 0 0) u.
Let mon := MN (Some mo) None.
Ltac sum_b tr :=
  unfold inv_b in *; cbv zeta in *; counts;
  generalize dependent (ntak (CData u) tr); intro vT; generalize dependent (nsent (CMon mo) tr); intro vR;
  generalize dependent (sawb (CData u) tr); intro vSE; generalize dependent (refusedb (CMon mo) tr); intro vRM;
  generalize dependent (closedb (CData u) tr); intro vC; generalize dependent (closedb (CMon mo) tr); intro vCM;
  intros; cbn; rewrite ?Nat.eqb_refl, ?orb_true_r, ?Nat.add_0_r, ?orb_false_r; cbn; rewrite ?Nat.add_0_r, ?orb_false_r, ?orb_true_r; intuition (subst; cbn in *; try lia; try congruence; try reflexivity; try (apply Nat.eqb_neq; congruence)).
Definition off_chan (p : push) (u : nat) : Prop := match p with PsSender _ n | PsIoSender _ n => n <> u | _ => True end.

Lemma inv_b_round ps tr x dec ov cnt : x <> Skipped -> inv_b u mo tr (LSpy x dec ov cnt) -> inv_b u mo tr (go_after x dec ov cnt (go_again pl mon spy ps)).
Proof.
  intros Hx HI. unfold go_after. destruct (dec || is_finished x) eqn:E.
  - unfold inv_b in *. cbv zeta in *. destruct HI as (H1 & H2 & H3). rewrite H2. split; [destruct (is_finished x); lia|exact H3].
  - apply orb_false_elim in E. destruct E as [-> E]. unfold inv_b in *. cbv zeta in *. rewrite E in HI. cbn. rewrite Nat.add_0_r in HI. exact HI.
Qed.
Lemma inv_b_spy ps tr x dec ov cnt : x <> Skipped -> inv_b u mo tr (LSpy x dec ov cnt) -> inv_b u mo tr (go_spy mon spy ps x dec ov cnt (go_again pl mon spy ps)).
Proof.
  intros Hx HI. unfold go_spy. assert (HG : inv_b u mo tr (go_noteW mon x dec ov cnt (go_again pl mon spy ps))) by (apply inv_b_round; assumption).
  destruct spy; [|exact HG]. destruct (push_journey ps) as [[src [port|] dst b]|]; try exact HG. exact HI.
Qed.
Lemma inv_b_last ps tr dec ov cnt : inv_b u mo tr (LSpy Finished dec ov cnt) -> inv_b u mo tr (spy_last mon spy ps Finished dec ov cnt).
Proof.
  intros HI. unfold spy_last, go_spy. assert (HG : inv_b u mo tr (go_noteW mon Finished dec ov cnt (fun ov cnt => LShut ov cnt))).
  { unfold go_noteW, mon, go_after; cbn [mon_written]. replace (dec || is_finished Finished) with true by (cbn; now rewrite orb_true_r). sum_b tr. }
  destruct spy; [|exact HG]. destruct (push_journey ps) as [[src [port|] dst b]|]; try exact HG. exact HI.
Qed.

Lemma half_b_inv ps tr s : real_push ps -> off_chan ps u -> mreach pl mon spy ps tr s -> inv_b u mo tr s.
Proof.
  intros Hreal Hnot HR.
  enough (inv_b u mo tr s /\ valid mon spy ps s) by tauto. revert tr s HR. apply reach_inv.
  - cbn. repeat split.
  - intros tr s e a [HI HV] He Hw. assert (HV' : valid mon spy ps (next pl mon spy ps s a)).
    { unfold mstat in He. destruct (view pl mon spy ps s) as [e0|] eqn:EV; [|discriminate He]. injection He as <-. eapply valid_next; eassumption. }
    split; [|exact HV']. clear HV'.
    unfold mstat in He. destruct (view pl mon spy ps s) as [e0|] eqn:EV; [|discriminate He]. injection He as <-.
    destruct s as [ov st cnt|x ov cnt|d ov cnt|x dec ov cnt|x dec ov cnt|ov cnt|ov cnt|ov cnt|r|r|r|r|r]; try (exfalso; unfold inv_b in HI; tauto).
    + cbn in EV. injection EV as <-. destruct a as [v| | | | | | | | | | ]; try discriminate Hw; cbn [next].
      * destruct v; try discriminate Hw. cbn [go_noteR mon mon_read]. sum_b tr.
      * cbn [go_noteR mon mon_read]. sum_b tr.
    + cbn in EV. injection EV as <-. destruct a as [v| | | | | | | | | | ]; try discriminate Hw; cbn [next].
      * unfold inv_b in HI |- *; cbv zeta in *; destruct (is_finished x) eqn:E; sum_b tr.
      * destruct x as [d| |]; cbn [go_write]; [sum_b tr|apply inv_b_last; sum_b tr|destruct HV as [[] _]; reflexivity].
    + cbn in EV. assert (HS : inv_b u mo (tr ++ [(e0, a)]) (LSpy (IOData d) false ov cnt)).
      { destruct ps; try contradiction; cbn in EV; injection EV as <-; destruct a; try discriminate Hw; cbn in Hnot; sum_b tr. }
      assert (HS' : inv_b u mo (tr ++ [(e0, a)]) (LSpy (IOData d) true ov cnt)) by exact HS.
      assert (HD : forall r, inv_b u mo (tr ++ [(e0, a)]) (LDropIn (Err r))).
      { clear EV. intro r. unfold inv_b in HS |- *. cbv zeta in *. cbn [is_finished] in HS. destruct HS as (-> & -> & -> & _). repeat split; lia. }
      assert (Hd : IOData d <> Skipped) by discriminate.
      destruct a; cbn [next]; try apply (inv_b_spy ps _ _ _ _ _ Hd HS); try apply HD; destruct (push_brk ps); try apply HD; now apply inv_b_spy.
    + destruct HV as [Hx Hspy]. cbn in EV. destruct spy as [sp|] eqn:Es; [|contradiction]. destruct (push_journey ps) as [[src [port|] dst b]|] eqn:Ej; try contradiction. injection EV as <-.
      destruct a as [v| | | | | | | | | | ]; try discriminate Hw; cbn [next].
      * rewrite Ej. destruct (is_finished x) eqn:E; unfold inv_b in HI; cbv zeta in HI; rewrite E in HI; sum_b tr.
      * apply (inv_b_round ps); [exact Hx|]. unfold inv_b in HI |- *. cbv zeta in *. destruct (is_finished x); sum_b tr.
    + cbn in EV. destruct ps; try contradiction; injection EV as <-; destruct a; try discriminate Hw; cbn [next]; cbn in Hnot; cbn [go_shutR mon mon_read]; sum_b tr.
    + cbn in EV. injection EV as <-. destruct a; try discriminate Hw; cbn [next]. cbn [go_shutW mon mon_written]. sum_b tr.
    + cbn in EV. injection EV as <-. destruct a; try discriminate Hw; cbn [next]. destruct r as [r|r]; sum_b tr.
    + cbn in EV. destruct ps; try contradiction; injection EV as <-; destruct a; try discriminate Hw; cbn [next]; cbn in Hnot; cbn [go_dropR mon mon_read]; destruct r as [r|r]; sum_b tr.
    + cbn in EV. injection EV as <-. destruct a; try discriminate Hw; cbn [next]. cbn [go_dropW mon mon_written]. destruct r as [r|r]; sum_b tr.
    + discriminate EV.
Qed.
End HalfB.

(** ** The counter *)
Inductive tplace :=
| TIn (size back last : nat)
| TOut (size : nat) (moved : bool) (back last : nat)
| TRep (size : nat) (moved : bool) (back last : nat)
| TE1 (size : nat) (moved : bool) (back last : nat)
| TC1 (size : nat) (moved : bool) (back last : nat)
| TE2 (size : nat) (moved : bool) (back last : nat)
| TC2 (size : nat) (moved : bool) (back last : nat)
| TWait (size back last : nat)
| TDropO (r : option nat)
| TDropI (r : option nat)
| TDropS (r : option nat)
| TDone (r : option nat)
| TBad (msg : string).

Section Counter.
Variables (sender : option nat) (mi mo : nat).

Definition tstat (t : tplace) : status (option nat) :=
  match t with
  | TIn _ _ _ => At (ETryRecv (CMon mi))
  | TOut _ _ _ _ => At (ETryRecv (CMon mo))
  | TRep size _ _ _ => match sender with Some s => At (ESend (CSize s) (VSize size)) | None => Panicked "" end
  | TE1 _ _ _ _ => At (EIsEmpty (CMon mi))
  | TC1 _ _ _ _ => At (EIsClosed (CMon mi))
  | TE2 _ _ _ _ => At (EIsEmpty (CMon mo))
  | TC2 _ _ _ _ => At (EIsClosed (CMon mo))
  | TWait _ back _ => At (ESleep (back * back))
  | TDropO _ => At (EClose (CMon mo))
  | TDropI _ => At (EClose (CMon mi))
  | TDropS _ => match sender with Some s => At (EClose (CSize s)) | None => Panicked "" end
  | TDone r => Done r
  | TBad m => Panicked m
  end.
Definition go_rep (size : nat) (moved : bool) (back last : nat) : tplace :=
  match sender with
  | Some _ => if (last =? size)%nat then TE1 size moved back last else TRep size moved back last
  | None => TE1 size moved back last
  end.
Definition go_turn (size : nat) (moved : bool) (back last : nat) : tplace :=
  if moved then TIn size 0 last else TWait size back last.
Definition go_dropS (r : option nat) : tplace := match sender with Some _ => TDropS r | None => TDone r end.
Definition tnext (t : tplace) (a : ans) : tplace :=
  match t with
  | TIn size back last =>
    match a with
    | AMsg VWrote => TOut (S size) true back last
    | AMsg _ => TBad "SHOULD NOT BE HERE"
    | _ => TOut size false back last
    end
  | TOut size moved back last =>
    match a with
    | AMsg VRead => match size with O => TBad "attempt to subtract with overflow" | S m => go_rep m true back last end
    | AMsg _ => TBad "SHOULD NOT BE HERE"
    | _ => go_rep size moved back last
    end
  | TRep size moved back last => match a with AOk => TE1 size moved back size | _ => TDropO None end
  | TE1 size moved back last => match a with ABool true => TC1 size moved back last | _ => go_turn size moved back last end
  | TC1 size moved back last => match a with ABool true => TE2 size moved back last | _ => go_turn size moved back last end
  | TE2 size moved back last => match a with ABool true => TC2 size moved back last | _ => go_turn size moved back last end
  | TC2 size moved back last => match a with ABool true => TDropO (Some size) | _ => go_turn size moved back last end
  | TWait size back last => TIn size (if back <=? 50 then S back else back) last
  | TDropO r => TDropI r
  | TDropI r => go_dropS r
  | TDropS r => TDone r
  | TDone r => TDone r
  | TBad m => TBad m
  end.

Definition t_fin (r : option nat) : prog (option nat) :=
  close (CMon mo) ;;; close (CMon mi) ;;; match sender with Some s => close (CSize s) | None => Ret tt end ;;; Ret r.
Definition t_k (lr : counter + option nat) : prog (option nat) :=
  match lr with inl i' => Tau (iter (count_body sender mi mo) i') | inr r => Ret r end.
Definition t_run (p : prog (counter + option nat)) : prog (option nat) := bind (bind p t_k) t_fin.
Definition t_turn (size : nat) (moved : bool) (back last : nat) (over : bool) : prog (counter + option nat) :=
  if over then Ret (inr (Some size)) else
  if moved then Ret (inl (Counter size (snd (back_off_reset back)) last))
  else ' (_, b) <- back_off_wait back ;; Ret (inl (Counter size b last)).
Definition t_told (size : nat) (moved : bool) (back : nat) (r : option nat) : prog (counter + option nat) :=
  match r with
  | None => Ret (inr None)
  | Some last => over <- both_over mi mo ;; t_turn size moved back last over
  end.
Definition t_rep (size : nat) (moved : bool) (back last : nat) : prog (counter + option nat) :=
  r <- report_size sender size last ;; t_told size moved back r.
Definition t_out (size : nat) (moved : bool) (back last : nat) : prog (counter + option nat) :=
  ' (moved, size) <- look_out mo size moved ;; t_rep size moved back last.
Definition t_over2 : prog bool := c <- is_empty (CMon mo) ;; if negb c then Ret false else is_closed (CMon mo).
Definition t_over1 : prog bool := b <- is_closed (CMon mi) ;; if negb b then Ret false else t_over2.

Definition t_left (t : tplace) : prog (option nat) :=
  match t with
  | TIn size back last => bind (iter (count_body sender mi mo) (Counter size back last)) t_fin
  | TOut size moved back last => t_run (t_out size moved back last)
  | TRep size moved back last => match sender with Some _ => t_run (t_rep size moved back last) | None => Panic "" end
  | TE1 size moved back last => t_run (t_told size moved back (Some last))
  | TC1 size moved back last => t_run (bind t_over1 (t_turn size moved back last))
  | TE2 size moved back last => t_run (bind t_over2 (t_turn size moved back last))
  | TC2 size moved back last => t_run (bind (is_closed (CMon mo)) (t_turn size moved back last))
  | TWait size back last => t_run (t_turn size false back last false)
  | TDropO r => t_fin r
  | TDropI r => close (CMon mi) ;;; match sender with Some s => close (CSize s) | None => Ret tt end ;;; Ret r
  | TDropS r => match sender with Some s => close (CSize s) ;;; Ret r | None => Panic "" end
  | TDone r => Ret r
  | TBad m => Panic m
  end.
Definition t_valid (t : tplace) : Prop :=
  match t with TRep size _ _ last => sender <> None /\ (last =? size)%nat = false | TDropS _ => sender <> None | _ => True end.

Lemma run_ret_l c : same (t_run (Ret (inl c))) (bind (iter (count_body sender mi mo) c) t_fin).
Proof. unfold t_run. rewrite bind_ret. cbn [t_k]. rewrite bind_eq. cbn. apply same_tau. Qed.
Lemma run_ret_r r : t_run (Ret (inr r)) = t_fin r.
Proof. unfold t_run. rewrite bind_ret. cbn [t_k]. now rewrite bind_ret. Qed.
Lemma run_vis e k : t_run (Vis e k) = Vis e (fun a => t_run (k a)).
Proof. unfold t_run. now rewrite !bind_vis. Qed.
Lemma run_panic m : t_run (Panic m) = Panic m.
Proof. unfold t_run. now rewrite !bind_panic. Qed.

Lemma left_turn size moved back last : same (t_left (go_turn size moved back last)) (t_run (t_turn size moved back last false)).
Proof.
  unfold go_turn, t_turn. destruct moved; cbn [t_left]; [|apply same_refl]. apply same_sym. apply run_ret_l.
Qed.
Lemma left_rep size moved back last : same (t_left (go_rep size moved back last)) (t_run (t_rep size moved back last)).
Proof.
  unfold go_rep, t_rep, report_size. destruct sender as [s|] eqn:Es; [destruct (last =? size)%nat eqn:El|].
  - cbn [t_left negb]. rewrite bind_ret. apply same_refl.
  - cbn [t_left negb]. unfold t_rep, report_size. rewrite Es, El. cbn [negb]. apply same_refl.
  - cbn [t_left]. rewrite bind_ret. apply same_refl.
Qed.
Lemma left_dropS r : t_left (go_dropS r) = (match sender with Some s => close (CSize s) | None => Ret tt end ;;; Ret r).
Proof. unfold go_dropS. destruct sender eqn:Es; cbn [t_left]; [now rewrite Es|]. now rewrite bind_ret. Qed.

Lemma t_step t : t_valid t -> same (t_left t) (step_of _ _ tstat tnext t_left t).
Proof.
  intro HV. destruct t as [size back last|size moved back last|size moved back last|size moved back last|size moved back last|size moved back last|size moved back last|size back last|r|r|r|r|m]; cbn [t_left]; unfold step_of; cbn [tstat].
  - rewrite iter_eq. change (fun lr : counter + option nat => match lr with inl i' => Tau (iter (count_body sender mi mo) i') | inr r => Ret r end) with t_k.
    fold (t_run (count_body sender mi mo (Counter size back last))). unfold count_body, look_in, try_recv. cbn [ct_size ct_back ct_last]. rewrite !bind_vis, run_vis.
    apply same_vis. intros a Hw. destruct a as [v| | | | | | | | | | ]; try discriminate Hw; [destruct v; try discriminate Hw|..]; cbn [tnext t_left]; rewrite ?bind_ret, ?bind_panic, ?run_panic; rewrite ?bind_ret; apply same_refl.
  - unfold t_out, look_out, try_recv. rewrite !bind_vis, run_vis. apply same_vis. intros a Hw.
    destruct a as [v| | | | | | | | | | ]; try discriminate Hw; [destruct v; try discriminate Hw|..]; cbn [tnext]; rewrite ?bind_ret, ?bind_panic, ?run_panic; rewrite ?bind_ret; try (apply same_sym; apply left_rep); try apply same_refl.
    destruct size as [|m]; cbn [minus_one]; [rewrite ?bind_panic, ?run_panic; apply same_refl|]. rewrite ?bind_ret. apply same_sym, left_rep.
  - destruct HV as [HV El]. destruct sender as [s|] eqn:Es; [|contradiction]. unfold t_rep, report_size. rewrite ?Es, El. cbn [negb]. unfold send. rewrite !bind_vis, run_vis. apply same_vis. intros a Hw.
    destruct a as [v| | | | | | | | | | ]; try discriminate Hw; cbn [tnext]; rewrite !bind_ret; cbn [t_told t_left]; rewrite ?run_ret_r; apply same_refl.
  - cbn [t_told]. unfold both_over. fold t_over2. fold t_over1. unfold is_empty at 1. rewrite !bind_vis, run_vis. apply same_vis. intros a Hw.
    destruct a as [v| | | | | | |b| | | ]; try discriminate Hw; cbn [tnext]; rewrite !bind_ret. destruct b; cbn [negb]; [apply same_refl|]. rewrite bind_ret. apply same_sym, left_turn.
  - unfold t_over1. unfold is_closed at 1. rewrite !bind_vis, run_vis. apply same_vis. intros a Hw.
    destruct a as [v| | | | | | |b| | | ]; try discriminate Hw; cbn [tnext]; rewrite !bind_ret. destruct b; cbn [negb]; [apply same_refl|]. rewrite bind_ret. apply same_sym, left_turn.
  - unfold t_over2. unfold is_empty at 1. rewrite !bind_vis, run_vis. apply same_vis. intros a Hw.
    destruct a as [v| | | | | | |b| | | ]; try discriminate Hw; cbn [tnext]; rewrite !bind_ret. destruct b; cbn [negb]; [apply same_refl|]. rewrite bind_ret. apply same_sym, left_turn.
  - unfold is_closed at 1. rewrite !bind_vis, run_vis. apply same_vis. intros a Hw.
    destruct a as [v| | | | | | |b| | | ]; try discriminate Hw; cbn [tnext]; rewrite !bind_ret. destruct b; cbn [t_turn t_left]; [rewrite run_ret_r; apply same_refl|]. apply same_sym, left_turn.
  - cbn [t_turn]. unfold back_off_wait, sleep. rewrite !bind_vis, run_vis. apply same_vis. intros a Hw.
    destruct a as [v| | | | | | |b| | | ]; try discriminate Hw; cbn [tnext]; rewrite !bind_ret. apply run_ret_l.
  - unfold t_fin, close at 1. rewrite !bind_vis. apply same_vis. intros a Hw. destruct a as [v| | | | | | |b| | | ]; try discriminate Hw; cbn [tnext]. rewrite bind_ret. apply same_refl.
  - unfold close at 1. rewrite !bind_vis. apply same_vis. intros a Hw. destruct a as [v| | | | | | |b| | | ]; try discriminate Hw; cbn [tnext]. rewrite bind_ret, left_dropS. apply same_refl.
  - cbn in HV. destruct sender as [s|]; [|contradiction]. unfold close. rewrite !bind_vis. apply same_vis. intros a Hw. destruct a as [v| | | | | | |b| | | ]; try discriminate Hw; cbn [tnext]. rewrite bind_ret. apply same_refl.
  - apply same_refl.
  - apply same_refl.
Qed.
Lemma t_valid_rep size moved back last : t_valid (go_rep size moved back last).
Proof. unfold go_rep. destruct sender eqn:Es; [|exact I]. destruct (last =? size)%nat eqn:E; [exact I|]. cbn. rewrite Es. split; [discriminate|exact E]. Qed.
Lemma t_valid_next t e a : t_valid t -> tstat t = At e -> wt e a = true -> t_valid (tnext t a).
Proof.
  intros HV He Hw. destruct t as [size back last|size moved back last|size moved back last|size moved back last|size moved back last|size moved back last|size moved back last|size back last|r|r|r|r|m]; cbn [tnext]; try exact I.
  - destruct a as [v| | | | | | |b| | | ]; try exact I. destruct v; exact I.
  - destruct a as [v| | | | | | |b| | | ]; try exact I; try apply t_valid_rep. destruct v; try exact I. destruct size; [exact I|apply t_valid_rep].
  - destruct a; exact I.
  - unfold go_turn. destruct a as [v| | | | | | |b| | | ]; try (destruct moved; exact I). destruct b; [exact I|destruct moved; exact I].
  - unfold go_turn. destruct a as [v| | | | | | |b| | | ]; try (destruct moved; exact I). destruct b; [exact I|destruct moved; exact I].
  - unfold go_turn. destruct a as [v| | | | | | |b| | | ]; try (destruct moved; exact I). destruct b; [exact I|destruct moved; exact I].
  - unfold go_turn. destruct a as [v| | | | | | |b| | | ]; try (destruct moved; exact I). destruct b; [exact I|destruct moved; exact I].
  - unfold go_dropS. destruct sender eqn:Es; [|exact I]. cbn. rewrite Es. discriminate.
Qed.

Definition treach : trace -> tplace -> Prop := reach _ _ tstat tnext (TIn 0 0 0).
Lemma total_start : total_in_buffer sender mi mo = t_left (TIn 0 0 0).
Proof. reflexivity. Qed.
Lemma total_reach tr st : exec (total_in_buffer sender mi mo) tr st -> exists t, treach tr t /\ tstat t = st /\ t_valid t.
Proof. rewrite total_start. apply (exec_reach _ _ tstat tnext t_valid t_left t_step t_valid_next). exact I. Qed.
Lemma reach_total tr t : treach tr t -> exec (total_in_buffer sender mi mo) tr (tstat t).
Proof. rewrite total_start. intro H. apply (reach_exec _ _ tstat tnext t_valid t_left t_step t_valid_next _ _ _ H). exact I. Qed.
End Counter.
