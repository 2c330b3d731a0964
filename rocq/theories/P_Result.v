(** * P_Result: what is reported at the end; the watching of buffers *)
From Coq Require Import Ascii String List Bool Arith ZArith Lia Permutation Sorted.
From Verif Require Import M_Prog M_Motion M_Connectable M_Config M_Manip M_Buffer M_Regulator M_Waiter S_Manip S_Waiter P_Text P_Map P_Cell.
Import ListNotations.
Local Open Scope string_scope.

(** ** Results *)
Lemma folded l : forall acc, fold_left folder l acc =
  match acc with
  | Ok n => match errors_of l with [] => Ok (n + list_sum (counts_of l)) | es => Err es end
  | Err es => Err (es ++ errors_of l)%list
  end.
Proof.
  induction l as [|r l IH]; intros acc; cbn [fold_left errors_of counts_of flat_map].
  - destruct acc; cbn; [f_equal; lia|rewrite app_nil_r; reflexivity].
  - rewrite IH. destruct acc as [n|es], r as [m|e]; cbn [folder app]; try reflexivity.
    + fold (errors_of l) (counts_of l). destruct (errors_of l); [|reflexivity]. cbn [list_sum fold_right]. f_equal. unfold list_sum. lia.
    + rewrite <- app_assoc. reflexivity.
Qed.
Lemma insert_perm x l : Permutation (insert_error x l) (x :: l).
Proof.
  induction l as [|y r IH]; cbn; [auto|]. destruct (earlier y x); [|auto]. eapply perm_trans; [apply perm_skip, IH|]. apply perm_swap.
Qed.
Lemma sort_perm l : Permutation (sort_errors l) l.
Proof. induction l as [|x l IH]; [constructor|]. cbn [sort_errors fold_right]. eapply perm_trans; [apply insert_perm|]. apply perm_skip, IH. Qed.

Lemma overall_exact l r f m d b j : let rs := (l ++ r ++ f ++ m ++ d ++ b ++ j)%list in
  match overall l r f m d b j with
  | Ok n => errors_of rs = [] /\ n = list_sum (counts_of rs)
  | Err es => es <> [] /\ Permutation es (errors_of rs)
  end.
Proof.
  cbn zeta. assert (Hp : Permutation (l ++ f ++ r ++ m ++ d ++ b ++ j) (l ++ r ++ f ++ m ++ d ++ b ++ j)).
  { apply Permutation_app_head. apply Permutation_app_swap_app. }
  unfold overall. rewrite folded. set (rs := (l ++ f ++ r ++ m ++ d ++ b ++ j)%list) in *. set (rs' := (l ++ r ++ f ++ m ++ d ++ b ++ j)%list) in *.
  assert (He : Permutation (errors_of rs) (errors_of rs')) by (apply Permutation_flat_map; exact Hp).
  assert (Hc : Permutation (counts_of rs) (counts_of rs')) by (apply Permutation_flat_map; exact Hp).
  destruct (errors_of rs) as [|e es] eqn:E.
  - split; [apply Permutation_nil; exact He|]. cbn [Nat.add]. clear -Hc. unfold list_sum. induction Hc; cbn [fold_right]; lia.
  - split.
    + intros H. pose proof (sort_perm (e :: es)) as Hs. rewrite H in Hs. apply Permutation_nil in Hs. discriminate.
    + eapply perm_trans; [apply sort_perm|exact He].
Qed.

Lemma insert_sorted x l : instant x <> None -> Forall (fun e => instant e <> None) l -> StronglySorted not_after l -> StronglySorted not_after (insert_error x l).
Proof.
  intros Hx Hl Hs. induction Hs as [|y r Hs IH Hy]; cbn; [repeat constructor|]. inversion Hl as [|? ? Hy0 Hr]; subst.
  destruct (earlier y x) eqn:E.
  - constructor; [apply IH; exact Hr|]. apply (Permutation_Forall (Permutation_sym (insert_perm x r))). constructor; [|exact Hy].
    intros a b Ha Hb. unfold earlier in E. rewrite Ha, Hb in E. apply Nat.ltb_lt in E. lia.
  - assert (Hxy : not_after x y).
    { intros a b Ha Hb. unfold earlier in E. rewrite Ha, Hb in E. apply Nat.ltb_ge in E. exact E. }
    constructor; [constructor; assumption|]. constructor; [exact Hxy|]. rewrite Forall_forall in *. intros z Hz a b Ha Hb.
    destruct (instant y) as [t|] eqn:Et; [|congruence]. specialize (Hxy _ _ Ha Et). specialize (Hy z Hz _ _ Et Hb). lia.
Qed.
Lemma sort_sorted l : Forall (fun e => instant e <> None) l -> StronglySorted not_after (sort_errors l).
Proof.
  induction 1 as [|x l Hx Hl IH]; [constructor|]. cbn [sort_errors fold_right]. apply insert_sorted; auto.
  eapply Permutation_Forall; [apply Permutation_sym, sort_perm|exact Hl].
Qed.
Lemma overall_sorted l r f m d b j es : overall l r f m d b j = Err es -> Forall (fun e => instant e <> None) es -> StronglySorted not_after es.
Proof.
  unfold overall. destruct (fold_left folder _ _) as [n|v]; [discriminate|]. intros [= <-] H. apply sort_sorted.
  eapply Permutation_Forall; [apply sort_perm|exact H].
Qed.

(** ** The watching of buffers *)
Lemma monitors_add w reg names : (forall b, In b names -> exists bf, lookup b (w_buffer w) = Some bf) ->
  (NoDup names /\ (forall b bf, In b names -> lookup b (w_buffer w) = Some bf -> bf_monitor bf = None) ->
   exists w' ms, size_monitors w reg names = Good (Ok (w', ms)) /\ w_regulator w' = w_regulator w /\
     Forall2 (fun b ch => exists bf, lookup b (w_buffer w') = Some bf /\ bf_monitor bf = Some ch) names ms /\
     (forall b, ~ In b names -> lookup b (w_buffer w') = lookup b (w_buffer w)) /\
     (forall b, lookup b (w_buffer w') <> None <-> lookup b (w_buffer w) <> None)) /\
  (~ (NoDup names /\ (forall b bf, In b names -> lookup b (w_buffer w) = Some bf -> bf_monitor bf = None)) ->
   exists msg, size_monitors w reg names = Crash msg).
Proof.
  revert w. induction names as [|b names IH]; intros w Hall.
  - split.
    + intros _. exists w, []. repeat split; auto.
    + intros H. exfalso. apply H. split; [constructor|intros ? ? []].
  - destruct (Hall b (or_introl eq_refl)) as (bf & Eb). cbn [size_monitors]. rewrite Eb. unfold buffer_add_size_monitor.
    destruct (bf_monitor bf) as [ch|] eqn:Em.
    + split; [|eauto]. intros [_ H]. rewrite (H b bf (or_introl eq_refl) Eb) in Em. discriminate.
    + set (bf' := Buffer _ _ _ _). set (w1 := set_channels (set_buffer w (hput b bf' (w_buffer w))) (S (w_channels w))).
      assert (L1 : forall x, lookup x (w_buffer w1) = if String.eqb x b then Some bf' else lookup x (w_buffer w)) by (intros x; unfold w1; cbn; apply lookup_hput).
      assert (Hall1 : forall x, In x names -> exists bf, lookup x (w_buffer w1) = Some bf).
      { intros x Hx. rewrite L1. destruct (String.eqb x b); [eauto|]. apply Hall. right. exact Hx. }
      specialize (IH w1 Hall1). destruct IH as [IH1 IH2]. split.
      * intros [Hnd Hno]. inversion Hnd as [|? ? Hb Hnd']; subst.
        destruct IH1 as (w' & ms & E & Hr & Hm & Hk & Hn).
        { split; [exact Hnd'|]. intros x y Hx. rewrite L1. destruct (String.eqb_spec x b) as [->|]; [contradiction|]. apply Hno. right. exact Hx. }
        rewrite E. cbn [obind]. exists w', (w_channels w :: ms). split; [reflexivity|]. split; [exact Hr|]. split; [|split].
        -- constructor; [|exact Hm]. exists bf'. split; [|reflexivity]. rewrite (Hk b Hb), L1, String.eqb_refl. reflexivity.
        -- intros x Hx. rewrite Hk by (intros Hx'; apply Hx; right; exact Hx'). rewrite L1. destruct (String.eqb_spec x b) as [->|]; [destruct Hx; left; reflexivity|reflexivity].
        -- intros x. rewrite Hn, L1. destruct (String.eqb_spec x b) as [->|]; [|reflexivity]. split; congruence.
      * intros Hn. destruct IH2 as (msg & ->); [|cbn; eauto]. intros [Hnd Hno]. apply Hn. split.
        -- constructor; [|exact Hnd]. intros Hb. specialize (Hno b bf' Hb). rewrite L1, String.eqb_refl in Hno. specialize (Hno eq_refl). discriminate.
        -- intros x y [<-|Hx]; [congruence|]. intros Hy. destruct (String.eqb_spec x b) as [->|N]; [congruence|]. apply (Hno x y Hx). rewrite L1. destruct (String.eqb_spec x b); [congruence|exact Hy].
Qed.

Lemma NoDup_app_remove_r {A} (l l' : list A) : NoDup (l ++ l') -> NoDup l.
Proof. induction l as [|a l IH]; [constructor|]. cbn. intros H. inversion H as [|? ? Ha Hl]; subst. constructor; [|auto]. intros Hi. apply Ha, in_or_app. auto. Qed.
Lemma NoDup_app_remove_l {A} (l l' : list A) : NoDup (l ++ l') -> NoDup l'.
Proof. induction l as [|a l IH]; [auto|]. cbn. intros H. inversion H; auto. Qed.
Definition unwatched (w : waiter) (names : list string) : Prop := forall b bf, In b names -> lookup b (w_buffer w) = Some bf -> bf_monitor bf = None.
Lemma settings_exact l : forall w, NoDup (keys l) -> (forall n s, In (n, s) l -> exists r, lookup n (w_regulator w) = Some r /\ rg_control r = None) ->
  (forall b, In b (watched l) -> exists bf, lookup b (w_buffer w) = Some bf) ->
  (NoDup (watched l) /\ unwatched w (watched l) -> exists w' cs, regulator_settings w l = Good (Ok (w', cs)) /\ Forall2 (controls w') l cs /\
     (forall b, ~ In b (watched l) -> lookup b (w_buffer w') = lookup b (w_buffer w)) /\ (forall n, ~ In n (keys l) -> lookup n (w_regulator w') = lookup n (w_regulator w))) /\
  (~ (NoDup (watched l) /\ unwatched w (watched l)) -> exists msg, regulator_settings w l = Crash msg).
Proof.
  induction l as [|[n s] l IH]; intros w Hnd Hreg Hbuf.
  - split.
    + intros _. exists w, []. split; [reflexivity|]. split; [constructor|]. split; reflexivity.
    + intros H. exfalso. apply H. split; [constructor|intros ? ? []].
  - cbn [keys map fst] in Hnd. inversion Hnd as [|? ? Hn Hnd']; subst. fold (keys l) in *. destruct (Hreg n s (or_introl eq_refl)) as (rg & Er & Ec).
    cbn [regulator_settings]. rewrite Er. unfold regulator_get_control. rewrite Ec. set (rg' := Regulator _ _ _ _ _). set (w1 := set_channels (set_regulator w (hput n rg' (w_regulator w))) (S (w_channels w))).
    assert (LB : w_buffer w1 = w_buffer w) by reflexivity.
    assert (LR : forall x, lookup x (w_regulator w1) = if String.eqb x n then Some rg' else lookup x (w_regulator w)) by (intros x; unfold w1; cbn; apply lookup_hput).
    change (watched ((n, s) :: l)) with (st_buffers s ++ watched l)%list in *.
    destruct (monitors_add w1 n (st_buffers s)) as [M1 M2]; [intros b Hb; rewrite LB; apply Hbuf, in_or_app; left; exact Hb|].
    assert (Hsplit : NoDup (st_buffers s ++ watched l) /\ unwatched w (st_buffers s ++ watched l) -> NoDup (st_buffers s) /\ (forall b bf, In b (st_buffers s) -> lookup b (w_buffer w1) = Some bf -> bf_monitor bf = None)).
    { intros [H1 H2]. split; [eapply NoDup_app_remove_r; exact H1|]. intros b bf Hb. rewrite LB. apply H2. apply in_or_app. left. exact Hb. }
    assert (Hone : (NoDup (st_buffers s) /\ (forall b bf, In b (st_buffers s) -> lookup b (w_buffer w1) = Some bf -> bf_monitor bf = None)) \/
      ~ (NoDup (st_buffers s) /\ (forall b bf, In b (st_buffers s) -> lookup b (w_buffer w1) = Some bf -> bf_monitor bf = None))).
    { rewrite LB. assert (Hd1 : {NoDup (st_buffers s)} + {~ NoDup (st_buffers s)}) by (apply ListDec.NoDup_dec, string_dec).
      destruct Hd1 as [Hd1|Hd1]; [|right; tauto].
      assert (Hd2 : (forall b, In b (st_buffers s) -> forall bf, lookup b (w_buffer w) = Some bf -> bf_monitor bf = None) \/ exists b, In b (st_buffers s) /\ ~ forall bf, lookup b (w_buffer w) = Some bf -> bf_monitor bf = None).
      { destruct (Forall_Exists_dec (fun b => forall bf, lookup b (w_buffer w) = Some bf -> bf_monitor bf = None)) with (l := st_buffers s) as [H|H].
        - intros b. destruct (lookup b (w_buffer w)) as [y|]; [|left; discriminate]. destruct (bf_monitor y) eqn:Ey; [right; intros H; specialize (H _ eq_refl); congruence|left; intros z [= <-]; exact Ey].
        - left. rewrite Forall_forall in H. exact H.
        - right. apply Exists_exists in H. exact H. }
      destruct Hd2 as [Hd2|(b & Hb & Hd2)]; [left; split; [exact Hd1|intros b bf Hb; apply Hd2; exact Hb]|right; intros [_ H]; apply Hd2; intros bf; apply H; exact Hb]. }
    destruct Hone as [Hone|Hone].
    2:{ split; [intros H; destruct Hone; exact (Hsplit H)|]. intros _. destruct (M2 Hone) as (msg & ->). cbn. eauto. }
    destruct (M1 Hone) as (w2 & ms & E & Hr2 & Hm2 & Hk2 & Hn2). rewrite E. cbn [obind].
    destruct (IH w2 Hnd') as [IH1 IH2].
    { intros n' s' Hin. rewrite Hr2, LR. destruct (String.eqb_spec n' n) as [->|]; [|apply (Hreg n' s'); right; exact Hin]. exfalso. apply Hn. apply in_map_iff. exists (n, s'). auto. }
    { intros b Hb. destruct (Hbuf b) as (bf & Eb); [apply in_or_app; right; exact Hb|]. destruct (lookup b (w_buffer w2)) as [y|] eqn:Ey; [eauto|]. exfalso. apply (proj2 (Hn2 b)); [rewrite LB; congruence|exact Ey]. }
    split.
    + intros [H1 H2]. destruct IH1 as (w' & cs & E' & HF & Hb' & Hr').
      { split; [eapply NoDup_app_remove_l; exact H1|]. intros b bf Hb. destruct (in_dec string_dec b (st_buffers s)) as [Hi|Hi].
        - exfalso. clear -H1 Hb Hi. induction (st_buffers s) as [|x xs IHx]; [destruct Hi|]. cbn in H1. inversion H1 as [|? ? Hx Hxs]; subst. destruct Hi as [->|Hi]; [apply Hx, in_or_app; right; exact Hb|auto].
        - rewrite (Hk2 b Hi), LB. apply H2. apply in_or_app. right. exact Hb. }
      rewrite E'. cbn [obind]. exists w', (Capture (st_low s) (st_high s) (RC false (w_channels w)) ms :: cs). split; [reflexivity|]. split; [|split].
      * constructor; [|exact HF]. split; [reflexivity|]. split; [reflexivity|]. cbn [fst snd cp_control rc_control rc_paused cp_monitors]. split.
        -- exists rg'. split; [|split; reflexivity]. rewrite (Hr' n Hn), Hr2, LR, String.eqb_refl. reflexivity.
        -- assert (Hin : forall b, In b (st_buffers s) -> lookup b (w_buffer w') = lookup b (w_buffer w2)).
           { intros b Hb. apply Hb'. intros Hc. clear -H1 Hb Hc. induction (st_buffers s) as [|x xs IHx]; [destruct Hb|]. cbn in H1. inversion H1 as [|? ? Hx Hxs]; subst. destruct Hb as [->|Hb]; [apply Hx, in_or_app; right; exact Hc|auto]. }
           clear -Hm2 Hin. induction Hm2 as [|b ch bs chs (bf & H1 & H2) _ IH]; constructor.
           ++ exists bf. rewrite Hin by (left; reflexivity). auto.
           ++ apply IH. intros x Hx. apply Hin. right. exact Hx.
      * intros b Hb. rewrite Hb' by (intros Hc; apply Hb, in_or_app; right; exact Hc). rewrite Hk2 by (intros Hc; apply Hb, in_or_app; left; exact Hc). rewrite LB. reflexivity.
      * intros x Hx. cbn [keys map fst In] in Hx. rewrite Hr' by (intros Hc; apply Hx; right; exact Hc). rewrite Hr2, LR. destruct (String.eqb_spec x n) as [->|]; [destruct Hx; left; reflexivity|reflexivity].
    + intros Hno. destruct IH2 as (msg & ->); [|cbn; eauto]. intros [H1 H2]. apply Hno. destruct Hone as [O1 O2].
      assert (Disj : forall b, In b (st_buffers s) -> ~ In b (watched l)).
      { intros b Hb Hc. assert (Hw : exists ch bf, lookup b (w_buffer w2) = Some bf /\ bf_monitor bf = Some ch).
        { clear -Hm2 Hb. induction Hm2 as [|y ch bs chs (bf & A1 & A2) _ IH]; [destruct Hb|]. destruct Hb as [->|Hb]; [eauto|auto]. }
        destruct Hw as (ch & bf & A1 & A2). rewrite (H2 b bf Hc A1) in A2. discriminate. }
      split.
      * clear -O1 H1 Disj. induction (st_buffers s) as [|x xs IHx]; [exact H1|]. cbn. inversion O1 as [|? ? Hx Hxs]; subst. constructor.
        -- intros Hc. apply in_app_or in Hc as [Hc|Hc]; [contradiction|]. apply (Disj x (or_introl eq_refl) Hc).
        -- apply IHx; [exact Hxs|]. intros b Hb. apply Disj. right. exact Hb.
      * intros b bf Hb Hl. apply in_app_or in Hb as [Hb|Hb]; [apply (O2 b bf Hb); rewrite LB; exact Hl|].
        apply (H2 b bf Hb). rewrite Hk2; [rewrite LB; exact Hl|]. intros Hc. exact (Disj b Hc Hb).
Qed.
