(** * P_JInit: sorting and grouping the inputs of a junction *)
From Coq Require Import Ascii String List Bool Arith Lia ZArith Permutation Sorting.Sorted.
From Verif Require Import M_Prog P_Prog M_Motion M_Junction S_Trace S_Junction.
Import ListNotations.

Definition le_pr (x y : pull * Z) : Prop := (snd x <= snd y)%Z.

Lemma insert_perm x l : Permutation (insert_by x l) (x :: l).
Proof.
  induction l as [|y l IH]; cbn; [reflexivity|]. destruct (snd x <? snd y)%Z; [reflexivity|].
  rewrite IH. apply perm_swap.
Qed.
Lemma insert_sorted x l : StronglySorted le_pr l -> StronglySorted le_pr (insert_by x l).
Proof.
  induction 1 as [|y l Hs IH Hf]; cbn; [repeat constructor|].
  destruct (Z.ltb_spec (snd x) (snd y)) as [H|H].
  - constructor; [constructor; assumption|]. constructor; [unfold le_pr; lia|].
    eapply Forall_impl; [|exact Hf]. unfold le_pr. intros; lia.
  - constructor; [exact IH|]. apply Forall_forall. intros z Hz. apply (Permutation_in _ (insert_perm x l)) in Hz.
    destruct Hz as [<-|Hz]; [exact H|]. rewrite Forall_forall in Hf. now apply Hf.
Qed.
Lemma insert_stable x l z : StronglySorted le_pr l ->
  filter (fun y => (snd y =? z)%Z) (insert_by x l) = filter (fun y => (snd y =? z)%Z) l ++ filter (fun y => (snd y =? z)%Z) [x].
Proof.
  induction 1 as [|y l Hs IH Hf]; cbn [insert_by]; [reflexivity|].
  destruct (Z.ltb_spec (snd x) (snd y)) as [H|H].
  - cbn [filter]. destruct (Z.eqb_spec (snd x) z) as [E|E].
    + subst z. replace (snd y =? snd x)%Z with false by (symmetry; apply Z.eqb_neq; lia).
      assert (N : filter (fun y0 => (snd y0 =? snd x)%Z) l = []).
      { clear -Hf H. induction Hf as [|w l Hw Hf IH]; cbn; [reflexivity|]. unfold le_pr in Hw.
        replace (snd w =? snd x)%Z with false by (symmetry; apply Z.eqb_neq; lia). exact IH. }
      now rewrite N.
    + now rewrite app_nil_r.
  - cbn [filter] in *. rewrite IH. destruct (snd y =? z)%Z; reflexivity.
Qed.

Lemma sort_snoc l x : sort_inputs (l ++ [x]) = insert_by x (sort_inputs l).
Proof. unfold sort_inputs. now rewrite fold_left_app. Qed.

Lemma sort_perm l : Permutation (sort_inputs l) l.
Proof.
  induction l as [|x l IH] using rev_ind; [reflexivity|]. rewrite sort_snoc, insert_perm, IH. apply Permutation_cons_append.
Qed.
Lemma sort_sorted l : StronglySorted le_pr (sort_inputs l).
Proof. induction l as [|x l IH] using rev_ind; [constructor|]. rewrite sort_snoc. now apply insert_sorted. Qed.
Lemma sort_stable l z : filter (fun y => (snd y =? z)%Z) (sort_inputs l) = filter (fun y => (snd y =? z)%Z) l.
Proof.
  induction l as [|x l IH] using rev_ind; [reflexivity|]. rewrite sort_snoc, insert_stable by apply sort_sorted.
  now rewrite IH, filter_app.
Qed.

Lemma push_last_app {X} (gs : list (list X)) g x : push_last (gs ++ [g]) x = gs ++ [g ++ [x]].
Proof. unfold push_last. rewrite rev_app_distr. cbn. now rewrite rev_involutive. Qed.

Definition single (x : pull * Z) : list pull := [fst x].

Lemma init_gt z0 : forall rest gs, gs <> [] -> Forall (fun x => (z0 < snd x)%Z) rest ->
  fold_left init_step rest (gs, z0) = (gs ++ map single rest, z0).
Proof.
  induction rest as [|[p z] rest IH]; intros gs Hg HF; cbn [fold_left map]; [now rewrite app_nil_r|].
  inversion HF as [|? ? Hz HF']; subst. cbn in Hz.
  assert (E : init_step (gs, z0) (p, z) = (gs ++ [[p]], z0)).
  { unfold init_step. destruct gs as [|g gs]; [congruence|]. replace (z0 <? z)%Z with true by (symmetry; apply Z.ltb_lt; exact Hz).
    now rewrite push_last_app. }
  rewrite E, IH; [now rewrite <- app_assoc| |exact HF']. now destruct gs.
Qed.

Lemma init_sorted z0 : forall rest g, StronglySorted le_pr rest -> Forall (fun x => (z0 <= snd x)%Z) rest ->
  fold_left init_step rest ([g], z0)
  = ((g ++ map fst (filter (fun y => (snd y =? z0)%Z) rest)) :: map single (filter (fun y => (z0 <? snd y)%Z) rest), z0).
Proof.
  induction rest as [|[p z] rest IH]; intros g HS HF; cbn [fold_left filter map]; [now rewrite app_nil_r|].
  inversion HS as [|? ? HS' HL]; subst. inversion HF as [|? ? Hz HF']; subst. cbn in Hz. cbn [snd].
  destruct (Z.eqb_spec z z0) as [->|Hne].
  - assert (E : init_step ([g], z0) (p, z0) = ([g ++ [p]], z0)).
    { unfold init_step. rewrite Z.ltb_irrefl. apply (f_equal (fun x => (x, z0))). apply (push_last_app []). }
    rewrite E, IH by assumption. rewrite Z.ltb_irrefl. cbn. now rewrite <- app_assoc.
  - assert (Hlt : (z0 < z)%Z) by lia.
    assert (HG : Forall (fun x => (z0 < snd x)%Z) ((p, z) :: rest)).
    { constructor; [exact Hlt|]. eapply Forall_impl; [|exact HL]. unfold le_pr. cbn. intros; lia. }
    change (fold_left init_step ((p, z) :: rest) ([g], z0) = ((g ++ map fst (filter (fun y => (snd y =? z0)%Z) rest)) :: map single (if (z0 <? z)%Z then (p, z) :: filter (fun y => (z0 <? snd y)%Z) rest else filter (fun y => (z0 <? snd y)%Z) rest), z0)).
    rewrite init_gt; [|discriminate|exact HG].
    replace (z0 <? z)%Z with true by (symmetry; apply Z.ltb_lt; exact Hlt).
    inversion HG as [|? ? _ HG']; subst.
    assert (E1 : filter (fun y => (snd y =? z0)%Z) rest = []).
    { clear -HG'. induction HG' as [|w l Hw _ IH]; cbn; [reflexivity|]. now replace (snd w =? z0)%Z with false by (symmetry; apply Z.eqb_neq; lia). }
    assert (E2 : filter (fun y => (z0 <? snd y)%Z) rest = rest).
    { clear -HG'. induction HG' as [|w l Hw _ IH]; cbn; [reflexivity|]. replace (z0 <? snd w)%Z with true by (symmetry; apply Z.ltb_lt; lia). now rewrite IH. }
    rewrite E1, E2. cbn. now rewrite app_nil_r.
Qed.

Lemma init_groups inputs p0 z0 rest : sort_inputs inputs = (p0, z0) :: rest ->
  fst (fold_left init_step (sort_inputs inputs) ([], 0%Z))
  = map fst (filter (fun y => (snd y =? z0)%Z) inputs) :: map single (filter (fun y => (z0 <? snd y)%Z) (sort_inputs inputs)).
Proof.
  intro E. pose proof (sort_sorted inputs) as HS. pose proof (sort_stable inputs z0) as HT. rewrite E in HS, HT |- *.
  inversion HS as [|? ? HS' HF]; subst. cbn [fold_left].
  assert (E1 : init_step ([], 0%Z) (p0, z0) = ([[p0]], z0)) by (unfold init_step; now rewrite Z.ltb_irrefl).
  rewrite E1, init_sorted; [|exact HS'|exact HF]. cbn [fst].
  rewrite <- HT. cbn [filter snd]. now rewrite Z.eqb_refl, Z.ltb_irrefl.
Qed.

(** The smallest priority. *)
Lemma sort_min inputs p0 z0 rest : sort_inputs inputs = (p0, z0) :: rest ->
  (forall x, In x inputs -> (z0 <= snd x)%Z) /\ In (p0, z0) inputs.
Proof.
  intro E. pose proof (sort_sorted inputs) as HS. pose proof (sort_perm inputs) as HP. rewrite E in HS, HP.
  inversion HS as [|? ? HS' HF]; subst. split.
  - intros x Hx. apply (Permutation_in _ (Permutation_sym HP)) in Hx. destruct Hx as [<-|Hx]; [cbn; lia|].
    rewrite Forall_forall in HF. now apply HF.
  - apply (Permutation_in _ HP). now left.
Qed.

Lemma first_filter inputs p0 z0 rest : sort_inputs inputs = (p0, z0) :: rest ->
  filter (fun x => forallb (fun y => (snd x <=? snd y)%Z) inputs) inputs = filter (fun y => (snd y =? z0)%Z) inputs.
Proof.
  intro E. destruct (sort_min _ _ _ _ E) as (HM & HI). apply filter_ext_in. intros x Hx.
  destruct (Z.eqb_spec (snd x) z0) as [Ez|Ez].
  - apply forallb_forall. intros y Hy. apply Z.leb_le. rewrite Ez. now apply HM.
  - apply not_true_iff_false. rewrite forallb_forall. intro H. specialize (H _ HI). apply Z.leb_le in H. cbn in H.
    specialize (HM _ Hx). lia.
Qed.
