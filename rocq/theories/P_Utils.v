(** * P_Utils: removing from vectors of vectors *)
From Coq Require Import List Bool Arith Lia.
From Verif Require Import M_Utils S_Junction.
Import ListNotations.

Lemma vec_remove_app {X} (a : list X) x b : vec_remove (length a) (a ++ x :: b) = (Some x, a ++ b).
Proof. induction a as [|y a IH]; cbn; [reflexivity|]. now rewrite IH. Qed.

Lemma vec_set_app {X} (a : list X) x y b : vec_set (length a) y (a ++ x :: b) = a ++ y :: b.
Proof. induction a as [|z a IH]; cbn; [reflexivity|]. now rewrite IH. Qed.

Lemma nth_error_mid {X} (a : list X) x b : nth_error (a ++ x :: b) (length a) = Some x.
Proof. induction a; cbn; auto. Qed.

Definition nonempty {X} (v : list X) : bool := match v with [] => false | _ => true end.

Lemma remove_at_mid {X} (a : list (list X)) v b :
  remove_vec_vec_at (a ++ v :: b) (length a) = a ++ (if nonempty v then [v] else []) ++ b.
Proof.
  unfold remove_vec_vec_at. rewrite nth_error_mid. destruct v; cbn; [|reflexivity].
  now rewrite vec_remove_app.
Qed.

Lemma remove_vec_vec_spec {X} (vals : list (list X)) : remove_vec_vec vals = filter nonempty vals.
Proof.
  unfold remove_vec_vec.
  assert (G : forall (a b : list (list X)), fold_left remove_vec_vec_at (rev (seq 0 (length a))) (a ++ b) = filter nonempty a ++ b).
  { induction a as [|v a IH] using rev_ind; intro b; [reflexivity|].
    rewrite app_length, Nat.add_1_r, seq_S, rev_app_distr. cbn [rev app fold_left].
    rewrite <- app_assoc. cbn [app plus]. rewrite remove_at_mid, IH, filter_app. cbn.
    destruct (nonempty v); cbn; now rewrite <- app_assoc. }
  rewrite <- (app_nil_r vals) at 2. now rewrite G, app_nil_r.
Qed.

Lemma remove_index_mid {X} (ga : list (list X)) a x b gb :
  remove_vec_vec_index (ga ++ (a ++ x :: b) :: gb) (length ga) (length a) = (Some x, ga ++ (a ++ b) :: gb).
Proof.
  unfold remove_vec_vec_index. rewrite nth_error_mid.
  assert (E : length a <? length (a ++ x :: b) = true) by (apply Nat.ltb_lt; rewrite app_length; cbn; lia).
  now rewrite E, vec_remove_app, vec_set_app.
Qed.

(** The elements at the marks. *)
Fixpoint picked {X} (bs : list bool) (l : list X) : list X :=
  match bs, l with
  | true :: bs', x :: l' => x :: picked bs' l'
  | false :: bs', _ :: l' => picked bs' l'
  | _, _ => []
  end.

Lemma marked_from_app a : forall i b, marked_from i (a ++ b) = marked_from i a ++ marked_from (i + length a) b.
Proof.
  induction a as [|c a IH]; intros i b; cbn; [now rewrite Nat.add_0_r|].
  rewrite IH, <- app_assoc. now rewrite Nat.add_succ_r.
Qed.

(** Removing the marks of one row, last mark first, with what is removed. *)
Lemma remove_row {X} (ga gb : list (list X)) : forall (l : list X) bs (rest : list X), length bs = length l ->
  fold_left (fun v ij => snd (remove_vec_vec_index v (fst ij) (snd ij)))
    (rev (map (fun j => (length ga, j)) (marked_from 0 bs))) (ga ++ (l ++ rest) :: gb)
  = ga ++ (unmarked bs l ++ rest) :: gb.
Proof.
  induction l as [|x l IH] using rev_ind; intros bs rest Hl.
  - destruct bs; [reflexivity|discriminate].
  - destruct (exists_last (l := bs)) as (bs' & b & ->).
    { intro E; subst bs. rewrite app_length in Hl. cbn in Hl. lia. }
    rewrite !app_length in Hl. cbn in Hl.
    assert (Hl' : length bs' = length l) by lia.
    rewrite marked_from_app, map_app, rev_app_distr, fold_left_app. cbn [plus marked_from].
    assert (EU : unmarked (bs' ++ [b]) (l ++ [x]) = unmarked bs' l ++ (if b then [] else [x])).
    { clear -Hl'. revert l Hl'. induction bs' as [|c bs' IH]; intros [|y l] Hl; try discriminate.
      - cbn. now destruct b.
      - cbn. injection Hl as Hl. rewrite (IH _ Hl). now destruct c. }
    rewrite EU. destruct b; cbn [app map rev fold_left fst snd].
    + rewrite Hl', <- app_assoc. cbn [app]. rewrite remove_index_mid. cbn [snd]. rewrite (IH _ _ Hl').
      now rewrite app_nil_r.
    + rewrite <- app_assoc. rewrite (IH _ _ Hl'). now rewrite <- app_assoc.
Qed.

Lemma remove_marked_rows {X} : forall (rows : list (list bool)) (groups ga : list (list X)),
  Forall2 (fun bs g => length bs = length g) rows groups ->
  fold_left (fun v ij => snd (remove_vec_vec_index v (fst ij) (snd ij))) (rev (marked_rows (length ga) rows)) (ga ++ groups)
  = ga ++ map (fun bg => unmarked (fst bg) (snd bg)) (combine rows groups).
Proof.
  induction rows as [|bs rows IH]; intros groups ga H; inversion H as [|? g ? gs Hl HR]; subst; [reflexivity|].
  cbn [marked_rows combine map fst snd]. rewrite rev_app_distr, fold_left_app.
  replace (ga ++ g :: gs) with ((ga ++ [g]) ++ gs) by (now rewrite <- app_assoc).
  replace (S (length ga)) with (length (ga ++ [g])) by (rewrite app_length; cbn; lia).
  rewrite (IH gs (ga ++ [g]) HR), <- app_assoc. cbn [app].
  rewrite <- (app_nil_r g) at 1. rewrite (remove_row ga _ g bs [] Hl). now rewrite app_nil_r.
Qed.

Lemma remove_marked {X} (rows : list (list bool)) (groups : list (list X)) :
  Forall2 (fun bs g => length bs = length g) rows groups ->
  remove_vec_vec (fold_left (fun v ij => snd (remove_vec_vec_index v (fst ij) (snd ij))) (rev (marked_rows 0 rows)) groups)
  = filter nonempty (map (fun bg => unmarked (fst bg) (snd bg)) (combine rows groups)).
Proof. intro H. rewrite remove_vec_vec_spec. f_equal. exact (remove_marked_rows rows groups [] H). Qed.
