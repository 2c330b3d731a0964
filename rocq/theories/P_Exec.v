(** * P_Exec: inversion lemmas for single effects *)
From Coq Require Import Ascii String List Bool Arith Lia.
From Verif Require Import M_Prog P_Prog M_Motion.
Import ListNotations.

Lemma exec_ret_inv {A} (a : A) tr st : exec (Ret a) tr st -> tr = [] /\ st = Done a.
Proof. intro HX. inversion HX; auto. Qed.

Lemma exec_panic_inv {A} s tr (st : status A) : exec (Panic s) tr st -> tr = [] /\ st = Panicked s.
Proof. intro HX. inversion HX; auto. Qed.

Lemma exec_vis_inv {A} e (k : ans -> prog A) tr st :
  exec (Vis e k) tr st ->
  (tr = [] /\ st = At e) \/ exists a tr', tr = (e, a) :: tr' /\ wt e a = true /\ exec (k a) tr' st.
Proof. intro HX. inversion HX; subst; [left|right]; eauto 6. Qed.

Ltac vis_cases HX :=
  apply exec_vis_inv in HX; destruct HX as [[-> ->]|(a & tr' & -> & Hwt & HX)];
  [left; auto|right; destruct a; try discriminate Hwt; try (apply exec_ret_inv in HX; destruct HX as [-> ->]; eauto 8)].

Lemma send_inv c v tr st : exec (send c v) tr st ->
  (tr = [] /\ st = At (ESend c v)) \/
  ((tr = [(ESend c v, AOk)] /\ st = Done true) \/ (tr = [(ESend c v, AClosed)] /\ st = Done false)).
Proof. unfold send. intro HX. vis_cases HX. Qed.

Lemma close_inv c tr st : exec (close c) tr st ->
  (tr = [] /\ st = At (EClose c)) \/ (tr = [(EClose c, AOk)] /\ st = Done tt).
Proof. unfold close. intro HX. vis_cases HX. Qed.

Lemma drop_fd_inv f tr st : exec (drop_fd f) tr st ->
  (tr = [] /\ st = At (EDropFd f)) \/ (tr = [(EDropFd f, AOk)] /\ st = Done tt).
Proof. unfold drop_fd. intro HX. vis_cases HX. Qed.

Lemma sleep_inv n tr st : exec (sleep n) tr st ->
  (tr = [] /\ st = At (ESleep n)) \/ (tr = [(ESleep n, AOk)] /\ st = Done tt).
Proof. unfold sleep. intro HX. vis_cases HX. Qed.

Lemma recv_data_inv n tr st : exec (recv_data n) tr st ->
  (tr = [] /\ st = At (ERecv (CData n))) \/
  ((exists d, tr = [(ERecv (CData n), AMsg (VData d))] /\ st = Done (Some d)) \/
   (tr = [(ERecv (CData n), AClosed)] /\ st = Done None)).
Proof.
  unfold recv_data. intro HX. vis_cases HX.
  destruct v; try discriminate Hwt. apply exec_ret_inv in HX; destruct HX as [-> ->]; eauto 8.
Qed.

Lemma recv_inv c tr st : exec (recv c) tr st ->
  (tr = [] /\ st = At (ERecv c)) \/
  ((exists v, tr = [(ERecv c, AMsg v)] /\ st = Done (Some v) /\ fits c v = true) \/
   (tr = [(ERecv c, AClosed)] /\ st = Done None)).
Proof. unfold recv. intro HX. vis_cases HX. Qed.

Lemma try_recv_inv c tr st : exec (try_recv c) tr st ->
  (tr = [] /\ st = At (ETryRecv c)) \/
  ((exists v, tr = [(ETryRecv c, AMsg v)] /\ st = Done (TOk v) /\ fits c v = true) \/
   (tr = [(ETryRecv c, AEmpty)] /\ st = Done TEmpty) \/
   (tr = [(ETryRecv c, AClosed)] /\ st = Done TClosed)).
Proof. unfold try_recv. intro HX. vis_cases HX. Qed.

Lemma is_empty_inv c tr st : exec (is_empty c) tr st ->
  (tr = [] /\ st = At (EIsEmpty c)) \/ (exists b, tr = [(EIsEmpty c, ABool b)] /\ st = Done b).
Proof. unfold is_empty. intro HX. vis_cases HX. Qed.

Lemma is_closed_inv c tr st : exec (is_closed c) tr st ->
  (tr = [] /\ st = At (EIsClosed c)) \/ (exists b, tr = [(EIsClosed c, ABool b)] /\ st = Done b).
Proof. unfold is_closed. intro HX. vis_cases HX. Qed.

Lemma write_all_inv f d tr st : exec (write_all f d) tr st ->
  (tr = [] /\ st = At (EWrite f d)) \/
  ((tr = [(EWrite f d, AOk)] /\ st = Done WOk) \/ (tr = [(EWrite f d, ABroken)] /\ st = Done WBroken)
   \/ (tr = [(EWrite f d, AErr)] /\ st = Done WErr)).
Proof. unfold write_all. intro HX. vis_cases HX. Qed.

Lemma flush_inv f tr st : exec (flush f) tr st ->
  (tr = [] /\ st = At (EFlush f)) \/
  ((tr = [(EFlush f, AOk)] /\ st = Done true) \/ (tr = [(EFlush f, AErr)] /\ st = Done false)).
Proof. unfold flush. intro HX. vis_cases HX. Qed.
