(** * P_Prog: reasoning about programs and their traces *)
From Coq Require Import Ascii String List Bool Arith Lia.
From Verif Require Import M_Prog.
Import ListNotations.

Definition frob {A} (p : prog A) : prog A :=
  match p with
  | Ret a => Ret a | Panic s => Panic s | Tau q => Tau q | Vis e k => Vis e k
  end.

Lemma frob_eq {A} (p : prog A) : p = frob p.
Proof. destruct p; reflexivity. Qed.

Lemma bind_eq {A B} (p : prog A) (k : A -> prog B) :
  bind p k = match p with
             | Ret a => k a
             | Panic s => Panic s
             | Tau q => Tau (bind q k)
             | Vis e f => Vis e (fun a => bind (f a) k)
             end.
Proof.
  etransitivity; [apply frob_eq|]. destruct p; try reflexivity.
  symmetry. etransitivity; [apply frob_eq|]. reflexivity.
Qed.

Lemma bind_ret {A B} (a : A) (k : A -> prog B) : bind (Ret a) k = k a.
Proof. rewrite bind_eq. reflexivity. Qed.

Lemma iter_eq {I R} (body : I -> prog (I + R)) i :
  iter body i = bind (body i) (fun lr => match lr with inl i' => Tau (iter body i') | inr r => Ret r end).
Proof.
  etransitivity; [apply frob_eq|].
  symmetry. etransitivity; [apply frob_eq|]. reflexivity.
Qed.

(** ** Hoare-style judgement over histories

    [sat h p N Q]: started after history [h], the program [p] never panics, at each
    moment at which it is about to perform an effect [e] with history [h'], [N h' e]
    holds, and if it finishes with [a] at history [h'], [Q h' a] holds. *)
Definition sat {A} (h : trace) (p : prog A) (N : trace -> eff -> Prop) (Q : trace -> A -> Prop) : Prop :=
  forall tr st, exec p tr st ->
    match st with
    | At e => N (h ++ tr) e
    | Done a => Q (h ++ tr) a
    | Panicked _ => False
    end.

Lemma sat_ret {A} h (a : A) (N : trace -> eff -> Prop) (Q : trace -> A -> Prop) : Q h a -> sat h (Ret a) N Q.
Proof. intros HQ tr st HX. inversion HX; subst. now rewrite app_nil_r. Qed.

Lemma sat_vis {A} h e (k : ans -> prog A) (N : trace -> eff -> Prop) (Q : trace -> A -> Prop) :
  N h e -> (forall a, wt e a = true -> sat (h ++ [(e, a)]) (k a) N Q) -> sat h (Vis e k) N Q.
Proof.
  intros HN HK tr st HX. inversion HX as [| |e' k' He Htr Hst| |e' k' a tr' st' Hwt HX' He Htr Hst]; subst.
  - now rewrite app_nil_r.
  - specialize (HK _ Hwt _ _ HX'). rewrite <- app_assoc in HK. exact HK.
Qed.

Lemma sat_tau {A} h (p : prog A) (N : trace -> eff -> Prop) (Q : trace -> A -> Prop) : sat h p N Q -> sat h (Tau p) N Q.
Proof. intros HS tr st HX. inversion HX; subst. now apply HS. Qed.

Lemma exec_bind_inv {A B} (p : prog A) (k : A -> prog B) tr st :
  exec (bind p k) tr st ->
  (exists tr1 tr2 a, tr = tr1 ++ tr2 /\ exec p tr1 (Done a) /\ exec (k a) tr2 st)
  \/ (exists e, st = At e /\ exec p tr (At e))
  \/ (exists s, st = Panicked s /\ exec p tr (Panicked s)).
Proof.
  intro HX. remember (bind p k) as b eqn:Hb. revert p Hb.
  induction HX as [b|s|e kk|q tr st HX IH|e kk a tr st Hwt HX IH]; intros p Hb;
    rewrite bind_eq in Hb; destruct p as [x|s'|p'|e' f]; try discriminate.
  - left. exists [], [], x. repeat split; try constructor. rewrite <- Hb. constructor.
  - left. exists [], [], x. repeat split; try constructor. rewrite <- Hb. constructor.
  - inversion Hb; subst. right; right. exists s'. split; [reflexivity|constructor].
  - left. exists [], [], x. repeat split; try constructor. rewrite <- Hb. constructor.
  - inversion Hb; subst. right; left. exists e'. split; [reflexivity|constructor].
  - left. exists [], tr, x. repeat split; try constructor. rewrite <- Hb. constructor. exact HX.
  - inversion Hb; subst. destruct (IH _ eq_refl) as [(t1 & t2 & x & Ht & H1 & H2)|[(e & He & H1)|(s & Hs & H1)]].
    + left. exists t1, t2, x. repeat split; try assumption. constructor; assumption.
    + right; left. exists e. split; [assumption|constructor; assumption].
    + right; right. exists s. split; [assumption|constructor; assumption].
  - left. exists [], ((e, a) :: tr), x. repeat split; try constructor. rewrite <- Hb. constructor; assumption.
  - inversion Hb; subst. destruct (IH _ eq_refl) as [(t1 & t2 & x & Ht & H1 & H2)|[(e & He & H1)|(s & Hs & H1)]].
    + left. exists ((e', a) :: t1), t2, x. subst tr. repeat split; try assumption. constructor; assumption.
    + right; left. exists e. split; [assumption|constructor; assumption].
    + right; right. exists s. split; [assumption|constructor; assumption].
Qed.

Lemma exec_bind_intro {A B} (p : prog A) (k : A -> prog B) tr1 a :
  exec p tr1 (Done a) -> forall tr2 st, exec (k a) tr2 st -> exec (bind p k) (tr1 ++ tr2) st.
Proof.
  intro HX. remember (Done a) as d eqn:Hd.
  induction HX; intros tr2 st' H2; try discriminate; rewrite bind_eq.
  - inversion Hd; subst. exact H2.
  - constructor. apply IHHX; assumption.
  - cbn. constructor; [assumption|]. apply IHHX; assumption.
Qed.

Lemma exec_bind_at {A B} (p : prog A) (k : A -> prog B) tr e :
  exec p tr (At e) -> exec (bind p k) tr (At e).
Proof.
  intro HX. remember (At e) as d eqn:Hd.
  induction HX; try discriminate; rewrite bind_eq.
  - inversion Hd; subst. constructor.
  - constructor. apply IHHX; assumption.
  - constructor; [assumption|]. apply IHHX; assumption.
Qed.

Lemma exec_bind_panic {A B} (p : prog A) (k : A -> prog B) tr s :
  exec p tr (Panicked s) -> exec (bind p k) tr (Panicked s).
Proof.
  intro HX. remember (Panicked s) as d eqn:Hd.
  induction HX; try discriminate; rewrite bind_eq.
  - inversion Hd; subst. constructor.
  - constructor. apply IHHX; assumption.
  - constructor; [assumption|]. apply IHHX; assumption.
Qed.

Lemma sat_bind {A B} h (p : prog A) (k : A -> prog B) (N : trace -> eff -> Prop) (Q : trace -> B -> Prop) :
  sat h p N (fun h' a => sat h' (k a) N Q) -> sat h (bind p k) N Q.
Proof.
  intros HS tr st HX.
  destruct (exec_bind_inv _ _ _ _ HX) as [(t1 & t2 & x & Ht & H1 & H2)|[(e & He & H1)|(s & Hs & H1)]]; subst.
  - specialize (HS _ _ H1). cbn in HS. specialize (HS _ _ H2). rewrite <- app_assoc in HS. exact HS.
  - exact (HS _ _ H1).
  - exact (HS _ _ H1).
Qed.

Lemma sat_conseq {A} h (p : prog A) (N N' : trace -> eff -> Prop) (Q Q' : trace -> A -> Prop) :
  sat h p N Q -> (forall h' e, N h' e -> N' h' e) -> (forall h' a, Q h' a -> Q' h' a) -> sat h p N' Q'.
Proof.
  intros HS HN HQ tr st HX. specialize (HS _ _ HX). destruct st; auto.
Qed.

(** The same, keeping hold of the local trace. *)
Lemma sat_local {A} h (p : prog A) (N : trace -> eff -> Prop) (Q : trace -> A -> Prop) :
  sat [] p (fun t e => N (h ++ t) e) (fun t a => Q (h ++ t) a) -> sat h p N Q.
Proof. intros HS tr st HX. specialize (HS _ _ HX). destruct st; exact HS. Qed.

Lemma sat_unlocal {A} h (p : prog A) (N : trace -> eff -> Prop) (Q : trace -> A -> Prop) :
  sat h p N Q -> sat [] p (fun t e => N (h ++ t) e) (fun t a => Q (h ++ t) a).
Proof. intros HS tr st HX. specialize (HS _ _ HX). destruct st; exact HS. Qed.

Lemma sat_iter {I R} (body : I -> prog (I + R)) (Inv : trace -> I -> Prop) (N : trace -> eff -> Prop) (Q : trace -> R -> Prop) :
  (forall h i, Inv h i -> sat h (body i) N (fun h' lr => match lr with inl i' => Inv h' i' | inr r => Q h' r end)) ->
  forall h i, Inv h i -> sat h (iter body i) N Q.
Proof.
  intros Hbody h i Hi tr st HX.
  set (kk := fun lr : I + R => match lr with inl i' => Tau (iter body i') | inr r => Ret r end) in *.
  assert (G : forall p tr st, exec p tr st ->
     forall q h, p = bind q kk ->
       sat h q N (fun h' lr => match lr with inl i' => Inv h' i' | inr r => Q h' r end) ->
       match st with At e => N (h ++ tr) e | Done a => Q (h ++ tr) a | Panicked _ => False end).
  { intros p tr' st' HX'.
    induction HX' as [b|s|e k|p' tr' st' HX' IH|e k a tr' st' Hwt HX' IH]; intros q h' Hq Hs;
      rewrite bind_eq in Hq; destruct q as [x|s'|q'|e' f]; try discriminate.
    - destruct x as [i'|r]; cbn in Hq; [discriminate|]. inversion Hq; subst.
      exact (Hs _ _ (X_ret _)).
    - destruct x as [i'|r]; cbn in Hq; discriminate.
    - inversion Hq; subst. exact (Hs _ _ (X_panic _)).
    - destruct x as [i'|r]; cbn in Hq; discriminate.
    - inversion Hq; subst. exact (Hs _ _ (X_at _ _)).
    - destruct x as [i'|r]; cbn in Hq; [|discriminate]. inversion Hq; subst.
      apply (IH (body i') h').
      + apply iter_eq.
      + apply Hbody. pose proof (Hs _ _ (X_ret _)) as HI. cbn in HI. rewrite app_nil_r in HI. exact HI.
    - inversion Hq; subst. apply (IH q' h' eq_refl).
      intros t2 s2 H2. exact (Hs _ _ (X_tau _ _ _ H2)).
    - destruct x as [i'|r]; cbn in Hq; discriminate.
    - inversion Hq; subst.
      replace (h' ++ (e', a) :: tr') with ((h' ++ [(e', a)]) ++ tr') by (rewrite <- app_assoc; reflexivity).
      apply (IH (f a) (h' ++ [(e', a)]) eq_refl).
      intros t2 s2 H2. pose proof (Hs _ _ (X_vis e' f a _ _ Hwt H2)) as HH.
      replace (h' ++ (e', a) :: t2) with ((h' ++ [(e', a)]) ++ t2) in HH by (rewrite <- app_assoc; reflexivity).
      exact HH. }
  apply (G _ _ _ HX (body i) h).
  - apply iter_eq.
  - apply Hbody; assumption.
Qed.

Lemma drive_sound {A} fuel : forall (p : prog A) answers tr st,
  drive fuel p answers = Some (tr, st) -> exec p tr st.
Proof.
  induction fuel as [|fuel IH]; intros p answers tr st HD; cbn in HD; [discriminate|].
  destruct p as [a|s|q|e k].
  - inversion HD; constructor.
  - inversion HD; constructor.
  - constructor. eapply IH; eassumption.
  - destruct answers as [|a rest].
    + inversion HD; constructor.
    + destruct (wt e a) eqn:Hwt; [|discriminate].
      destruct (drive fuel (k a) rest) as [[tr' st']|] eqn:HD'; [|discriminate].
      inversion HD; subst. constructor; [assumption|]. eapply IH; eassumption.
Qed.
