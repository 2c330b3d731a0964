(** * P_Crowd: playing out runs of many tasks, for examples *)
From Coq Require Import Ascii String List Bool Arith Lia ZArith.
From Verif Require Import M_Prog P_Prog P_Exec M_Motion S_Trace S_World P_World P_Play.
Import ListNotations.

(** The outside world: everything can be opened, written and spawned (unless another one is given); what is read is given. *)
Definition kind_world (e : eff) : option ans :=
  match e with
  | EOpenRead _ | ECreate _ | EStdin | EStdout | EStderr => Some (AFd 1)
  | ESpawn _ => Some (AChild 2 3 4)
  | EStatus => Some (AStatus (Some 0%Z))
  | ERead _ => Some (AData [])
  | _ => Some AOk
  end.
Class outside := outer : eff -> option ans.
#[export] Instance kind : outside := kind_world.
Definition kind_answer {O : outside} (rs : list bytes) (w : world) (e : eff) : option (ans * world * list bytes) :=
  match e with
  | ERead _ => Some (AData (hd [] rs), w, tl rs)
  | _ => match answer outer w e with Some (a, w') => Some (a, w', rs) | None => None end
  end.
Lemma kind_answer_sound {O : outside} rs w e a w' rs' : kind_answer rs w e = Some (a, w', rs') -> wt e a = true -> wstep w (e, a) w'.
Proof.
  intros H Hw. destruct e; cbn [kind_answer] in H; try (match type of H with context [answer ?o ?x ?y] => destruct (answer o x y) as [[a0 w0]|] eqn:E; [|discriminate H] end; injection H as <- <- <-; exact (answer_sound _ _ _ _ _ E Hw)).
  injection H as <- <- <-. apply W_other; [reflexivity|exact Hw].
Qed.

(** Where a task is left alone for a while: at a sleep (unless something else is given). *)
Class pausing := pauses : eff -> bool.
#[export] Instance sleeps : pausing := fun e => match e with ESleep _ => true | _ => false end.
(** Run one task until it waits; it waits where it pauses unless [awake]; at most [fuel] steps. *)
Fixpoint act {O : outside} {Z : pausing} {A} (fuel : nat) (awake : bool) (rs : list bytes) (p : prog A) (w : world) : trace * prog A * world * list bytes :=
  match fuel with
  | O => ([], p, w, rs)
  | S fuel' =>
    match p with
    | Ret _ | Panic _ => ([], p, w, rs)
    | Tau q => act fuel' awake rs q w
    | Vis e k =>
      if pauses e && negb awake then ([], p, w, rs) else
      match kind_answer rs w e with
      | None => ([], p, w, rs)
      | Some (a, w', rs') =>
        if wt e a then
          let '(tr, q, w2, rs2) := act fuel' false rs' (k a) w' in ((e, a) :: tr, q, w2, rs2)
        else ([], p, w, rs)
      end
    end
  end.
Lemma act_sound {O : outside} {Z : pausing} {A} fuel : forall awake rs (p : prog A) w tr q w' rs', act fuel awake rs p w = (tr, q, w', rs') ->
  leaves p tr q /\ forall i, wrun w (map (pair i) tr) w'.
Proof.
  assert (N : forall (rs : list bytes) (p : prog A) (w : world) (tr : trace) (q : prog A) (w' : world) (rs' : list bytes), ([] : trace, p, w, rs) = (tr, q, w', rs') -> leaves p tr q /\ forall i, wrun w (map (pair i) tr) w').
  { intros rs p w tr q w' rs' H. injection H as <- <- <- <-. split; [apply leaves_nil|]. intro i. constructor. }
  induction fuel as [|fuel IH]; intros awake rs p w tr q w' rs' H; cbn [act] in H; [exact (N _ _ _ _ _ _ _ H)|]. destruct p as [a|s|p|e k]; try exact (N _ _ _ _ _ _ _ H).
  - destruct (IH _ _ _ _ _ _ _ _ H) as [H1 H2]. split; [|exact H2]. intros tr' st HX. constructor. now apply H1.
  - destruct (pauses e && negb awake); [exact (N _ _ _ _ _ _ _ H)|].
    destruct (kind_answer rs w e) as [[[a w1] rs1]|] eqn:E; [|exact (N _ _ _ _ _ _ _ H)]. destruct (wt e a) eqn:Hw; [|exact (N _ _ _ _ _ _ _ H)].
    destruct (act fuel false rs1 (k a) w1) as [[[tr1 q1] w2] rs2] eqn:EA. injection H as <- <- <- <-. destruct (IH _ _ _ _ _ _ _ _ EA) as [H1 H2]. split.
    + intros tr' st HX. cbn. constructor; [exact Hw|]. now apply H1.
    + intro i. cbn. econstructor; [exact (kind_answer_sound _ _ _ _ _ _ E Hw)|apply H2].
Qed.

Inductive task := TM (p : prog (mres nat)) | TC (p : prog (option nat)).
Definition tleaves (t : task) (tr : trace) (t' : task) : Prop :=
  match t, t' with TM p, TM q => leaves p tr q | TC p, TC q => leaves p tr q | _, _ => False end.
Definition tasks := nat -> task.
Definition put (i : nat) (t : task) (ts : tasks) : tasks := fun j => if j =? i then t else ts j.
Definition tact {O : outside} {Z : pausing} (fuel : nat) (rs : list bytes) (t : task) (w : world) : trace * task * world * list bytes :=
  match t with
  | TM p => let '(tr, q, w', rs') := act fuel true rs p w in (tr, TM q, w', rs')
  | TC p => let '(tr, q, w', rs') := act fuel true rs p w in (tr, TC q, w', rs')
  end.
Lemma tact_sound {O : outside} {Z : pausing} fuel rs t w tr t' w' rs' : tact fuel rs t w = (tr, t', w', rs') -> tleaves t tr t' /\ forall i, wrun w (map (pair i) tr) w'.
Proof.
  destruct t as [p|p]; cbn [tact]; destruct (act fuel true rs p w) as [[[tr1 q1] w1] rs1] eqn:E; intro H; injection H as <- <- <- <-; exact (act_sound _ _ _ _ _ _ _ _ _ E).
Qed.

(** The tasks named in [sched] act in turn. *)
Fixpoint crowd {O : outside} {Z : pausing} (fuel : nat) (sched : list nat) (rs : list bytes) (ts : tasks) (w : world) : list nevent * tasks * world :=
  match sched with
  | [] => ([], ts, w)
  | i :: r =>
    let '(tr, t', w1, rs1) := tact fuel rs (ts i) w in
    let '(l, ts', w2) := crowd fuel r rs1 (put i t' ts) w1 in
    (map (pair i) tr ++ l, ts', w2)
  end.
Lemma tleaves_nil t : tleaves t [] t.
Proof. destruct t; apply leaves_nil. Qed.
Lemma tleaves_app t1 a t2 b t3 : tleaves t1 a t2 -> tleaves t2 b t3 -> tleaves t1 (a ++ b) t3.
Proof. destruct t1, t2, t3; cbn; try contradiction; apply leaves_app. Qed.
Lemma crowd_sound {O : outside} {Z : pausing} fuel sched : forall rs ts w l ts' w', crowd fuel sched rs ts w = (l, ts', w') ->
  wrun w l w' /\ forall i, tleaves (ts i) (own i l) (ts' i).
Proof.
  induction sched as [|i sched IH]; intros rs ts w l ts' w' H; cbn [crowd] in H.
  - injection H as <- <- <-. split; [constructor|]. intro j. apply tleaves_nil.
  - destruct (tact fuel rs (ts i) w) as [[[tr t'] w1] rs1] eqn:ET. destruct (crowd fuel sched rs1 (put i t' ts) w1) as [[l1 ts1] w2] eqn:EC. injection H as <- <- <-.
    destruct (tact_sound _ _ _ _ _ _ _ _ ET) as [T1 T2]. destruct (IH _ _ _ _ _ _ EC) as [C1 C2]. split.
    + apply wrun_app; exists w1; split; [apply T2|exact C1].
    + intro j. rewrite own_app, own_map. specialize (C2 j). unfold put in C2. rewrite Nat.eqb_sym. destruct (j =? i) eqn:E.
      * apply Nat.eqb_eq in E. subst j. eapply tleaves_app; eassumption.
      * exact C2.
Qed.

Definition mstatus (t : task) : status (mres nat) := match t with TM p => status_of p | TC _ => Panicked "" end.
Definition cstatus (t : task) : status (option nat) := match t with TC p => status_of p | TM _ => Panicked "" end.
Definition settled_m (t : task) : bool := match t with TM (Tau _) | TC _ => false | _ => true end.
Definition settled_c (t : task) : bool := match t with TC (Tau _) | TM _ => false | _ => true end.
Lemma crowd_m p tr t : tleaves (TM p) tr t -> settled_m t = true -> exec p tr (mstatus t).
Proof.
  destruct t as [q|q]; cbn; [|discriminate]. intros H HS. rewrite <- (app_nil_r tr). apply H. apply status_exec. destruct q; auto. discriminate HS.
Qed.
Lemma crowd_c p tr t : tleaves (TC p) tr t -> settled_c t = true -> exec p tr (cstatus t).
Proof.
  destruct t as [q|q]; cbn; [discriminate|]. intros H HS. rewrite <- (app_nil_r tr). apply H. apply status_exec. destruct q; auto. discriminate HS.
Qed.
Lemma crowd_run {O : outside} {Z : pausing} fuel sched rs ts w : wrun w (fst (fst (crowd fuel sched rs ts w))) (snd (crowd fuel sched rs ts w)) /\
  forall i, tleaves (ts i) (own i (fst (fst (crowd fuel sched rs ts w)))) (snd (fst (crowd fuel sched rs ts w)) i).
Proof. destruct (crowd fuel sched rs ts w) as [[l ts'] w'] eqn:E. exact (crowd_sound _ _ _ _ _ _ _ _ E). Qed.
