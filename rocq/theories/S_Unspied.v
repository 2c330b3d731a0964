(** * S_Unspied: being watched makes no difference *)
From Coq Require Import List Bool Arith.
From Verif Require Import M_Prog M_Join S_World.
Import ListNotations.

(** Telling the spy. *)
Definition is_spying (e : eff) : bool := match e with ESend (CSpy _) _ => true | _ => false end.
(** What is left of a run when the spy is left out. *)
Definition unspied (tr : trace) : trace := filter (fun ev => negb (is_spying (fst ev))) tr.
Definition unspied_events (l : list nevent) : list nevent := filter (fun x => negb (is_spying (fst (snd x)))) l.
(** The spy has taken everything it was told. *)
Definition spy_took (tr : trace) : Prop := forall e a, In (e, a) tr -> is_spying e = true -> a = AOk.
(** The component is not just telling the spy something. *)
Definition not_telling {A} (st : status A) : Prop := match st with At e => is_spying e = false | _ => True end.

(** [p] does what [q] does, and tells a spy about it: each run of [p] is one of [q] if the spy is left out,
    and each run of [q] becomes one of [p] by telling the spy now and then. *)
Definition watched_only {A} (p q : prog A) : Prop :=
  (forall tr st, exec p tr st -> spy_took tr -> not_telling st -> exec q (unspied tr) st) /\
  (forall tr st, exec q tr st -> exists tr', exec p tr' st /\ spy_took tr' /\ unspied tr' = tr).

(** The same for futures joined in one task. *)
Definition no_telling {A B C R} (st : jstatus A B C R) : Prop :=
  match st with
  | Before s => not_telling s
  | During a b c => not_telling a /\ not_telling b /\ not_telling c
  | After s => not_telling s
  end.
Definition watched_jointly {A B C R} (p q : list nevent -> jstatus A B C R -> Prop) : Prop :=
  (forall l st, p l st -> spy_took (all_of l) -> no_telling st -> q (unspied_events l) st) /\
  (forall l st, q l st -> unspied_events l = l -> exists l', p l' st /\ spy_took (all_of l') /\ unspied_events l' = l).
