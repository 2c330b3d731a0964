(** * P_LeadEnds: over pipes that give way, what is not hurt gets everything of what is not hurt *)
From Coq Require Import Ascii String List Bool Arith ZArith Lia.
From Verif Require Import M_Prog M_Motion M_Connectable M_Faucet M_Launch M_Junction M_Buffer M_Drain M_Regulator M_Join S_Trace S_Lines S_Motion S_World S_Launch S_Regulator S_Drain S_Junction S_Network S_Net M_Start S_Start S_Flow S_Path M_Config M_Manip M_Lint M_Waiter S_Grammar S_Manip S_Waiter S_Shape S_Watch S_Soft S_Lead P_Shape P_SoftConfig P_SoftEnds P_Lead P_LeadRun.
Import ListNotations.
Local Open Scope list_scope.

Section Prepared.
Variables (sh : shuffles) (cwd : option string) (vars : list (string * string)) (c : config) (w : waiter).
Hypothesis Hf : S_Manip.fair sh.
Hypothesis Hgc : good_connections (cf_connection c).
Hypothesis Hpr : prepares sh c w [].
Hypothesis Hgw : giving_way (cf_connection c).
Hypothesis Hpa : passing (cf_connection c).
Hypothesis Hnl : no_loop (cf_connection c).
Notation net := (net_of cwd vars w).
Variables (w0 : world) (l : list nevent) (wl : world) (ocs : nat -> S_Net.outcome).
Hypothesis HX : whole_run net [] w0 l wl ocs.
Hypothesis HG : granted l.
Hypothesis HL : whole_locked net [] w0 l.

Lemma unhurt_well y k : fst y = CFaucet \/ fst y = CDrain -> stands_at c w cwd vars y k -> ~ hurt (did k l) -> went_well ocs k.
Proof.
  intros Hy Hk HH. pose proof (soft_stands sh cwd vars c w Hf Hgc Hpr Hgw Hpa Hnl _ _ _ _ HX HG HL) as HA.
  assert (HK : exists x, nth_error net k = Some x /\ match x with NFaucet _ _ | NDrain _ _ => True | _ => False end).
  { destruct y as [t n]. cbn [fst] in Hy. destruct Hy as [-> | ->]; destruct Hk as (f & _ & Hk); (eexists; split; [exact Hk|exact Logic.I]). }
  destruct HK as (x & Hx & HK). destruct (HA k) as ([m|e] & E); [apply nth_error_Some; congruence|exists m; exact E|]. exfalso. apply HH.
  pose proof (soft_own sh cwd vars c w [] Hf Hgc Hpr Hgw Hpa (loops_apart _ (no_loop_buffered _ Hnl)) _ _ _ _ (proj1 HX) _ _ _ Hx E) as K.
  destruct x; try contradiction HK; destruct e as [| | | | | |? z ?| | | | |]; try destruct z; try contradiction K; exact K.
Qed.
Theorem marked_led ps : spelled (cf_connection c) ps -> forall x ss, fst x = CDrain -> arrivals ps x <> [] -> supplied ps x ss -> (forall s, In s ss -> fst (fst s) = CFaucet) ->
  (forall y k, y = x \/ In y (map fst ss) -> stands_at c w cwd vars y k -> ~ hurt (did k l)) ->
  Forall (at_end c w cwd vars l) ss /\ served c w cwd vars l x /\
  exists mss ms, Forall2 (has_given c w cwd vars l) ss mss /\ interleave mss ms /\ forall ms', has_got c w cwd vars l x ms' -> ms' = ms.
Proof.
  intros Hsp x ss Hx Ha Hs HF HH. apply (path_led sh cwd vars c w [] Hf Hgc Hpr Hpa (loops_apart _ (no_loop_buffered _ Hnl)) ps Hsp w0 l wl ocs x ss (or_introl Hx) Ha Hs (proj1 HX)).
  - exact (soft_stands sh cwd vars c w Hf Hgc Hpr Hgw Hpa Hnl _ _ _ _ HX HG HL).
  - intros k Hk. pose proof (HH x k (or_introl eq_refl) Hk) as K. split; [|exact K]. apply (unhurt_well x k); auto.
  - intros s k Hin Hk. apply (unhurt_well (fst s) k); [left; exact (HF _ Hin)|exact Hk|]. apply (HH (fst s) k); [right; now apply in_map|exact Hk].
Qed.
End Prepared.
