(** * S_Lint: what is wrong with a configuration *)
From Coq Require Import Ascii String List Bool Arith ZArith.
From Verif Require Import M_Prog M_Config M_Manip S_Grammar S_Manip.
Import ListNotations.
Local Open Scope string_scope.

(** A connection that is not in the language of connections *)
Inductive unreadable (c : config) : warning -> Prop :=
| U_text k s : In (k, JoinString s) (cf_connection c) -> (forall l, ~ connection_text l s) -> unreadable c (InvalidConnection k s).

(** The component has an entry in the part of the configuration for its kind. *)
Definition configured (c : config) (x : component) : Prop :=
  match fst x with
  | CFaucet => In (snd x) (keys (cf_faucet c))
  | CLaunch => In (snd x) (keys (cf_launch c))
  | CDrain => In (snd x) (keys (cf_drain c))
  | CRegulator => In (snd x) (keys (cf_regulator c))
  | CJunction | CBuffer => False
  end.
(** The kinds that need one *)
Definition needs_config (t : ctype) : Prop := t <> CJunction /\ t <> CBuffer.
Definition section_name (t : ctype) : string :=
  match t with CFaucet => "faucet" | CLaunch => "launch" | CDrain => "drain" | CRegulator => "regulator" | CJunction => "junction" | CBuffer => "buffer" end.

Inductive problem (c : config) : warning -> Prop :=
| Pr_watched r rc b : In (r, rc) (cf_regulator c) -> In b (rc_monitored rc) -> ~ is_mentioned (cf_connection c) (CBuffer, b) ->
    problem c (RegulatorWatchingMissingBuffer ("regulator[""" ++ r ++ """].monitored_buffers") CBuffer b)
| Pr_unused t n : configured c (t, n) -> ~ is_mentioned (cf_connection c) (t, n) ->
    problem c (InConfigButMissingFlowConnection (section_name t) t n)
| Pr_missing t n : is_mentioned (cf_connection c) (t, n) -> needs_config t -> ~ configured c (t, n) ->
    problem c (InFlowConnectionButMissingConfig t n).

(** ** Before running *)

(** Everything that is mentioned has its settings (drains: after the preparation), and the buffers that are watched are there. *)
Definition provided (prepared c : config) : Prop :=
  (forall t n, needs_config t -> is_mentioned (cf_connection c) (t, n) -> configured prepared (t, n)) /\
  (forall r rc b, In (r, rc) (cf_regulator c) -> In b (rc_monitored rc) -> is_mentioned (cf_connection c) (CBuffer, b)).
