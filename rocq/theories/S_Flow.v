(** * S_Flow: vocabulary for what goes in and what comes out of a network *)
From Coq Require Import Ascii String List Bool Arith ZArith.
From Verif Require Import M_Prog M_Motion M_Regulator M_Faucet M_Drain M_Buffer M_Junction M_Launch S_Trace S_Lines S_Motion S_World S_Launch S_Regulator S_Drain S_Junction S_Network S_Net.
Import ListNotations.

(** The messages that have gone into channel [n]; those that have been taken from it. *)
Definition gone_in (n : nat) (l : list nevent) : list bytes := datas (sent (CData n) (all_of l)).
Definition come_out (n : nat) (l : list nevent) : list bytes := datas (taken (CData n) (all_of l)).

(** Faucets and programs make messages; regulators, buffers and junctions pass them on ([passes_on]). *)
Definition makes_messages (c : comp) : Prop := match c with NFaucet _ _ | NLaunch _ _ _ => True | _ => False end.

(** Channel [n] is fed by the channels [os], which faucets and programs write to: one of them appears as many times as there are ways from it to [n]. *)
Inductive fed_by (net : list comp) : nat -> list nat -> Prop :=
| F_made : forall c n, In c net -> makes_messages c -> In n (comp_outs c) -> fed_by net n [n]
| F_passed : forall c n oss, In c net -> passes_on c -> In n (comp_outs c) -> Forall2 (fed_by net) (comp_ins c) oss -> fed_by net n (concat oss).

(** What a source has been asked for so far: the bytes read, cut into messages. *)
Definition read_from (tr : trace) : list bytes := match tr with (_, AFd d) :: _ => messages_of_reads (reads d tr) | _ => [] end.
(** The exit code of a program, when it has been told. *)
Definition exit_told (tr : trace) : list (option Z) := flat_map (fun a => match a with AStatus code => [code] | _ => [] end) (statuses tr).

(** By what was read from its source in the run [l], channel [n] should carry [ms]. *)
Inductive source_gave (net : list comp) (l : list nevent) : nat -> list bytes -> Prop :=
| SG_faucet : forall k f name n, nth_error net k = Some (NFaucet f name) -> In n (out_of (fc_stdout f)) -> source_gave net l n (read_from (own (4 * k) l))
| SG_stdout : forall k cwd vars la n fin fout ferr, nth_error net k = Some (NLaunch cwd vars la) -> In n (out_of (la_stdout la)) -> child_of (own (4 * k) l) = Some (fin, fout, ferr) ->
    source_gave net l n (messages_of_reads (reads fout (own (4 * k + 2) l)))
| SG_stderr : forall k cwd vars la n fin fout ferr, nth_error net k = Some (NLaunch cwd vars la) -> In n (out_of (la_stderr la)) -> child_of (own (4 * k) l) = Some (fin, fout, ferr) ->
    source_gave net l n (messages_of_reads (reads ferr (own (4 * k + 3) l)))
| SG_exit : forall k cwd vars la n code m, nth_error net k = Some (NLaunch cwd vars la) -> In n (exit_of (la_exit_status la)) -> exit_told (own (4 * k) l) = [code] -> exit_text code m ->
    source_gave net l n [m]
(** The program has not been started, or has not yet ended. *)
| SG_none : forall k cwd vars la n, nth_error net k = Some (NLaunch cwd vars la) -> In n (out_of (la_stdout la) ++ out_of (la_stderr la)) -> child_of (own (4 * k) l) = None -> source_gave net l n []
| SG_running : forall k cwd vars la n, nth_error net k = Some (NLaunch cwd vars la) -> In n (exit_of (la_exit_status la)) -> exit_told (own (4 * k) l) = [] -> source_gave net l n [].

(** Of what channel [n] carries, [ms] has been written where it should go: by a drain to what it has opened, to a program's standard input. *)
Inductive target_got (net : list comp) (l : list nevent) : nat -> list bytes -> Prop :=
| TG_drain : forall k d name n e f rest, nth_error net k = Some (NDrain d name) -> In n (in_of (dr_stdin d)) ->
    opened_for (actual_destination name) = Some e -> own (4 * k) l = (e, AFd f) :: rest -> target_got net l n (written f (own (4 * k) l))
| TG_stdin : forall k cwd vars la n fin fout ferr, nth_error net k = Some (NLaunch cwd vars la) -> In n (in_of (la_stdin la)) -> child_of (own (4 * k) l) = Some (fin, fout, ferr) ->
    target_got net l n (written fin (own (4 * k + 1) l)).

(** The source of channel [n] has been read to its end; a program has ended, if its exit code goes there. *)
Definition source_spent (net : list comp) (l : list nevent) (n : nat) : Prop := forall k c, nth_error net k = Some c -> In n (comp_outs c) ->
  match c with
  | NFaucet _ name => exists d rest, own (4 * k) l = (source_eff name, AFd d) :: rest /\ In (ERead d, AData []) (own (4 * k) l)
  | NLaunch _ _ la => exists fin fout ferr, child_of (own (4 * k) l) = Some (fin, fout, ferr) /\
      (In n (out_of (la_stdout la)) -> In (ERead fout, AData []) (own (4 * k + 2) l)) /\
      (In n (out_of (la_stderr la)) -> In (ERead ferr, AData []) (own (4 * k + 3) l)) /\
      (In n (exit_of (la_exit_status la)) -> exists code, exit_told (own (4 * k) l) = [code])
  | _ => True
  end.
(** Where channel [n] ends has been opened, and flushed at the end; or it is a drain that throws everything away. *)
Definition target_served (net : list comp) (l : list nevent) (n : nat) : Prop := forall k c, nth_error net k = Some c -> In n (comp_ins c) ->
  match c with
  | NDrain _ name => forall e, opened_for (actual_destination name) = Some e -> exists f rest, own (4 * k) l = (e, AFd f) :: rest /\ In (EFlush f, AOk) (own (4 * k) l)
  | NLaunch _ _ _ => exists fin fout ferr, child_of (own (4 * k) l) = Some (fin, fout, ferr) /\ In (EFlush fin, AOk) (own (4 * k + 1) l) /\ In (EDropFd fin, AOk) (own (4 * k + 1) l)
  | _ => True
  end.

(** Each of [ps] is the beginning of the one of [ms] at the same place. *)
Definition beginnings {A} (ps ms : list (list A)) : Prop := Forall2 prefix ps ms.
