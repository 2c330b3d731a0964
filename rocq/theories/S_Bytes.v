(** * S_Bytes: bytes and lines, from the sources to the targets *)
From Coq Require Import Ascii String List Bool Arith ZArith.
From Verif Require Import M_Prog M_Motion M_Config M_Manip M_Waiter S_Trace S_Lines S_Motion S_World S_Launch S_Regulator S_Drain S_Network S_Net M_Start S_Waiter S_Flow S_Path.
Import ListNotations.

Section Run.
Variables (c : config) (w : waiter) (cwd : option string) (vars : list (string * string)) (l : list nevent).
(** The bytes behind the output [s], as they were read, piece by piece: by the faucet from the place configured for it, from a program's standard output and
    standard error; for the exit status, its text. *)
Inductive has_read : M_Manip.source -> list bytes -> Prop :=
| HR_faucet : forall n k d rest, faucet_at c w cwd vars n k -> own (4 * k) l = (source_eff (location n (cf_faucet c)), AFd d) :: rest -> has_read ((CFaucet, n), POut) (S_Trace.reads d (own (4 * k) l))
| HR_unopened : forall n k, faucet_at c w cwd vars n k -> (forall e d rest, own (4 * k) l <> (e, AFd d) :: rest) -> has_read ((CFaucet, n), POut) []
| HR_out : forall n k fin fout ferr, program_at w cwd vars n k -> child_of (own (4 * k) l) = Some (fin, fout, ferr) -> has_read ((CLaunch, n), POut) (S_Trace.reads fout (own (4 * k + 2) l))
| HR_err : forall n k fin fout ferr, program_at w cwd vars n k -> child_of (own (4 * k) l) = Some (fin, fout, ferr) -> has_read ((CLaunch, n), PErr) (S_Trace.reads ferr (own (4 * k + 3) l))
| HR_exit : forall n k code m, program_at w cwd vars n k -> exit_told (own (4 * k) l) = [code] -> exit_text code m -> has_read ((CLaunch, n), PExit) [m]
| HR_none : forall n k o, program_at w cwd vars n k -> o = POut \/ o = PErr -> child_of (own (4 * k) l) = None -> has_read ((CLaunch, n), o) []
| HR_running : forall n k, program_at w cwd vars n k -> exit_told (own (4 * k) l) = [] -> has_read ((CLaunch, n), PExit) [].
End Run.

(** The text ends where a line ends. *)
Definition full_lines (b : bytes) : Prop := b = [] \/ exists b', b = b' ++ [newline].
