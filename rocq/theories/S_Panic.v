(** * S_Panic: vocabulary for what brings a run down *)
From Coq Require Import Ascii String List.
From Verif Require Import M_Prog M_Launch S_Net.
Import ListNotations.

(** What a launch asks the operating system for, as it was configured: command, arguments, directory and environment. *)
Definition asked_for (cwd : option string) (vars : list (string * string)) (la : launch) (sp : spawning) : Prop :=
  sp_program sp = la_command la /\ (forall p, la_path la = Some p -> sp_dir sp = Some p) /\ (la_path la = None -> sp_dir sp = cwd) /\
  (forall v, la_env la = Some v -> sp_env sp = v) /\ (la_env la = None -> sp_env sp = vars) /\
  (forall v, la_args la = Some v -> sp_args sp = v) /\ (la_args la = None -> sp_args sp = []).
(** In [h] the program of the launch [x] was asked for, and could not be started. *)
Definition not_started (x : comp) (h : trace) : Prop :=
  match x with NLaunch cwd vars la => exists sp, asked_for cwd vars la sp /\ In (ESpawn sp, AErr) h | _ => False end.
