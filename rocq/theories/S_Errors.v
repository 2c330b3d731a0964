(** * S_Errors: what errors should tell, and how the program should end *)
From Coq Require Import Ascii String List Bool Arith ZArith.
From Verif Require Import M_Prog M_Motion M_Config M_Manip M_Lint M_Waiter M_Errors S_Waiter.
Import ListNotations.
Local Open Scope string_scope.

(** The ends of the pipe that an error is about *)
Inductive about : merror -> nat -> nat -> Prop :=
| A_read s d : about (ReadIOError (PJ s d)) s d
| A_open s d : about (OpenIOError (PJ s d)) s d
| A_monitor s d : about (MonitorWriteError (PJ s d)) s d
| A_close s p d b : about (CloseIOError (J s p d b)) s d
| A_write s p d b x : about (WriteIOError (J s p d b) x) s d
| A_recv s p d b : about (RecvError (J s p d b)) s d
| A_send s p d b x : about (SendError (J s p d b) x) s d
| A_closed s p d b r x : about (OutputClosed (J s p d b) r x) s d
| A_spy s d p m : about (SpyWriteError s d p m) s d.
(** Errors of reading from, or opening, what a component reads *)
Definition of_reading (e : merror) : Prop := match e with ReadIOError _ | OpenIOError _ => True | _ => False end.
Definition no_time (e : merror) : Prop := match e with LaunchSpawnError _ | NoneError => True | _ => False end.

(** A component as it is shown to the user *)
Definition shown_as (c : component) : string :=
  match fst c with CFaucet => "Faucet" | CLaunch => "Launch" | CJunction => "Junction" | CBuffer => "Buffer" | CDrain => "Drain" | CRegulator => "Regulator" end ++ ":" ++ snd c.
Definition report (debug : string -> string) (src dst text : string) : string := src ++ " | " ++ dst ++ " - " ++ debug text.

(** The kinds of failures *)
Inductive kind :=
| K_read | K_close | K_open | K_write | K_recv | K_send | K_closed (r : closed_reason) | K_monitor_read | K_monitor_write | K_spy | K_spawn | K_none
| K_no_regulator | K_no_buffer | K_pause | K_resume.
Definition kind_of (e : waiter_error) : kind :=
  match e with
  | CausedByError _ _ m =>
    match tm_error m with
    | ReadIOError _ => K_read | CloseIOError _ => K_close | OpenIOError _ => K_open | WriteIOError _ _ => K_write | RecvError _ => K_recv | SendError _ _ => K_send
    | OutputClosed _ r _ => K_closed r | MonitorReadError _ => K_monitor_read | MonitorWriteError _ => K_monitor_write | SpyWriteError _ _ _ _ => K_spy
    | LaunchSpawnError _ => K_spawn | NoneError => K_none
    end
  | SettingsForMissingRegulator _ => K_no_regulator | SettingsRefersMissingBuffer _ _ => K_no_buffer | CouldNotPause => K_pause | CouldNotResume => K_resume
  end.

(** The errors as they are listed *)
Definition listed (errors : list string) : list string := (["Error(s) have occurred:"; ""] ++ map (append " * ") errors ++ [""])%list.
(** All results of a run *)
Definition all_results (x : list (result nat waiter_error) * list (result nat waiter_error) * list (result nat waiter_error) * list (result nat waiter_error) *
    list (result nat waiter_error) * list (result nat waiter_error) * list (result nat waiter_error)) : list (result nat waiter_error) :=
  let '(l, r, f, m, d, b, j) := x in (l ++ r ++ f ++ m ++ d ++ b ++ j)%list.
