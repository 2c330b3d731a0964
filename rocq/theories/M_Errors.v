(** * M_Errors: what is known about an error, what is printed of it, and how the program ends

    [lib e] is the text of the library's error that [e] carries; [debug s] is Rust's debug text of a string. *)
From Coq Require Import Ascii String List Bool Arith ZArith.
From Verif Require Import M_Prog M_Motion M_Config M_Manip M_Lint M_Setters M_Serde M_Cli M_Waiter M_Graph.
Import ListNotations.
Local Open Scope string_scope.

(** src/motion.rs 103-113 *)
Definition as_pull_journey (j : journey) : pjourney := PJ (j_src j) (j_dst j).
Definition as_journey (p : pjourney) (b : breakable) (o : option oport) : journey := J (pj_src p) o (pj_dst p) b.

(** src/motion.rs 249-267 *)
Definition error_journey (e : merror) : option journey :=
  match e with
  | ReadIOError _ => None
  | CloseIOError j => Some j
  | OpenIOError _ => None
  | WriteIOError j _ => Some j
  | RecvError j => Some j
  | SendError j _ => Some j
  | OutputClosed j _ _ => Some j
  | MonitorReadError _ => None
  | MonitorWriteError p => Some (as_journey p Terminate None)
  | SpyWriteError src dst port _ => Some (J src (Some port) dst Terminate)
  | LaunchSpawnError _ => None
  | NoneError => None
  end.
(** 269-286 *)
Definition error_pull_journey (e : merror) : option pjourney :=
  match e with
  | ReadIOError p => Some p
  | CloseIOError _ => None
  | OpenIOError p => Some p
  | WriteIOError _ _ => None
  | RecvError _ => None
  | SendError _ _ => None
  | OutputClosed _ _ _ => None
  | MonitorReadError _ => None
  | MonitorWriteError p => Some p
  | SpyWriteError src dst _ _ => Some (PJ src dst)
  | LaunchSpawnError _ => None
  | NoneError => None
  end.
(** 288-303 *)
Definition journey_source (e : merror) : option nat :=
  match e with
  | ReadIOError p | OpenIOError p | MonitorWriteError p => Some (pj_src p)
  | CloseIOError j | WriteIOError j _ | RecvError j | SendError j _ | OutputClosed j _ _ => Some (j_src j)
  | MonitorReadError src => Some src
  | SpyWriteError src _ _ _ => Some src
  | LaunchSpawnError _ => None
  | NoneError => None
  end.
(** 201-230 *)
Definition motion_display (lib : timed -> string) (e : timed) : string :=
  match tm_error e with
  | ReadIOError _ => "MotionError::ReadIOError: " ++ lib e
  | CloseIOError _ => "MotionError::CloseIOError: " ++ lib e
  | OpenIOError _ => "MotionError::OpenIOError: " ++ lib e
  | WriteIOError _ _ => "MotionError::WriteIOError: " ++ lib e
  | RecvError _ => "MotionError::RecvError: " ++ lib e
  | SendError _ _ => "MotionError::SendError: " ++ lib e
  | OutputClosed _ BrokenPipe _ => "MotionError::OutputClosed: BrokenPipe"
  | OutputClosed _ ChannelClosed _ => "MotionError::OutputClosed: ChannelClosed"
  | MonitorReadError _ => "MotionError::MonitorReadError: " ++ lib e
  | MonitorWriteError _ => "MotionError::MonitorWriteError: " ++ lib e
  | SpyWriteError _ _ _ _ => "MotionError::SpyWriteError: " ++ lib e
  | LaunchSpawnError (Some cmd) => "MotionError::LaunchSpawnError: Could not run program " ++ cmd
  | LaunchSpawnError None => "MotionError::LaunchSpawnError: Could not run program UNKNOWN (could not represent in UTF-8)"
  | NoneError => "MotionError::NoneError: None Error"
  end.

(** src/waiter.rs 128-136 *)
Definition description (lib : timed -> string) (e : waiter_error) : string :=
  match e with
  | CausedByError _ _ m => motion_display lib m
  | SettingsForMissingRegulator s => "There are no settings for Faucet:" ++ s
  | SettingsRefersMissingBuffer f b => "Faucet " ++ f ++ " refers to buffer " ++ b ++ " which does not exist"
  | CouldNotPause => "CouldNotPause"
  | CouldNotResume => "CouldNotPause"
  end.
(** 153-166 *)
Definition caused_by_error_source (e : waiter_error) : option component := match e with CausedByError t n _ => Some (t, n) | _ => None end.
Definition caused_by_error (e : waiter_error) : option merror := match e with CausedByError _ _ m => Some (tm_error m) | _ => None end.

(** src/bin_support.rs 6-8 *)
Definition component_type_name_to_string (c : component) : string := ctype_text (fst c) ++ ":" ++ snd c.
(** src/bin_support.rs 4-29 *)
Definition waiter_error_to_string (lib : timed -> string) (debug : string -> string) (names : list (nat * component)) (e : waiter_error) : string :=
  let waiter_src := caused_by_error_source e in
  let motion_src := match match caused_by_error e with Some m => journey_source m | None => None end with Some s => lookup_id s names | None => None end in
  let motion_dst := match match caused_by_error e with Some m => error_journey m | None => None end with Some j => lookup_id (j_dst j) names | None => None end in
  let '(src, dst) :=
    match waiter_src, motion_src, motion_dst with
    | _, Some s, Some d => (component_type_name_to_string s, component_type_name_to_string d)
    | _, Some s, _ => (component_type_name_to_string s, "Unknown Destination")
    | Some s, _, _ => (component_type_name_to_string s, "Unknown Destination")
    | _, _, _ => ("Unknown Source", "Unknown Destination")
    end in
  src ++ " | " ++ dst ++ " - " ++ debug (description lib e).

(** ** src/bin/pa2.rs 542-617: main *)

(** What the rest of the world does: [run] gives the results of the components of a started pipeline, by kind in the order of [overall];
    [json] is the JSON text of a configuration, if there is one; [dot] the DOT text of a graph. *)
Record machine := Machine {
  mc_run : waiter -> list capture ->
    list (result nat waiter_error) * list (result nat waiter_error) * list (result nat waiter_error) * list (result nat waiter_error) *
    list (result nat waiter_error) * list (result nat waiter_error) * list (result nat waiter_error);
  mc_json : config -> option string;
  mc_dot : graph -> string;
  mc_lib : timed -> string;
  mc_debug : string -> string;
  mc_order : list (ctype * list string) -> list (ctype * list string);
  mc_settings : list (string * settings) -> list (string * settings)
}.
(** src/waiter.rs 352-420 *)
Definition waiter_start (mc : machine) (w : waiter) : outcome (result nat (list waiter_error)) :=
  obind (regulator_settings w (mc_settings mc (w_settings w))) (fun r =>
  Good (match r with
        | Err e => Err [e]
        | Ok (w', cs) => let '(l, r, f, m, d, b, j) := mc_run mc w' cs in overall l r f m d b j
        end)).
(** 546-602: what there is to print, or the errors *)
Definition main_result (mc : machine) (x : result response string) : outcome (result string (list string)) :=
  match x with
  | Ok (RConfig c) => Good (match mc_json mc c with Some s => Ok s | None => Err ["Could not serialize new Config"] end)
  | Ok (RProcess c) =>
    obind (get_waiter c) (fun r =>
    match r with
    | Err e => Good (Err [e])
    | Ok w =>
      match w_names w with
      | None => Crash "Could not get_id_to_component_type_name"
      | Some names =>
        obind (waiter_start mc w) (fun r =>
        Good (match r with Ok _ => Ok "" | Err errs => Err (map (waiter_error_to_string (mc_lib mc) (mc_debug mc) names) errs) end))
      end
    end)
  | Ok (RGraph c mode) => Good (Ok (mc_dot mc (draw (mc_order mc) c mode)))
  | Err msg => Good (Err [msg])
  end.
(** 605-617: standard output, standard error and the exit code; a panic ends with 101.  What the preparation prints (see C52) comes first. *)
Record ending := Ending { en_out : list string; en_err : list string; en_code : nat }.
Definition main_end (r : result string (list string)) : ending :=
  match r with
  | Ok s => Ending (if String.eqb s "" then [] else [s]) [] 0
  | Err ss => Ending [] (["Error(s) have occurred:"; ""] ++ map (append " * ") ss ++ [""])%list 1
  end.
Definition main (mc : machine) (os : outside) (sh : shuffles) (typed : matches) : option (outcome ending) :=
  match pa2 os sh typed with
  | None => None
  | Some x => Some (obind x (fun '(r, _) => obind (main_result mc r) (fun y => Good (main_end y))))
  end.
