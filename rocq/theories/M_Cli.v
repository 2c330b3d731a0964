(** * M_Cli: src/bin/pa2.rs and src/config_io.rs: commands and what they do

    What [clap] does is modelled only as far as values that were not given are filled in with defaults.  Reading files and the
    syntax of JSON and YAML are given by the surroundings. *)
From Coq Require Import Ascii String List Bool Arith ZArith NArith DecimalString.
From Verif Require Import M_Prog M_Motion M_Config M_Parser M_Manip M_Lint M_Setters M_Serde.
Import ListNotations.
Local Open Scope string_scope.

(** ** What was typed *)

(** [clap::ArgMatches]: the values of the arguments, and the subcommand.  A flag has as many values as it occurs. *)
Inductive matches := Matches (values : list (string * list string)) (sub : option (string * matches)).
Definition mt_values (m : matches) := let (v, _) := m in v.
Definition mt_sub (m : matches) := let (_, s) := m in s.
Definition values_of (m : matches) (k : string) : option (list string) := lookup k (mt_values m).
Definition value_of (m : matches) (k : string) : option string := match values_of m k with Some (v :: _) => Some v | _ => None end.
Definition occurrences_of (m : matches) (k : string) : nat := match values_of m k with Some l => List.length l | None => 0 end.

(** 18-148: the commands that can be typed: their names, and the names of the arguments after them, all of which must be given *)
Definition commands : list (list string * list string) :=
  [(["process"], []); (["graph"], []); (["config"; "empty"], []); (["config"; "lint"], []); (["config"; "manipulate"], []);
   (["config"; "faucet"; "source"], ["SOURCE"]); (["config"; "regulator"; "watermark"], ["MIN"; "MAX"]); (["config"; "drain"; "destination"], ["DESTINATION"]);
   (["config"; "connection"; "join"], ["JOIN"]); (["config"; "connection"; "del"], []);
   (["config"; "launch"; "command"], ["COMMAND"]); (["config"; "launch"; "args"], ["ARGS"]); (["config"; "launch"; "env"], ["ENV"]); (["config"; "launch"; "path"], ["PATH"])].

(** 47-55: the format, if not given, is yaml.  [process], [graph] and [config] have it. *)
Definition clap_defaults (m : matches) : matches :=
  match mt_sub m with
  | Some (name, m1) =>
    Matches (mt_values m) (Some (name, match value_of m1 "format" with
                                        | Some _ => m1
                                        | None => Matches (hput "format" ["yaml"] (mt_values m1)) (mt_sub m1)
                                        end))
  | None => m
  end.

(** ** The request *)

(** src/config_io.rs 3-7 *)
Inductive format := Json | Yaml.
(** 150-155 *)
Record options := Options { op_id : string; op_in : string; op_format : format }.
(** 157-162 *)
Inductive graph_mode := LegendOnly (border : bool) | DiagramOnly | Full (border : bool).
(** 164-208 *)
Inductive request :=
| LaunchCommand (o : options) (command : string)
| LaunchPath (o : options) (path : string)
| LaunchArgs (o : options) (args : list string)
| LaunchEnv (o : options) (env : list (string * string))
| FaucetSrc (o : options) (src : string)
| DrainDst (o : options) (dst : string)
| RegulatorWatermark (o : options) (min max : nat)
| ConnectionJoin (o : options) (join : string)
| ConfigLintShow (config_in : string) (f : format)
| Manipulate (config_in : string) (f : format)
| Process (config_in : string) (f : format)
| GraphOf (config_in : string) (f : format) (mode : graph_mode).

(** 239-260 *)
Fixpoint subcommands (m : matches) : list (matches * string) :=
  match m with
  | Matches _ (Some (s, am2)) => (am2, s) :: subcommands am2
  | Matches _ None => []
  end.

Fixpoint ends_with (suffix s : string) : bool := (s =? suffix) || match s with "" => false | String _ r => ends_with suffix r end.

(** 262-274 *)
Definition get_config_format (first_sub_command : option matches) : result format string :=
  let first := bind first_sub_command (fun sc1 => orelse (value_of sc1 "config") (Some "-")) in
  match bind first_sub_command (fun sc1 => orelse (value_of sc1 "format") first) with
  | Some f =>
    if f =? "yaml" then Ok Yaml
    else if f =? "json" then Ok Json
    else if ends_with ".yaml" f then Ok Yaml
    else if ends_with ".yml" f then Ok Yaml
    else if ends_with ".json" f then Ok Json
    else Err "Could not figure out configuration format"
  | None => Err "Could not figure out configuration format"
  end.

(** 276-297 *)
Definition get_standard_config_opts (first second : option matches) (second_name : option string) : result options string :=
  let config_in := bind first (fun sc1 => orelse (value_of sc1 "config") (Some "-")) in
  match get_config_format first with
  | Err e => Err e
  | Ok fmt =>
    match config_in, bind second (fun sc2 => value_of sc2 "id"), second_name with
    | Some config_in, Some id, _ => Ok (Options id config_in fmt)
    | _, None, Some name => Err ("You need to specify an id for the '" ++ name ++ "'")
    | _, None, _ => Err "You didn't correctly specify what to configure"
    | _, _, _ => Err "Somehow we didn't understand those commands"
    end
  end.

(** 309-311 *)
Definition get_config_in (first : option matches) : string := match bind first (fun sc1 => value_of sc1 "config") with Some s => s | None => "-" end.

(** [str::parse::<usize>]: decimal digits, perhaps after a plus sign; at most 64 bits *)
Definition decimal_digit (a : ascii) : option N :=
  let n := N_of_ascii a in if ((48 <=? n) && (n <=? 57))%N then Some (n - 48)%N else None.
Fixpoint parse_digits (s : string) (acc : N) : option N :=
  match s with
  | "" => Some acc
  | String a r => bind (decimal_digit a) (fun d => let acc := (acc * 10 + d)%N in if (acc <? 2 ^ 64)%N then parse_digits r acc else None)
  end.
Definition parse_usize (s : string) : option nat :=
  match (match s with String "+" r => r | _ => s end) with
  | "" => None
  | t => bind (parse_digits t 0) (fun n => Some (N.to_nat n))
  end.

(** [str::split_once('=')] *)
Fixpoint split_equals (s : string) : option (string * string) :=
  match s with
  | "" => None
  | String a r => if Ascii.eqb a "=" then Some ("", r) else bind (split_equals r) (fun '(x, y) => Some (String a x, y))
  end.
(** 419-429 *)
Definition as_kv (form s : string) : result (string * string) string :=
  match split_equals s with
  | None => Err (s ++ " does not include a name (must be in form " ++ form ++ ")")
  | Some ("", _) => Err (s ++ " The " ++ form ++ " form must include a non-zero length NAME")
  | Some (a, b) => Ok (a, b)
  end.
(** 431-442 *)
Definition env_fold (envs : list string) : result (list (string * string)) string :=
  fold_left (fun hm s =>
    match hm, as_kv "NAME=VALUE" s with
    | Ok hm, Ok (k, v) => Ok (entry k (fun _ => v) v hm)
    | Err e, _ => Err e
    | _, Err e => Err e
    end) envs (Ok []).

Definition not_all_values : string := "Command {:?} did not have all required values".
Definition wanted (r : option request) : result request string := match r with Some r => Ok r | None => Err not_all_values end.

(** The answer to a command: a request, a refusal with its text, or the advice to ask for help (330-333) *)
Inductive answer := Answer (r : result request string) | RunWithHelp.

(** 449-451: the text of a list of texts; the inner quotes of a name do not matter here, as the names are those of commands *)
Fixpoint debug_names (l : list string) : string :=
  match l with [] => "" | [x] => """" ++ x ++ """" | x :: r => """" ++ x ++ """, " ++ debug_names r end.

Definition path_eqb (a b : list string) : bool := if list_eq_dec string_dec a b then true else false.

Definition both_numbers (m : matches) : option (nat * nat) :=
  bind (bind (value_of m "MIN") parse_usize) (fun a => bind (bind (value_of m "MAX") parse_usize) (fun b => Some (a, b))).

(** 307-453 *)
Definition get_user_action (m : matches) : answer :=
  let cs := subcommands m in
  let first := match cs with x :: _ => Some (fst x) | [] => None end in
  let second := match cs with _ :: y :: _ => Some y | _ => None end in
  let base := get_standard_config_opts first (option_map fst second) (option_map snd second) in
  let names := map snd cs in
  let lsc := option_map fst (last (map Some cs) None) in
  let with_format (f : format -> request) := match get_config_format first with Ok x => Ok (f x) | Err e => Err e end in
  let value k (f : options -> string -> request) (o : options) := wanted (bind (bind lsc (fun m => value_of m k)) (fun v => Some (f o v))) in
  let in_ := get_config_in first in
  let further := Err ("The command [" ++ debug_names names ++ "] requires further sub commands") in
  let configured (f : options -> result request string) := match base with Ok o => f o | Err _ => further end in
  let values k := match bind lsc (fun m => values_of m k) with Some l => l | None => [] end in
  match names with
  | [] => RunWithHelp
  | _ => Answer (
    if path_eqb names ["process"] then with_format (fun x => Process in_ x)
    else if path_eqb names ["graph"] then
      with_format (fun x => GraphOf in_ x
        (match first with
         | Some f =>
           let border := (0 <? occurrences_of f "legend-border")%nat in
           match (0 <? occurrences_of f "legend-only")%nat, (0 <? occurrences_of f "diagram-only")%nat with
           | true, false => LegendOnly border
           | false, true => DiagramOnly
           | _, _ => Full border
           end
         | None => Full false
         end))
    else if path_eqb names ["config"; "lint"] then with_format (fun x => ConfigLintShow in_ x)
    else if path_eqb names ["config"; "manipulate"] then with_format (fun x => Manipulate in_ x)
    else if path_eqb names ["config"; "connection"; "join"] then configured (value "JOIN" ConnectionJoin)
    else if path_eqb names ["config"; "drain"; "destination"] then configured (value "DESTINATION" DrainDst)
    else if path_eqb names ["config"; "faucet"; "source"] then configured (value "SOURCE" FaucetSrc)
    else if path_eqb names ["config"; "regulator"; "watermark"] then
      configured (fun o => wanted (bind (bind lsc both_numbers) (fun '(a, b) => Some (RegulatorWatermark o a b))))
    else if path_eqb names ["config"; "launch"; "command"] then configured (value "COMMAND" LaunchCommand)
    else if path_eqb names ["config"; "launch"; "path"] then configured (value "PATH" LaunchPath)
    else if path_eqb names ["config"; "launch"; "args"] then configured (fun o => Ok (LaunchArgs o (values "ARGS")))
    else if path_eqb names ["config"; "launch"; "env"] then
      configured (fun o => match env_fold (values "ENV") with Ok env => Ok (LaunchEnv o env) | Err _ => Err not_all_values end)
    else further)
  end.

(** ** Reading the configuration *)

(** The surroundings: files and standard input, which may fail; what texts stand for; the texts of the errors of the readers *)
Record outside := Outside {
  os_stdin : option string;
  os_file : string -> option string;
  os_json : string -> option value;
  os_yaml : string -> option value
}.

(** src/config_io.rs 10-23 *)
Definition read_config_as_str (os : outside) (config_in : string) : result string string :=
  if config_in =? "-" then
    match os_stdin os with Some s => Ok s | None => Err "We could not read STDIN to get the config" end
  else match os_file os config_in with Some s => Ok s | None => Err ("We could not open the file '" ++ config_in ++ "' to get the config") end.
(** 26-31; the reader's own message is left out *)
Definition parse_config_str (os : outside) (f : format) (s : string) : result config string :=
  match f with
  | Json => match bind (os_json os s) de_config with Some c => Ok c | None => Err ("Could not parse json config [" ++ s ++ "]") end
  | Yaml => match bind (os_yaml os s) de_config with Some c => Ok c | None => Err ("Could not parse yaml config [" ++ s ++ "]") end
  end.
(** 34-45 *)
Definition read_config (os : outside) (f : format) (config_in : string) : result config string :=
  match read_config_as_str os config_in with Ok s => parse_config_str os f s | Err e => Err e end.

(** ** Doing it *)

(** src/bin/pa2.rs 211-228 *)
Definition convert_to_deserialized_connection (os : outside) (s : string) : outcome (result dconn string) :=
  obind (load_connection_from_string s) (fun x => Good (
  match x with
  | Some _ => Ok (JoinString s)
  | None =>
    match bind (os_json os s) de_connection with
    | Some c => Ok (Connections [c])
    | None =>
      match bind (os_json os s) (de_seq de_connection) with
      | Some l => Ok (Connections l)
      | None =>
        match bind (os_yaml os s) de_connection with
        | Some c => Ok (Connections [c])
        | None =>
          match bind (os_yaml os s) (de_seq de_connection) with
          | Some l => Ok (Connections l)
          | None => Err ("Looks neither like JSON, YAML or JoinString '" ++ s ++ "'")
          end
        end
      end
    end
  end)).

(** 461-465 *)
Inductive response := RConfig (c : config) | RProcess (c : config) | RGraph (c : config) (mode : graph_mode).

Definition rmap {A B E} (f : A -> B) (r : result A E) : result B E := match r with Ok a => Ok (f a) | Err e => Err e end.
Definition rbind {A B E} (r : result A E) (f : A -> result B E) : result B E := match r with Ok a => f a | Err e => Err e end.
(** [errs.join("\n * ")] *)
Fixpoint join_lines (l : list string) : string :=
  match l with [] => "" | [x] => x | x :: r => x ++ String "010" " * " ++ join_lines r end.
Definition nl : string := String "010" "".

(** 468-540, with what is printed on the way (src/config_manip.rs prints) *)
Definition process_request (os : outside) (sh : shuffles) (r : request) : outcome (result response string * list (list string)) :=
  let change o (f : config -> config) := Good (rmap (fun c => RConfig (f c)) (read_config os (op_format o) (op_in o)), []) in
  match r with
  | ConnectionJoin o join =>
    obind (convert_to_deserialized_connection os join) (fun x =>
    Good (rbind x (fun d => rmap (fun c => RConfig (connection_join c (op_id o) d)) (read_config os (op_format o) (op_in o))), []))
  | FaucetSrc o src => change o (fun c => faucet_set_source c (op_id o) src)
  | DrainDst o dst => change o (fun c => drain_set_destination c (op_id o) dst)
  | RegulatorWatermark o min max => change o (fun c => regulator_set_watermark c (op_id o) min max)
  | LaunchCommand o command => change o (fun c => launch_set_command c (op_id o) command)
  | LaunchPath o path => change o (fun c => launch_set_path c (op_id o) path)
  | LaunchArgs o args => change o (fun c => launch_set_args c (op_id o) args)
  | LaunchEnv o env => change o (fun c => launch_set_env c (op_id o) env)
  | ConfigLintShow config_in f =>
    match read_config os f config_in with
    | Err e => Good (Err e, [])
    | Ok c =>
      obind (lint_show c) (fun x =>
      Good (match x with
            | Ok c => Ok (RConfig c)
            | Err ws => Err ("We found the following warnings / errors: " ++ nl ++ nl ++ " * " ++ join_lines ws ++ nl)
            end, []))
    end
  | Manipulate config_in f =>
    match read_config os f config_in with
    | Err e => Good (Err e, [])
    | Ok c => obind (connection_manipulation_light c) (fun c => Good (Ok (RConfig c), []))
    end
  | Process config_in f =>
    match read_config os f config_in with
    | Err e => Good (Err e, [])
    | Ok c =>
      obind (process_config sh c) (fun '(x, out) =>
      Good (match x with Ok c => Ok (RProcess c) | Err ws => Err ("Process " ++ join_lines ws) end, out))
    end
  | GraphOf config_in f mode =>
    match read_config os f config_in with
    | Err e => Good (Err e, [])
    | Ok c =>
      obind (graph_config c) (fun x =>
      Good (match x with Ok c => Ok (RGraph c mode) | Err ws => Err ("Process " ++ join_lines ws) end, []))
    end
  end.

(** 542-550: from what was typed to the response *)
Definition pa2 (os : outside) (sh : shuffles) (typed : matches) : option (outcome (result response string * list (list string))) :=
  match get_user_action (clap_defaults typed) with
  | RunWithHelp => None
  | Answer (Err e) => Some (Good (Err e, []))
  | Answer (Ok r) => Some (process_request os sh r)
  end.
