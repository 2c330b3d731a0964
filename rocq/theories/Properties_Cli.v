(** * Properties_Cli: commands, configuration files, and what is checked before running *)
From Coq Require Import Ascii String List Bool Arith ZArith NArith.
From Verif Require Import M_Prog M_Motion M_Config M_Manip M_Lint M_Setters M_Serde M_Cli S_Grammar S_Manip S_Lint S_Cli P_Cli P_Serde P_Commands P_Checked P_CliExamples.
Import ListNotations.
Local Open Scope string_scope.

(** C59: a command that changes the configuration gives the configuration with just that change, or is refused: when the configuration cannot be read, or the
    connection is neither text of the connection language nor JSON or YAML for a connection or a list of them. *)
Theorem C59_edits : forall os sh r o, edit_options r = Some o ->
  (exists c c', read_config os (op_format o) (op_in o) = Ok c /\ process_request os sh r = Good (Ok (RConfig c'), []) /\ edits os r c c') \/
  (exists e, process_request os sh r = Good (Err e, []) /\
     ((exists e', read_config os (op_format o) (op_in o) = Err e') \/
      exists x, r = ConnectionJoin o x /\ (~ exists l, connection_text l x) /\
        forall v, os_json os x = Some v \/ os_yaml os x = Some v -> de_connection v = None /\ de_seq de_connection v = None)).
Proof. exact edit_all. Qed.
Print Assumptions C59_edits.
(** The commands as typed are the requests; the configuration comes from [--config] in the format [--format] *)
Theorem C59_typed : forall cfg fmt id, let act kind verb values := get_user_action (clap_defaults (typed_edit cfg (option_map format_text fmt) kind (Some id) verb values)) in
  let o := options_of cfg fmt id in
  (forall x, act "faucet" "source" [("SOURCE", [x])] = Answer (Ok (FaucetSrc o x))) /\
  (forall x, act "drain" "destination" [("DESTINATION", [x])] = Answer (Ok (DrainDst o x))) /\
  (forall x, act "connection" "join" [("JOIN", [x])] = Answer (Ok (ConnectionJoin o x))) /\
  (forall x, act "launch" "command" [("COMMAND", [x])] = Answer (Ok (LaunchCommand o x))) /\
  (forall x, act "launch" "path" [("PATH", [x])] = Answer (Ok (LaunchPath o x))) /\
  (forall l, act "launch" "args" [("ARGS", l)] = Answer (Ok (LaunchArgs o l))).
Proof. exact understood. Qed.
Print Assumptions C59_typed.
(** Without an [--id] nothing is changed *)
Theorem C59_no_id : forall cfg fmt kind verb values, exists e,
  get_user_action (clap_defaults (typed_edit cfg (option_map format_text fmt) kind None verb values)) = Answer (Err e).
Proof. exact no_id. Qed.
Print Assumptions C59_no_id.
Example C59_example : pa2 (one_file (ser_config edited)) in_order (typed_edit (Some "c.yaml") None "launch" (Some "b") "command" [("COMMAND", ["sort"])]) =
  Some (Good (Ok (RConfig (Config [("in", "-")] [] [] [("a", LaunchConfig (Some "cat") None [] []); ("b", LaunchConfig (Some "sort") (Some ".") [("K", "V")] ["-l"])] [])), [])).
Proof. exact edit_example. Qed.

(** C60 *)
Theorem C60_ordered : forall os sh o a b c, read_config os (op_format o) (op_in o) = Ok c -> exists c' low high ms,
  process_request os sh (RegulatorWatermark o a b) = Good (Ok (RConfig c'), []) /\
  lookup (op_id o) (cf_regulator c') = Some (RegulatorConfig (Some (low, high)) ms) /\ low <= high /\
  (low = a /\ high = b \/ low = b /\ high = a) /\
  (forall rc, lookup (op_id o) (cf_regulator c) = Some rc -> ms = rc_monitored rc).
Proof. exact watermark_ordered. Qed.
Print Assumptions C60_ordered.
Example C60_example : pa2 (one_file (ser_config edited)) in_order (typed_edit (Some "c.yaml") None "regulator" (Some "r") "watermark" [("MIN", ["9"]); ("MAX", ["4"])]) =
  Some (Good (Ok (RConfig (Config (cf_faucet edited) [("r", RegulatorConfig (Some (4, 9)) [])] [] (cf_launch edited) [])), [])).
Proof. exact edit_example_new. Qed.

(** C61: what is written for a configuration is read as that configuration, by both readers, provided that they undo their writers. *)
Theorem C61_survives : forall c, holdable c -> de_config (ser_config c) = Some c.
Proof. exact config_back. Qed.
Print Assumptions C61_survives.
Theorem C61_read : forall os f s c, holdable c -> (match f with Json => os_json os s | Yaml => os_yaml os s end) = Some (ser_config c) -> parse_config_str os f s = Ok c.
Proof. exact read_ser. Qed.
Print Assumptions C61_read.
Example C61_example : holdable varied.
Proof. exact varied_holdable. Qed.

(** C62: with every setting well formed, the values are those of the last setting of each name; the first malformed setting is in the message of the fold. *)
Theorem C62_settings : forall cfg fmt id l,
  let act := get_user_action (clap_defaults (typed_edit cfg (option_map format_text fmt) "launch" (Some id) "env" [("ENV", l)])) in
  ((forall s, In s l -> exists n v, setting s n v) -> exists env, act = Answer (Ok (LaunchEnv (options_of cfg fmt id) env)) /\ NoDup (keys env) /\
     forall n v, lookup n env = Some v <-> last_setting l n v) /\
  ((exists s, In s l /\ malformed s) -> exists e, act = Answer (Err e)).
Proof. exact env_command. Qed.
Print Assumptions C62_settings.
Theorem C62_first_partial : forall l1 s l2, (forall x, In x l1 -> exists n v, setting x n v) -> malformed s -> exists t, env_fold (l1 ++ s :: l2) = Err (s ++ t).
Proof. exact env_bad. Qed.
Print Assumptions C62_first_partial.
(** The command throws that message away: whichever setting is malformed, what it says is the same. *)
Theorem C62_reported_refuted : exists s1 s2, s1 <> s2 /\ malformed s1 /\ malformed s2 /\ exists e,
  forall cfg fmt id, let act s := get_user_action (clap_defaults (typed_edit cfg (option_map format_text fmt) "launch" (Some id) "env" [("ENV", [s])])) in
  act s1 = Answer (Err e) /\ act s2 = Answer (Err e).
Proof. exact env_message. Qed.
Print Assumptions C62_reported_refuted.
Theorem C62_message : forall cfg fmt id l s, In s l -> malformed s ->
  get_user_action (clap_defaults (typed_edit cfg (option_map format_text fmt) "launch" (Some id) "env" [("ENV", l)])) = Answer (Err "Command {:?} did not have all required values").
Proof. exact env_unreported. Qed.
Print Assumptions C62_message.
Example C62_example : exists env, env_fold ["A=1"; "B=x=y"; "A="] = Ok env /\ lookup "A" env = Some "" /\ lookup "B" env = Some "x=y".
Proof. exact env_example. Qed.

(** C63 is false: the default of [--format] is yaml, so the name is never looked at. *)
Theorem C63_name_refuted : exists name, format_of_name name Json /\
  get_user_action (clap_defaults (typed_first "process" (Some name) None None)) = Answer (Ok (Process name Yaml)).
Proof. exact json_as_yaml. Qed.
Print Assumptions C63_name_refuted.
Theorem C63_default : forall name cfg sub r, In name ["process"; "graph"; "config"] -> get_user_action (clap_defaults (typed_first name cfg None sub)) = Answer (Ok r) ->
  match r with
  | Process _ f | GraphOf _ f _ | ConfigLintShow _ f | Manipulate _ f => f = Yaml
  | LaunchCommand o _ | LaunchPath o _ | LaunchArgs o _ | LaunchEnv o _ | FaucetSrc o _ | DrainDst o _ | RegulatorWatermark o _ _ | ConnectionJoin o _ => op_format o = Yaml
  end.
Proof. exact always_yaml. Qed.
Print Assumptions C63_default.
(** Without the default, the function would follow the name. *)
Theorem C63_function_partial : forall m1 n f, value_of m1 "format" = None -> value_of m1 "config" = Some n -> format_of_name n f -> get_config_format (Some m1) = Ok f.
Proof. exact by_name. Qed.
Print Assumptions C63_function_partial.

(** C72: what is mentioned in the connections and the buffers that are watched decide whether the configuration is run.  Drains may be configured by the preparation. *)
Theorem C72_decides : forall sh c, fair sh -> good_connections (cf_connection c) -> exists c2 x, process_config sh c = Good (x, [keys (cf_drain c)]) /\
  cf_faucet c2 = cf_faucet c /\ cf_regulator c2 = cf_regulator c /\ cf_launch c2 = cf_launch c /\ (forall n, configured c (CDrain, n) -> configured c2 (CDrain, n)) /\
  (x = Ok c2 /\ provided c2 c \/ (exists t ts, x = Err (t :: ts)) /\ ~ provided c2 c).
Proof. exact process_decides. Qed.
Print Assumptions C72_decides.
(** A drain without settings is accepted when its name is that of a generated one. *)
Theorem C72_drain_refuted : exists c c2 out, good_connections (cf_connection c) /\ is_mentioned (cf_connection c) (CDrain, "dyn_drain_1") /\ ~ configured c (CDrain, "dyn_drain_1") /\
  process_config in_order c = Good (Ok c2, out).
Proof. exact drain_accepted. Qed.
Print Assumptions C72_drain_refuted.

(** C73 is false: a side whose words are not understood is lost, without a message. *)
Theorem C73_sides_refuted : exists m1 m2, In "breakable" (keys m1) /\ de_connection (VMap m1) = Some (StartC CLaunch "a" POut None) /\
  In "output_port" (keys m2) /\ de_connection (VMap m2) = Some (EndC CLaunch "a" (InPort Terminate 0) None).
Proof. exact sides_lost_both. Qed.
Print Assumptions C73_sides_refuted.
(** How a connection is read *)
Theorem C73_exact : forall m c, de_connection (VMap m) = Some c <->
  exists t n s, required "component_type" de_ctype m = Some t /\ required "component_name" de_str m = Some n /\ optional "connection_set" de_str m = Some s /\
    match de_iport m, required "output_port" de_oport m with
    | Some i, Some o => c = MiddleC t n i o s
    | None, Some o => c = StartC t n o s
    | Some i, None => c = EndC t n i s
    | None, None => False
    end.
Proof. exact connection_read. Qed.
Print Assumptions C73_exact.

(** C74 is false: two of the commands that are offered are always refused. *)
Theorem C74_all_refuted : exists path args, In (path, args) commands /\ forall m, map snd (subcommands m) = path -> exists e, get_user_action m = Answer (Err e).
Proof. exact empty_refused. Qed.
Print Assumptions C74_all_refuted.
Theorem C74_two_refuted : forall path, In path [["config"; "empty"]; ["config"; "connection"; "del"]] ->
  (exists args, In (path, args) commands) /\ forall m, map snd (subcommands m) = path -> exists e, get_user_action m = Answer (Err e).
Proof. exact two_refused. Qed.
Print Assumptions C74_two_refuted.
(** The others are understood ([C59_typed], [C62_settings] and [C76_numbers] have the rest). *)
Theorem C74_whole_partial : forall cfg fmt, let act name sub := get_user_action (clap_defaults (typed_first name cfg (option_map format_text fmt) sub)) in
  act "process" None = Answer (Ok (Process (in_of cfg) (format_of fmt))) /\
  act "config" (Some ("lint", Matches [] None)) = Answer (Ok (ConfigLintShow (in_of cfg) (format_of fmt))) /\
  act "config" (Some ("manipulate", Matches [] None)) = Answer (Ok (Manipulate (in_of cfg) (format_of fmt))) /\
  act "graph" None = Answer (Ok (GraphOf (in_of cfg) (format_of fmt) (Full false))).
Proof. exact understood_whole. Qed.
Print Assumptions C74_whole_partial.

(** C75 is false: without [--config] standard input is read. *)
Theorem C75_blank_refuted : exists os, pa2 os in_order (typed_first "process" None None None) <> pa2 (one_file (ser_config config_new)) in_order (typed_first "process" (Some "blank.yaml") None None).
Proof. exact blank_not_used. Qed.
Print Assumptions C75_blank_refuted.
Theorem C75_stdin : forall os fmt, read_config os (format_of fmt) (in_of None) = match os_stdin os with Some s => parse_config_str os (format_of fmt) s | None => Err "We could not read STDIN to get the config" end.
Proof. exact reads_stdin. Qed.
Print Assumptions C75_stdin.

(** C76: the marks are decimal numbers that fit in 64 bits, and anything else is refused. *)
Theorem C76_numbers : forall cfg fmt id a b,
  let act := get_user_action (clap_defaults (typed_edit cfg (option_map format_text fmt) "regulator" (Some id) "watermark" [("MIN", [a]); ("MAX", [b])])) in
  let fits s n := number_text s n /\ (N.of_nat n < 2 ^ 64)%N in
  (forall x y, fits a x -> fits b y -> act = Answer (Ok (RegulatorWatermark (options_of cfg fmt id) x y))) /\
  ((forall x y, ~ (fits a x /\ fits b y)) -> exists e, act = Answer (Err e)).
Proof. exact watermark_numbers. Qed.
Print Assumptions C76_numbers.
Example C76_example : number_text "+0042" 42 /\ (forall n, ~ number_text "4 2" n).
Proof. exact number_examples. Qed.

(** C77 is false: an argument list under [args] (it should be [arg]) is ignored. *)
Theorem C77_misspelt_refuted : exists k v l c, ~ In k launch_fields /\ de_launch (VMap (l ++ [(k, v)])) = Some c.
Proof. exact misspelt_read. Qed.
Print Assumptions C77_misspelt_refuted.
(** Every field of another name than the known ones is ignored. *)
Theorem C77_ignored : forall k v l1 l2,
  (~ In k launch_fields -> de_launch (VMap (l1 ++ (k, v) :: l2)) = de_launch (VMap (l1 ++ l2))) /\
  (~ In k faucet_fields -> de_faucet (VMap (l1 ++ (k, v) :: l2)) = de_faucet (VMap (l1 ++ l2))) /\
  (~ In k drain_fields -> de_drain (VMap (l1 ++ (k, v) :: l2)) = de_drain (VMap (l1 ++ l2))) /\
  (~ In k regulator_fields -> de_regulator (VMap (l1 ++ (k, v) :: l2)) = de_regulator (VMap (l1 ++ l2))) /\
  (~ In k config_fields -> de_config (VMap (l1 ++ (k, v) :: l2)) = de_config (VMap (l1 ++ l2))) /\
  (~ In k connection_fields -> de_connection (VMap (l1 ++ (k, v) :: l2)) = de_connection (VMap (l1 ++ l2))).
Proof. exact unknown_ignored. Qed.
Print Assumptions C77_ignored.
(** What is left out: everything but the source of a faucet has a default. *)
Theorem C77_defaults : de_config (VMap []) = Some (Config [] [] [] [] []) /\ de_launch (VMap []) = Some (LaunchConfig None None [] []) /\
  de_regulator (VMap []) = Some (RegulatorConfig None []) /\ de_drain (VMap []) = Some "-" /\ de_faucet (VMap []) = None.
Proof. exact left_out. Qed.
Print Assumptions C77_defaults.
(** Nothing at all, a text or a number is not taken for an empty structure; watermarks are two numbers, neither less nor more. *)
Theorem C77_only : forall v, (match v with VMap _ | VSeq _ => False | _ => True end ->
    de_config v = None /\ de_launch v = None /\ de_regulator v = None /\ de_drain v = None /\ de_faucet v = None /\ de_connection v = None) /\
  (forall lo hi, de_pair v = Some (lo, hi) -> v = VSeq [VNum (Z.of_nat lo); VNum (Z.of_nat hi)]).
Proof. exact only_these. Qed.
Print Assumptions C77_only.
(** A field that is given twice is refused, wherever the two are. *)
Theorem C77_twice : forall k v v' l1 l2 l3, let m := VMap (l1 ++ (k, v) :: l2 ++ (k, v') :: l3) in
  (In k launch_fields -> de_launch m = None) /\ (In k faucet_fields -> de_faucet m = None) /\ (In k drain_fields -> de_drain m = None) /\
  (In k regulator_fields -> de_regulator m = None) /\ (In k config_fields -> de_config m = None).
Proof. exact twice_refused. Qed.
Print Assumptions C77_twice.
Example C77_twice_example : de_launch (VMap [("cmd", VStr "cat"); ("arg", VSeq []); ("cmd", VStr "rm")]) = None /\
  de_launch (VMap [("cmd", VStr "cat"); ("arg", VSeq [])]) = Some (LaunchConfig (Some "cat") None [] []).
Proof. split; reflexivity. Qed.
Example C77_only_example : de_pair (VSeq [VNum 2; VNum 7]) = Some (2, 7) /\ de_pair (VSeq [VNum 2; VNum 7; VNum 9]) = None /\
  de_config (VMap [("drain", VNull)]) = None /\ de_config (VMap [("drain", VMap [("sink", VMap [])])]) = Some (Config [] [] [("sink", "-")] [] []).
Proof. repeat split; reflexivity. Qed.
