(** * P_Commands: which commands are understood, and how *)
From Coq Require Import Ascii String List Bool Arith ZArith NArith Lia Sorted.
From Verif Require Import M_Prog M_Motion M_Config M_Parser M_Manip M_Lint M_Setters M_Serde M_Cli S_Grammar S_Manip S_Lint S_Cli P_Map P_Parser P_Cli P_Serde P_Lint.
Import ListNotations.
Local Open Scope string_scope.

(** A change: the options that are given, or the refusal *)
Lemma edit_names cfg fmt kind id verb values : exists vs,
  clap_defaults (typed_edit cfg (option_map format_text fmt) kind (Some id) verb values) =
    Matches [] (Some ("config", Matches vs (Some (kind, Matches [("id", [id])] (Some (verb, Matches values None)))))) /\
  get_standard_config_opts (Some (Matches vs (Some (kind, Matches [("id", [id])] (Some (verb, Matches values None))))))
    (Some (Matches [("id", [id])] (Some (verb, Matches values None)))) (Some kind) = Ok (options_of cfg fmt id).
Proof.
  destruct (filled_in "config" cfg fmt (Some (kind, Matches [("id", [id])] (Some (verb, Matches values None))))) as (vs & Hd & Hf).
  exists vs. split; [exact Hd|]. exact (filled_options cfg fmt _ (Matches [("id", [id])] (Some (verb, Matches values None))) id kind Hf eq_refl).
Qed.
Ltac understand cfg fmt kind id verb values :=
  let vs := fresh "vs" in let Hd := fresh in let Ho := fresh in
  destruct (edit_names cfg fmt kind id verb values) as (vs & Hd & Ho); rewrite Hd; clear Hd; unfold get_user_action;
  cbn [subcommands map snd fst option_map last]; rewrite Ho; reflexivity.

Lemma understood cfg fmt id : let act kind verb values := get_user_action (clap_defaults (typed_edit cfg (option_map format_text fmt) kind (Some id) verb values)) in
  let o := options_of cfg fmt id in
  (forall x, act "faucet" "source" [("SOURCE", [x])] = Answer (Ok (FaucetSrc o x))) /\
  (forall x, act "drain" "destination" [("DESTINATION", [x])] = Answer (Ok (DrainDst o x))) /\
  (forall x, act "connection" "join" [("JOIN", [x])] = Answer (Ok (ConnectionJoin o x))) /\
  (forall x, act "launch" "command" [("COMMAND", [x])] = Answer (Ok (LaunchCommand o x))) /\
  (forall x, act "launch" "path" [("PATH", [x])] = Answer (Ok (LaunchPath o x))) /\
  (forall l, act "launch" "args" [("ARGS", l)] = Answer (Ok (LaunchArgs o l))).
Proof.
  intros act o. subst act o. cbn beta. repeat split; intros x.
  - understand cfg fmt "faucet" id "source" [("SOURCE", [x])].
  - understand cfg fmt "drain" id "destination" [("DESTINATION", [x])].
  - understand cfg fmt "connection" id "join" [("JOIN", [x])].
  - understand cfg fmt "launch" id "command" [("COMMAND", [x])].
  - understand cfg fmt "launch" id "path" [("PATH", [x])].
  - understand cfg fmt "launch" id "args" [("ARGS", x)].
Qed.
Lemma understood_watermark cfg fmt id a b :
  get_user_action (clap_defaults (typed_edit cfg (option_map format_text fmt) "regulator" (Some id) "watermark" [("MIN", [a]); ("MAX", [b])])) =
  Answer (match parse_usize a, parse_usize b with Some x, Some y => Ok (RegulatorWatermark (options_of cfg fmt id) x y) | _, _ => Err not_all_values end).
Proof.
  destruct (edit_names cfg fmt "regulator" id "watermark" [("MIN", [a]); ("MAX", [b])]) as (vs & Hd & Ho). rewrite Hd. unfold get_user_action.
  cbn [subcommands map snd fst option_map last]. rewrite Ho. cbn -[parse_usize]. unfold both_numbers, value_of, values_of. cbn -[parse_usize]. destruct (parse_usize a), (parse_usize b); reflexivity.
Qed.
Lemma watermark_numbers cfg fmt id a b :
  let act := get_user_action (clap_defaults (typed_edit cfg (option_map format_text fmt) "regulator" (Some id) "watermark" [("MIN", [a]); ("MAX", [b])])) in
  let fits s n := number_text s n /\ (N.of_nat n < 2 ^ 64)%N in
  (forall x y, fits a x -> fits b y -> act = Answer (Ok (RegulatorWatermark (options_of cfg fmt id) x y))) /\
  ((forall x y, ~ (fits a x /\ fits b y)) -> exists e, act = Answer (Err e)).
Proof.
  intros act fits. subst act fits. cbn beta. rewrite understood_watermark. split.
  - intros x y Hx Hy. apply parse_usize_exact in Hx, Hy. rewrite Hx, Hy. reflexivity.
  - intros H. destruct (parse_usize a) as [x|] eqn:Ea; [|eauto]. destruct (parse_usize b) as [y|] eqn:Eb; [|eauto].
    apply parse_usize_exact in Ea, Eb. destruct (H x y); auto.
Qed.
Lemma understood_env cfg fmt id l :
  get_user_action (clap_defaults (typed_edit cfg (option_map format_text fmt) "launch" (Some id) "env" [("ENV", l)])) =
  Answer (match env_fold l with Ok env => Ok (LaunchEnv (options_of cfg fmt id) env) | Err _ => Err not_all_values end).
Proof. understand cfg fmt "launch" id "env" [("ENV", l)]. Qed.

Lemma env_command cfg fmt id l :
  let act := get_user_action (clap_defaults (typed_edit cfg (option_map format_text fmt) "launch" (Some id) "env" [("ENV", l)])) in
  ((forall s, In s l -> exists n v, setting s n v) -> exists env, act = Answer (Ok (LaunchEnv (options_of cfg fmt id) env)) /\ NoDup (keys env) /\
     forall n v, lookup n env = Some v <-> last_setting l n v) /\
  ((exists s, In s l /\ malformed s) -> exists e, act = Answer (Err e)).
Proof.
  intros act. subst act. rewrite understood_env. split.
  - intros H. destruct (env_ok l H) as (env & -> & Hn & Hl). exists env. auto.
  - intros (s & Hs & Hm). enough (He : exists e, env_fold l = Err e) by (destruct He as [e ->]; eauto).
    induction l as [|x l IH] using rev_ind; [destruct Hs|]. rewrite env_fold_snoc. apply in_app_iff in Hs. destruct Hs as [Hs|[->|[]]].
    + destruct (IH Hs) as [e ->]. exists e. reflexivity.
    + destruct (as_kv_err "NAME=VALUE" s Hm) as [t Ht]. unfold env_step. rewrite Ht. destruct (env_fold l); eauto.
Qed.
(** The text of the refusal does not say which setting it was. *)
Lemma env_unreported cfg fmt id l s : In s l -> malformed s ->
  get_user_action (clap_defaults (typed_edit cfg (option_map format_text fmt) "launch" (Some id) "env" [("ENV", l)])) = Answer (Err "Command {:?} did not have all required values").
Proof.
  intros Hs Hm. destruct (proj2 (env_command cfg fmt id l)) as [e He]; [eauto|]. rewrite understood_env in *. destruct (env_fold l); [discriminate|reflexivity].
Qed.

Lemma understood_whole cfg fmt :
  let act name sub := get_user_action (clap_defaults (typed_first name cfg (option_map format_text fmt) sub)) in
  act "process" None = Answer (Ok (Process (in_of cfg) (format_of fmt))) /\
  act "config" (Some ("lint", Matches [] None)) = Answer (Ok (ConfigLintShow (in_of cfg) (format_of fmt))) /\
  act "config" (Some ("manipulate", Matches [] None)) = Answer (Ok (Manipulate (in_of cfg) (format_of fmt))) /\
  act "graph" None = Answer (Ok (GraphOf (in_of cfg) (format_of fmt) (Full false))).
Proof. destruct cfg as [c|], fmt as [[|]|]; repeat split; reflexivity. Qed.

(** ** Commands that are offered and not understood *)
Lemma path_neq a b : a <> b -> path_eqb a b = false.
Proof. unfold path_eqb. destruct (list_eq_dec string_dec a b); [contradiction|reflexivity]. Qed.
Lemma unimplemented path : In path [["config"; "empty"]; ["config"; "connection"; "del"]] -> forall m, map snd (subcommands m) = path -> exists e, get_user_action m = Answer (Err e).
Proof.
  intros Hp m Hm. unfold get_user_action. rewrite Hm. destruct Hp as [<-|[<-|[]]]; cbn; eexists; reflexivity.
Qed.

(** Without an [id] nothing is changed *)
Lemma no_id cfg fmt kind verb values : exists e,
  get_user_action (clap_defaults (typed_edit cfg (option_map format_text fmt) kind None verb values)) = Answer (Err e).
Proof.
  destruct (filled_in "config" cfg fmt (Some (kind, Matches [] (Some (verb, Matches values None))))) as (vs & Hd & Hf).
  unfold typed_edit in *. cbn [given] in *. rewrite Hd. unfold get_user_action. cbn [subcommands map snd fst option_map last].
  destruct (filled_no_id cfg fmt _ (Matches [] (Some (verb, Matches values None))) kind Hf eq_refl) as [e He]. rewrite He.
  unfold path_eqb.
  repeat match goal with |- context [if (if ?b then true else false) then ?x else ?y] => destruct b as [E|E]; [discriminate E || (eexists; reflexivity)|clear E] end.
  eexists. reflexivity.
Qed.

(** ** Which configuration is read *)
Lemma read_ser os f s c : holdable c -> (match f with Json => os_json os s | Yaml => os_yaml os s end) = Some (ser_config c) -> parse_config_str os f s = Ok c.
Proof. intros Hc Hs. unfold parse_config_str. destruct f; rewrite Hs; cbn [bind]; rewrite (config_back c Hc); reflexivity. Qed.
Lemma reads_stdin os fmt : read_config os (format_of fmt) (in_of None) = match os_stdin os with Some s => parse_config_str os (format_of fmt) s | None => Err "We could not read STDIN to get the config" end.
Proof. unfold read_config, read_config_as_str. cbn. destruct (os_stdin os); reflexivity. Qed.
(** With nothing to be read, and whatever the texts mean, so is not even the blank configuration *)
Definition nothing_to_read : outside := Outside None (fun _ => None) (fun _ => None) (fun _ => None).
Lemma not_blank : exists os, pa2 os in_order (typed_first "process" None None None) <> Some (Good (Ok (RProcess config_new), [])).
Proof. exists nothing_to_read. vm_compute. discriminate. Qed.
