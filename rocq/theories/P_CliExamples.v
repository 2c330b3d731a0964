(** * P_CliExamples: whole commands, and examples *)
From Coq Require Import Ascii String List Bool Arith ZArith NArith Lia Sorted.
From Verif Require Import M_Prog M_Motion M_Config M_Parser M_Manip M_Lint M_Setters M_Serde M_Cli S_Grammar S_Manip S_Lint S_Waiter S_Cli P_Map P_Parser P_ManipExamples P_Lint P_Cli P_Serde P_Commands P_Checked P_WaiterExamples.
Import ListNotations.
Local Open Scope string_scope.

(** ** C59 *)
Lemma edit_refused os sh r o e : edit_options r = Some o -> read_config os (op_format o) (op_in o) = Err e -> exists e', process_request os sh r = Good (Err e', []).
Proof.
  intros Ho Hr. destruct r; cbn in Ho; try discriminate; injection Ho as ->; cbn [process_request]; try (rewrite Hr; cbn [rmap]; eauto; fail).
  destruct (convert_cases os join) as (x & -> & _). cbn [obind]. rewrite Hr. destruct x; cbn; eauto.
Qed.
Lemma join_refused os sh o x c : read_config os (op_format o) (op_in o) = Ok c ->
  (exists d, convert_to_deserialized_connection os x = Good (Ok d)) \/ exists e, process_request os sh (ConnectionJoin o x) = Good (Err e, []).
Proof.
  intros Hr. destruct (convert_cases os x) as (y & E & _). destruct y as [d|e]; [left; eauto|]. right. cbn [process_request]. rewrite E. cbn. eauto.
Qed.
(** A change is made as it should be, or refused *)
Lemma edit_all os sh r o : edit_options r = Some o ->
  (exists c c', read_config os (op_format o) (op_in o) = Ok c /\ process_request os sh r = Good (Ok (RConfig c'), []) /\ edits os r c c') \/
  (exists e, process_request os sh r = Good (Err e, []) /\
     ((exists e', read_config os (op_format o) (op_in o) = Err e') \/
      exists x, r = ConnectionJoin o x /\ (~ exists l, connection_text l x) /\
        forall v, os_json os x = Some v \/ os_yaml os x = Some v -> de_connection v = None /\ de_seq de_connection v = None)).
Proof.
  intros Ho. destruct (read_config os (op_format o) (op_in o)) as [c|e] eqn:Hr.
  2: { right. destruct (edit_refused os sh r o e Ho Hr) as [e' He]. exists e'. split; [exact He|]. left. eauto. }
  assert (Hj : (forall x, r <> ConnectionJoin o x) \/ exists x, r = ConnectionJoin o x) by (destruct r; cbn in Ho; try discriminate; injection Ho as ->; try (left; discriminate); right; eauto).
  destruct Hj as [Hj|[x ->]].
  - left. destruct (edit_exact os sh r c o Ho Hr (or_introl Hj)) as (c' & H1 & H2). exists c, c'. auto.
  - destruct (join_refused os sh o x c Hr) as [[d Hd]|[e He]].
    + left. destruct (edit_exact os sh _ c o Ho Hr) as (c' & H1 & H2); [right; eauto|]. exists c, c'. auto.
    + right. exists e. split; [exact He|]. right. exists x. split; [reflexivity|]. cbn [process_request] in He. unfold convert_to_deserialized_connection in He.
      destruct (load_connection_from_string x) as [[l|]|m] eqn:Hl.
      * cbn [obind rbind] in He. rewrite Hr in He. discriminate.
      * split; [intros [l Hx]; apply load_exact in Hx; rewrite Hl in Hx; discriminate|]. cbn [obind] in He. unfold bind in He. intros v Hv.
        destruct (os_json os x) as [j|]; [destruct (de_connection j) eqn:E1; [|destruct (de_seq de_connection j) eqn:E2]|];
          try (cbn [rbind] in He; rewrite Hr in He; discriminate He).
        all: destruct (os_yaml os x) as [y|]; [destruct (de_connection y) eqn:E3; [|destruct (de_seq de_connection y) eqn:E4]|];
          try (cbn [rbind] in He; rewrite Hr in He; discriminate He).
        all: destruct Hv as [[=]|[=]]; subst; auto.
      * destruct (convert_cases os x) as (y & E & _). unfold convert_to_deserialized_connection in E. rewrite Hl in E. discriminate.
Qed.

Definition edited : config :=
  Config [("in", "-")] [] [] [("a", LaunchConfig (Some "cat") None [] []); ("b", LaunchConfig (Some "wc") (Some ".") [("K", "V")] ["-l"])] [].
Definition one_file (v : value) : outside := Outside None (fun _ => Some "text") (fun _ => None) (fun _ => Some v).
Lemma edit_example : pa2 (one_file (ser_config edited)) in_order (typed_edit (Some "c.yaml") None "launch" (Some "b") "command" [("COMMAND", ["sort"])]) =
  Some (Good (Ok (RConfig (Config [("in", "-")] [] [] [("a", LaunchConfig (Some "cat") None [] []); ("b", LaunchConfig (Some "sort") (Some ".") [("K", "V")] ["-l"])] [])), [])).
Proof. vm_compute. reflexivity. Qed.
Lemma edit_example_new : pa2 (one_file (ser_config edited)) in_order (typed_edit (Some "c.yaml") None "regulator" (Some "r") "watermark" [("MIN", ["9"]); ("MAX", ["4"])]) =
  Some (Good (Ok (RConfig (Config (cf_faucet edited) [("r", RegulatorConfig (Some (4, 9)) [])] [] (cf_launch edited) [])), [])).
Proof. vm_compute. reflexivity. Qed.

(** ** C60 *)
Lemma watermark_ordered os sh o a b c : read_config os (op_format o) (op_in o) = Ok c -> exists c' low high ms,
  process_request os sh (RegulatorWatermark o a b) = Good (Ok (RConfig c'), []) /\
  lookup (op_id o) (cf_regulator c') = Some (RegulatorConfig (Some (low, high)) ms) /\ low <= high /\
  (low = a /\ high = b \/ low = b /\ high = a) /\
  (forall rc, lookup (op_id o) (cf_regulator c) = Some rc -> ms = rc_monitored rc).
Proof.
  intros Hr. assert (Hj : forall x, RegulatorWatermark o a b <> ConnectionJoin o x) by (intros x; discriminate).
  pose proof (edit_exact os sh (RegulatorWatermark o a b) c o eq_refl Hr (or_introl Hj)) as (c' & H1 & H). cbn [edits] in H. destruct H as (_ & _ & _ & _ & low & high & H2 & H3 & [[H4 _] _]).
  exists c', low, high, (rc_monitored (there (op_id o) (cf_regulator c) blank_regulator)). split; [exact H1|]. split; [exact H4|]. split; [exact H3|]. split; [exact H2|].
  intros rc Hl. unfold there. rewrite Hl. reflexivity.
Qed.

(** ** C61 *)
Definition varied : config :=
  Config [("in", "-"); ("other", "")] [("r", RegulatorConfig (Some (3, 5)) ["b"]); ("s", RegulatorConfig None [])] [("out", "-")]
    [("a", LaunchConfig (Some "cat") None [("X", "=1")] ["-n"; ""])]
    [("j", JoinString "f:in | l:a | d:out");
     ("l", Connections [StartC CFaucet "in" POut None; MiddleC CLaunch "a" (InPort Finish (-2)) PErr (Some "set"); EndC CDrain "out" (InPort Consume 7) None])].
Lemma varied_holdable : holdable varied.
Proof.
  unfold holdable. cbn.
  split; [repeat constructor; cbn; intuition discriminate|]. split; [repeat constructor; cbn; intuition discriminate|]. split; [repeat constructor; cbn; intuition discriminate|].
  split; [repeat constructor; cbn; intuition discriminate|]. split; [repeat constructor|].
  split; [intros n l [[= <- <-]|[]]; repeat constructor; cbn; intuition discriminate|].
  split; [intros n r a b [[= <- <-]|[[= <- <-]|[]]]; cbn; [intros [= <- <-]; cbn; lia|discriminate]|].
  intros n l x [[=]|[[= <- <-]|[]]]; intros [<-|[<-|[<-|[]]]]; cbn; unfold small; lia || exact I.
Qed.

(** ** C62 *)
Lemma env_message : exists s1 s2, s1 <> s2 /\ malformed s1 /\ malformed s2 /\ exists e,
  forall cfg fmt id, let act s := get_user_action (clap_defaults (typed_edit cfg (option_map format_text fmt) "launch" (Some id) "env" [("ENV", [s])])) in
  act s1 = Answer (Err e) /\ act s2 = Answer (Err e).
Proof.
  exists "A", "=B". assert (H1 : malformed "A") by (intros n v H; apply (as_kv_ok "") in H; discriminate). assert (H2 : malformed "=B") by (intros n v H; apply (as_kv_ok "") in H; discriminate).
  split; [discriminate|]. split; [exact H1|]. split; [exact H2|]. exists "Command {:?} did not have all required values". intros cfg fmt id. cbv zeta. split.
  - apply (env_unreported cfg fmt id ["A"] "A"); [left; reflexivity|exact H1].
  - apply (env_unreported cfg fmt id ["=B"] "=B"); [left; reflexivity|exact H2].
Qed.
Lemma env_example : exists env, env_fold ["A=1"; "B=x=y"; "A="] = Ok env /\ lookup "A" env = Some "" /\ lookup "B" env = Some "x=y".
Proof. eexists. split; [vm_compute; reflexivity|]. split; reflexivity. Qed.

(** ** C63 *)
Lemma json_as_yaml : exists name, format_of_name name Json /\
  get_user_action (clap_defaults (typed_first "process" (Some name) None None)) = Answer (Ok (Process name Yaml)).
Proof. exists "c.json". split; [exists "c"; reflexivity|reflexivity]. Qed.
Lemma always_yaml name cfg sub r : In name ["process"; "graph"; "config"] -> get_user_action (clap_defaults (typed_first name cfg None sub)) = Answer (Ok r) ->
  match r with
  | Process _ f | GraphOf _ f _ | ConfigLintShow _ f | Manipulate _ f => f = Yaml
  | LaunchCommand o _ | LaunchPath o _ | LaunchArgs o _ | LaunchEnv o _ | FaucetSrc o _ | DrainDst o _ | RegulatorWatermark o _ _ | ConnectionJoin o _ => op_format o = Yaml
  end.
Proof.
  intros Hn. clear Hn. destruct (filled_in name cfg None sub) as (vs & Hd & Hf). cbn [option_map] in Hd. rewrite Hd. unfold get_user_action.
  cbn [subcommands]. set (m1 := Matches vs sub) in *. cbv zeta. cbn [fst]. rewrite (filled_format _ _ _ Hf).
  assert (Ho : forall b c o, get_standard_config_opts (Some m1) b c = Ok o -> op_format o = Yaml).
  { intros b c o. unfold get_standard_config_opts. rewrite (filled_format _ _ _ Hf). destruct (bind (Some m1) _), (bind b _), c; try discriminate; intros [= <-]; reflexivity. }
  match goal with |- context [get_standard_config_opts (Some m1) ?b ?c] => specialize (Ho b c); destruct (get_standard_config_opts (Some m1) b c) as [o|e] end.
  2: { clear Ho. set (names := map snd _). destruct names; [discriminate|].
       repeat match goal with |- context [if path_eqb ?a ?b then _ else _] => destruct (path_eqb a b) end; intros H; try discriminate H; injection H as <-; auto. }
  specialize (Ho o eq_refl). set (names := map snd _). set (lsc := option_map fst (last _ _)). destruct names; [discriminate|].
  repeat match goal with |- context [if path_eqb ?a ?b then _ else _] => destruct (path_eqb a b) end; unfold wanted.
  all: try (intros H; discriminate H). all: try (intros H; injection H as <-; auto; fail).
  all: try (destruct lsc as [m|]; cbn [bind]; [|discriminate]).
  all: try (destruct (value_of m _); cbn [bind]; intros H; try discriminate H; injection H as <-; exact Ho).
  - destruct (both_numbers m) as [[x1 x2]|]; cbn [bind]; intros H; try discriminate H. injection H as <-. exact Ho.
  - destruct (env_fold _); intros H; try discriminate H. injection H as <-. exact Ho.
Qed.

(** ** C72 *)
Lemma drain_accepted : exists c c2 out, good_connections (cf_connection c) /\ is_mentioned (cf_connection c) (CDrain, "dyn_drain_1") /\ ~ configured c (CDrain, "dyn_drain_1") /\
  process_config in_order c = Good (Ok c2, out).
Proof.
  exists drain_named. assert (Hu : passes_lint_only drain_named).
  { pose proof unbuildable as H. do 6 apply Forall_inv_tail in H. exact (Forall_inv H). }
  destruct Hu as (Hg & c2 & out & e & H1 & _). exists c2, out. split; [exact Hg|]. split; [|split; [cbn; intros []|exact H1]].
  unfold is_mentioned, reads. eexists "l", _, _. split; [eexists; split; [left; reflexivity|right; eexists; split; [reflexivity|apply load_exact; vm_compute; reflexivity]]|].
  split; [right; right; left; reflexivity|reflexivity].
Qed.

(** ** C75 *)
Lemma blank_not_used : exists os, pa2 os in_order (typed_first "process" None None None) <> pa2 (one_file (ser_config config_new)) in_order (typed_first "process" (Some "blank.yaml") None None).
Proof. exists nothing_to_read. vm_compute. discriminate. Qed.

(** ** C73 *)
Lemma sides_lost_both : exists m1 m2, In "breakable" (keys m1) /\ de_connection (VMap m1) = Some (StartC CLaunch "a" POut None) /\
  In "output_port" (keys m2) /\ de_connection (VMap m2) = Some (EndC CLaunch "a" (InPort Terminate 0) None).
Proof.
  exists [("component_type", VStr "launch"); ("component_name", VStr "a"); ("breakable", VStr "finish"); ("output_port", VStr "out")].
  exists [("component_type", VStr "launch"); ("component_name", VStr "a"); ("priority", VNum 0); ("output_port", VStr "stdout")].
  split; [cbn; auto|]. split; [apply sides_lost|]. split; [cbn; auto|apply sides_lost].
Qed.

(** ** C74 *)
Lemma two_refused path : In path [["config"; "empty"]; ["config"; "connection"; "del"]] ->
  (exists args, In (path, args) commands) /\ forall m, map snd (subcommands m) = path -> exists e, get_user_action m = Answer (Err e).
Proof. intros H. split; [exists []; unfold commands; destruct H as [<-|[<-|[]]]; cbn; tauto|exact (unimplemented path H)]. Qed.
Lemma empty_refused : exists path args, In (path, args) commands /\ forall m, map snd (subcommands m) = path -> exists e, get_user_action m = Answer (Err e).
Proof. exists ["config"; "empty"]. destruct (two_refused ["config"; "empty"]) as [[args H1] H2]; [left; reflexivity|]. exists args. auto. Qed.

(** ** C76 *)
Lemma number_examples : number_text "+0042" 42 /\ (forall n, ~ number_text "4 2" n).
Proof.
  split; [exists [0; 0; 4; 2]; repeat split; [discriminate|repeat constructor|right; reflexivity]|].
  intros n (ds & _ & Hf & _ & [H|H]); [|discriminate]. destruct ds as [|a [|b ds]]; try discriminate.
  cbn [digits_text] in H. injection H as _ H _. inversion Hf as [|? ? _ Hf']; subst. inversion Hf' as [|? ? Hb _]; subst.
  do 10 (destruct b as [|b]; [discriminate|]). lia.
Qed.

(** ** C77 *)
Lemma field_skip k k' v l1 l2 : k' <> k -> field k (l1 ++ (k', v) :: l2) = field k (l1 ++ l2).
Proof. intros H. unfold field. rewrite !filter_app. cbn [filter fst]. apply String.eqb_neq in H. rewrite H. reflexivity. Qed.
Ltac skip := cbn [In] in *; match goal with H : ~ _ |- _ => cbv [de_launch de_faucet de_drain de_regulator de_config de_connection de_middle de_start de_end de_iport de_struct required defaulted optional];
  rewrite ?field_skip by (intros ->; tauto); reflexivity end.
Lemma unknown_ignored k v l1 l2 :
  (~ In k launch_fields -> de_launch (VMap (l1 ++ (k, v) :: l2)) = de_launch (VMap (l1 ++ l2))) /\
  (~ In k faucet_fields -> de_faucet (VMap (l1 ++ (k, v) :: l2)) = de_faucet (VMap (l1 ++ l2))) /\
  (~ In k drain_fields -> de_drain (VMap (l1 ++ (k, v) :: l2)) = de_drain (VMap (l1 ++ l2))) /\
  (~ In k regulator_fields -> de_regulator (VMap (l1 ++ (k, v) :: l2)) = de_regulator (VMap (l1 ++ l2))) /\
  (~ In k config_fields -> de_config (VMap (l1 ++ (k, v) :: l2)) = de_config (VMap (l1 ++ l2))) /\
  (~ In k connection_fields -> de_connection (VMap (l1 ++ (k, v) :: l2)) = de_connection (VMap (l1 ++ l2))).
Proof.
  split; [unfold launch_fields; intros H; skip|]. split; [unfold faucet_fields; intros H; skip|]. split; [unfold drain_fields; intros H; skip|].
  split; [unfold regulator_fields; intros H; skip|]. split; [unfold config_fields; intros H; skip|unfold connection_fields; intros H; skip].
Qed.
Lemma misspelt_read : exists k v l c, ~ In k launch_fields /\ de_launch (VMap (l ++ [(k, v)])) = Some c.
Proof. exists "args", (VSeq [VStr "-l"]), [("cmd", VStr "wc")], (LaunchConfig (Some "wc") None [] []). split; [cbn; intuition discriminate|reflexivity]. Qed.
Lemma left_out : de_config (VMap []) = Some (Config [] [] [] [] []) /\ de_launch (VMap []) = Some (LaunchConfig None None [] []) /\
  de_regulator (VMap []) = Some (RegulatorConfig None []) /\ de_drain (VMap []) = Some "-" /\ de_faucet (VMap []) = None.
Proof. repeat split. Qed.
