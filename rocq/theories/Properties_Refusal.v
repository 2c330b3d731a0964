(** * Properties of what the user is told when a configuration cannot be run (src/connectable.rs, src/waiter.rs 150-500, src/config.rs: lint, src/bin/pa2.rs) *)
From Coq Require Import Ascii String List ZArith.
From Verif Require Import M_Prog M_Motion M_Config M_Manip M_Lint M_Waiter M_Serde M_Cli S_Grammar S_Manip S_Lint S_Waiter S_Refusal P_ManipExamples P_WaiterExamples P_CliExamples P_Refusal P_RefusalExamples.
Import ListNotations.
Local Open Scope string_scope.

(** C115: a pipeline that cannot be built is refused with the text of a fault that it has. *)
Theorem C115_named : forall c e, written_out (cf_connection c) -> get_waiter c = Good (Err e) -> fault c e.
Proof. exact refusal_named. Qed.
Print Assumptions C115_named.
Theorem C115_refused : forall c, written_out (cf_connection c) -> (exists e, fault c e) -> exists e, get_waiter c = Good (Err e) /\ fault c e.
Proof. exact fault_refused. Qed.
Print Assumptions C115_refused.
(** In particular when it has been prepared for running. *)
Theorem C115_run : forall sh c c2 out e, fair sh -> good_connections (cf_connection c) -> process_config sh c = Good (Ok c2, out) -> get_waiter c2 = Good (Err e) -> fault c2 e.
Proof. exact run_refused. Qed.
Print Assumptions C115_run.
Example C115_example : map reason [no_command; with_priorities; into_faucet; out_of_drain; faucet_errors; buffer_ports; drain_named; good_line] =
  ["Launch 'a' did not have a command specified"; "AddInput(Launch:a, UnsupportedPriority(2))"; "AddInput(Faucet:in2, UnsupportedForControl)"; "AddOutput(Drain:out, UnsupportedPort(Out))";
   "AddOutput(Faucet:in, UnsupportedPort(Err))"; "AddOutput(Buffer:q, AlreadyAllocated(Err))"; "AddInput(Drain:dyn_drain_1, AlreadyAllocated)"; "none"].
Proof. vm_compute. reflexivity. Qed.
Example C115_example_as_written : map told [two_users; two_sources; unknown_launch; minus_three] =
  ["AddOutput(Faucet:in, AlreadyAllocated(Out))"; "AddInput(Drain:out, AlreadyAllocated)"; "Could not find configuration for Launch b"; "AddInput(Drain:out, UnsupportedPriority(-3))"].
Proof. vm_compute. reflexivity. Qed.

(** C53, on the screen: lint shows the sentences of exactly the problems there are, each once, and shows the configuration when there are none. *)
Theorem C53_shown : forall c, exists ws, (forall w, In w ws <-> said_of c w) /\ NoDup ws /\
  (ws = [] /\ (exists c', lint_show c = Good (Ok c')) \/ ws <> [] /\ lint_show c = Good (Err (map sentence ws))).
Proof. exact lint_says. Qed.
Print Assumptions C53_shown.
Example C53_example_shown : lint_show gaps = Good (Err
  ["PA: Error: 0004: Buffer:q - Configuration exists in regulator[""r""].monitored_buffers, but this is not referenced in the connections";
   "PA: Error: 0001: Faucet:idle - Configuration exists in faucet, but this is not referenced in the connections";
   "PA: Error: 0002: Launch:a - Is referenced in the flow connections, but is missing required configuration";
   "PA: Error: 0002: Drain:out - Is referenced in the flow connections, but is missing required configuration"]).
Proof. vm_compute. reflexivity. Qed.

(** C72, naming what is missing: the texts of a refusal are those of the missing settings and of the watched buffers that are not mentioned, all of them once and nothing else. *)
Theorem C72_named : forall sh c, fair sh -> good_connections (cf_connection c) -> exists c2 ts, connection_manipulation sh c = Good (c2, [keys (cf_drain c)]) /\
  cf_faucet c2 = cf_faucet c /\ cf_regulator c2 = cf_regulator c /\ cf_launch c2 = cf_launch c /\ (forall t, In t ts <-> lacks c2 c t) /\ (exists ws, NoDup ws /\ ts = map sentence ws) /\
  (ts = [] /\ process_config sh c = Good (Ok c2, [keys (cf_drain c)]) \/ ts <> [] /\ process_config sh c = Good (Err ts, [keys (cf_drain c)])).
Proof. exact process_says. Qed.
Print Assumptions C72_named.

(** C116: what pa2 shows contains every complaint in full. *)
Theorem C116_lint : forall os sh path f c, read_config os f path = Ok c ->
  (exists w, said_of c w) -> exists e, process_request os sh (ConfigLintShow path f) = Good (Err e, []) /\ forall w, said_of c w -> inside (sentence w) e.
Proof. exact lint_shown. Qed.
Print Assumptions C116_lint.
Theorem C116_process : forall os sh path f c, fair sh -> read_config os f path = Ok c -> good_connections (cf_connection c) -> exists c2 e out,
  cf_faucet c2 = cf_faucet c /\ cf_regulator c2 = cf_regulator c /\ cf_launch c2 = cf_launch c /\
  process_request os sh (Process path f) = Good (e, out) /\
  ((forall t, ~ lacks c2 c t) /\ e = Ok (RProcess c2) \/ (exists t, lacks c2 c t) /\ exists s, e = Err s /\ forall t, lacks c2 c t -> inside t s).
Proof. exact process_shown. Qed.
Print Assumptions C116_process.
Example C116_example : read_config (one_file (ser_config gaps)) Yaml "pipes.yaml" = Ok gaps /\
  process_request (one_file (ser_config gaps)) in_order (Process "pipes.yaml" Yaml) = Good (Err
    ("Process PA: Error: 0004: Buffer:q - Configuration exists in regulator[""r""].monitored_buffers, but this is not referenced in the connections" ++ nl ++
     " * PA: Error: 0002: Launch:a - Is referenced in the flow connections, but is missing required configuration" ++ nl ++
     " * PA: Error: 0002: Drain:out - Is referenced in the flow connections, but is missing required configuration"), [[]]).
Proof. split; vm_compute; reflexivity. Qed.
