(** * Properties_Errors: what errors tell, and how the program ends *)
From Coq Require Import Ascii String List Bool Arith ZArith Permutation.
From Verif Require Import M_Prog M_Motion M_Config M_Manip M_Lint M_Setters M_Serde M_Cli M_Waiter M_Graph M_Errors S_Grammar S_Manip S_Lint S_Waiter S_Cli S_Errors P_CliExamples P_Errors P_ErrorsExamples.
Import ListNotations.
Local Open Scope string_scope.

(** C65: the accessors of an error agree. *)
Theorem C65_accessors : forall e s d, about e s d -> journey_source e = Some s /\ (error_journey e <> None \/ error_pull_journey e <> None) /\
  (forall j, error_journey e = Some j -> j_src j = s /\ j_dst j = d) /\ (forall j, error_pull_journey e = Some j -> pj_src j = s /\ pj_dst j = d).
Proof. exact about_source. Qed.
Print Assumptions C65_accessors.
Theorem C65_no_pipe : forall e, (forall s d, ~ about e s d) -> error_journey e = None /\ error_pull_journey e = None.
Proof. exact about_none. Qed.
Print Assumptions C65_no_pipe.
Theorem C65_time : forall e, motion_instant e = None <-> no_time (tm_error e).
Proof. exact instant_none. Qed.
Print Assumptions C65_time.
(** The printed text: an error of reading knows both ends of its pipe, and is printed with an unknown destination. *)
Theorem C65_printed_refuted : exists lib debug c w id names t n e a b, built_as c w id /\ w_names w = Some names /\ is_mentioned (cf_connection c) a /\ is_mentioned (cf_connection c) b /\
  about (tm_error e) (id a) (id b) /\ waiter_error_to_string lib debug names (CausedByError t n e) <> report debug (shown_as a) (shown_as b) (description lib (CausedByError t n e)).
Proof. exact reading_unknown. Qed.
Print Assumptions C65_printed_refuted.
(** What is missing: errors of reading and opening. *)
Theorem C65_printed_partial : forall lib debug c w id names t n e a b, built_as c w id -> w_names w = Some names -> is_mentioned (cf_connection c) a -> is_mentioned (cf_connection c) b ->
  about (tm_error e) (id a) (id b) ->
  waiter_error_to_string lib debug names (CausedByError t n e) =
    report debug (shown_as a) (match tm_error e with ReadIOError _ | OpenIOError _ => "Unknown Destination" | _ => shown_as b end) (description lib (CausedByError t n e)).
Proof. exact printed_built. Qed.
Print Assumptions C65_printed_partial.
(** Errors without a pipe or a source are printed with the component that failed. *)
Theorem C65_component : forall lib debug names t n e, (forall s d, ~ about (tm_error e) s d) -> journey_source (tm_error e) = None ->
  waiter_error_to_string lib debug names (CausedByError t n e) = report debug (shown_as (t, n)) "Unknown Destination" (description lib (CausedByError t n e)).
Proof. exact printed_other. Qed.
Print Assumptions C65_component.
Example C65_example : waiter_error_to_string (fun _ => "no space left") (fun s => "<" ++ s ++ ">") [(0, (CFaucet, "in")); (1, (CDrain, "out"))]
  (CausedByError CDrain "out" (Timed (WriteIOError (J 0 (Some POut) 1 Terminate) []) 7)) = "Faucet:in | Drain:out - <MotionError::WriteIOError: no space left>".
Proof. reflexivity. Qed.

(** C81: the program ends with 0 and reports nothing, or with 1 and lists at least one error. *)
Theorem C81_codes : forall mc os sh typed en, main mc os sh typed = Some (Good en) ->
  en_code en = 0 /\ en_err en = [] \/ en_code en = 1 /\ en_out en = [] /\ exists e es, en_err en = listed (e :: es).
Proof. exact main_codes. Qed.
Print Assumptions C81_codes.
(** Running: 0 exactly when no component failed; otherwise the errors of all components are listed.  (If a buffer is watched twice it panics, see C58.) *)
Theorem C81_run : forall mc os sh typed path f c c2 out, get_user_action (clap_defaults typed) = Answer (Ok (Process path f)) -> read_config os f path = Ok c ->
  fair sh -> good_connections (cf_connection c) -> (forall l, Permutation (mc_settings mc l) l) -> NoDup (keys (cf_regulator c)) -> process_config sh c = Good (Ok c2, out) ->
  (exists e, get_waiter c2 = Good (Err e) /\ main mc os sh typed = Some (Good (Ending [] (listed [e]) 1))) \/
  (exists w names id, get_waiter c2 = Good (Ok w) /\ w_names w = Some names /\ built_as c2 w id /\
    ((~ NoDup (watched (w_settings w)) /\ exists msg, main mc os sh typed = Some (Crash msg)) \/
     (NoDup (watched (w_settings w)) /\ exists w' cs, Forall2 (controls w') (mc_settings mc (w_settings w)) cs /\
       ((errors_of (all_results (mc_run mc w' cs)) = [] /\ main mc os sh typed = Some (Good (Ending [] [] 0))) \/
        exists es, es <> [] /\ Permutation es (errors_of (all_results (mc_run mc w' cs))) /\
          main mc os sh typed = Some (Good (Ending [] (listed (map (waiter_error_to_string (mc_lib mc) (mc_debug mc) names) es)) 1)))))).
Proof. exact run_ends. Qed.
Print Assumptions C81_run.
(** A run in which the drain fails *)
Example C81_example : main drain_full (one_file (ser_config simple_line)) in_order (typed_first "process" (Some "c.yaml") None None) =
  Some (Good (Ending [] ["Error(s) have occurred:"; ""; " * Faucet:in | Drain:out - <MotionError::WriteIOError: no space left>"; ""] 1)).
Proof. vm_compute. reflexivity. Qed.

(** C82 is false: failing to resume a regulator is described as failing to pause it. *)
Theorem C82_kinds_refuted : exists lib e e', description lib e = description lib e' /\ kind_of e <> kind_of e'.
Proof. exact resume_as_pause. Qed.
Print Assumptions C82_kinds_refuted.
(** That is the only confusion. *)
Theorem C82_kinds_partial : forall lib lib' e e', description lib e = description lib' e' ->
  kind_of e = kind_of e' \/ kind_of e = K_pause /\ kind_of e' = K_resume \/ kind_of e = K_resume /\ kind_of e' = K_pause.
Proof. exact kinds. Qed.
Print Assumptions C82_kinds_partial.
Example C82_example : description (fun _ => "") CouldNotResume = "CouldNotPause". Proof. reflexivity. Qed.
