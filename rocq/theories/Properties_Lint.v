(** * Properties_Lint: what lint reports *)
From Coq Require Import Ascii String List Bool Arith ZArith.
From Verif Require Import M_Prog M_Config M_Manip M_Lint S_Grammar S_Manip S_Lint P_Lint P_ManipExamples.
Import ListNotations.
Local Open Scope string_scope.

(** C53: lint always answers.  If there are connections that cannot be read, exactly those are reported; otherwise exactly the documented problems.
    The configuration handed back has its connections read and is otherwise the same. *)
Theorem C53_exact : forall c, exists c' ws, lint c = Good (c', ws) /\
  ((exists w, unreadable c w) -> forall w, In w ws <-> unreadable c w) /\
  ((forall w, ~ unreadable c w) -> forall w, In w ws <-> problem c w) /\
  cf_faucet c' = cf_faucet c /\ cf_regulator c' = cf_regulator c /\ cf_drain c' = cf_drain c /\ cf_launch c' = cf_launch c /\
  keys (cf_connection c') = keys (cf_connection c) /\
  (forall k l, In (k, Connections l) (cf_connection c') <-> reads (cf_connection c) k l).
Proof. exact lint_exact. Qed.
Print Assumptions C53_exact.

(** A watched buffer that is not there, an unused faucet, and a launch and a drain without configuration; and a text that cannot be read, which hides the rest *)
Example C53_example : exists c', lint (Config [("in", "-"); ("idle", "-")] [("r", RegulatorConfig None ["q"])] [] [] [("l", JoinString "f:in | r:r | l:a | d:out")]) =
  Good (c', [RegulatorWatchingMissingBuffer "regulator[""r""].monitored_buffers" CBuffer "q"; InConfigButMissingFlowConnection "faucet" CFaucet "idle";
             InFlowConnectionButMissingConfig CLaunch "a"; InFlowConnectionButMissingConfig CDrain "out"]).
Proof. eexists. vm_compute. reflexivity. Qed.
Example C53_example_unreadable : exists c', lint (Config [("in", "-")] [] [] [] [("l", JoinString "f:in | l:a | d:out"); ("m", JoinString "f:in ||")]) =
  Good (c', [InvalidConnection "m" "f:in ||"]).
Proof. eexists. vm_compute. reflexivity. Qed.
