(** * P_ErrorsExamples: particular errors and runs *)
From Coq Require Import Ascii String List Bool Arith ZArith Permutation.
From Verif Require Import M_Prog M_Motion M_Config M_Parser M_Manip M_Lint M_Setters M_Serde M_Cli M_Waiter M_Graph M_Errors S_Grammar S_Manip S_Lint S_Waiter S_Cli S_Errors P_Map P_Parser P_Pair P_Manip P_ManipExamples P_Lint P_Build P_WaiterExamples P_Cli P_CliExamples P_Errors.
Import ListNotations.
Local Open Scope string_scope.

Definition simple_line : config := Config [("in", "-")] [] [("out", "-")] [] [("l", JoinString "f:in | d:out")].
Definition drain_full : machine := Machine
  (fun _ _ => ([], [], [Ok 3], [], [Err (CausedByError CDrain "out" (Timed (WriteIOError (J 0 (Some POut) 1 Terminate) []) 7))], [], []))
  (fun _ => None) (fun _ => "") (fun _ => "no space left") (fun s => "<" ++ s ++ ">") (fun l => l) (fun l => l).

Lemma resume_as_pause : exists lib e e', description lib e = description lib e' /\ kind_of e <> kind_of e'.
Proof. exists (fun _ => ""), CouldNotPause, CouldNotResume. split; [reflexivity|discriminate]. Qed.

Definition simple_read : config := Config [("in", "-")] [] [("out", "-")] [] [("l", Connections [StartC CFaucet "in" POut None; EndC CDrain "out" (InPort Terminate 0) None])].
Lemma simple_written : written_out (cf_connection simple_read).
Proof. constructor; [|constructor]. eexists. split; [reflexivity|]. repeat constructor. Qed.
Lemma reading_unknown : exists lib debug c w id names t n e a b, built_as c w id /\ w_names w = Some names /\ is_mentioned (cf_connection c) a /\ is_mentioned (cf_connection c) b /\
  about (tm_error e) (id a) (id b) /\ waiter_error_to_string lib debug names (CausedByError t n e) <> report debug (shown_as a) (shown_as b) (description lib (CausedByError t n e)).
Proof.
  assert (Hw : exists w, get_waiter simple_read = Good (Ok w)) by (eexists; vm_compute; reflexivity). destruct Hw as [w Hw].
  destruct (built_exactly _ _ simple_written Hw) as [id B]. destruct (names_some _ _ simple_written Hw) as [names Hn].
  assert (Hr : reads (cf_connection simple_read) "l" [StartC CFaucet "in" POut None; EndC CDrain "out" (InPort Terminate 0) None]) by (eexists; split; [left; reflexivity|left; reflexivity]).
  assert (Ha : is_mentioned (cf_connection simple_read) (CFaucet, "in")) by (eexists "l", _, _; split; [exact Hr|]; split; [left; reflexivity|reflexivity]).
  assert (Hb : is_mentioned (cf_connection simple_read) (CDrain, "out")) by (eexists "l", _, _; split; [exact Hr|]; split; [right; left; reflexivity|reflexivity]).
  exists (fun _ => ""), (fun s => s), simple_read, w, id, names, CFaucet, "in", (Timed (ReadIOError (PJ (id (CFaucet, "in")) (id (CDrain, "out")))) 0), (CFaucet, "in"), (CDrain, "out").
  split; [exact B|]. split; [exact Hn|]. split; [exact Ha|]. split; [exact Hb|]. split; [constructor|].
  erewrite (printed_built _ _ simple_read w id names CFaucet "in" _ (CFaucet, "in") (CDrain, "out") B Hn Ha Hb) by constructor. cbn. discriminate.
Qed.
