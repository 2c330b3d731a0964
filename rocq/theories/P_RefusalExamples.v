(** * P_RefusalExamples: configurations that are refused, and the texts shown *)
From Coq Require Import Ascii String List Bool Arith ZArith DecimalString Lia.
From Verif Require Import M_Prog M_Motion M_Config M_Manip M_Lint M_Waiter M_Cli M_Errors S_Grammar S_Manip S_Lint S_Waiter S_Refusal P_ManipExamples P_WaiterExamples P_Errors P_Refusal.
Import ListNotations.
Local Open Scope string_scope.

Definition reason (c : config) : string :=
  match process_config in_order c with
  | Good (Ok c2, _) => match get_waiter c2 with Good (Err e) => e | _ => "none" end
  | _ => "not prepared"
  end.
(** Two connections out of one faucet, into one buffer and into a drain with a negative priority, taken as they are *)
Definition two_users : config := Config [("in", "-")] [] [("out", "-"); ("out2", "-")] []
  [("l", Connections [StartC CFaucet "in" POut None; EndC CDrain "out" (InPort Terminate 0) None]); ("m", Connections [StartC CFaucet "in" POut None; EndC CDrain "out2" (InPort Terminate 0) None])].
Definition two_sources : config := Config [("in", "-"); ("in2", "-")] [] [("out", "-")] []
  [("l", Connections [StartC CFaucet "in" POut None; EndC CDrain "out" (InPort Terminate 0) None]); ("m", Connections [StartC CFaucet "in2" POut None; EndC CDrain "out" (InPort Terminate 0) None])].
Definition unknown_launch : config := Config [("in", "-")] [] [] [("a", LaunchConfig (Some "cat") None [] [])]
  [("l", Connections [StartC CFaucet "in" POut None; EndC CLaunch "b" (InPort Terminate 0) None])].
Definition minus_three : config := Config [("in", "-")] [] [("out", "-")] [] [("l", Connections [StartC CFaucet "in" POut None; EndC CDrain "out" (InPort Terminate (-3)) None])].
Definition told (c : config) : string := match get_waiter c with Good (Err e) => e | _ => "none" end.

(** Running what has been prepared is refused for one of its faults. *)
Lemma run_refused : forall sh c c2 out e, fair sh -> good_connections (cf_connection c) -> process_config sh c = Good (Ok c2, out) -> get_waiter c2 = Good (Err e) -> fault c2 e.
Proof. intros sh c c2 out e Hf Hg Hp. apply refusal_named. exact (process_written _ _ _ _ Hf Hg Hp). Qed.

(** Settings for a faucet that is not used, none for a launch and a drain that are, and a regulator that watches a buffer that is not there *)
Definition gaps : config := Config [("in", "-"); ("idle", "-")] [("r", RegulatorConfig None ["q"])] [] [] [("l", JoinString "f:in | r:r | l:a | d:out")].
