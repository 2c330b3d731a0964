(** * Properties of connection texts: C39 to C43 *)
From Coq Require Import Ascii String List Bool ZArith Lia.
From Verif Require Import M_Prog M_Config M_Parser S_Launch S_Grammar P_Parser.
Import ListNotations.
Local Open Scope string_scope.

(** C39: a text is accepted with a result exactly when the grammar generates the text for that result; every other text is rejected (and reading never
    panics). *)
Theorem C39_exact : forall s l, load_connection_from_string s = Good (Some l) <-> connection_text l s.
Proof. exact load_exact. Qed.
Print Assumptions C39_exact.

Theorem C39_rejects : forall s, (forall l, ~ connection_text l s) -> load_connection_from_string s = Good None.
Proof. exact load_rejects. Qed.
Print Assumptions C39_rejects.

Example C39_example :
  load_connection_from_string "f:in[E] |F|[-2]launch:a_1 |  d:out" =
    Good (Some [StartC CFaucet "in" PErr None; MiddleC CLaunch "a_1" (InPort Finish (-2)) POut None; EndC CDrain "out" (InPort Terminate 0) None]) /\
  load_connection_from_string "f:in" = Good None /\ load_connection_from_string "f:in | d:out " = Good None /\
  load_connection_from_string "fa:in | d:out" = Good None /\ load_connection_from_string "f:in |C|[E]d:out" = Good None.
Proof. vm_compute. auto. Qed.

(** C40: writing a list of connections and reading it gives the list back. *)
Theorem C40_round_trip : forall l, writable l -> load_connection_from_string (show l) = Good (Some l).
Proof. exact load_show. Qed.
Print Assumptions C40_round_trip.

Example C40_example :
  writable [StartC CFaucet "in" POut None; MiddleC CJunction "J" (InPort Consume 50) PErr None; EndC CDrain "o_9" (InPort Terminate (-7)) None] /\
  show [StartC CFaucet "in" POut None; MiddleC CJunction "J" (InPort Consume 50) PErr None; EndC CDrain "o_9" (InPort Terminate (-7)) None] =
    "faucet:in[O] |C| [50]junction:J[E] |T| [-7]drain:o_9".
Proof.
  split; [|reflexivity].
  assert (N : forall n, starts (fun _ => true) n = true -> forallb is_name_char (list_ascii_of_string n) = true -> ok_name n).
  { intros n H1 H2. split; [destruct n; discriminate|]. unfold of_letters. rewrite forallb_forall in H2. rewrite Forall_forall. intros c Hc. apply name_char; auto. }
  apply W_chain; [apply N; reflexivity|]. apply EndMore; [apply N; reflexivity|unfold fits; cbn [ip_priority]; lia|].
  apply EndOnly; [apply N; reflexivity|unfold fits; cbn [ip_priority]; lia].
Qed.

(** C41: what is read is well formed; only the empty text gives nothing. *)
Theorem C41_well_formed : forall s l, load_connection_from_string s = Good (Some l) -> writable l /\ (l = [] <-> s = "").
Proof. exact load_writable. Qed.
Print Assumptions C41_well_formed.

Example C41_example : load_connection_from_string "" = Good (Some []) /\
  load_connection_from_string "r:x|b:y" = Good (Some [StartC CRegulator "x" POut None; EndC CBuffer "y" (InPort Terminate 0) None]).
Proof. vm_compute. auto. Qed.

(** C42: the markers of the pipes, read off the text one after the other, are the breakables of the inputs of the components after the first. *)
Theorem C42_markers : forall s c l, load_connection_from_string s = Good (Some (c :: l)) ->
  map (fun x => option_map ip_breakable (input_of x)) (c :: l) = None :: map Some (markers s).
Proof. exact load_markers. Qed.
Print Assumptions C42_markers.

(** C42: without brackets every priority is 0 and every output is standard output. *)
Theorem C42_defaults : forall s l, load_connection_from_string s = Good (Some l) -> has_char "[" s = false ->
  Forall (fun c => (forall i, input_of c = Some i -> ip_priority i = 0%Z) /\ (forall o, output_of c = Some o -> o = POut)) l.
Proof. exact load_defaults. Qed.
Print Assumptions C42_defaults.

Example C42_example : markers "f:in |F| l:a|l:b |C|[3]l:c |T| d:out" = [Finish; Terminate; Consume; Terminate] /\
  load_connection_from_string "f:in |F| l:a|l:b |C|[3]l:c |T| d:out" =
  Good (Some [StartC CFaucet "in" POut None; MiddleC CLaunch "a" (InPort Finish 0) POut None; MiddleC CLaunch "b" (InPort Terminate 0) POut None;
    MiddleC CLaunch "c" (InPort Consume 3) POut None; EndC CDrain "out" (InPort Terminate 0) None]).
Proof. vm_compute. auto. Qed.

(** C43 is false: a priority that does not fit is read as 0, and so are brackets without a number. *)
Theorem C43_rejected_refuted : exists z t, integer_text z t /\ ~ fits z /\
  load_connection_from_string ("f:in | [" ++ t ++ "]j:a") = Good (Some [StartC CFaucet "in" POut None; EndC CJunction "a" (InPort Terminate 0) None]) /\
  load_connection_from_string "f:in | []j:a" = Good (Some [StartC CFaucet "in" POut None; EndC CJunction "a" (InPort Terminate 0) None]).
Proof. exact too_big_taken. Qed.
Print Assumptions C43_rejected_refuted.

(** C43, the part that holds: a priority that fits is taken as it is.  (Missing: the rejection of the others.) *)
Theorem C43_taken_partial : forall z t k n s1 o s2 b s3 n' k' s4,
  integer_text z t -> fits z -> component_text k n s1 -> output_text o s2 -> pipe_text b s3 -> component_text k' n' s4 ->
  load_connection_from_string (s1 ++ s2 ++ s3 ++ ("[" ++ t ++ "]") ++ s4) = Good (Some [StartC k n o None; EndC k' n' (InPort b z) None]).
Proof. exact priority_taken. Qed.
Print Assumptions C43_taken_partial.

Example C43_example : load_connection_from_string "f:in | [-9223372036854775808]j:a" =
  Good (Some [StartC CFaucet "in" POut None; EndC CJunction "a" (InPort Terminate (- 2 ^ 63)) None]).
Proof. vm_compute. reflexivity. Qed.
