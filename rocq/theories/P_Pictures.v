(** * P_Pictures: the picture that [pa2 graph] prints is the one that was asked for *)
From Coq Require Import Ascii String List Bool Arith.
From Verif Require Import M_Prog M_Motion M_Config M_Parser M_Manip M_Lint M_Setters M_Serde M_Cli M_Waiter M_Graph M_Errors S_Grammar S_Manip S_Lint S_Cli S_Graph S_Pictures P_Cli P_CliExamples P_GraphExamples.
Import ListNotations.
Local Open Scope string_scope.

Definition mode_of (lo d border : bool) : graph_mode := match lo, d with true, false => LegendOnly border | false, true => DiagramOnly | _, _ => Full border end.

Lemma graph_asked cfg fmt lo d border :
  get_user_action (clap_defaults (typed_graph cfg (option_map format_text fmt) lo d border)) = Answer (Ok (GraphOf (in_of cfg) (format_of fmt) (mode_of lo d border))).
Proof. destruct cfg as [c|], fmt as [[|]|], lo, d, border; reflexivity. Qed.

Lemma pictures_lemma mc os sh cfg fmt lo d border : exists mode,
  (shows_diagram mode <-> lo = false \/ d = true) /\ shows_legend mode = (if d && negb lo then None else Some border) /\
  (forall e, read_config os (format_of fmt) (in_of cfg) = Err e ->
     main mc os sh (typed_graph cfg (option_map format_text fmt) lo d border) = Some (Good (Ending [] ["Error(s) have occurred:"; ""; " * " ++ e; ""] 1))) /\
  (forall c, read_config os (format_of fmt) (in_of cfg) = Ok c ->
     (forall g, graph_drawn (mc_order mc) c mode = Good (Ok g) -> mc_dot mc g <> "" ->
        main mc os sh (typed_graph cfg (option_map format_text fmt) lo d border) = Some (Good (Ending [mc_dot mc g] [] 0))) /\
     (forall ws, graph_drawn (mc_order mc) c mode = Good (Err ws) -> exists en,
        main mc os sh (typed_graph cfg (option_map format_text fmt) lo d border) = Some (Good en) /\ en_out en = [] /\ en_err en <> [] /\ en_code en = 1)).
Proof.
  exists (mode_of lo d border). split; [destruct lo, d; cbn; intuition discriminate|]. split; [destruct lo, d; reflexivity|].
  unfold main, pa2. rewrite graph_asked. unfold process_request. split.
  - intros e ->. reflexivity.
  - intros c ->. unfold graph_drawn. split.
    + intros g. destruct (graph_config c) as [[c'|ws]|]; cbn [obind]; try discriminate. intros [= <-] Hn. cbn [main_result obind main_end].
      destruct (String.eqb_spec (mc_dot mc (draw (mc_order mc) c' (mode_of lo d border))) ""); [contradiction|reflexivity].
    + intros ws. destruct (graph_config c) as [[c'|ws']|]; cbn [obind]; try discriminate. intros _. eexists. split; [reflexivity|]. cbn. repeat split; discriminate.
Qed.

(** A machine whose texts tell which parts there are *)
Definition part_names (g : graph) : string := String.concat " " (flat_map (fun s => match s with SSub n _ => [n] | _ => [] end) (gr_stmts g)).
Definition drawing : machine := Machine (fun _ _ => ([], [], [], [], [], [], [])) (fun _ => None) part_names (fun s => "") (fun s => s) (fun l => l) (fun l => l).
Lemma pictures_example : main drawing (one_file (ser_config both_outputs)) in_order (typed_graph (Some "c.yaml") None false false true) = Some (Good (Ending ["cluster_legend diagram"] [] 0)) /\
  main drawing (one_file (ser_config both_outputs)) in_order (typed_graph (Some "c.yaml") None true false false) = Some (Good (Ending ["graph_legend"] [] 0)) /\
  main drawing (one_file (ser_config both_outputs)) in_order (typed_graph (Some "c.yaml") None false true true) = Some (Good (Ending ["diagram"] [] 0)) /\
  main drawing (one_file (ser_config both_outputs)) in_order (typed_graph (Some "c.yaml") None true true false) = Some (Good (Ending ["graph_legend diagram"] [] 0)) /\
  main drawing (Outside None (fun _ => None) (fun _ => None) (fun _ => None)) in_order (typed_graph None None true true false) =
    Some (Good (Ending [] ["Error(s) have occurred:"; ""; " * We could not read STDIN to get the config"; ""] 1)).
Proof. vm_compute. repeat split. Qed.
