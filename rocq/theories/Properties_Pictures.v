(** * Properties_Pictures: what [pa2 graph] prints *)
From Coq Require Import Ascii String List Bool Arith.
From Verif Require Import M_Prog M_Motion M_Config M_Manip M_Lint M_Serde M_Cli M_Waiter M_Graph M_Errors S_Cli S_Graph S_Pictures P_CliExamples P_GraphExamples S_Manip P_Pictures.
Import ListNotations.
Local Open Scope string_scope.

(** C127: the picture has the diagram unless only the legend was asked for, and the legend, with the border that was asked for, unless only the diagram was;
    it is printed and the code is 0.  Without a configuration or with one that the lint refuses there is an error and no picture. *)
Theorem C127_picture : forall mc os sh cfg fmt lo d border, exists mode,
  (shows_diagram mode <-> lo = false \/ d = true) /\ shows_legend mode = (if d && negb lo then None else Some border) /\
  (forall e, read_config os (format_of fmt) (in_of cfg) = Err e ->
     main mc os sh (typed_graph cfg (option_map format_text fmt) lo d border) = Some (Good (Ending [] ["Error(s) have occurred:"; ""; " * " ++ e; ""] 1))) /\
  (forall c, read_config os (format_of fmt) (in_of cfg) = Ok c ->
     (forall g, graph_drawn (mc_order mc) c mode = Good (Ok g) -> mc_dot mc g <> "" ->
        main mc os sh (typed_graph cfg (option_map format_text fmt) lo d border) = Some (Good (Ending [mc_dot mc g] [] 0))) /\
     (forall ws, graph_drawn (mc_order mc) c mode = Good (Err ws) -> exists en,
        main mc os sh (typed_graph cfg (option_map format_text fmt) lo d border) = Some (Good en) /\ en_out en = [] /\ en_err en <> [] /\ en_code en = 1)).
Proof. exact pictures_lemma. Qed.
Print Assumptions C127_picture.
(** With a machine that prints the parts: both, one of them, and both again when both are said to be the only one; nothing to read *)
Example C127_example : main drawing (one_file (ser_config both_outputs)) in_order (typed_graph (Some "c.yaml") None false false true) = Some (Good (Ending ["cluster_legend diagram"] [] 0)) /\
  main drawing (one_file (ser_config both_outputs)) in_order (typed_graph (Some "c.yaml") None true false false) = Some (Good (Ending ["graph_legend"] [] 0)) /\
  main drawing (one_file (ser_config both_outputs)) in_order (typed_graph (Some "c.yaml") None false true true) = Some (Good (Ending ["diagram"] [] 0)) /\
  main drawing (one_file (ser_config both_outputs)) in_order (typed_graph (Some "c.yaml") None true true false) = Some (Good (Ending ["graph_legend diagram"] [] 0)) /\
  main drawing (Outside None (fun _ => None) (fun _ => None) (fun _ => None)) in_order (typed_graph None None true true false) =
    Some (Good (Ending [] ["Error(s) have occurred:"; ""; " * We could not read STDIN to get the config"; ""] 1)).
Proof. exact pictures_example. Qed.
