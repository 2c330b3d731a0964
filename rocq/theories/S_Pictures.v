(** * S_Pictures: what [pa2 graph] is asked for *)
From Coq Require Import Ascii String List Bool.
From Verif Require Import M_Cli S_Cli.
Import ListNotations.
Local Open Scope string_scope.

(** A switch was typed, or it was not: clap counts how often *)
Definition switch (k : string) (on : bool) : list (string * list string) := if on then [(k, [""])] else [].
(** [pa2 graph --config C --format F --legend-only --diagram-only --legend-border], each as wanted *)
Definition typed_graph (cfg fmt : option string) (legend_only diagram_only border : bool) : matches :=
  Matches [] (Some ("graph", Matches (given "config" cfg ++ given "format" fmt ++
    switch "legend-only" legend_only ++ switch "diagram-only" diagram_only ++ switch "legend-border" border) None)).
