(** * S_Delivery: what is in the file of a drain after a run *)
From Coq Require Import Ascii String List Arith.
From Verif Require Import M_Prog M_Motion M_Config M_Manip M_Drain M_Waiter M_BufWriter M_Start S_World S_Net S_Drain S_Path.
Import ListNotations.

(** The drain called [n] has opened a file, and that holds these bytes. *)
Inductive file_holds (c : config) (w : waiter) (cwd : option string) (vars : list (string * string)) (l : list nevent) (n : string) : bytes -> Prop :=
| FH : forall k name f rest s, drain_at c w cwd vars n k -> actual_destination (location n (cf_drain c)) = ToFile name -> own (4 * k) l = (ECreate name, AFd f) :: rest -> stored f rest s ->
    file_holds c w cwd vars l n (bw_file s).
