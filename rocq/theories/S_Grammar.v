(** * S_Grammar: what a connection text may look like

    Written from README.src.md ("Connecting components") as a grammar that generates texts, not as a parser. *)
From Coq Require Import Ascii String List Bool Arith ZArith NArith DecimalString.
From Verif Require Import M_Prog M_Config S_Launch.
Import ListNotations.
Local Open Scope string_scope.

(** Long and short names of the kinds of components. *)
Inductive kind_text : ctype -> string -> Prop :=
| k_faucet : kind_text CFaucet "faucet" | k_f : kind_text CFaucet "f"
| k_launch : kind_text CLaunch "launch" | k_l : kind_text CLaunch "l"
| k_junction : kind_text CJunction "junction" | k_j : kind_text CJunction "j"
| k_buffer : kind_text CBuffer "buffer" | k_b : kind_text CBuffer "b"
| k_drain : kind_text CDrain "drain" | k_d : kind_text CDrain "d"
| k_regulator : kind_text CRegulator "regulator" | k_r : kind_text CRegulator "r".

(** Names: letters, digits, underscores; at least one. *)
Definition name_letters : string := "abcdefghijklmnopqrstuvwxyzABCDEFGHIJKLMNOPQRSTUVWXYZ0123456789_".
Definition of_letters (letters n : string) : Prop := Forall (fun c => In c (list_ascii_of_string letters)) (list_ascii_of_string n).
Definition name_text (n : string) : Prop := n <> "" /\ of_letters name_letters n.

Inductive component_text (t : ctype) (n : string) : string -> Prop :=
| Component k : kind_text t k -> name_text n -> component_text t n (k ++ ":" ++ n).

(** A priority in brackets.  A number that does not fit a 64 bit signed integer counts as 0 (this is what the code does; see C43), and so does no number at all. *)
Definition fits (z : Z) : Prop := (- 2 ^ 63 <= z < 2 ^ 63)%Z.
Inductive integer_text : Z -> string -> Prop :=
| Positive ds n : ds <> "" -> value_from 0 (list_ascii_of_string ds) = Some n -> integer_text (Z.of_N n) ds
| Negative ds n : ds <> "" -> value_from 0 (list_ascii_of_string ds) = Some n -> integer_text (- Z.of_N n) (String "-" ds).
Inductive priority_text : Z -> string -> Prop :=
| Fits z s : integer_text z s -> fits z -> priority_text z s
| TooBig z s : integer_text z s -> ~ fits z -> priority_text 0 s
| NoNumber : priority_text 0 ""
| NoDigits : priority_text 0 "-".

Inductive input_text : Z -> string -> Prop :=
| DefaultInput : input_text 0 ""
| Input z s : priority_text z s -> input_text z ("[" ++ s ++ "]").

Inductive output_text : oport -> string -> Prop :=
| DefaultOutput : output_text POut ""
| OutputE : output_text PErr "[E]"
| OutputO : output_text POut "[O]"
| OutputX : output_text PExit "[X]".

Fixpoint spaces (n : nat) : string := match n with O => "" | S m => " " ++ spaces m end.
Inductive marker_text : breakable -> string -> Prop :=
| Plain : marker_text Terminate "|"
| MarkT : marker_text Terminate "|T|"
| MarkF : marker_text Finish "|F|"
| MarkC : marker_text Consume "|C|".
Inductive pipe_text (b : breakable) : string -> Prop :=
| Pipe n s m : marker_text b s -> pipe_text b (spaces n ++ s ++ spaces m).

(** What follows the first component: pipes and components, the last one without an output. *)
Inductive rest_text : list connection -> string -> Prop :=
| Last b p t n s1 s2 s3 :
    pipe_text b s1 -> input_text p s2 -> component_text t n s3 ->
    rest_text [EndC t n (InPort b p) None] (s1 ++ s2 ++ s3)
| Inner b p t n o s1 s2 s3 s4 l s5 :
    pipe_text b s1 -> input_text p s2 -> component_text t n s3 -> output_text o s4 ->
    rest_text l s5 ->
    rest_text (MiddleC t n (InPort b p) o None :: l) (s1 ++ s2 ++ s3 ++ s4 ++ s5).

Inductive connection_text : list connection -> string -> Prop :=
| Nothing : connection_text [] ""
| Chain t n o s1 s2 l s3 :
    component_text t n s1 -> output_text o s2 -> rest_text l s3 ->
    connection_text (StartC t n o None :: l) (s1 ++ s2 ++ s3).

(** Lists of connections that can be written down: a first, any number of middle ones, a last; with proper names, priorities that fit, no
    connection sets. *)
Definition ok_name (n : string) : Prop := name_text n.
Inductive chain_end : list connection -> Prop :=
| EndOnly t n i : ok_name n -> fits (ip_priority i) -> chain_end [EndC t n i None]
| EndMore t n i o l : ok_name n -> fits (ip_priority i) -> chain_end l -> chain_end (MiddleC t n i o None :: l).
Inductive writable : list connection -> Prop :=
| W_nothing : writable []
| W_chain t n o l : ok_name n -> chain_end l -> writable (StartC t n o None :: l).

(** Writing them down in full. *)
Definition show_kind (t : ctype) : string :=
  match t with
  | CFaucet => "faucet" | CLaunch => "launch" | CJunction => "junction"
  | CBuffer => "buffer" | CDrain => "drain" | CRegulator => "regulator"
  end.
Definition show_component (t : ctype) (n : string) : string := show_kind t ++ ":" ++ n.
Definition show_input (i : iport) : string := "[" ++ NilZero.string_of_int (Z.to_int (ip_priority i)) ++ "]".
Definition show_output (o : oport) : string := match o with PErr => "[E]" | POut => "[O]" | PExit => "[X]" end.
Definition show_pipe (i : iport) : string :=
  match ip_breakable i with Terminate => " |T| " | Finish => " |F| " | Consume => " |C| " end.
Definition show_one (c : connection) : string :=
  match c with
  | StartC t n o _ => show_component t n ++ show_output o
  | MiddleC t n i o _ => show_pipe i ++ show_input i ++ show_component t n ++ show_output o
  | EndC t n i _ => show_pipe i ++ show_input i ++ show_component t n
  end.
Fixpoint show (l : list connection) : string := match l with [] => "" | c :: r => show_one c ++ show r end.

(** Reading the markers of the pipes off a text, looking for nothing else. *)
Fixpoint markers (s : string) : list breakable :=
  match s with
  | String "|" (String c (String "|" r) as s') =>
    if Ascii.eqb c "T" then Terminate :: markers r
    else if Ascii.eqb c "F" then Finish :: markers r
    else if Ascii.eqb c "C" then Consume :: markers r
    else Terminate :: markers s'
  | String "|" r => Terminate :: markers r
  | String _ r => markers r
  | EmptyString => []
  end.
Definition input_of (c : connection) : option iport := match c with MiddleC _ _ i _ _ | EndC _ _ i _ => Some i | StartC _ _ _ _ => None end.
Definition output_of (c : connection) : option oport := match c with MiddleC _ _ _ o _ | StartC _ _ o _ => Some o | EndC _ _ _ _ => None end.

Fixpoint has_char (c : ascii) (s : string) : bool := match s with String d r => Ascii.eqb c d || has_char c r | EmptyString => false end.
