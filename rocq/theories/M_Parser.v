(** * M_Parser: the connection grammar, src/config.rs 723-938

    The code uses the [peg] crate.  A rule is a function from the text still to be read to a result and what is left.
    A sequence runs its parts one after the other; a choice commits to its first alternative that succeeds; a repetition takes
    as much as it can.  Text is a string of bytes; no rule accepts a byte above 127, so reading bytes instead of characters changes nothing. *)
From Coq Require Import Ascii String List Bool Arith ZArith.
From Verif Require Import M_Prog M_Config.
Import ListNotations.
Local Open Scope string_scope.

Definition parser (A : Type) := string -> option (A * string).

Definition pret {A} (a : A) : parser A := fun s => Some (a, s).
Definition pbind {A B} (p : parser A) (f : A -> parser B) : parser B :=
  fun s => match p s with Some (a, r) => f a r | None => None end.
Definition alt {A} (p q : parser A) : parser A :=
  fun s => match p s with Some x => Some x | None => q s end.

Declare Scope parser_scope.
Delimit Scope parser_scope with parser.
Notation "x <- p ;; q" := (pbind p (fun x => q)) (at level 61, p at next level, right associativity) : parser_scope.
Notation "p ;;; q" := (pbind p (fun _ => q)) (at level 61, right associativity) : parser_scope.
Local Open Scope parser_scope.

(** A literal *)
Fixpoint lit (w : string) : parser string :=
  fun s =>
    match w with
    | EmptyString => Some (EmptyString, s)
    | String a w' =>
      match s with
      | String b s' => if Ascii.eqb a b then match lit w' s' with Some (x, r) => Some (String a x, r) | None => None end else None
      | EmptyString => None
      end
    end.

(** A character of a class, repeated any number of times: [[...]*] *)
Fixpoint many (f : ascii -> bool) (s : string) : string * string :=
  match s with
  | String a r => if f a then let (x, y) := many f r in (String a x, y) else ("", s)
  | EmptyString => ("", "")
  end.
Definition star_class (f : ascii -> bool) : parser string := fun s => Some (many f s).
Definition plus_class (f : ascii -> bool) : parser string :=
  fun s => match many f s with ("", _) => None | x => Some x end.

(** A rule repeated any number of times: [p()*].  [fuel] bounds the number of repetitions; each takes at least one
    character, so the length of the text is enough. *)
Fixpoint repeat_rule {A} (fuel : nat) (p : parser A) (s : string) : list A * string :=
  match fuel with
  | O => ([], s)
  | S f => match p s with Some (a, r) => let (x, y) := repeat_rule f p r in (a :: x, y) | None => ([], s) end
  end.
Definition star {A} (p : parser A) : parser (list A) := fun s => Some (repeat_rule (String.length s) p s).

Definition between (a b c : ascii) : bool := (N_of_ascii a <=? N_of_ascii c)%N && (N_of_ascii c <=? N_of_ascii b)%N.
Definition is_digit (c : ascii) : bool := between "0" "9" c.
Definition is_name_char (c : ascii) : bool := between "a" "z" c || between "A" "Z" c || is_digit c || Ascii.eqb c "_".

(** 732-733 *)
Definition component_name : parser string := plus_class is_name_char.

(** [isize::from_str] on a 64 bit machine.  (The library checks for overflow at each digit; the absolute value never gets smaller, so one check of
    the result is the same.) *)
Definition isize_ok (z : Z) : bool := ((- 2 ^ 63 <=? z) && (z <? 2 ^ 63))%Z.
Fixpoint digits_value (acc : Z) (s : string) : option Z :=
  match s with
  | EmptyString => Some acc
  | String c r => if is_digit c then digits_value (10 * acc + (Z.of_N (N_of_ascii c) - 48))%Z r else None
  end.
Definition parse_isize (s : string) : option Z :=
  let checked o := match o with Some z => if isize_ok z then Some z else None | None => None end in
  match s with
  | EmptyString => None
  | String "-" EmptyString | String "+" EmptyString => None
  | String "-" r => checked (match digits_value 0 r with Some z => Some (- z)%Z | None => None end)
  | String "+" r => checked (digits_value 0 r)
  | _ => checked (digits_value 0 s)
  end.

(** 735-736 *)
Definition port_preference : parser Z :=
  sign <- alt (lit "-") (pret "") ;;
  n <- star_class is_digit ;;
  pret (match parse_isize (sign ++ n) with Some z => z | None => 0%Z end).

(** 738-739 *)
Definition in_port : parser iport :=
  lit "[" ;;; p <- port_preference ;; lit "]" ;;; pret (InPort Terminate p).

(** 741-758.  The choice can only be one of the twelve words. *)
Definition type_word (w : string) (t : ctype) : parser ctype := lit w ;;; pret t.
Definition component_type : parser ctype :=
  alt (type_word "faucet" CFaucet) (alt (type_word "drain" CDrain) (alt (type_word "regulator" CRegulator)
  (alt (type_word "junction" CJunction) (alt (type_word "buffer" CBuffer) (alt (type_word "launch" CLaunch)
  (alt (type_word "f" CFaucet) (alt (type_word "d" CDrain) (alt (type_word "r" CRegulator)
  (alt (type_word "j" CJunction) (alt (type_word "b" CBuffer) (type_word "l" CLaunch))))))))))).

(** 760-764 *)
Definition identifier : parser (ctype * string) :=
  t <- component_type ;; lit ":" ;;; n <- component_name ;; pret (t, n).

(** 766-774 *)
Definition out_port : parser oport :=
  lit "[" ;;;
  p <- alt (lit "E" ;;; pret PErr) (alt (lit "O" ;;; pret POut) (lit "X" ;;; pret PExit)) ;;
  lit "]" ;;; pret p.

(** 776-784 *)
Definition pipe_type_code : parser breakable :=
  alt (lit "T" ;;; pret Terminate) (alt (lit "C" ;;; pret Consume) (lit "F" ;;; pret Finish)).
(** 786-789 *)
Definition pipe_type : parser breakable := lit "|" ;;; p <- pipe_type_code ;; lit "|" ;;; pret p.
(** 791-794 *)
Definition pipe_plain : parser breakable := lit "|" ;;; pret Terminate.

(** src/config.rs 180-185 *)
Inductive parser_connection := PConnection (c : connection) | PPipe (b : breakable).

(** 796-799 *)
Definition is_space (c : ascii) : bool := Ascii.eqb c " ".
Definition pipe : parser parser_connection :=
  star_class is_space ;;; p <- alt pipe_type pipe_plain ;; star_class is_space ;;; pret (PPipe p).

(** 801-846 *)
Definition component_middle_full : parser parser_connection :=
  l <- in_port ;; i <- identifier ;; o <- out_port ;; pret (PConnection (MiddleC (fst i) (snd i) l o None)).
Definition component_middle_default_output : parser parser_connection :=
  l <- in_port ;; i <- identifier ;; pret (PConnection (MiddleC (fst i) (snd i) l POut None)).
Definition component_middle_default_input : parser parser_connection :=
  i <- identifier ;; o <- out_port ;; pret (PConnection (MiddleC (fst i) (snd i) (InPort Terminate 0) o None)).
Definition component_middle_quick : parser parser_connection :=
  i <- identifier ;; pret (PConnection (MiddleC (fst i) (snd i) (InPort Terminate 0) POut None)).
Definition component_middle : parser parser_connection :=
  alt component_middle_full (alt component_middle_default_input (alt component_middle_default_output component_middle_quick)).

(** 848-869 *)
Definition component_start_full : parser parser_connection :=
  i <- identifier ;; o <- out_port ;; pret (PConnection (StartC (fst i) (snd i) o None)).
Definition component_start_quick : parser parser_connection :=
  i <- identifier ;; pret (PConnection (StartC (fst i) (snd i) POut None)).
Definition component_start : parser parser_connection := alt component_start_full component_start_quick.

(** 871-892 *)
Definition component_end_full : parser parser_connection :=
  l <- in_port ;; i <- identifier ;; pret (PConnection (EndC (fst i) (snd i) l None)).
Definition component_end_quick : parser parser_connection :=
  i <- identifier ;; pret (PConnection (EndC (fst i) (snd i) (InPort Terminate 0) None)).
Definition component_end : parser parser_connection := alt component_end_full component_end_quick.

(** 894-897 *)
Definition line_middle : parser (list parser_connection) :=
  m <- component_middle ;; p <- pipe ;; pret [m; p].

(** 899-908 *)
Definition connection_set_has : parser (list parser_connection) :=
  s <- component_start ;; p <- pipe ;; m <- star line_middle ;; e <- component_end ;;
  pret (app [s; p] (app (List.concat m) [e])).

(** 910-914 *)
Definition connection_set_none : parser (list parser_connection) := lit "" ;;; pret [].
Definition connection_set : parser (list parser_connection) := alt connection_set_has connection_set_none.

(** src/config.rs 152-176 *)
Definition convert_to_input_breakable (c : connection) (b : breakable) : outcome connection :=
  match c with
  | MiddleC t n i o s => Good (MiddleC t n (InPort b (ip_priority i)) o s)
  | StartC _ _ _ _ => Crash "Start connections cannot be marked as input breakable!"
  | EndC t n i s => Good (EndC t n (InPort b (ip_priority i)) s)
  end.

(** 919-933: the loop over what was parsed *)
Fixpoint attach_pipes (breakable : option breakable) (l : list parser_connection) : outcome (list connection) :=
  match l with
  | [] => Good []
  | PConnection x :: r =>
    obind (match breakable with Some b => convert_to_input_breakable x b | None => Good x end) (fun c =>
    obind (attach_pipes None r) (fun cs => Good (c :: cs)))
  | PPipe b :: r => attach_pipes (Some b) r
  end.

(** 723-938.  None: a parse error (where it is in the text is not modelled).  A [peg] parser fails unless everything has
    been read. *)
Definition load_connection_from_string (s : string) : outcome (option (list connection)) :=
  match connection_set s with
  | Some (l, "") => obind (attach_pipes None l) (fun cs => Good (Some cs))
  | _ => Good None
  end.
