(** * S_Lines: specification of message boundaries

    Independent of how the code searches for delimiters: walk over the bytes, end a message
    after each line feed. *)
From Coq Require Import Ascii String List Bool Arith.
From Verif Require Import M_Prog.
Import ListNotations.

Definition newline : ascii := "010"%char.

(** [cut cur s]: the messages of [s] when [cur] is what has been collected of the present one. *)
Fixpoint cut (cur s : bytes) : list bytes :=
  match s with
  | [] => match cur with [] => [] | _ => [cur] end
  | b :: s' =>
    if Ascii.eqb b newline then (cur ++ [b]) :: cut [] s'
    else cut (cur ++ [b]) s'
  end.

Definition lines (s : bytes) : list bytes := cut [] s.

(** A source may report end of file more than once, with further data in between (a
    terminal does).  [segments] splits the reads at end of file. *)
Fixpoint segments (cur : bytes) (reads : list bytes) : list bytes :=
  match reads with
  | [] => [cur]
  | [] :: r => cur :: segments [] r
  | d :: r => segments (cur ++ d) r
  end.

Definition messages_of_reads (reads : list bytes) : list bytes :=
  flat_map lines (segments [] reads).

(** End of file is final: after an empty read there is no other data. *)
Fixpoint eof_final (reads : list bytes) : Prop :=
  match reads with
  | [] => True
  | [] :: r => Forall (fun d => d = []) r
  | _ :: r => eof_final r
  end.

(** Delimiters of one or two bytes, none of which is the beginning of another. *)
Definition good_splits (splits : list bytes) : Prop :=
  (forall v, In v splits -> 1 <= length v <= 2) /\
  (forall u v, In u splits -> In v splits -> (exists x, v = u ++ x) -> u = v).
