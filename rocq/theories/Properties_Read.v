(** * Properties C01 - C03: reading messages from byte streams *)
From Coq Require Import Ascii String List Bool Arith.
From Verif Require Import M_Prog P_Prog M_Motion M_ReadAll S_Trace S_Lines P_Split.
Import ListNotations.




(** C01: whatever the operating system answers, the messages are the bytes. *)
Theorem C01_messages_are_the_bytes : forall k j f tr msgs,
  exec (read_all (PlBytes k j f split_control_new)) tr (Done (Ok msgs)) ->
  concat msgs = concat (reads f tr).
Proof. exact read_all_bytes. Qed.
Print Assumptions C01_messages_are_the_bytes.

(** Three reads that cut "ab\r\ncd" in the middle of the Windows line ending. *)
Example C01_case :
  let reads_ := [AData (b "ab" ++ [cr]); AData ([lf] ++ b "c"); AData (b "d"); AData []; AData []] in
  exists tr, exec (read_all (PlBytes SrcFile (PJ 0 1) 7 split_control_new)) tr (Done (Ok [b "ab" ++ [cr; lf]; b "cd"])).
Proof.
  intro reads_.
  eexists. eapply drive_sound with (fuel := 50) (answers := reads_). vm_compute. reflexivity.
Qed.

(** C02: the messages are a function of the bytes: the stream cut after each line feed. *)
Theorem C02_messages_are_the_lines : forall k j f tr msgs,
  exec (read_all (PlBytes k j f split_control_new)) tr (Done (Ok msgs)) ->
  eof_final (reads f tr) ->
  msgs = lines (concat (reads f tr)).
Proof. exact read_all_lines. Qed.
Print Assumptions C02_messages_are_the_lines.

(** Even when end of file is reported in the middle (a terminal), each stretch is cut into lines. *)
Theorem C02_messages_between_ends_of_file : forall k j f tr msgs,
  exec (read_all (PlBytes k j f split_control_new)) tr (Done (Ok msgs)) ->
  msgs = messages_of_reads (reads f tr).
Proof. exact read_all_messages. Qed.
Print Assumptions C02_messages_between_ends_of_file.

(** What lines look like: not empty, a line feed only at the end, and only the last may lack one. *)
Theorem C02_shape_of_lines : forall s pre m post,
  lines s = pre ++ m :: post ->
  m <> [] /\ exists body, ~ In newline body /\ (m = body ++ [newline] \/ (m = body /\ post = [])).
Proof. exact lines_shape. Qed.
Print Assumptions C02_shape_of_lines.

Theorem C02_lines_lose_nothing : forall s, concat (lines s) = s.
Proof. exact lines_concat. Qed.
Print Assumptions C02_lines_lose_nothing.

Example C02_case :
  lines (b "a" ++ [cr; lf] ++ [lf] ++ b "bc") = [b "a" ++ [cr; lf]; [lf]; b "bc"] /\
  eof_final [b "a" ++ [cr]; [lf] ++ b "x"; []; []].
Proof. split; [reflexivity|cbn; auto]. Qed.

(** C03: for other delimiters the claim holds if they are short and none begins another ... *)
Theorem C03_any_short_delimiters_partial : forall splits k j f k' j' f' tr tr' msgs msgs',
  good_splits splits ->
  exec (read_all (PlBytes k j f (SC splits []))) tr (Done (Ok msgs)) ->
  exec (read_all (PlBytes k' j' f' (SC splits []))) tr' (Done (Ok msgs')) ->
  eof_final (reads f tr) -> eof_final (reads f' tr') ->
  concat (reads f tr) = concat (reads f' tr') ->
  msgs = msgs'.
Proof. exact read_all_independent. Qed.
Print Assumptions C03_any_short_delimiters_partial.

Example C03_partial_case : good_splits [b ";"; b "--"].
Proof. exact good_splits_example. Qed.

(** ... but not for a delimiter of three bytes: the search resumes at the last byte only. *)
Theorem C03_three_byte_delimiter_refuted : exists splits tr tr' msgs msgs',
  (forall d, In d splits -> d <> []) /\
  exec (read_all (PlBytes SrcFile (PJ 0 1) 7 (SC splits []))) tr (Done (Ok msgs)) /\
  exec (read_all (PlBytes SrcFile (PJ 0 1) 7 (SC splits []))) tr' (Done (Ok msgs')) /\
  eof_final (reads 7 tr) /\ eof_final (reads 7 tr') /\
  concat (reads 7 tr) = concat (reads 7 tr') /\
  msgs <> msgs'.
Proof. exact three_byte_refuted. Qed.
Print Assumptions C03_three_byte_delimiter_refuted.

(** Nor for two delimiters of which one begins the other, such as the Windows and old Macintosh
    line endings together. *)
Theorem C03_prefix_delimiter_refuted : exists tr tr' msgs msgs',
  exec (read_all (PlBytes SrcFile (PJ 0 1) 7 (SC [[cr; lf]; [cr]] []))) tr (Done (Ok msgs)) /\
  exec (read_all (PlBytes SrcFile (PJ 0 1) 7 (SC [[cr; lf]; [cr]] []))) tr' (Done (Ok msgs')) /\
  eof_final (reads 7 tr) /\ eof_final (reads 7 tr') /\
  concat (reads 7 tr) = concat (reads 7 tr') /\
  msgs <> msgs'.
Proof. exact prefix_delimiter_refuted. Qed.
Print Assumptions C03_prefix_delimiter_refuted.
