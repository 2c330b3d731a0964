(** * M_BufWriter: the writer between a drain and its file, [async_std::io::BufWriter] (1.12.0, src/io/buf_writer.rs), as used in src/drain.rs 72

    The rest of the model sees one effect [EWrite f d] for a whole [write_all] and one effect [EFlush f]; here these are taken
    apart.  The writer keeps up to 8192 bytes in memory.  Each time it hands some over, the operating system takes a part of them
    or refuses.  What is still in memory when the writer is dropped never reaches the file.  Not modelled: the second memory
    inside [async_std::fs::File], which is handed over when it is flushed or dropped; a refusal by reason of an interrupted call,
    which is tried again. *)
From Coq Require Import List Arith.
From Verif Require Import M_Prog.
Import ListNotations.

Record bufwriter := BufW { bw_held : bytes; bw_file : bytes }.
(** [BufWriter::new]: [DEFAULT_CAPACITY] *)
Definition bw_new : bufwriter := BufW [] [].
Definition bw_capacity : nat := 8 * 1024.

(** The operating system takes the first [n] bytes of what is held. *)
Definition hand_over (n : nat) (s : bufwriter) : bufwriter := BufW (skipn n (bw_held s)) (bw_file s ++ firstn n (bw_held s)).
(** [poll_flush_buf]; the last argument says whether it succeeded. *)
Inductive flush_buf : bufwriter -> bufwriter -> bool -> Prop :=
| FB_done s : bw_held s = [] -> flush_buf s s true
| FB_some s n s' ok : 0 < n <= length (bw_held s) -> flush_buf (hand_over n s) s' ok -> flush_buf s s' ok
| FB_refused s : bw_held s <> [] -> flush_buf s s false.
(** [poll_flush]: what is held, then the file itself *)
Inductive flush_all : bufwriter -> bufwriter -> bool -> Prop :=
| FA_held s s' : flush_buf s s' false -> flush_all s s' false
| FA_file s s' ok : flush_buf s s' true -> flush_all s s' ok.

(** [poll_write], first part: make room if there is not enough *)
Inductive make_room (d : bytes) : bufwriter -> bufwriter -> bool -> Prop :=
| MR_room s : length (bw_held s) + length d <= bw_capacity -> make_room d s s true
| MR_flush s s' ok : bw_capacity < length (bw_held s) + length d -> flush_buf s s' ok -> make_room d s s' ok.
(** [write_all]: [poll_write] until nothing is left.  Large data go past the memory. *)
Inductive write_whole : bytes -> bufwriter -> bufwriter -> bool -> Prop :=
| WW_nothing s : write_whole [] s s true
| WW_no_room d s s' : d <> [] -> make_room d s s' false -> write_whole d s s' false
| WW_kept d s s' : d <> [] -> make_room d s s' true -> length d < bw_capacity -> write_whole d s (BufW (bw_held s' ++ d) (bw_file s')) true
| WW_past d s s1 n s' ok : d <> [] -> make_room d s s1 true -> bw_capacity <= length d -> 0 < n <= length d ->
    write_whole (skipn n d) (BufW (bw_held s1) (bw_file s1 ++ firstn n d)) s' ok -> write_whole d s s' ok
| WW_refused d s s' : d <> [] -> make_room d s s' true -> bw_capacity <= length d -> write_whole d s s' false.

(** The writer of file [f] after what a component did *)
Definition concerns (f : fd) (e : eff) : Prop := match e with EWrite g _ | EFlush g => g = f | _ => False end.
Inductive stored (f : fd) : trace -> bufwriter -> Prop :=
| St_new : stored f [] bw_new
| St_write tr s d a s' ok : stored f tr s -> write_whole d s s' ok -> (ok = true <-> a = AOk) -> stored f (tr ++ [(EWrite f d, a)]) s'
| St_flush tr s a s' ok : stored f tr s -> flush_all s s' ok -> (ok = true <-> a = AOk) -> stored f (tr ++ [(EFlush f, a)]) s'
| St_other tr s e a : stored f tr s -> ~ concerns f e -> stored f (tr ++ [(e, a)]) s.
