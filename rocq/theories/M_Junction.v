(** * M_Junction: src/junction.rs *)
From Coq Require Import Ascii String List Bool Arith ZArith.
From Verif Require Import M_Prog M_Motion M_BackOff M_Utils.
Import ListNotations.

(** src/junction.rs 20-26 *)
Record junction := Junction {
  jn_stdout_size : nat;
  jn_started : bool;
  jn_stdout : list push;
  jn_stdin : list (list pull);
  jn_inputs : list (pull * Z)
}.

(** src/junction.rs 63-71 *)
Definition junction_new : junction := Junction 8 false [] [] [].

(** src/junction.rs 74-76 *)
Definition junction_set_stdout_size (j : junction) (size : nat) : junction :=
  Junction size (jn_started j) (jn_stdout j) (jn_stdin j) (jn_inputs j).

(** src/junction.rs 145-149.  [n] names the new channel, of capacity [jn_stdout_size]. *)
Definition junction_add_output (j : junction) (port : oport) (b : breakable) (src dst n : nat) : junction * pull :=
  (Junction (jn_stdout_size j) (jn_started j)
     (jn_stdout j ++ [PsIoSender (J src (Some POut) dst b) n]) (jn_stdin j) (jn_inputs j),
   PlReceiver (PJ src dst) n).

(** src/junction.rs 151-154 *)
Definition junction_add_input (j : junction) (p : pull) (priority : Z) : junction :=
  Junction (jn_stdout_size j) (jn_started j) (jn_stdout j) (jn_stdin j) (jn_inputs j ++ [(p, priority)]).

(** [sort_by] (80-82) is a stable sort: insertion of the elements one after the other, each
    before the first strictly greater one. *)
Fixpoint insert_by (x : pull * Z) (l : list (pull * Z)) : list (pull * Z) :=
  match l with
  | [] => [x]
  | y :: l' => if (snd x <? snd y)%Z then x :: y :: l' else y :: insert_by x l'
  end.
Definition sort_inputs (l : list (pull * Z)) : list (pull * Z) := fold_left (fun acc x => insert_by x acc) l [].

(** [if let Some(v) = self.stdin.last_mut() { v.push(pull) }] (92-94) *)
Definition push_last {X} (l : list (list X)) (x : X) : list (list X) :=
  match rev l with
  | [] => []
  | v :: r => rev r ++ [v ++ [x]]
  end.

(** src/junction.rs 85-95: one input of the loop; [old] is [old_priority] *)
Definition init_step (s : list (list pull) * Z) (x : pull * Z) : list (list pull) * Z :=
  let '(stdin, old) := s in
  let '(p, priority) := x in
  let '(stdin1, old1) := match stdin with [] => ([[]], priority) | _ => (stdin, old) end in
  let stdin2 := if (old1 <? priority)%Z then stdin1 ++ [[]] else stdin1 in
  (push_last stdin2 p, old1).

(** src/junction.rs 79-96 *)
Definition initialize_stdin (j : junction) : junction :=
  let '(stdin, _) := fold_left init_step (sort_inputs (jn_inputs j)) (jn_stdin j, 0%Z) in
  Junction (jn_stdout_size j) (jn_started j) (jn_stdout j) stdin [].

(** src/junction.rs 29-35; [finished_pushs] is always empty *)
Record one_result := OneResult { finished_pulls : list nat; finished_pushs : list nat; read_from : list nat; skipped : list nat }.

(** src/junction.rs 43-56: the loop over the pulls from index [i] on *)
Fixpoint jmw_loop (pulls : list pull) (i : nat) (pushs : list push) (spy : option nat) (fin rf sk : list nat)
  : prog (mres one_result * list pull * list push) :=
  match pulls with
  | [] => Ret (Ok (OneResult fin [] rf sk), [], pushs)
  | p :: rest =>
    if existsb (Nat.eqb i) fin then
      ' (r, rest', pushs') <- jmw_loop rest (S i) pushs spy fin rf sk ;;
      Ret (r, p :: rest', pushs')
    else
      ' (r, p', pushs') <- motion_worker p mn_empty pushs spy true ;;
      match r with
      | Err e => Ret (Err e, p' :: rest, pushs')
      | Ok w =>
        let sk' := if wr_read w then sk else sk ++ [i] in
        let rf' := if wr_read w then rf ++ [i] else rf in
        let fin' := if wr_finished w then fin ++ [i] else fin in
        ' (r', rest', pushs'') <- jmw_loop rest (S i) pushs' spy fin' rf' sk' ;;
        Ret (r', p' :: rest', pushs'')
      end
  end.

(** src/junction.rs 37-58 *)
Definition junction_motion_worker (pulls : list pull) (pushs : list push) (spy : option nat)
  : prog (mres one_result * list pull * list push) :=
  jmw_loop pulls 0 pushs spy [] [] [].

(** What the loop 105-119 accumulates: finished, any_read, read_count *)
Record pass := Pass { ps_finished : list (nat * nat); ps_any_read : bool; ps_count : nat }.

(** src/junction.rs 105-119: the loop over the groups from index [gi] on *)
Fixpoint groups_loop (groups : list (list pull)) (gi : nat) (pushs : list push) (spy : option nat)
  (finished : list (nat * nat)) (count : nat)
  : prog (mres pass * list (list pull) * list push) :=
  match groups with
  | [] => Ret (Ok (Pass finished false count), [], pushs)
  | g :: rest =>
    ' (r, g', pushs') <- junction_motion_worker g pushs spy ;;
    match r with
    | Err e => Ret (Err e, g' :: rest, pushs')
    | Ok o =>
      let count' := count + length (read_from o) in
      let finished' := finished ++ map (fun f => (gi, f)) (finished_pulls o) in
      if length (skipped o) <? length g' then
        Ret (Ok (Pass finished' true count'), g' :: rest, pushs')
      else
        ' (r', rest', pushs'') <- groups_loop rest (S gi) pushs' spy finished' count' ;;
        Ret (r', g' :: rest', pushs'')
    end
  end.

(** src/junction.rs 121-123: the removals, each followed by the drop of the removed pull *)
Fixpoint remove_all (fins : list (nat * nat)) (stdin : list (list pull)) : prog (list (list pull)) :=
  match fins with
  | [] => Ret stdin
  | (i0, i1) :: rest =>
    match remove_vec_vec_index stdin i0 i1 with
    | (Some p, stdin') => drop_pull p ;;; remove_all rest stdin'
    | (None, stdin') => remove_all rest stdin'
    end
  end.

Definition junction_state := (list (list pull) * list push * back_off)%type.

(** src/junction.rs 100-138: result (with what [Ok] carries) and the new state *)
Definition junction_iteration (s : junction_state) (spy : option nat) : prog (mres (bool * nat) * junction_state) :=
  let '(stdin, stdout, bo) := s in
  ' (r, stdin1, stdout1) <- groups_loop stdin 0 stdout spy [] 0 ;;
  match r with
  | Err e => Ret (Err e, (stdin1, stdout1, bo))
  | Ok ps =>
    stdin2 <- remove_all (rev (ps_finished ps)) stdin1 ;;
    match remove_vec_vec stdin2 with
    | [] =>
      c <- close_all stdout1 ;;
      match c with
      | Err e => Ret (Err e, ([], stdout1, bo))
      | Ok _ => Ret (Ok (true, ps_count ps), ([], stdout1, bo))
      end
    | stdin3 =>
      ' (_, bo') <- (if ps_any_read ps then Ret (back_off_reset bo) else back_off_wait bo) ;;
      Ret (Ok (false, ps_count ps), (stdin3, stdout1, bo'))
    end
  end.

(** src/junction.rs 170-182: one turn of the loop of [start]; on an error [self.stdin.clear()]
    drops the pulls that are left *)
Definition junction_body (spy : option nat) (s : junction_state * nat) : prog ((junction_state * nat) + mres nat) :=
  let '(st, count) := s in
  ' (r, st') <- junction_iteration st spy ;;
  match r with
  | Ok (true, n) => Ret (inr (Ok (count + n)))
  | Ok (false, n) => Ret (inl (st', count + n))
  | Err e => drop_pulls (concat (fst (fst st'))) ;;; Ret (inr (Err e))
  end.

(** src/junction.rs 162-184 *)
Definition junction_start (j : junction) (spy : option nat) : prog (mres nat) :=
  if jn_started j then Panic "assertion failed: !self.started"
  else
    let j' := initialize_stdin j in
    iter (junction_body spy) ((jn_stdin j', jn_stdout j', back_off_new), 0).
