(** * P_Machine: copying as a machine

    The copy loop from a channel or byte source to a real output, as a machine that is always at one of a few
    named places.  [motion_machine]: the program and the machine perform the same traces. *)
From Coq Require Import Ascii String List Bool Arith Lia.
From Verif Require Import M_Prog P_Prog P_Exec M_Motion S_Trace S_Lines S_Motion P_Split.
Import ListNotations.

(** ** Programs with the same traces *)
Definition same {A} (p q : prog A) : Prop := forall tr st, exec p tr st <-> exec q tr st.
Lemma same_refl {A} (p : prog A) : same p p.
Proof. intros tr st. reflexivity. Qed.
Lemma same_sym {A} (p q : prog A) : same p q -> same q p.
Proof. intros H tr st. symmetry. apply H. Qed.
Lemma same_trans {A} (p q r : prog A) : same p q -> same q r -> same p r.
Proof. intros H1 H2 tr st. rewrite (H1 tr st). apply H2. Qed.
Lemma same_tau {A} (p : prog A) : same (Tau p) p.
Proof. intros tr st. split; intro H; [inversion H; subst; assumption|now constructor]. Qed.
Lemma same_vis {A} e (k k' : ans -> prog A) : (forall a, wt e a = true -> same (k a) (k' a)) -> same (Vis e k) (Vis e k').
Proof.
  intros H tr st. split; intro HX; apply exec_vis_inv in HX; destruct HX as [[-> ->]|(a & rest & -> & Hwt & HX)]; constructor; auto; now apply (H a Hwt).
Qed.
Lemma same_bind {A B} (p q : prog A) (k k' : A -> prog B) : same p q -> (forall a, same (k a) (k' a)) -> same (bind p k) (bind q k').
Proof.
  intros Hp Hk tr st. split; intro HX; destruct (exec_bind_inv _ _ _ _ HX) as [(t1 & t2 & x & -> & H1 & H2)|[(e & -> & H1)|(s & -> & H1)]].
  - apply (exec_bind_intro _ _ _ x); [now apply Hp|now apply Hk].
  - apply exec_bind_at. now apply Hp.
  - apply exec_bind_panic. now apply Hp.
  - apply (exec_bind_intro _ _ _ x); [now apply Hp|now apply Hk].
  - apply exec_bind_at. now apply Hp.
  - apply exec_bind_panic. now apply Hp.
Qed.
Lemma bind_vis {A B} e (k : ans -> prog A) (f : A -> prog B) : bind (Vis e k) f = Vis e (fun a => bind (k a) f).
Proof. now rewrite bind_eq. Qed.
Lemma bind_panic {A B} s (f : A -> prog B) : bind (Panic s) f = Panic s.
Proof. now rewrite bind_eq. Qed.

(** A program that needs no answers. *)
Lemma drive_only {A} fuel : forall (p : prog A) r, drive fuel p [] = Some ([], Done r) -> forall tr st, exec p tr st -> tr = [] /\ st = Done r.
Proof.
  induction fuel as [|fuel IH]; intros p r HD tr st HX; [discriminate HD|]. cbn in HD. destruct p as [a|s|q|e k]; try discriminate HD.
  - injection HD as <-. now apply exec_ret_inv in HX.
  - inversion HX; subst. eapply IH; eassumption.
Qed.

(** ** The machine *)
Section Machine.
Variables (pl0 : pull) (mon : notifications) (spy : option nat) (ps : push).

(** Where it may stand: about to read (with the unfinished bytes and where to look on), to report a read, to write, to tell the spy, to
    report a write, to close its output, and so on to the end. *)
Inductive place :=
| LRead (ov : bytes) (start : nat) (cnt : nat)
| LNoteR (x : iodw) (ov : bytes) (cnt : nat)
| LWrite (d : bytes) (ov : bytes) (cnt : nat)
| LSpy (x : iodw) (dec : bool) (ov : bytes) (cnt : nat)
| LNoteW (x : iodw) (dec : bool) (ov : bytes) (cnt : nat)
| LShut (ov : bytes) (cnt : nat)
| LShutR (ov : bytes) (cnt : nat)
| LShutW (ov : bytes) (cnt : nat)
| LDropIn (r : mres nat)
| LDropOut (r : mres nat)
| LDropR (r : mres nat)
| LDropW (r : mres nat)
| LDone (r : mres nat).

Definition go_dropW (r : mres nat) : place := match mon_written mon with Some _ => LDropW r | None => LDone r end.
Definition go_dropR (r : mres nat) : place := match mon_read mon with Some _ => LDropR r | None => go_dropW r end.
Definition go_shutW (ov : bytes) (cnt : nat) : place := match mon_written mon with Some _ => LShutW ov cnt | None => LDropIn (Ok cnt) end.
Definition go_shutR (ov : bytes) (cnt : nat) : place := match mon_read mon with Some _ => LShutR ov cnt | None => go_shutW ov cnt end.
Definition splits : list bytes := match pl0 with PlBytes _ _ _ sc => split_at sc | _ => [] end.

(** After a message has been had. *)
Definition go_write (x : iodw) (ov : bytes) (cnt : nat) (spying : iodw -> bool -> bytes -> nat -> place) : place :=
  match x with IOData d => LWrite d ov cnt | _ => spying x false ov cnt end.
Definition go_noteR (x : iodw) (ov : bytes) (cnt : nat) (spying : iodw -> bool -> bytes -> nat -> place) : place :=
  match mon_read mon with Some _ => LNoteR x ov cnt | None => go_write x ov cnt spying end.
Definition go_read0 (ov : bytes) (start cnt : nat) (spying : iodw -> bool -> bytes -> nat -> place) : place :=
  match pl0 with
  | PlBytes _ _ _ _ =>
    match scan splits (skipn start ov) start start with
    | (_, Some e) => go_noteR (do_match_stuff (firstn e ov)) (skipn e ov) cnt spying
    | (start', None) => LRead ov start' cnt
    end
  | _ => LRead ov start cnt
  end.
(** The turn of the loop: only data is written, so a round that wrote nothing is the last. *)
Definition go_after (x : iodw) (dec : bool) (ov : bytes) (cnt : nat) (again : bytes -> nat -> place) : place :=
  if dec || is_finished x then LShut ov (S cnt) else again ov (S cnt).
Definition go_noteW (x : iodw) (dec : bool) (ov : bytes) (cnt : nat) (again : bytes -> nat -> place) : place :=
  match mon_written mon with Some _ => LNoteW x dec ov cnt | None => go_after x dec ov cnt again end.
Definition go_spy (x : iodw) (dec : bool) (ov : bytes) (cnt : nat) (again : bytes -> nat -> place) : place :=
  match spy, push_journey ps with
  | Some _, Some (J _ (Some _) _ _) => LSpy x dec ov cnt
  | _, _ => go_noteW x dec ov cnt again
  end.
(** Finished never goes round again. *)
Definition spy_last (x : iodw) (dec : bool) (ov : bytes) (cnt : nat) : place := go_spy x dec ov cnt (fun ov cnt => LShut ov cnt).
Definition go_read (ov : bytes) (start cnt : nat) : place := go_read0 ov start cnt spy_last.
Definition go_again (ov : bytes) (cnt : nat) : place := go_read ov 0 cnt.

(** The effect the machine is about to have, or its result. *)
Definition view (s : place) : eff + mres nat :=
  match s with
  | LRead _ _ _ => inl match pl0 with PlBytes _ _ f _ => ERead f | PlReceiver _ n => ERecv (CData n) | _ => EStatus end
  | LNoteR _ _ _ => match mon_read mon with Some m => inl (ESend (CMon m) VRead) | None => inr (Err NoneError) end
  | LWrite d _ _ => match write_eff ps d with Some e => inl e | None => inr (Err NoneError) end
  | LSpy x _ _ _ =>
    match spy, push_journey ps with
    | Some s, Some (J src (Some port) dst _) => inl (ESend (CSpy s) (VSpy src dst port x))
    | _, _ => inr (Err NoneError)
    end
  | LNoteW _ _ _ _ => match mon_written mon with Some m => inl (ESend (CMon m) VWrote) | None => inr (Err NoneError) end
  | LShut _ _ =>
    match ps with PsSender _ n | PsIoSender _ n => inl (EClose (CData n)) | PsBytes _ _ f => inl (EFlush f) | _ => inr (Err NoneError) end
  | LShutR _ _ | LDropR _ => match mon_read mon with Some m => inl (EClose (CMon m)) | None => inr (Err NoneError) end
  | LShutW _ _ | LDropW _ => match mon_written mon with Some m => inl (EClose (CMon m)) | None => inr (Err NoneError) end
  | LDropIn _ => inl match pl0 with PlBytes _ _ f _ => EDropFd f | PlReceiver _ n => EClose (CData n) | _ => EStatus end
  | LDropOut _ =>
    match ps with PsSender _ n | PsIoSender _ n => inl (EClose (CData n)) | PsBytes _ _ f => inl (EDropFd f) | _ => inr (Err NoneError) end
  | LDone r => inr r
  end.

Definition jr : pjourney := match pull_journey pl0 with Some j => j | None => PJ 0 0 end.
Definition jw : journey := match push_journey ps with Some j => j | None => J 0 None 0 Terminate end.

Definition next (s : place) (a : ans) : place :=
  match s with
  | LRead ov start cnt =>
    match a with
    | AMsg (VData d) => go_noteR (IOData d) ov cnt spy_last
    | AClosed => go_noteR Finished ov cnt spy_last
    | AData [] => go_noteR (do_match_stuff ov) [] cnt spy_last
    | AData d => go_read (ov ++ d) start cnt
    | _ => LDropIn (Err (ReadIOError jr))
    end
  | LNoteR x ov cnt =>
    match a with AOk => go_write x ov cnt spy_last | _ => LDropIn (Err (MonitorReadError (pj_src jr))) end
  | LWrite d ov cnt =>
    match a with
    | AOk => go_spy (IOData d) false ov cnt go_again
    | AErr => LDropIn (Err (WriteIOError jw d))
    | _ =>
      match push_brk ps with
      | Terminate => LDropIn (Err (OutputClosed jw (match ps with PsBytes _ _ _ => BrokenPipe | _ => ChannelClosed end) d))
      | Finish => go_spy (IOData d) true ov cnt go_again
      | Consume => go_spy (IOData d) false ov cnt go_again
      end
    end
  | LSpy x dec ov cnt =>
    match a with
    | AOk => go_noteW x dec ov cnt go_again
    | _ => LDropIn (Err (match push_journey ps with Some (J src (Some port) dst _) => SpyWriteError src dst port x | _ => NoneError end))
    end
  | LNoteW x dec ov cnt =>
    match a with AOk => go_after x dec ov cnt go_again | _ => LDropIn (Err (MonitorWriteError jr)) end
  | LShut ov cnt => match a with AOk => go_shutR ov cnt | _ => LDropIn (Err (CloseIOError jw)) end
  | LShutR ov cnt => go_shutW ov cnt
  | LShutW ov cnt => LDropIn (Ok cnt)
  | LDropIn r => LDropOut r
  | LDropOut r => go_dropR r
  | LDropR r => go_dropW r
  | LDropW r => LDone r
  | LDone r => LDone r
  end.

Inductive mexec : place -> trace -> status (mres nat) -> place -> Prop :=
| M_at : forall s e, view s = inl e -> mexec s [] (At e) s
| M_done : forall s r, view s = inr r -> mexec s [] (Done r) s
| M_step : forall s e a tr st s', view s = inl e -> wt e a = true -> mexec (next s a) tr st s' -> mexec s ((e, a) :: tr) st s'.

(** *** The programs that are left to run at each place *)
Definition pl_of (ov : bytes) : pull :=
  match pl0 with PlBytes k j f sc => PlBytes k j f (SC (split_at sc) ov) | _ => pl0 end.

Definition body_k (cnt : nat) : mres worker_result * pull * list push -> prog (motion_state + mres nat * pull * list push) :=
  fun x => match x with (r, pl', pushs') =>
  match r with
  | Err e => Ret (inr (Err e, pl', pushs'))
  | Ok w =>
    let count' := if wr_read w then S cnt else cnt in
    if wr_finished w then
      c <- close_all pushs' ;;
      match c with
      | Err e => Ret (inr (Err e, pl', pushs'))
      | Ok _ =>
        close_mon (mon_read mon) ;;;
        close_mon (mon_written mon) ;;;
        Ret (inr (Ok count', pl', pushs'))
      end
    else Ret (inl (pl', pushs', count'))
  end end.
Definition loop_k : motion_state + mres nat * pull * list push -> prog (mres nat * pull * list push) :=
  fun lr => match lr with inl i' => Tau (iter (motion_body mon spy) i') | inr r => Ret r end.
Definition drop_k : mres nat * pull * list push -> prog (mres nat) :=
  fun x => match x with (r, pl', pushs') =>
  drop_pull pl' ;;;
  drop_pushes pushs' ;;;
  close_mon (mon_read mon) ;;;
  close_mon (mon_written mon) ;;;
  Ret r end.
Definition outer (cnt : nat) (w : prog (mres worker_result * pull * list push)) : prog (mres nat) :=
  bind (bind (bind w (body_k cnt)) loop_k) drop_k.
Definition outer2 (w : prog (motion_state + mres nat * pull * list push)) : prog (mres nat) := bind (bind w loop_k) drop_k.

Definition write_k (pl' : pull) (x : iodw) : mres nat * list push -> prog (mres worker_result * pull * list push) :=
  fun y => match y with (wr, pushs') =>
      match wr with
      | Err e => Ret (Err e, pl', pushs')
      | Ok unfinished =>
        nw <- notify (mon_written mon) VWrote pl' MonitorWriteError ;;
        match nw with
        | Err e => Ret (Err e, pl', pushs')
        | Ok _ =>
          Ret (Ok (WR (if unfinished =? 0 then true else is_finished x) true), pl', pushs')
        end
      end end.
Definition note_k (pl' : pull) (x : iodw) : mres unit -> prog (mres worker_result * pull * list push) :=
  fun nr => match nr with
    | Err e => Ret (Err e, pl', [ps])
    | Ok _ => bind (worker_pushes spy x [ps] 1) (write_k pl' x)
    end.
Definition read_k : mres iodw * pull -> prog (mres worker_result * pull * list push) :=
  fun y => match y with (r, pl') =>
  match r with
  | Err e => Ret (Err e, pl', [ps])
  | Ok Skipped => Ret (Ok (WR false false), pl', [ps])
  | Ok data => bind (notify (mon_read mon) VRead pl' (fun j => MonitorReadError (pj_src j))) (note_k pl' data)
  end end.

Lemma worker_shape pl : motion_worker pl mon [ps] spy false = bind (motion_read pl false) read_k.
Proof. reflexivity. Qed.

(** reading on *)
Definition read_on (ov : bytes) (start : nat) : prog (mres iodw * pull) :=
  match pl0 with
  | PlBytes k j f sc =>
    ' (r, sc') <- (' (r, ov') <- read_loop f (split_at sc) ov start ;; Ret (r, SC (split_at sc) ov')) ;;
    match r with
    | Some v => Ret (Ok (do_match_stuff v), PlBytes k j f sc')
    | None => Ret (Err (ReadIOError j), PlBytes k j f sc')
    end
  | _ => motion_read pl0 false
  end.

Lemma read_on_start ov : motion_read (pl_of ov) false = read_on ov 0.
Proof. unfold pl_of, read_on. destruct pl0; reflexivity. Qed.

Definition spy_k (pl' : pull) (x : iodw) (dec : bool) (s : mres unit) : prog (mres worker_result * pull * list push) :=
  bind (match s with
      | Err e => Ret (Err e, [ps])
      | Ok _ =>
        ' (r', rest') <- worker_pushes spy x [] (if dec then 0 else 1) ;;
        Ret (r', ps :: rest')
      end) (write_k pl' x).

Definition drops1 (r : mres nat) : prog (mres nat) := drop_pull pl0 ;;; drop_pushes [ps] ;;; close_mon (mon_read mon) ;;; close_mon (mon_written mon) ;;; Ret r.
Definition drops2 (r : mres nat) : prog (mres nat) := drop_pushes [ps] ;;; close_mon (mon_read mon) ;;; close_mon (mon_written mon) ;;; Ret r.
Definition drops3 (r : mres nat) : prog (mres nat) := close_mon (mon_read mon) ;;; close_mon (mon_written mon) ;;; Ret r.
Definition drops4 (r : mres nat) : prog (mres nat) := close_mon (mon_written mon) ;;; Ret r.

Definition shut_k (ov : bytes) (cnt : nat) (c : mres unit) : prog (motion_state + mres nat * pull * list push) :=
      match c with
      | Err e => Ret (inr (Err e, pl_of ov, [ps]))
      | Ok _ =>
        close_mon (mon_read mon) ;;;
        close_mon (mon_written mon) ;;;
        Ret (inr (Ok cnt, pl_of ov, [ps]))
      end.

Definition noted (x : iodw) (dec : bool) (ov : bytes) (nw : mres unit) : prog (mres worker_result * pull * list push) :=
  match nw with
  | Err e => Ret (Err e, pl_of ov, [ps])
  | Ok _ => Ret (Ok (WR (if (if dec then 0 else 1) =? 0 then true else is_finished x) true), pl_of ov, [ps])
  end.

Definition left_at (s : place) : prog (mres nat) :=
  match s with
  | LRead ov start cnt => outer cnt (bind (match pl0 with
      | PlBytes k j f sc =>
        ' (r, sc') <- (' (r, ov') <- Vis (ERead f) (fun a =>
          match a with
          | AData [] => Ret (Some ov, [])
          | AData d => read_loop f splits (ov ++ d) start
          | AErr => Ret (None, ov)
          | _ => ill
          end) ;; Ret (r, SC (split_at sc) ov')) ;;
        match r with
        | Some v => Ret (Ok (do_match_stuff v), PlBytes k j f sc')
        | None => Ret (Err (ReadIOError j), PlBytes k j f sc')
        end
      | _ => motion_read pl0 false
      end) read_k)
  | LNoteR x ov cnt => outer cnt (bind (notify (mon_read mon) VRead (pl_of ov) (fun j => MonitorReadError (pj_src j))) (note_k (pl_of ov) x))
  | LWrite d ov cnt => outer cnt (bind (worker_pushes spy (IOData d) [ps] 1) (write_k (pl_of ov) (IOData d)))
  | LSpy x dec ov cnt => outer cnt (bind (worker_spy spy x ps) (spy_k (pl_of ov) x dec))
  | LNoteW x dec ov cnt => outer cnt (bind (notify (mon_written mon) VWrote (pl_of ov) MonitorWriteError) (noted x dec ov))
  | LShut ov cnt => outer2 (bind (close_all [ps]) (shut_k ov cnt))
  | LShutR ov cnt => outer2 (close_mon (mon_read mon) ;;; close_mon (mon_written mon) ;;; Ret (inr (Ok cnt, pl_of ov, [ps])))
  | LShutW ov cnt => outer2 (close_mon (mon_written mon) ;;; Ret (inr (Ok cnt, pl_of ov, [ps])))
  | LDropIn r => drops1 r
  | LDropOut r => drops2 r
  | LDropR r => drops3 r
  | LDropW r => drops4 r
  | LDone r => Ret r
  end.

Hypothesis Hin : match pl0 with PlBytes _ _ _ _ | PlReceiver _ _ => True | _ => False end.
Hypothesis Hout : real_push ps.

Lemma drop_pl ov : drop_pull (pl_of ov) = drop_pull pl0.
Proof. unfold pl_of. destruct pl0; reflexivity. Qed.

Lemma left_dropW r : left_at (go_dropW r) = drops4 r.
Proof. unfold go_dropW, drops4. destruct (mon_written mon) eqn:E; cbn [left_at]; [unfold drops4; now rewrite E|]. cbn [close_mon]. now rewrite bind_ret. Qed.
Lemma left_dropR r : left_at (go_dropR r) = drops3 r.
Proof.
  unfold go_dropR. destruct (mon_read mon) eqn:E; cbn [left_at]; [reflexivity|]. rewrite left_dropW. unfold drops3. rewrite E. cbn [close_mon]. now rewrite bind_ret.
Qed.
Lemma outer2_err r ov : outer2 (Ret (inr (r, pl_of ov, [ps]))) = drops1 r.
Proof. unfold outer2. rewrite bind_ret. unfold loop_k at 1. rewrite bind_ret. unfold drop_k. now rewrite drop_pl. Qed.
Lemma outer_err e ov cnt : outer cnt (Ret (Err e, pl_of ov, [ps])) = left_at (LDropIn (Err e)).
Proof. unfold outer. rewrite bind_ret. exact (outer2_err (Err e) ov). Qed.

Lemma left_shutW ov cnt : left_at (go_shutW ov cnt) = left_at (LShutW ov cnt).
Proof. unfold go_shutW. destruct (mon_written mon) eqn:E; [reflexivity|]. cbn [left_at]. rewrite E. cbn [close_mon]. rewrite bind_ret. now rewrite outer2_err. Qed.
Lemma left_shutR ov cnt : left_at (go_shutR ov cnt) = left_at (LShutR ov cnt).
Proof. unfold go_shutR. destruct (mon_read mon) eqn:E; [reflexivity|]. rewrite left_shutW. cbn [left_at]. rewrite E. cbn [close_mon]. now rewrite bind_ret. Qed.

Lemma left_again ov cnt : same (outer cnt (bind (read_on ov 0) read_k)) (bind (bind (Ret (inl (pl_of ov, [ps], cnt))) loop_k) drop_k).
Proof.
  rewrite bind_ret. change (loop_k (inl (pl_of ov, [ps], cnt))) with (Tau (iter (motion_body mon spy) (pl_of ov, [ps], cnt))). apply same_sym. eapply same_trans; [apply same_bind; [apply same_tau|intro; apply same_refl]|].
  rewrite iter_eq. unfold outer, motion_body at 1. rewrite worker_shape, read_on_start. apply same_refl.
Qed.

Definition rest (cnt : nat) (ov : bytes) : prog (mres nat) := bind (bind (Ret (inl (pl_of ov, [ps], cnt))) loop_k) drop_k.

Section Again.
Variable again : bytes -> nat -> place.

Lemma left_after x dec ov cnt : (dec || is_finished x = false -> same (left_at (again ov (S cnt))) (rest (S cnt) ov)) ->
  same (left_at (go_after x dec ov cnt again)) (outer cnt (noted x dec ov (Ok tt))).
Proof.
  intro HA. unfold go_after. unfold noted, outer. rewrite bind_ret. unfold body_k. cbn [wr_read wr_finished].
  replace (if (if dec then 0 else 1) =? 0 then true else is_finished x) with (dec || is_finished x) by (destruct dec; reflexivity).
  destruct (dec || is_finished x); [apply same_refl|]. apply HA. reflexivity.
Qed.

Lemma left_noteW x dec ov cnt : (dec || is_finished x = false -> same (left_at (again ov (S cnt))) (rest (S cnt) ov)) ->
  same (left_at (go_noteW x dec ov cnt again)) (left_at (LNoteW x dec ov cnt)).
Proof.
  intro HA. unfold go_noteW. destruct (mon_written mon) eqn:E; [apply same_refl|]. eapply same_trans; [now apply left_after|].
  cbn [left_at]. rewrite E. cbn [notify]. rewrite bind_ret. apply same_refl.
Qed.

Lemma spied x dec ov cnt : outer cnt (spy_k (pl_of ov) x dec (Ok tt)) = left_at (LNoteW x dec ov cnt).
Proof. unfold spy_k. cbn [worker_pushes]. rewrite !bind_ret. destruct dec; reflexivity. Qed.

Lemma left_spy x dec ov cnt : (dec || is_finished x = false -> same (left_at (again ov (S cnt))) (rest (S cnt) ov)) ->
  same (left_at (go_spy x dec ov cnt again)) (left_at (LSpy x dec ov cnt)).
Proof.
  intro HA. assert (G : same (left_at (go_noteW x dec ov cnt again)) (outer cnt (bind (Ret (Ok tt)) (spy_k (pl_of ov) x dec)))).
  { rewrite bind_ret, spied. now apply left_noteW. }
  unfold go_spy. cbn [left_at]. unfold worker_spy. destruct spy as [s|] eqn:Es; [|exact G].
  destruct (push_journey ps) as [[src [port|] dst brk]|] eqn:Ej; try exact G.
  cbn [left_at]. unfold worker_spy. rewrite Es, Ej. apply same_refl.
Qed.
End Again.

Lemma left_write x ov cnt : x <> Skipped -> same (left_at (go_write x ov cnt spy_last)) (outer cnt (bind (worker_pushes spy x [ps] 1) (write_k (pl_of ov) x))).
Proof.
  intro Hx. destruct x as [d| |]; cbn [go_write]; [apply same_refl| |congruence].
  eapply same_trans; [apply left_spy; discriminate|]. cbn [left_at]. cbn [worker_pushes].
  assert (E : worker_write Finished ps = Ret (Ok false, ps)) by (unfold worker_write; destruct (push_brk ps); reflexivity).
  rewrite E, bind_ret. unfold outer. apply same_bind; [|intro; apply same_refl]. apply same_bind; [|intro; apply same_refl]. apply same_bind; [|intro; apply same_refl].
  unfold worker_spy. destruct spy as [s|]; [destruct (push_journey ps) as [[src [port|] dst brk]|]|]; rewrite ?bind_ret; try (unfold spy_k; cbn [worker_pushes]; rewrite !bind_ret; apply same_refl).
  unfold send. rewrite !bind_vis. apply same_vis. intros a Hwt. destruct a; try discriminate Hwt; unfold spy_k; cbn [worker_pushes]; rewrite !bind_ret; apply same_refl.
Qed.

Lemma left_noteR x ov cnt : x <> Skipped -> same (left_at (go_noteR x ov cnt spy_last)) (left_at (LNoteR x ov cnt)).
Proof.
  intro Hx. unfold go_noteR. destruct (mon_read mon) eqn:E; [apply same_refl|]. eapply same_trans; [now apply left_write|].
  cbn [left_at]. rewrite E. cbn [notify]. rewrite bind_ret. apply same_refl.
Qed.

Lemma read_k_data pl' x : x <> Skipped -> read_k (Ok x, pl') = bind (notify (mon_read mon) VRead pl' (fun j => MonitorReadError (pj_src j))) (note_k pl' x).
Proof. destruct x; [reflexivity|reflexivity|congruence]. Qed.
Lemma match_stuff d : do_match_stuff d <> Skipped.
Proof. destruct d; discriminate. Qed.

Lemma left_read ov start cnt : same (left_at (go_read ov start cnt)) (outer cnt (bind (read_on ov start) read_k)).
Proof.
  unfold go_read, go_read0, read_on. case_eq pl0; [intros k j f sc Epl|intros j n Epl|intros j q Epl|intros Epl]; try (exfalso; rewrite Epl in Hin; exact Hin).
  - rewrite read_loop_eq. unfold splits. rewrite Epl. destruct (scan (split_at sc) (skipn start ov) start start) as [start' [e|]] eqn:Es.
    + eapply same_trans; [apply left_noteR, match_stuff|]. rewrite !bind_ret. rewrite read_k_data by apply match_stuff. cbn [left_at]. unfold pl_of. rewrite Epl. apply same_refl.
    + cbn [left_at]. rewrite Epl. unfold splits. rewrite Epl. apply same_refl.
  - cbn [left_at]. rewrite Epl. apply same_refl.
Qed.

Lemma left_go_again ov cnt : same (left_at (go_again ov cnt)) (rest cnt ov).
Proof. eapply same_trans; [apply left_read|]. apply left_again. Qed.

Definition stepping (s : place) : prog (mres nat) :=
  match view s with inl e => Vis e (fun a => left_at (next s a)) | inr r => Ret r end.

Definition valid (s : place) : Prop :=
  match s with
  | LNoteR x _ _ => x <> Skipped /\ mon_read mon <> None
  | LSpy x _ _ _ => x <> Skipped /\ match spy, push_journey ps with Some _, Some (J _ (Some _) _ _) => True | _, _ => False end
  | LNoteW x _ _ _ => x <> Skipped /\ mon_written mon <> None
  | LShutR _ _ | LDropR _ => mon_read mon <> None
  | LShutW _ _ | LDropW _ => mon_written mon <> None
  | _ => True
  end.

Lemma pull_j ov : pull_journey (pl_of ov) = Some (jr).
Proof. unfold pl_of, jr. destruct pl0; try contradiction; reflexivity. Qed.
Lemma push_j : push_journey ps = Some jw.
Proof. unfold jw. destruct ps; try contradiction; reflexivity. Qed.

Lemma left_step s : valid s -> same (left_at s) (stepping s).
Proof.
  intro HV. unfold stepping. destruct s as [ov start cnt|x ov cnt|d ov cnt|x dec ov cnt|x dec ov cnt|ov cnt|ov cnt|ov cnt|r|r|r|r|r]; cbn [view].
  - cbn [left_at]. case_eq pl0; [intros k j f sc Epl|intros j n Epl|intros j q Epl|intros Epl]; try (exfalso; rewrite Epl in Hin; exact Hin).
    + unfold outer. rewrite !bind_vis. apply same_vis. intros a Hwt. destruct a; try discriminate Hwt; cbn [next].
      * rewrite !bind_ret. unfold read_k. assert (E : PlBytes k j f (SC (split_at sc) ov) = pl_of ov) by (unfold pl_of; rewrite Epl; reflexivity).
        rewrite E. replace (ReadIOError jr) with (ReadIOError j) by (unfold jr; rewrite Epl; reflexivity).
        rewrite <- (outer_err (ReadIOError j) ov cnt). apply same_refl.
      * destruct d as [|c d].
        -- apply same_sym. eapply same_trans; [apply left_noteR, match_stuff|]. rewrite !bind_ret. rewrite read_k_data by apply match_stuff. cbn [left_at].
           unfold pl_of. rewrite Epl. apply same_refl.
        -- apply same_sym. eapply same_trans; [apply left_read|]. unfold read_on. rewrite Epl. unfold splits. rewrite Epl. apply same_refl.
    + unfold outer. cbn [motion_read]. unfold recv_data. rewrite !bind_vis. apply same_vis. intros a Hwt. destruct a; try discriminate Hwt; cbn [next].
      * destruct v; try discriminate Hwt. apply same_sym. eapply same_trans; [apply left_noteR; discriminate|]. rewrite !bind_ret. rewrite read_k_data by discriminate.
        cbn [left_at]. unfold pl_of. rewrite Epl. apply same_refl.
      * apply same_sym. eapply same_trans; [apply left_noteR; discriminate|]. rewrite !bind_ret. rewrite read_k_data by discriminate.
        cbn [left_at]. unfold pl_of. rewrite Epl. apply same_refl.
  - cbn [left_at]. destruct HV as [Hx HV]. destruct (mon_read mon) as [m|] eqn:E; [|congruence]. cbn [notify]. unfold send, outer. rewrite !bind_vis. apply same_vis.
    intros a Hwt. destruct a; try discriminate Hwt; cbn [next].
    + rewrite pull_j, !bind_ret. unfold note_k. rewrite <- (outer_err _ ov cnt). apply same_refl.
    + rewrite !bind_ret. apply same_sym. eapply same_trans; [now apply left_write|]. apply same_refl.
  - cbn [left_at worker_pushes]. assert (EW : exists e, write_eff ps d = Some e) by (destruct ps; try contradiction; cbn; eauto). destruct EW as [e EW]. rewrite EW.
    assert (K : forall dec : bool, same (outer cnt (bind (bind (worker_spy spy (IOData d) ps) (fun s => match s with
      | Err e => Ret (@Err nat merror e, [ps])
      | Ok _ => Ret (Ok (if dec then 1 - 1 else 1), [ps])
      end)) (write_k (pl_of ov) (IOData d)))) (left_at (go_spy (IOData d) dec ov cnt go_again))).
    { intro dec. apply same_sym. eapply same_trans; [apply left_spy; intros _; apply left_go_again|]. cbn [left_at].
      unfold outer. apply same_bind; [|intro; apply same_refl]. apply same_bind; [|intro; apply same_refl]. apply same_bind; [|intro; apply same_refl].
      unfold worker_spy. destruct spy as [s|]; [destruct (push_journey ps) as [[src [port|] dst brk]|]|]; rewrite ?bind_ret; try (unfold spy_k; cbn [worker_pushes]; rewrite !bind_ret; destruct dec; apply same_refl).
      unfold send. rewrite !bind_vis. apply same_vis. intros a Hwt. destruct a; try discriminate Hwt; unfold spy_k; cbn [worker_pushes]; rewrite !bind_ret; destruct dec; apply same_refl. }
    assert (KE : forall er, outer cnt (bind (Ret (Err er, [ps])) (write_k (pl_of ov) (IOData d))) = left_at (LDropIn (Err er))).
    { intro er. rewrite bind_ret. unfold write_k. apply outer_err. }
    pose proof push_j as EJ. cbn [worker_pushes] in K.
    unfold worker_write. assert (EB : push_brk ps = j_brk jw) by (unfold push_brk; rewrite EJ; reflexivity).
    destruct ps as [j q|k j f|j n|j n|] eqn:Eps; try contradiction; cbn [write_eff] in EW; injection EW as <-; cbn [push_journey] in EJ; injection EJ as EJ;
      cbn [motion_write]; unfold send, write_all, outer.
    + destruct (push_brk (PsBytes k j f)) eqn:Eb; rewrite !bind_vis; apply same_vis; intros a Hwt; destruct a; try discriminate Hwt; rewrite !bind_ret; cbn [next]; rewrite ?Eps, ?Eb; rewrite <- ?EJ.
      all: try exact (K true); try exact (K false). all: rewrite <- KE, bind_ret; apply same_refl.
    + destruct (push_brk (PsSender j n)) eqn:Eb; rewrite !bind_vis; apply same_vis; intros a Hwt; destruct a; try discriminate Hwt; rewrite !bind_ret; cbn [next]; rewrite ?Eps, ?Eb; rewrite <- ?EJ.
      all: try exact (K true); try exact (K false). all: rewrite <- KE, bind_ret; apply same_refl.
    + destruct (push_brk (PsIoSender j n)) eqn:Eb; rewrite !bind_vis; apply same_vis; intros a Hwt; destruct a; try discriminate Hwt; rewrite !bind_ret; cbn [next]; rewrite ?Eps, ?Eb; rewrite <- ?EJ.
      all: try exact (K true); try exact (K false). all: rewrite <- KE, bind_ret; apply same_refl.
  - cbn [left_at]. destruct HV as [Hx HV]. unfold worker_spy. destruct spy as [s|] eqn:Espy; [|contradiction]. destruct (push_journey ps) as [[src [port|] dst brk]|] eqn:Ej; try contradiction.
    unfold send, outer. rewrite !bind_vis. apply same_vis. intros a Hwt. destruct a; try discriminate Hwt; cbn [next]; rewrite !bind_ret.
    + unfold spy_k. rewrite bind_ret. rewrite Ej. rewrite <- (outer_err _ ov cnt). apply same_refl.
    + apply same_sym. eapply same_trans; [apply left_noteW; intros _; apply left_go_again|]. rewrite <- spied. apply same_refl.
  - cbn [left_at]. destruct HV as [Hx HV]. destruct (mon_written mon) as [m|] eqn:E; [|congruence]. cbn [notify]. unfold send, outer. rewrite !bind_vis. apply same_vis.
    intros a Hwt. destruct a; try discriminate Hwt; cbn [next].
    + rewrite pull_j, !bind_ret. unfold noted at 1. rewrite <- (outer_err _ ov cnt). apply same_refl.
    + rewrite !bind_ret. apply same_sym. eapply same_trans; [apply left_after; intros _; apply left_go_again|]. apply same_refl.
  - cbn [left_at close_all]. pose proof push_j as EJ.
    destruct ps as [j q|k j f|j n|j n|] eqn:Eps; try contradiction; cbn [motion_close]; unfold flush, close, outer2; rewrite !bind_vis; apply same_vis; intros a Hwt;
      destruct a; try discriminate Hwt; cbn [next]; rewrite !bind_ret.
    all: try (rewrite left_shutR; apply same_refl). cbn [push_journey] in EJ. injection EJ as EJ. rewrite <- EJ.
    unfold shut_k. unfold loop_k. rewrite bind_ret. unfold drop_k. rewrite bind_ret, drop_pl. apply same_refl.
  - cbn [left_at valid] in *. destruct (mon_read mon) as [m|] eqn:E; [|congruence]. cbn [close_mon]. unfold close, outer2. rewrite !bind_vis. apply same_vis.
    intros a Hwt. destruct a; try discriminate Hwt. cbn [next]. rewrite left_shutW, !bind_ret. apply same_refl.
  - cbn [left_at valid] in *. destruct (mon_written mon) as [m|] eqn:E; [|congruence]. cbn [close_mon]. unfold close, outer2. rewrite !bind_vis. apply same_vis.
    intros a Hwt. destruct a; try discriminate Hwt. cbn [next]. rewrite !bind_ret. cbn [left_at]. rewrite <- (outer2_err _ ov). unfold outer2. rewrite bind_ret. apply same_refl.
  - cbn [left_at]. unfold drops1. case_eq pl0; [intros k j f sc Epl|intros j n Epl|intros j q Epl|intros Epl]; try (exfalso; rewrite Epl in Hin; exact Hin); cbn [drop_pull]; unfold drop_fd, close; rewrite bind_vis; apply same_vis;
      intros a Hwt; destruct a; try discriminate Hwt; rewrite bind_ret; apply same_refl.
  - cbn [left_at]. unfold drops2. cbn [drop_pushes]. destruct ps as [j q|k j f|j n|j n|] eqn:Eps; try contradiction; cbn [drop_push]; unfold drop_fd, close; rewrite !bind_vis; apply same_vis;
      intros a Hwt; destruct a; try discriminate Hwt; rewrite !bind_ret; cbn [next]; rewrite left_dropR; apply same_refl.
  - cbn [left_at valid] in *. unfold drops3. destruct (mon_read mon) as [m|] eqn:E; [|congruence]. cbn [close_mon]. unfold close. rewrite bind_vis. apply same_vis.
    intros a Hwt. destruct a; try discriminate Hwt. cbn [next]. rewrite left_dropW, bind_ret. apply same_refl.
  - cbn [left_at valid] in *. unfold drops4. destruct (mon_written mon) as [m|] eqn:E; [|congruence]. cbn [close_mon]. unfold close. rewrite bind_vis. apply same_vis.
    intros a Hwt. destruct a; try discriminate Hwt. cbn [next]. rewrite bind_ret. apply same_refl.
  - apply same_refl.
Qed.

(** *** The machine stays at valid places *)
Lemma valid_dropR r : valid (go_dropR r).
Proof. unfold go_dropR, go_dropW. destruct (mon_read mon) eqn:E; [cbn; congruence|]. destruct (mon_written mon) eqn:E'; cbn; [congruence|exact I]. Qed.
Lemma valid_dropW r : valid (go_dropW r).
Proof. unfold go_dropW. destruct (mon_written mon) eqn:E'; cbn; [congruence|exact I]. Qed.
Lemma valid_shutW ov cnt : valid (go_shutW ov cnt).
Proof. unfold go_shutW. destruct (mon_written mon) eqn:E; cbn; [congruence|exact I]. Qed.
Lemma valid_shutR ov cnt : valid (go_shutR ov cnt).
Proof. unfold go_shutR. destruct (mon_read mon) eqn:E; [cbn; congruence|apply valid_shutW]. Qed.
Lemma valid_after x dec ov cnt again : valid (again ov (S cnt)) -> valid (go_after x dec ov cnt again).
Proof. intro H. unfold go_after. destruct (dec || is_finished x); [exact I|exact H]. Qed.
Lemma valid_noteW x dec ov cnt again : x <> Skipped -> valid (again ov (S cnt)) -> valid (go_noteW x dec ov cnt again).
Proof. intros Hx H. unfold go_noteW. destruct (mon_written mon) eqn:E; [split; [exact Hx|congruence]|]. now apply valid_after. Qed.
Lemma valid_spy x dec ov cnt again : x <> Skipped -> valid (again ov (S cnt)) -> valid (go_spy x dec ov cnt again).
Proof.
  intros Hx H. unfold go_spy. destruct spy eqn:Es; [|now apply valid_noteW]. destruct (push_journey ps) as [[src [port|] dst brk]|] eqn:Ej; try now apply valid_noteW.
  cbn. rewrite Es, Ej. auto.
Qed.
Lemma valid_write x ov cnt : x <> Skipped -> valid (go_write x ov cnt spy_last).
Proof. intro Hx. destruct x; cbn [go_write]; [exact I| |congruence]. apply valid_spy; [discriminate|exact I]. Qed.
Lemma valid_noteR x ov cnt : x <> Skipped -> valid (go_noteR x ov cnt spy_last).
Proof. intro Hx. unfold go_noteR. destruct (mon_read mon) eqn:E; [split; [exact Hx|congruence]|now apply valid_write]. Qed.
Lemma valid_read ov start cnt : valid (go_read ov start cnt).
Proof.
  clear Hin Hout.
  unfold go_read, go_read0. destruct pl0; try exact I. destruct (scan splits (skipn start ov) start start) as [s' [e|]]; [apply valid_noteR, match_stuff|exact I].
Qed.
Lemma valid_next s e a : valid s -> view s = inl e -> wt e a = true -> valid (next s a).
Proof.
  intros HV He Hwt. destruct s as [ov start cnt|x ov cnt|d ov cnt|x dec ov cnt|x dec ov cnt|ov cnt|ov cnt|ov cnt|r|r|r|r|r]; cbn [next].
  - destruct a; try exact I.
    + destruct v; try exact I. apply valid_noteR. discriminate.
    + apply valid_noteR. discriminate.
    + destruct d; [apply valid_noteR, match_stuff|apply valid_read].
  - destruct HV. destruct a; try exact I. now apply valid_write.
  - assert (G : forall dec, valid (go_spy (IOData d) dec ov cnt go_again)) by (intro; apply valid_spy; [discriminate|apply valid_read]).
    destruct a; try exact I; try apply G; destruct (push_brk ps); try exact I; apply G.
  - destruct HV. destruct a; try exact I. apply valid_noteW; [assumption|apply valid_read].
  - destruct HV. destruct a; try exact I. apply valid_after. apply valid_read.
  - destruct a; try exact I. apply valid_shutR.
  - apply valid_shutW.
  - exact I.
  - exact I.
  - apply valid_dropR.
  - apply valid_dropW.
  - exact I.
  - exact I.
Qed.

Lemma left_machine tr : forall s st, valid s -> exec (left_at s) tr st -> exists s', mexec s tr st s' /\ valid s'.
Proof.
  induction tr as [|[e a] tr IH]; intros s st HV HX; apply (left_step s HV) in HX; unfold stepping in HX.
  - destruct (view s) as [e|r] eqn:E.
    + apply exec_vis_inv in HX. destruct HX as [[_ ->]|(a & rest & E' & _)]; [|discriminate E']. exists s. split; [now constructor|exact HV].
    + apply exec_ret_inv in HX. destruct HX as [_ ->]. exists s. split; [now constructor|exact HV].
  - destruct (view s) as [e'|r] eqn:E.
    + apply exec_vis_inv in HX. destruct HX as [[E' _]|(a' & rest & E' & Hwt & HX)]; [discriminate E'|]. injection E' as <- <- <-.
      destruct (IH _ _ (valid_next _ _ _ HV E Hwt) HX) as (s' & H1 & H2). exists s'. split; [|exact H2]. econstructor; eassumption.
    + apply exec_ret_inv in HX. destruct HX as [E' _]. discriminate E'.
Qed.
Lemma machine_left s tr st s' : mexec s tr st s' -> valid s -> exec (left_at s) tr st.
Proof.
  induction 1 as [s e E|s r E|s e a tr st s' E Hwt H IH]; intro HV; apply (left_step s HV); unfold stepping; rewrite E; constructor.
  - exact Hwt.
  - apply IH. eapply valid_next; eassumption.
Qed.

Definition start_place : place := match pl0 with PlBytes _ _ _ sc => go_read (overflow sc) 0 0 | _ => go_read [] 0 0 end.
Definition first_ov : bytes := match pl0 with PlBytes _ _ _ sc => overflow sc | _ => [] end.
Lemma start_place_eq : start_place = go_again first_ov 0.
Proof. unfold start_place, first_ov, go_again. destruct pl0; reflexivity. Qed.
Lemma valid_start : valid start_place.
Proof. clear Hin Hout. unfold start_place. destruct pl0; apply valid_read. Qed.

Lemma motion_left : same (motion pl0 mon spy ps) (left_at start_place).
Proof.
  rewrite start_place_eq. apply same_sym. eapply same_trans; [apply left_go_again|]. unfold rest. rewrite bind_ret. unfold loop_k.
  assert (E : pl_of first_ov = pl0) by (unfold pl_of, first_ov; destruct pl0 as [k j f [sa ov]|j n|j q|]; reflexivity). rewrite E.
  eapply same_trans; [apply same_bind; [apply same_tau|intro; apply same_refl]|]. apply same_refl.
Qed.

Theorem motion_machine tr st : exec (motion pl0 mon spy ps) tr st -> exists s, mexec start_place tr st s /\ valid s.
Proof. intro HX. apply left_machine; [apply valid_start|]. now apply motion_left. Qed.
Theorem machine_motion tr st s : mexec start_place tr st s -> exec (motion pl0 mon spy ps) tr st.
Proof. intro HX. apply motion_left. eapply machine_left; [exact HX|apply valid_start]. Qed.
End Machine.

(** ** Which effects a copy can have *)
Lemma mexec_view pl mon spy ps s tr st s' : mexec pl mon spy ps s tr st s' ->
  Forall (fun ev => exists s1, view pl mon spy ps s1 = inl (fst ev)) tr /\ match st with At e => exists s1, view pl mon spy ps s1 = inl e | _ => True end.
Proof.
  induction 1 as [s e E|s r E|s e a tr st s' E Hwt H [IH1 IH2]]; split; try constructor; eauto.
Qed.
Lemma view_data_send pl mon spy ps s n v : view pl mon spy ps s = inl (ESend (CData n) v) -> exists d, write_eff ps d = Some (ESend (CData n) v) /\ v = VData d.
Proof.
  destruct s; cbn; intro E.
  - destruct pl; discriminate E.
  - destruct (mon_read mon); discriminate E.
  - destruct (write_eff ps d) eqn:Ew; [|discriminate E]. injection E as ->. exists d. split; [exact Ew|]. destruct ps; cbn in Ew; try discriminate Ew; now injection Ew as _ <-.
  - destruct spy; [|discriminate E]. destruct (push_journey ps) as [[? [?|] ? ?]|]; discriminate E.
  - destruct (mon_written mon); discriminate E.
  - destruct ps; discriminate E.
  - destruct (mon_read mon); discriminate E.
  - destruct (mon_written mon); discriminate E.
  - destruct pl; discriminate E.
  - destruct ps; discriminate E.
  - destruct (mon_read mon); discriminate E.
  - destruct (mon_written mon); discriminate E.
  - discriminate E.
Qed.
