(** * S_Path: what comes from where, by the connections as they are written *)
From Coq Require Import Ascii String List Bool Arith ZArith.
From Verif Require Import M_Prog M_Motion M_Config M_Manip M_Regulator M_Faucet M_Drain M_Buffer M_Junction M_Launch M_Waiter S_Trace S_Lines S_Motion S_World S_Launch S_Regulator S_Drain S_Junction S_Network S_Net M_Start S_Grammar S_Manip S_Waiter S_Flow.
Import ListNotations.

(** The neighbours in the connections [m], one after the other. *)
Inductive spelled : connmap -> list (connection * connection) -> Prop :=
| Sp_none : spelled [] []
| Sp_more : forall k d l m ps, d = Connections l \/ (exists s, d = JoinString s /\ connection_text l s) -> spelled m ps -> spelled ((k, d) :: m) (neighbours l ++ ps).

(** The outputs that are written directly before the component [x], once for each time. *)
Definition output_at (a : connection) : list M_Manip.source := match output_of a with Some o => [((conn_type a, conn_name a), o)] | None => [] end.
Definition arrivals (ps : list (connection * connection)) (x : component) : list M_Manip.source :=
  flat_map (fun ab => if component_eqb (conn_type (snd ab), conn_name (snd ab)) x then output_at (fst ab) else []) ps.

(** What comes out of the output [s] comes from the outputs [ss] of faucets and programs: one of them appears as many times as there are ways. *)
Inductive comes_from (ps : list (connection * connection)) : M_Manip.source -> list M_Manip.source -> Prop :=
| CF_made : forall t n o, t = CFaucet \/ t = CLaunch -> comes_from ps ((t, n), o) [((t, n), o)]
| CF_passed : forall t n o sss, t = CRegulator \/ t = CBuffer \/ t = CJunction -> Forall2 (comes_from ps) (arrivals ps (t, n)) sss -> comes_from ps ((t, n), o) (concat sss).
(** What goes into the component [x] comes from [ss]. *)
Definition supplied (ps : list (connection * connection)) (x : component) (ss : list M_Manip.source) : Prop :=
  exists sss, Forall2 (comes_from ps) (arrivals ps x) sss /\ ss = concat sss.

Section Run.
Variables (c : config) (w : waiter) (cwd : option string) (vars : list (string * string)) (l : list nevent).
Notation net := (net_of cwd vars w).
Definition location (n : string) (m : list (string * string)) : string := match lookup n m with Some s => s | None => EmptyString end.
(** Number [k] of the run is the faucet, the drain, the program called [n] in the configuration. *)
Definition faucet_at (n : string) (k : nat) : Prop := exists f, lookup n (w_faucet w) = Some f /\ nth_error net k = Some (NFaucet f (location n (cf_faucet c))).
Definition drain_at (n : string) (k : nat) : Prop := exists d, lookup n (w_drain w) = Some d /\ nth_error net k = Some (NDrain d (location n (cf_drain c))).
Definition program_at (n : string) (k : nat) : Prop := exists la, lookup n (w_launch w) = Some la /\ nth_error net k = Some (NLaunch cwd vars la).

(** From what was read, the output [s] should carry [ms]. *)
Inductive has_given : M_Manip.source -> list bytes -> Prop :=
| HG_faucet : forall n k, faucet_at n k -> has_given ((CFaucet, n), POut) (read_from (own (4 * k) l))
| HG_out : forall n k fin fout ferr, program_at n k -> child_of (own (4 * k) l) = Some (fin, fout, ferr) -> has_given ((CLaunch, n), POut) (messages_of_reads (S_Trace.reads fout (own (4 * k + 2) l)))
| HG_err : forall n k fin fout ferr, program_at n k -> child_of (own (4 * k) l) = Some (fin, fout, ferr) -> has_given ((CLaunch, n), PErr) (messages_of_reads (S_Trace.reads ferr (own (4 * k + 3) l)))
| HG_exit : forall n k code m, program_at n k -> exit_told (own (4 * k) l) = [code] -> exit_text code m -> has_given ((CLaunch, n), PExit) [m]
| HG_none : forall n k o, program_at n k -> o = POut \/ o = PErr -> child_of (own (4 * k) l) = None -> has_given ((CLaunch, n), o) []
| HG_running : forall n k, program_at n k -> exit_told (own (4 * k) l) = [] -> has_given ((CLaunch, n), PExit) [].
(** [ms] has been written: by a drain to what it has opened; to the standard input of a program. *)
Inductive has_got : component -> list bytes -> Prop :=
| HO_drain : forall n k e f rest, drain_at n k -> opened_for (actual_destination (location n (cf_drain c))) = Some e -> own (4 * k) l = (e, AFd f) :: rest -> has_got (CDrain, n) (S_Trace.written f (own (4 * k) l))
| HO_program : forall n k fin fout ferr, program_at n k -> child_of (own (4 * k) l) = Some (fin, fout, ferr) -> has_got (CLaunch, n) (S_Trace.written fin (own (4 * k + 1) l)).
(** What gives on [s] has been read to its end. *)
Definition at_end (s : M_Manip.source) : Prop :=
  match s with
  | ((CFaucet, n), _) => exists k d rest, faucet_at n k /\ own (4 * k) l = (source_eff (location n (cf_faucet c)), AFd d) :: rest /\ In (ERead d, AData []) (own (4 * k) l)
  | ((CLaunch, n), o) => exists k fin fout ferr, program_at n k /\ child_of (own (4 * k) l) = Some (fin, fout, ferr) /\
      match o with POut => In (ERead fout, AData []) (own (4 * k + 2) l) | PErr => In (ERead ferr, AData []) (own (4 * k + 3) l) | PExit => exists code, exit_told (own (4 * k) l) = [code] end
  | _ => False
  end.
(** What has been written has been flushed in the end; a program has been told that there is no more. *)
Definition served (x : component) : Prop :=
  match x with
  | (CDrain, n) => exists k, drain_at n k /\ forall e, opened_for (actual_destination (location n (cf_drain c))) = Some e -> exists f rest, own (4 * k) l = (e, AFd f) :: rest /\ In (EFlush f, AOk) (own (4 * k) l)
  | (CLaunch, n) => exists k fin fout ferr, program_at n k /\ child_of (own (4 * k) l) = Some (fin, fout, ferr) /\ In (EFlush fin, AOk) (own (4 * k + 1) l) /\ In (EDropFd fin, AOk) (own (4 * k + 1) l)
  | _ => False
  end.
End Run.
