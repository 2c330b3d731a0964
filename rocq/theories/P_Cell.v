(** * P_Cell: the components of a pipeline, of whatever kind *)
From Coq Require Import Ascii String List Bool Arith ZArith Permutation Lia.
From Verif Require Import M_Prog M_Motion M_Connectable M_Config M_Manip M_Lint M_Faucet M_Launch M_Junction M_Buffer M_Drain M_Regulator M_Waiter S_Grammar S_Manip S_Waiter P_Map P_Junctions.
Import ListNotations.
Local Open Scope string_scope.

Inductive cell := KFaucet (x : faucet) | KLaunch (x : launch) | KJunction (x : junction) | KBuffer (x : buffer) | KDrain (x : drain) | KRegulator (x : regulator).
Definition cell_type (x : cell) : ctype :=
  match x with KFaucet _ => CFaucet | KLaunch _ => CLaunch | KJunction _ => CJunction | KBuffer _ => CBuffer | KDrain _ => CDrain | KRegulator _ => CRegulator end.
Definition get_cell (w : waiter) (c : component) : option cell :=
  match fst c with
  | CFaucet => option_map KFaucet (lookup (snd c) (w_faucet w))
  | CLaunch => option_map KLaunch (lookup (snd c) (w_launch w))
  | CJunction => option_map KJunction (lookup (snd c) (w_junction w))
  | CBuffer => option_map KBuffer (lookup (snd c) (w_buffer w))
  | CDrain => option_map KDrain (lookup (snd c) (w_drain w))
  | CRegulator => option_map KRegulator (lookup (snd c) (w_regulator w))
  end.
Definition put_cell (w : waiter) (n : string) (x : cell) : waiter :=
  match x with
  | KFaucet x => set_faucet w (hput n x (w_faucet w))
  | KLaunch x => set_launch w (hput n x (w_launch w))
  | KJunction x => set_junction w (hput n x (w_junction w))
  | KBuffer x => set_buffer w (hput n x (w_buffer w))
  | KDrain x => set_drain w (hput n x (w_drain w))
  | KRegulator x => set_regulator w (hput n x (w_regulator w))
  end.

Section H.
Context {V : Type}.
Implicit Types m : list (string * V).
Lemma lookup_hput k v m k' : lookup k' (hput k v m) = if String.eqb k' k then Some v else lookup k' m.
Proof.
  induction m as [|[a b] m IH]; cbn; [destruct (String.eqb k' k); reflexivity|].
  destruct (String.eqb_spec k a) as [<-|]; cbn.
  - destruct (String.eqb k' k); reflexivity.
  - destruct (String.eqb_spec k' a) as [->|].
    + destruct (String.eqb_spec a k); [congruence|reflexivity].
    + exact IH.
Qed.
Lemma keys_hput k v m k' : In k' (keys (hput k v m)) <-> k' = k \/ In k' (keys m).
Proof. rewrite <- !lookup_key, lookup_hput. destruct (String.eqb_spec k' k); intuition congruence. Qed.
Lemma nodup_hput k v m : NoDup (keys m) -> NoDup (keys (hput k v m)).
Proof.
  induction m as [|[a b] m IH]; cbn; intros H; [repeat constructor; auto|].
  inversion H as [|? ? Ha Hm]; subst. destruct (String.eqb_spec k a) as [<-|]; cbn; constructor; auto.
  change (map fst (hput k v m)) with (keys (hput k v m)). rewrite keys_hput. intros [->|Hin]; [congruence|]. apply Ha. exact Hin.
Qed.
Lemma lookup_remove k m k' : lookup k' (remove k m) = if String.eqb k' k then None else lookup k' m.
Proof.
  unfold remove. induction m as [|[a b] m IH]; cbn; [destruct (String.eqb k' k); reflexivity|].
  destruct (String.eqb_spec k a) as [<-|]; cbn.
  - rewrite IH. destruct (String.eqb k' k); reflexivity.
  - destruct (String.eqb_spec k' a) as [->|].
    + destruct (String.eqb_spec a k); [congruence|reflexivity].
    + exact IH.
Qed.
End H.

Definition keys_once (w : waiter) : Prop :=
  NoDup (keys (w_faucet w)) /\ NoDup (keys (w_launch w)) /\ NoDup (keys (w_junction w)) /\
  NoDup (keys (w_buffer w)) /\ NoDup (keys (w_drain w)) /\ NoDup (keys (w_regulator w)).
Lemma put_once w n x : keys_once w -> keys_once (put_cell w n x).
Proof. intros (H1 & H2 & H3 & H4 & H5 & H6). destruct x; cbn; unfold keys_once; cbn; repeat split; auto; apply nodup_hput; auto. Qed.

Lemma get_put w n x c : get_cell (put_cell w n x) c = if component_eqb c (cell_type x, n) then Some x else get_cell w c.
Proof.
  destruct c as [t k]. unfold component_eqb. cbn [fst snd].
  destruct x, t; cbn [put_cell get_cell fst snd cell_type ctype_eqb andb w_faucet w_launch w_junction w_buffer w_drain w_regulator
    set_faucet set_launch set_junction set_buffer set_drain set_regulator]; try reflexivity;
    rewrite lookup_hput; destruct (String.eqb k n); reflexivity.
Qed.
Lemma get_type w c x : get_cell w c = Some x -> cell_type x = fst c.
Proof. destruct c as [[] n]; cbn; destruct (lookup n _); cbn; try discriminate; intros [= <-]; reflexivity. Qed.
Lemma has_cell w c : has_component w c <-> get_cell w c <> None.
Proof. destruct c as [[] n]; unfold has_component; cbn [fst snd get_cell]; rewrite <- lookup_key; destruct (lookup n _); cbn; split; congruence. Qed.

(** Same tables after changing a component *)
Lemma put_ids w n x : w_ids (put_cell w n x) = w_ids w. Proof. destruct x; reflexivity. Qed.
Lemma put_names w n x : w_names (put_cell w n x) = w_names w. Proof. destruct x; reflexivity. Qed.
Lemma put_id w n x : w_id (put_cell w n x) = w_id w. Proof. destruct x; reflexivity. Qed.
Lemma put_channels w n x : w_channels (put_cell w n x) = w_channels w. Proof. destruct x; reflexivity. Qed.
Lemma put_settings w n x : w_settings (put_cell w n x) = w_settings w. Proof. destruct x; reflexivity. Qed.

(** ** Connecting *)
Definition lift {V X E} (k : V -> cell) (r : result (V * X) E) : result (cell * X) E := match r with Ok (v, x) => Ok (k v, x) | Err e => Err e end.
Definition cell_add_output (x : cell) (port : oport) (b : breakable) (src dst ch : nat) : result (cell * pull) add_output_error :=
  match x with
  | KFaucet x => lift KFaucet (faucet_add_output x port b src dst ch)
  | KLaunch x => lift KLaunch (launch_add_output x port b src dst ch)
  | KJunction x => lift KJunction (Ok (junction_add_output x port b src dst ch))
  | KBuffer x => lift KBuffer (buffer_add_output x port b src dst ch)
  | KDrain x => lift KDrain (drain_add_output x port b src dst ch)
  | KRegulator x => lift KRegulator (regulator_add_output x port b src dst ch)
  end.
Definition cell_add_input (x : cell) (p : pull) (z : Z) : result (cell * unit) add_input_error :=
  match x with
  | KFaucet x => lift KFaucet (with_unit (faucet_add_input x p z))
  | KLaunch x => lift KLaunch (with_unit (launch_add_input x p z))
  | KJunction x => lift KJunction (Ok (junction_add_input x p z, tt))
  | KBuffer x => lift KBuffer (with_unit (buffer_add_input x p z))
  | KDrain x => lift KDrain (with_unit (drain_add_input x p z))
  | KRegulator x => lift KRegulator (with_unit (regulator_add_input x p z))
  end.

Lemma get_src_pull_cell w src dst port b : get_src_pull w src dst port b =
  match id_to_component_type_name w src with
  | None => Err (CouldNotFindSourceComponent src)
  | Some c =>
    match get_cell w c with
    | None => Err (CouldNotFindSourceComponent src)
    | Some x =>
      match cell_add_output x port b src dst (w_channels w) with
      | Err e => Err (AddOutput src e)
      | Ok (x', p) => Ok (put_cell (set_channels w (S (w_channels w))) (snd c) x', p)
      end
    end
  end.
Proof.
  unfold get_src_pull. change (id_to_component_type_name (set_channels w (S (w_channels w))) src) with (id_to_component_type_name w src).
  destruct (id_to_component_type_name w src) as [[[] n]|]; [..|reflexivity]; cbn [get_cell fst snd set_channels w_faucet w_launch w_junction w_buffer w_drain w_regulator];
  unfold update; destruct (lookup n _) as [v|]; cbn [option_map put_back cell_add_output lift]; try reflexivity.
  - destruct (faucet_add_output v port b src dst (w_channels w)) as [[v' p]|e]; reflexivity.
  - destruct (launch_add_output v port b src dst (w_channels w)) as [[v' p]|e]; reflexivity.
  - destruct (buffer_add_output v port b src dst (w_channels w)) as [[v' p]|e]; reflexivity.
  - destruct (regulator_add_output v port b src dst (w_channels w)) as [[v' p]|e]; reflexivity.
Qed.
Lemma join_cell w src port dst i : join w src port dst i =
  match get_src_pull w src dst port (ip_breakable i) with
  | Err e => Err e
  | Ok (w1, p) =>
    match id_to_component_type_name w dst with
    | None => Err (CouldNotFindDestinationComponent dst)
    | Some c =>
      match get_cell w1 c with
      | None => Err (CouldNotFindDestinationComponent dst)
      | Some x =>
        match cell_add_input x p (ip_priority i) with
        | Err e => Err (AddInput dst e)
        | Ok (x', _) => Ok (put_cell w1 (snd c) x')
        end
      end
    end
  end.
Proof.
  unfold join. destruct (get_src_pull w src dst port (ip_breakable i)) as [[w1 p]|e] eqn:E; [|reflexivity].
  assert (N : id_to_component_type_name w1 dst = id_to_component_type_name w dst).
  { rewrite get_src_pull_cell in E. destruct (id_to_component_type_name w src) as [c|]; [|discriminate].
    destruct (get_cell w c) as [x|]; [|discriminate]. destruct (cell_add_output x port _ src dst _) as [[x' p']|]; [|discriminate].
    injection E as <- <-. unfold id_to_component_type_name. rewrite put_names. reflexivity. }
  rewrite N. clear E N.
  destruct (id_to_component_type_name w dst) as [[[] n]|]; [..|reflexivity]; cbn [get_cell fst snd];
  unfold update; destruct (lookup n _) as [v|]; cbn [option_map put_back cell_add_input lift]; try reflexivity.
  - destruct (launch_add_input v p (ip_priority i)) as [v'|e]; reflexivity.
  - destruct (buffer_add_input v p (ip_priority i)) as [v'|e]; reflexivity.
  - destruct (drain_add_input v p (ip_priority i)) as [v'|e]; reflexivity.
  - destruct (regulator_add_input v p (ip_priority i)) as [v'|e]; reflexivity.
Qed.

(** ** What a component holds *)
Definition cell_outs (x : cell) : list (journey * nat) :=
  match x with
  | KFaucet f => flat_map of_push (opt (fc_stdout f))
  | KLaunch l => flat_map of_push (opt (la_stdout l)) ++ flat_map of_push (opt (la_stderr l)) ++ opt (la_exit_status l)
  | KJunction j => flat_map of_push (jn_stdout j)
  | KBuffer b => flat_map of_push (opt (bf_stdout b))
  | KDrain _ => []
  | KRegulator r => flat_map of_push (opt (rg_stdout r))
  end%list.
Definition cell_ins (x : cell) : list (pjourney * nat * Z) :=
  match x with
  | KFaucet f => flat_map (with_priority 0) (opt (fc_stdin f))
  | KLaunch l => flat_map (with_priority 0) (opt (la_stdin l))
  | KJunction j => flat_map (fun pz => with_priority (snd pz) (fst pz)) (jn_inputs j)
  | KBuffer b => flat_map (with_priority 0) (opt (bf_stdin b))
  | KDrain d => flat_map (with_priority 0) (opt (dr_stdin d))
  | KRegulator r => flat_map (with_priority 0) (opt (rg_stdin r))
  end.
Lemma outs_cell w c : outs w c = match get_cell w c with Some x => cell_outs x | None => [] end.
Proof. destruct c as [[] n]; unfold outs; cbn [fst snd get_cell]; destruct (lookup n _); cbn [option_map opt flat_map cell_outs]; rewrite ?app_nil_r; reflexivity. Qed.
Lemma ins_cell w c : ins w c = match get_cell w c with Some x => cell_ins x | None => [] end.
Proof. destruct c as [[] n]; unfold ins; cbn [fst snd get_cell]; destruct (lookup n _); cbn [option_map opt flat_map cell_ins]; rewrite ?app_nil_r; reflexivity. Qed.

(** Components as they are built hold only channels, each port its own. *)
Definition push_ok (port : oport -> Prop) (p : push) : Prop := exists j n o, p = PsIoSender j n /\ j_port j = Some o /\ port o.
Definition pull_ok (p : pull) : Prop := exists j n, p = PlReceiver j n.
Definition all_opt {A} (P : A -> Prop) (o : option A) : Prop := match o with Some a => P a | None => True end.
Definition cell_wf (x : cell) : Prop :=
  match x with
  | KFaucet f => all_opt (push_ok (eq POut)) (fc_stdout f) /\ fc_stdin f = None
  | KLaunch l => all_opt (push_ok (eq POut)) (la_stdout l) /\ all_opt (push_ok (eq PErr)) (la_stderr l) /\
      all_opt (fun jn => j_port (fst jn) = Some PExit) (la_exit_status l) /\ all_opt pull_ok (la_stdin l)
  | KJunction j => Forall (push_ok (eq POut)) (jn_stdout j) /\ Forall (fun pz => pull_ok (fst pz)) (jn_inputs j)
  | KBuffer b => all_opt (push_ok (fun _ => True)) (bf_stdout b) /\ all_opt pull_ok (bf_stdin b)
  | KDrain d => all_opt pull_ok (dr_stdin d)
  | KRegulator r => all_opt (push_ok (eq POut)) (rg_stdout r) /\ all_opt pull_ok (rg_stdin r)
  end.

(** A component apart from its connections *)
Definition bare (x : cell) : cell :=
  match x with
  | KFaucet f => KFaucet (Faucet (fc_started f) (fc_stdout_size f) None None (fc_control f) None (fc_read_location f))
  | KLaunch l => KLaunch (Launch (la_id l) (la_command l) (la_path l) (la_env l) (la_args l) None None None None (la_launched l))
  | KJunction j => KJunction (Junction (jn_stdout_size j) (jn_started j) [] (jn_stdin j) [])
  | KBuffer b => KBuffer (Buffer (bf_stdout_size b) None None (bf_monitor b))
  | KDrain d => KDrain (Drain (dr_started d) None (dr_write_location d))
  | KRegulator r => KRegulator (Regulator (rg_started r) (rg_stdout_size r) None None (rg_control r))
  end.

Definition port_of (x : cell) (o : oport) : oport := match x with KJunction _ => POut | _ => o end.

Lemma add_output_ok x port b s d ch x' p : cell_wf x -> cell_add_output x port b s d ch = Ok (x', p) ->
  p = PlReceiver (PJ s d) ch /\ cell_type x' = cell_type x /\ cell_wf x' /\ bare x' = bare x /\ cell_ins x' = cell_ins x /\
  Permutation (cell_outs x') (cell_outs x ++ [(J s (Some (port_of x port)) d b, ch)]).
Proof.
  destruct x as [f|l|j|bu|dr|r]; cbn [cell_add_output lift cell_wf].
  - intros [Hp Hi]. unfold faucet_add_output. destruct (oport_eqb port POut) eqn:E; cbn [negb]; [|discriminate]. destruct port; try discriminate.
    destruct (fc_stdout f) eqn:Es; [discriminate|]. cbn [lift]. intros [= <- <-]. cbn. repeat split; auto; [exists (J s (Some POut) d b), ch, POut; auto|]. rewrite Es. reflexivity.
  - intros (H1 & H2 & H3 & H4). unfold launch_add_output. destruct port.
    + destruct (la_stderr l) eqn:Es; [discriminate|]. cbn [lift]. intros [= <- <-]. cbn. repeat split; auto; [exists (J s (Some PErr) d b), ch, PErr; auto|].
      rewrite Es. cbn. rewrite <- !app_assoc. apply Permutation_app_head. apply Permutation_cons_append.
    + destruct (la_stdout l) eqn:Es; [discriminate|]. cbn [lift]. intros [= <- <-]. cbn. repeat split; auto; [exists (J s (Some POut) d b), ch, POut; auto|].
      rewrite Es. cbn. apply Permutation_cons_append.
    + destruct (la_exit_status l) eqn:Es; [discriminate|]. cbn [lift]. intros [= <- <-]. cbn. repeat split; auto. rewrite Es. cbn. rewrite app_nil_r, app_assoc. reflexivity.
  - intros [H1 H2]. unfold junction_add_output. intros [= <- <-]. cbn. repeat split; auto.
    + apply Forall_app. split; [exact H1|]. repeat constructor. exists (J s (Some POut) d b), ch, POut. auto.
    + rewrite flat_map_app. reflexivity.
  - intros [H1 H2]. unfold buffer_add_output. destruct (bf_stdout bu) eqn:Es; [discriminate|]. cbn [lift]. intros [= <- <-]. cbn. repeat split; auto; [exists (J s (Some port) d b), ch, port; auto|].
    rewrite Es. reflexivity.
  - discriminate.
  - intros [Hp Hi]. unfold regulator_add_output. destruct (oport_eqb port POut) eqn:E; cbn [negb]; [|discriminate]. destruct port; try discriminate.
    destruct (rg_stdout r) eqn:Es; [discriminate|]. cbn [lift]. intros [= <- <-]. cbn. repeat split; auto; [exists (J s (Some POut) d b), ch, POut; auto|]. rewrite Es. reflexivity.
Qed.

Lemma add_input_ok x j ch z x' u : cell_wf x -> cell_add_input x (PlReceiver j ch) z = Ok (x', u) ->
  cell_type x' = cell_type x /\ cell_wf x' /\ bare x' = bare x /\ cell_outs x' = cell_outs x /\ cell_ins x' = (cell_ins x ++ [(j, ch, z)])%list.
Proof.
  destruct x as [f|l|jn|bu|dr|r]; cbn [cell_add_input lift cell_wf].
  - discriminate.
  - intros (H1 & H2 & H3 & H4). unfold launch_add_input. destruct (Z.eqb_spec z 0) as [->|]; cbn [negb]; [|discriminate].
    destruct (la_stdin l) eqn:Es; [discriminate|]. intros [= <- <-]. cbn. rewrite Es. repeat split; auto. exists j, ch. reflexivity.
  - intros [H1 H2] [= <- <-]. cbn. repeat split; auto.
    + apply Forall_app. split; [exact H2|]. repeat constructor. exists j, ch. reflexivity.
    + rewrite flat_map_app. reflexivity.
  - intros [H1 H2]. unfold buffer_add_input. destruct (Z.eqb_spec z 0) as [->|]; cbn [negb]; [|discriminate].
    destruct (bf_stdin bu) eqn:Es; [discriminate|]. intros [= <- <-]. cbn. rewrite Es. repeat split; auto. exists j, ch. reflexivity.
  - intros H1. unfold drain_add_input. destruct (Z.eqb_spec z 0) as [->|]; cbn [negb]; [|discriminate].
    destruct (dr_stdin dr) eqn:Es; [discriminate|]. intros [= <- <-]. cbn. rewrite Es. repeat split; auto. exists j, ch. reflexivity.
  - intros [H1 H2]. unfold regulator_add_input. destruct (Z.eqb_spec z 0) as [->|]; cbn [negb]; [|discriminate].
    destruct (rg_stdin r) eqn:Es; [discriminate|]. intros [= <- <-]. cbn. rewrite Es. repeat split; auto. exists j, ch. reflexivity.
Qed.

(** When there is room *)
Lemma add_output_room x port b s d ch : cell_wf x -> cell_type x <> CDrain -> (cell_type x = CFaucet \/ cell_type x = CRegulator -> port = POut) ->
  (cell_type x <> CJunction -> forall j n, In (j, n) (cell_outs x) -> cell_type x = CLaunch /\ j_port j <> Some port) ->
  exists x' p, cell_add_output x port b s d ch = Ok (x', p).
Proof.
  intros Hw Hd Hp Hr. destruct x as [f|l|jn|bu|dr|r]; cbn [cell_add_output cell_type cell_wf] in *.
  - rewrite (Hp (or_introl eq_refl)) in *. unfold faucet_add_output. cbn [oport_eqb negb]. destruct (fc_stdout f) as [q|] eqn:E; [|cbn; eauto].
    destruct Hw as [(j & n & o & -> & _) _]. destruct (Hr ltac:(discriminate) j n) as [H _]; [|discriminate]. cbn. rewrite E. left. reflexivity.
  - destruct Hw as (H1 & H2 & H3 & _). unfold launch_add_output. destruct port.
    + destruct (la_stderr l) as [q|] eqn:E; [|cbn; eauto]. destruct H2 as (j & n & o & -> & Ho & <-).
      destruct (Hr ltac:(discriminate) j n) as [_ H]; [|congruence]. cbn. rewrite E. apply in_or_app. right. left. reflexivity.
    + destruct (la_stdout l) as [q|] eqn:E; [|cbn; eauto]. destruct H1 as (j & n & o & -> & Ho & <-).
      destruct (Hr ltac:(discriminate) j n) as [_ H]; [|congruence]. cbn. rewrite E. left. reflexivity.
    + destruct (la_exit_status l) as [[j n]|] eqn:E; [|cbn; eauto]. destruct (Hr ltac:(discriminate) j n) as [_ H]; [|cbn in H3; congruence].
      cbn. rewrite E. apply in_or_app. right. apply in_or_app. right. left. reflexivity.
  - cbn. eauto.
  - unfold buffer_add_output. destruct (bf_stdout bu) as [q|] eqn:E; [|cbn; eauto].
    destruct Hw as [(j & n & o & -> & _) _]. destruct (Hr ltac:(discriminate) j n) as [H _]; [|discriminate]. cbn. rewrite E. left. reflexivity.
  - congruence.
  - rewrite (Hp (or_intror eq_refl)) in *. unfold regulator_add_output. cbn [oport_eqb negb]. destruct (rg_stdout r) as [q|] eqn:E; [|cbn; eauto].
    destruct Hw as [(j & n & o & -> & _) _]. destruct (Hr ltac:(discriminate) j n) as [H _]; [|discriminate]. cbn. rewrite E. left. reflexivity.
Qed.
Lemma add_input_room x p z : cell_wf x -> cell_type x <> CFaucet -> (cell_type x <> CJunction -> z = 0%Z /\ cell_ins x = []) ->
  exists x' u, cell_add_input x p z = Ok (x', u).
Proof.
  intros Hw Hf Hr. destruct x as [f|l|jn|bu|dr|r]; cbn [cell_add_input cell_type cell_wf] in *.
  - congruence.
  - destruct (Hr ltac:(discriminate)) as [-> Hi]. unfold launch_add_input. cbn [Z.eqb negb]. destruct (la_stdin l) as [q|] eqn:E; [|cbn; eauto].
    destruct Hw as (_ & _ & _ & (j & n & ->)). cbn in Hi. rewrite E in Hi. discriminate.
  - cbn. eauto.
  - destruct (Hr ltac:(discriminate)) as [-> Hi]. unfold buffer_add_input. cbn [Z.eqb negb]. destruct (bf_stdin bu) as [q|] eqn:E; [|cbn; eauto].
    destruct Hw as (_ & (j & n & ->)). cbn in Hi. rewrite E in Hi. discriminate.
  - destruct (Hr ltac:(discriminate)) as [-> Hi]. unfold drain_add_input. cbn [Z.eqb negb]. destruct (dr_stdin dr) as [q|] eqn:E; [|cbn; eauto].
    destruct Hw as (j & n & ->). cbn in Hi. rewrite E in Hi. discriminate.
  - destruct (Hr ltac:(discriminate)) as [-> Hi]. unfold regulator_add_input. cbn [Z.eqb negb]. destruct (rg_stdin r) as [q|] eqn:E; [|cbn; eauto].
    destruct Hw as (_ & (j & n & ->)). cbn in Hi. rewrite E in Hi. discriminate.
Qed.

(** What a well-formed component can hold *)
Lemma wf_outs x : cell_wf x ->
  (cell_type x = CDrain -> cell_outs x = []) /\
  (cell_type x = CFaucet \/ cell_type x = CRegulator -> forall j n, In (j, n) (cell_outs x) -> j_port j = Some POut) /\
  (cell_type x <> CJunction -> forall j n j' n', In (j, n) (cell_outs x) -> In (j', n') (cell_outs x) -> cell_type x <> CLaunch \/ j_port j = j_port j' -> (j, n) = (j', n')).
Proof.
  intros Hw. destruct x as [f|l|jn|bu|dr|r]; cbn [cell_type cell_outs cell_wf] in *; (split; [try discriminate; auto|]); split; try (intros [|]; discriminate).
  - destruct Hw as [H _]. intros _ j n. destruct (fc_stdout f) as [q|]; [|intros []]. destruct H as (j0 & n0 & o & -> & Ho & <-). intros [[= <- <-]|[]]. exact Ho.
  - destruct Hw as [H _]. intros _ j n j' n'. destruct (fc_stdout f) as [q|]; [|intros []]. destruct H as (j0 & n0 & o & -> & Ho & <-). intros [<-|[]] [<-|[]]. reflexivity.
  - destruct Hw as (H1 & H2 & H3 & _). intros _ j n j' n' Ha Hb [E|E]; [congruence|].
    destruct (la_stdout l) as [q1|]; [destruct H1 as (j1 & n1 & o1 & -> & Ho1 & <-)|]; destruct (la_stderr l) as [q2|]; [destruct H2 as (j2 & n2 & o2 & -> & Ho2 & <-)| |destruct H2 as (j2 & n2 & o2 & -> & Ho2 & <-)|];
      destruct (la_exit_status l) as [[j3 n3]|]; cbn in *; decompose [or] Ha; decompose [or] Hb; try contradiction; repeat match goal with H : (_, _) = (_, _) |- _ => injection H as <- <- end; congruence.
  - congruence.
  - destruct Hw as [H _]. intros _ j n j' n'. destruct (bf_stdout bu) as [q|]; [|intros []]. destruct H as (j0 & n0 & o & -> & Ho & _). intros [<-|[]] [<-|[]]. reflexivity.
  - intros _ j n j' n' [].
  - destruct Hw as [H _]. intros _ j n. destruct (rg_stdout r) as [q|]; [|intros []]. destruct H as (j0 & n0 & o & -> & Ho & <-). intros [[= <- <-]|[]]. exact Ho.
  - destruct Hw as [H _]. intros _ j n j' n'. destruct (rg_stdout r) as [q|]; [|intros []]. destruct H as (j0 & n0 & o & -> & Ho & <-). intros [<-|[]] [<-|[]]. reflexivity.
Qed.
Lemma wf_ins x : cell_wf x -> (cell_type x = CFaucet -> cell_ins x = []) /\
  (cell_type x <> CJunction -> List.length (cell_ins x) <= 1 /\ forall e, In e (cell_ins x) -> snd e = 0%Z).
Proof.
  intros Hw.
  assert (G : forall o, all_opt pull_ok o -> List.length (flat_map (with_priority 0) (opt o)) <= 1 /\ forall e, In e (flat_map (with_priority 0) (opt o)) -> snd e = 0%Z).
  { intros [q|] H; cbn in *; [|split; [lia|intros e []]]. destruct H as (j & n & ->). cbn. split; [lia|]. intros e [<-|[]]. reflexivity. }
  destruct x as [f|l|jn|bu|dr|r]; cbn [cell_type cell_ins cell_wf] in *; (split; [try discriminate|]).
  - intros _. destruct Hw as [_ ->]. reflexivity.
  - intros _. destruct Hw as [_ ->]. cbn. split; [lia|intros e []].
  - intros _. apply G. tauto.
  - congruence.
  - intros _. apply G. tauto.
  - intros _. apply G. exact Hw.
  - intros _. apply G. tauto.
Qed.
