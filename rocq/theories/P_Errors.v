(** * P_Errors: what errors tell, and how the program ends *)
From Coq Require Import Ascii String List Bool Arith ZArith Permutation Lia.
From Verif Require Import M_Prog M_Motion M_Config M_Parser M_Manip M_Lint M_Setters M_Serde M_Cli M_Waiter M_Graph M_Errors S_Grammar S_Manip S_Lint S_Waiter S_Errors P_Map P_Pair P_Manip P_Lint P_Wire P_Build P_Ready P_Result P_Cli P_Checked P_WaiterExamples.
Import ListNotations.
Local Open Scope string_scope.

Lemma about_source e s d : about e s d -> journey_source e = Some s /\ (error_journey e <> None \/ error_pull_journey e <> None) /\
  (forall j, error_journey e = Some j -> j_src j = s /\ j_dst j = d) /\ (forall j, error_pull_journey e = Some j -> pj_src j = s /\ pj_dst j = d).
Proof. intros []; cbn; (split; [reflexivity|]); (split; [(left; discriminate) || (right; discriminate)|]); split; intros j [= <-]; split; reflexivity. Qed.
Lemma about_none e : (forall s d, ~ about e s d) -> error_journey e = None /\ error_pull_journey e = None.
Proof.
  intros H. destruct e as [[s d]|[s p d b]|[s d]|[s p d b] x|[s p d b]|[s p d b] x|[s p d b] r x|s|[s d]|s d p m|cmd|]; try (exfalso; eapply H; constructor; fail); split; reflexivity.
Qed.
Lemma instant_none e : motion_instant e = None <-> no_time (tm_error e).
Proof. unfold motion_instant. destruct (tm_error e); cbn; split; (discriminate || tauto || reflexivity). Qed.

Lemma printed lib debug names t n e s d : about (tm_error e) s d ->
  let txt := description lib (CausedByError t n e) in
  waiter_error_to_string lib debug names (CausedByError t n e) =
  match lookup_id s names with
  | None => report debug (shown_as (t, n)) "Unknown Destination" txt
  | Some a =>
    match tm_error e with
    | ReadIOError _ | OpenIOError _ => report debug (shown_as a) "Unknown Destination" txt
    | _ => match lookup_id d names with Some b => report debug (shown_as a) (shown_as b) txt | None => report debug (shown_as a) "Unknown Destination" txt end
    end
  end.
Proof.
  intros H. destruct (about_source _ _ _ H) as (Hs & _ & _). unfold waiter_error_to_string. cbn [caused_by_error caused_by_error_source]. rewrite Hs.
  destruct (lookup_id s names) as [a|]; [|reflexivity]. destruct H; cbn [error_journey as_journey j_dst]; try reflexivity; cbn [pj_dst]; destruct (lookup_id d names); reflexivity.
Qed.
Lemma printed_both lib debug names t n e s d a b : about (tm_error e) s d -> ~ of_reading (tm_error e) -> lookup_id s names = Some a -> lookup_id d names = Some b ->
  waiter_error_to_string lib debug names (CausedByError t n e) = report debug (shown_as a) (shown_as b) (description lib (CausedByError t n e)).
Proof. intros H Hr Ha Hb. rewrite (printed _ _ _ _ _ _ _ _ H), Ha, Hb. destruct (tm_error e); cbn in Hr; tauto. Qed.
Lemma printed_read lib debug names t n e s d a : about (tm_error e) s d -> of_reading (tm_error e) -> lookup_id s names = Some a ->
  waiter_error_to_string lib debug names (CausedByError t n e) = report debug (shown_as a) "Unknown Destination" (description lib (CausedByError t n e)).
Proof. intros H Hr Ha. rewrite (printed _ _ _ _ _ _ _ _ H), Ha. destruct (tm_error e); cbn in Hr; tauto. Qed.
Lemma printed_other lib debug names t n e : (forall s d, ~ about (tm_error e) s d) -> journey_source (tm_error e) = None ->
  waiter_error_to_string lib debug names (CausedByError t n e) = report debug (shown_as (t, n)) "Unknown Destination" (description lib (CausedByError t n e)).
Proof. intros H Hs. unfold waiter_error_to_string. cbn [caused_by_error caused_by_error_source]. rewrite Hs. destruct (about_none _ H) as [E _]. rewrite ?E. reflexivity. Qed.
Lemma built_names c w id names : built_as c w id -> w_names w = Some names -> forall x, is_mentioned (cf_connection c) x -> lookup_id (id x) names = Some x.
Proof. intros B Hn x Hx. pose proof (proj2 (ba_names _ _ _ B (id x) x) (conj Hx eq_refl)) as H. unfold id_to_component_type_name in H. rewrite Hn in H. exact H. Qed.
Lemma printed_built lib debug c w id names t n e a b : built_as c w id -> w_names w = Some names -> is_mentioned (cf_connection c) a -> is_mentioned (cf_connection c) b ->
  about (tm_error e) (id a) (id b) ->
  waiter_error_to_string lib debug names (CausedByError t n e) =
    report debug (shown_as a) (match tm_error e with ReadIOError _ | OpenIOError _ => "Unknown Destination" | _ => shown_as b end) (description lib (CausedByError t n e)).
Proof.
  intros B Hn Ha Hb H. rewrite (printed _ _ _ _ _ _ _ _ H), (built_names _ _ _ _ B Hn a Ha), (built_names _ _ _ _ B Hn b Hb). destruct (tm_error e); reflexivity.
Qed.

(** ** The kinds *)
Lemma kinds lib lib' e e' : description lib e = description lib' e' -> kind_of e = kind_of e' \/ kind_of e = K_pause /\ kind_of e' = K_resume \/ kind_of e = K_resume /\ kind_of e' = K_pause.
Proof.
  destruct e as [t n [m x]| | | |], e' as [t' n' [m' x']| | | |]; unfold description, motion_display, kind_of; cbn [tm_error].
  1: destruct m as [| | | | | |? [] ?| | | |[]|], m' as [| | | | | |? [] ?| | | |[]|]; intros H; try discriminate H; left; reflexivity.
  all: try (destruct m as [| | | | | |? [] ?| | | |[]|]; intros H; discriminate H).
  all: try (destruct m' as [| | | | | |? [] ?| | | |[]|]; intros H; discriminate H).
  all: intros H; try discriminate H; auto.
Qed.

(** ** How the program ends *)
Lemma overall_errors l r f m d b j es : overall l r f m d b j = Err es -> es <> [].
Proof. intros H. pose proof (overall_exact l r f m d b j) as O. cbv zeta in O. rewrite H in O. apply O. Qed.
Lemma start_errors mc w es : waiter_start mc w = Good (Err es) -> es <> [].
Proof.
  unfold waiter_start. destruct (regulator_settings w _) as [[[w' cs]|e]|]; cbn [obind]; [| |discriminate].
  - destruct (mc_run mc w' cs) as [[[[[[l r] f] m] d] b] j]. intros [= H]. exact (overall_errors _ _ _ _ _ _ _ _ H).
  - intros [= <-]. discriminate.
Qed.
Lemma result_errors mc x es : main_result mc x = Good (Err es) -> es <> [].
Proof.
  destruct x as [[c|c|c mode]|e]; cbn [main_result].
  - destruct (mc_json mc c); [discriminate|]. intros [= <-]. discriminate.
  - destruct (get_waiter c) as [[w|e]|]; cbn [obind]; [|intros [= <-]; discriminate|discriminate]. destruct (w_names w); [|discriminate].
    destruct (waiter_start mc w) as [[k|es']|] eqn:E; cbn [obind]; [discriminate| |discriminate]. intros [= <-]. apply start_errors in E. destruct es'; [contradiction|discriminate].
  - discriminate.
  - intros [= <-]. discriminate.
Qed.
Lemma main_codes mc os sh typed en : main mc os sh typed = Some (Good en) ->
  en_code en = 0 /\ en_err en = [] \/ en_code en = 1 /\ en_out en = [] /\ exists e es, en_err en = listed (e :: es).
Proof.
  unfold main. destruct (pa2 os sh typed) as [[[r out]|]|]; cbn [obind]; try discriminate. destruct (main_result mc r) as [y|] eqn:E; cbn [obind]; [|discriminate]. intros [= <-].
  destruct y as [s|es]; [left; cbn; auto|]. right. apply result_errors in E. destruct es as [|e es]; [contradiction|]. cbn [main_end en_code en_out en_err]. repeat split. exists e, es. reflexivity.
Qed.

Lemma process_written sh c c2 out : fair sh -> good_connections (cf_connection c) -> process_config sh c = Good (Ok c2, out) -> written_out (cf_connection c2).
Proof.
  intros Hf [Hoc Hg] E. destruct (prepare sh c Hf Hg) as (c' & p & r & E' & P). unfold process_config in E. rewrite E' in E. cbn [obind] in E.
  destruct (lint c') as [[c3 errs]|] eqn:El; cbn [obind] in E; [|discriminate]. destruct (filter serious errs); [|discriminate]. injection E as <- <-.
  rewrite (lint_pairs _ _ _ (pr_pairs _ _ _ _ _ P) El). exact (pairs_written _ (pr_pairs _ _ _ _ _ P)).
Qed.

Lemma names_some c w : written_out (cf_connection c) -> get_waiter c = Good (Ok w) -> exists names, w_names w = Some names.
Proof.
  intros Hw E. unfold get_waiter in E. rewrite all_connections_good in E by exact Hw. cbn [obind] in E.
  destruct (wire (allc (cf_connection c)) (waiter_new, c, None)) as [[[[w0 c0] l0]|e]|] eqn:Er; cbn [obind] in E; try discriminate. injection E as <-.
  pose proof (wire_state _ _ _ _ _ _ _ (inv_start c) Er) as Hi. cbn [fst snd] in Hi. destruct (i_names _ _ _ _ _ Hi) as (hm & Ehm & _).
  destruct (configure_facts (cf_regulator c0) w0) as (s & -> & _). exists hm. exact Ehm.
Qed.
Lemma watched_perm l l' : Permutation l l' -> NoDup (watched l) <-> NoDup (watched l').
Proof.
  intros H. assert (P : Permutation (watched l) (watched l')) by (unfold watched; apply Permutation_flat_map; exact H).
  split; intros N; [exact (Permutation_NoDup P N)|exact (Permutation_NoDup (Permutation_sym P) N)].
Qed.
Lemma run_ends mc os sh typed path f c c2 out : get_user_action (clap_defaults typed) = Answer (Ok (Process path f)) -> read_config os f path = Ok c ->
  fair sh -> good_connections (cf_connection c) -> (forall l, Permutation (mc_settings mc l) l) -> NoDup (keys (cf_regulator c)) -> process_config sh c = Good (Ok c2, out) ->
  (exists e, get_waiter c2 = Good (Err e) /\ main mc os sh typed = Some (Good (Ending [] (listed [e]) 1))) \/
  (exists w names id, get_waiter c2 = Good (Ok w) /\ w_names w = Some names /\ built_as c2 w id /\
    ((~ NoDup (watched (w_settings w)) /\ exists msg, main mc os sh typed = Some (Crash msg)) \/
     (NoDup (watched (w_settings w)) /\ exists w' cs, Forall2 (controls w') (mc_settings mc (w_settings w)) cs /\
       ((errors_of (all_results (mc_run mc w' cs)) = [] /\ main mc os sh typed = Some (Good (Ending [] [] 0))) \/
        exists es, es <> [] /\ Permutation es (errors_of (all_results (mc_run mc w' cs))) /\
          main mc os sh typed = Some (Good (Ending [] (listed (map (waiter_error_to_string (mc_lib mc) (mc_debug mc) names) es)) 1)))))).
Proof.
  intros Ha Hrd Hf Hg Hs Hnd Hp. pose proof (process_written _ _ _ _ Hf Hg Hp) as Hw.
  assert (Hreg : cf_regulator c2 = cf_regulator c).
  { destruct (process_decides sh c Hf Hg) as (c2' & x & E & _ & Hr & _ & _ & [[-> _]|[(t & ts & ->) _]]); rewrite Hp in E; [injection E as <- _; exact Hr|discriminate]. }
  assert (Em : main mc os sh typed = Some (obind (main_result mc (Ok (RProcess c2))) (fun y => Good (main_end y)))).
  { unfold main, pa2. rewrite Ha. cbn [process_request]. rewrite Hrd, Hp. reflexivity. }
  rewrite Em. cbn [main_result]. destruct (get_waiter c2) as [[w|e]|] eqn:Eg; cbn [obind].
  - right. destruct (names_some _ _ Hw Eg) as [names Hn]. destruct (built_exactly _ _ Hw Eg) as [id B]. exists w, names, id. split; [reflexivity|]. split; [exact Hn|]. split; [exact B|]. rewrite Hn. unfold waiter_start.
    destruct (watch_exact c2 w (mc_settings mc (w_settings w)) Hw) as [W1 W2]; [rewrite Hreg; exact Hnd|exact Eg|apply Hs|].
    destruct (ListDec.NoDup_dec string_dec (watched (w_settings w))) as [N|N].
    + right. split; [exact N|]. destruct W1 as (w' & cs & -> & Hc & _); [apply (watched_perm _ _ (Hs _)); exact N|]. exists w', cs. split; [exact Hc|]. cbn [obind].
      destruct (mc_run mc w' cs) as [[[[[[l r] fc] m] d] b] j]. cbn [all_results]. pose proof (overall_exact l r fc m d b j) as O. cbv zeta in O.
      destruct (overall l r fc m d b j) as [n|es]; [left; split; [apply O|reflexivity]|]. right. exists es. destruct O as [O1 O2]. split; [exact O1|]. split; [exact O2|]. reflexivity.
    + left. split; [exact N|]. destruct W2 as [msg ->]; [intros N'; apply N; apply (watched_perm _ _ (Hs _)); exact N'|]. exists msg. reflexivity.
  - left. exists e. split; reflexivity.
  - exfalso. unfold get_waiter in Eg. rewrite all_connections_good in Eg by exact Hw. cbn [obind] in Eg. destruct (wire_good c2 (allc (cf_connection c2)) [] waiter_new c2 None (inv_start c2)) as (r & Er); [apply joinable_all; exact Hw|]. rewrite Er in Eg. discriminate Eg.
Qed.
