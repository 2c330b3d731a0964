(** * P_Cli: proofs about commands *)
From Coq Require Import Ascii String List Bool Arith ZArith NArith Lia Sorted.
From Verif Require Import M_Prog M_Motion M_Config M_Parser M_Manip M_Lint M_Setters M_Serde M_Cli S_Grammar S_Manip S_Cli P_Map P_Parser.
Import ListNotations.
Local Open Scope string_scope.

Lemma in_keys_hput {V} k (v : V) m x : In x (keys (hput k v m)) <-> x = k \/ In x (keys m).
Proof.
  induction m as [|[k' v'] m IH]; cbn; [intuition|].
  destruct (String.eqb k k') eqn:E; cbn; [apply String.eqb_eq in E; subst; intuition|]. cbn in IH. rewrite IH. intuition.
Qed.
Lemma nodup_hput {V} k (v : V) m : NoDup (keys m) -> NoDup (keys (hput k v m)).
Proof.
  induction m as [|[k' v'] m IH]; intros H; cbn.
  - repeat constructor. intros [].
  - destruct (String.eqb k k') eqn:E; [exact H|]. cbn. inversion H; subst. constructor; [|exact (IH H3)].
    change (~ In k' (keys (hput k v m))). rewrite in_keys_hput. intros [->|Hi]; [rewrite String.eqb_refl in E; discriminate|contradiction].
Qed.
Lemma hput_put_at {V} k (v : V) m : hash_put k v m (hput k v m).
Proof.
  split; [|exact (nodup_hput k v m)]. split; [rewrite lookup_hput, String.eqb_refl; reflexivity|].
  intros k' Hk. rewrite lookup_hput. destruct (String.eqb k' k) eqn:E; [apply String.eqb_eq in E; contradiction|reflexivity].
Qed.
Lemma entry_put_at {V} k (f : V -> V) d m : hash_put k (match lookup k m with Some v => f v | None => d end) m (entry k f d m).
Proof. unfold entry. destruct (lookup k m); apply hput_put_at. Qed.
Lemma entry_same {V} k (d : V) m : hash_put k d m (entry k (fun _ => d) d m).
Proof. unfold entry. destruct (lookup k m); apply hput_put_at. Qed.
Lemma bentry_same {V} k (d : V) m : bentry k (fun _ => d) d m = bput k d m.
Proof. unfold bentry. destruct (lookup k m); reflexivity. Qed.
Lemma bput_put_at {V} k (v : V) m : put_at k v m (bput k v m).
Proof.
  split; [rewrite lookup_bput, String.eqb_refl; reflexivity|].
  intros k' Hk. rewrite lookup_bput. destruct (String.eqb k' k) eqn:E; [apply String.eqb_eq in E; contradiction|reflexivity].
Qed.

(** ** Changing a configuration *)

Lemma convert_cases os s : exists r, convert_to_deserialized_connection os s = Good r /\
  forall d, r = Ok d ->
      ((exists l, connection_text l s) /\ d = JoinString s \/
       (~ exists l, connection_text l s) /\ exists v, (os_json os s = Some v \/ os_yaml os s = Some v) /\ ((exists x, de_connection v = Some x /\ d = Connections [x]) \/ (exists l, de_seq de_connection v = Some l /\ d = Connections l))).
Proof.
  unfold convert_to_deserialized_connection. destruct (load_connection_from_string s) as [[l|]|m] eqn:E.
  - eexists. split; [reflexivity|]. intros d [= <-]. left. split; [exists l; apply load_exact, E|reflexivity].
  - eexists. split; [reflexivity|]. intros d Hd. right. split.
    { intros [l Hl]. apply load_exact in Hl. congruence. }
    unfold bind in Hd at 1. destruct (os_json os s) as [v|] eqn:Ej.
    + destruct (de_connection v) as [x|] eqn:E1; [injection Hd as <-; exists v; split; [left; reflexivity|left; eauto]|].
      unfold bind in Hd at 1. destruct (de_seq de_connection v) as [l|] eqn:E2; [injection Hd as <-; exists v; split; [left; reflexivity|right; eauto]|].
      unfold bind in Hd at 1. destruct (os_yaml os s) as [w|] eqn:Ey.
      * destruct (de_connection w) as [x|] eqn:E3; [injection Hd as <-; exists w; split; [right; reflexivity|left; eauto]|].
        unfold bind in Hd. destruct (de_seq de_connection w) as [l|] eqn:E4; [injection Hd as <-; exists w; split; [right; reflexivity|right; eauto]|discriminate].
      * cbn in Hd. discriminate.
    + cbn [bind] in Hd. unfold bind in Hd at 1. destruct (os_yaml os s) as [w|] eqn:Ey.
      * destruct (de_connection w) as [x|] eqn:E3; [injection Hd as <-; exists w; split; [right; reflexivity|left; eauto]|].
        unfold bind in Hd. destruct (de_seq de_connection w) as [l|] eqn:E4; [injection Hd as <-; exists w; split; [right; reflexivity|right; eauto]|discriminate].
      * cbn in Hd. discriminate.
  - exfalso. destruct (load_no_crash s None) as (l & Hl & _); congruence.
Qed.

Lemma launch_edit id f d (what : launch_config -> launch_config -> Prop) c :
  (forall l, what l (f l)) -> what blank_launch d -> launch_edited id what c (with_launch c (entry id f d (cf_launch c))).
Proof.
  intros Hf Hd. repeat split. eexists. split; [apply entry_put_at|]. unfold there. destruct (lookup id (cf_launch c)); auto.
Qed.

Lemma edit_exact os sh r c o : edit_options r = Some o -> read_config os (op_format o) (op_in o) = Ok c ->
  (forall x, r <> ConnectionJoin o x) \/ (exists x d, r = ConnectionJoin o x /\ convert_to_deserialized_connection os x = Good (Ok d)) ->
  exists c', process_request os sh r = Good (Ok (RConfig c'), []) /\ edits os r c c'.
Proof.
  intros Ho Hr Hj. destruct r; cbn in Ho; try discriminate; injection Ho as ->; cbn [process_request]; try (rewrite Hr; cbn [rmap]; eexists; split; [reflexivity|]; cbn [edits]).
  - apply launch_edit; cbn; auto.
  - apply launch_edit; cbn; auto.
  - apply launch_edit; cbn; auto.
  - apply launch_edit; cbn; auto.
  - split; [reflexivity|]. split; [reflexivity|]. split; [reflexivity|]. split; [reflexivity|]. apply entry_same.
  - split; [reflexivity|]. split; [reflexivity|]. split; [reflexivity|]. split; [reflexivity|]. apply entry_same.
  - split; [reflexivity|]. split; [reflexivity|]. split; [reflexivity|]. split; [reflexivity|].
    unfold regulator_set_watermark. destruct (max <? min)%nat eqn:E.
    + exists max, min. apply Nat.ltb_lt in E. split; [right; auto|]. split; [lia|]. cbn [cf_regulator with_regulator].
      match goal with |- hash_put _ ?v _ (entry _ ?f ?d _) => replace v with (match lookup (op_id o) (cf_regulator c) with Some old => f old | None => d end); [apply entry_put_at|unfold there; destruct (lookup (op_id o) (cf_regulator c)); reflexivity] end.
    + exists min, max. apply Nat.ltb_ge in E. split; [left; auto|]. split; [lia|]. cbn [cf_regulator with_regulator].
      match goal with |- hash_put _ ?v _ (entry _ ?f ?d _) => replace v with (match lookup (op_id o) (cf_regulator c) with Some old => f old | None => d end); [apply entry_put_at|unfold there; destruct (lookup (op_id o) (cf_regulator c)); reflexivity] end.
  - destruct Hj as [Hj|(x & d & Hx & Hd)]; [exfalso; apply (Hj join); reflexivity|]. injection Hx as <-.
    rewrite Hd. cbn [obind rbind]. rewrite Hr. cbn [rmap]. eexists. split; [reflexivity|]. cbn [edits].
    unfold connection_join. rewrite bentry_same. repeat split; cbn; try (intros; apply ordered_bput; assumption).
    exists d. split; [apply bput_put_at|]. destruct (convert_cases os join) as (r & Hr2 & Hc). rewrite Hd in Hr2. injection Hr2 as <-. exact (Hc d eq_refl).
Qed.

(** ** Environment settings *)

Lemma split_some s a b : split_equals s = Some (a, b) -> s = a ++ "=" ++ b /\ no_equals a.
Proof.
  revert a b. induction s as [|c s IH]; intros a b; cbn; [discriminate|].
  destruct (Ascii.eqb c "=") eqn:E.
  - apply Ascii.eqb_eq in E. subst c. intros [= <- <-]. split; [reflexivity|exact I].
  - destruct (split_equals s) as [[x y]|]; cbn; [|discriminate]. intros [= <- <-]. destruct (IH x y eq_refl) as [-> Hn]. split; [reflexivity|].
    split; [|exact Hn]. intros ->. discriminate.
Qed.
Lemma split_back a b : no_equals a -> split_equals (a ++ "=" ++ b) = Some (a, b).
Proof.
  induction a as [|c a IH]; intros H; cbn; [reflexivity|]. destruct H as [Hc Hn].
  destruct (Ascii.eqb c "=") eqn:E; [apply Ascii.eqb_eq in E; contradiction|]. cbn in IH. rewrite (IH Hn). reflexivity.
Qed.
Lemma as_kv_ok form s n v : as_kv form s = Ok (n, v) <-> setting s n v.
Proof.
  unfold as_kv. split.
  - destruct (split_equals s) as [[a b]|] eqn:E; [|discriminate]. destruct a as [|c a]; [discriminate|]. intros [= <- <-].
    destruct (split_some _ _ _ E) as [-> Hn]. split; [reflexivity|]. split; [discriminate|exact Hn].
  - intros (-> & Hn & He). rewrite (split_back n v He). destruct n; [contradiction|reflexivity].
Qed.
Lemma as_kv_err form s : malformed s -> exists t, as_kv form s = Err (s ++ t).
Proof.
  intros H. destruct (as_kv form s) as [[n v]|e] eqn:E; [exfalso; exact (H n v (proj1 (as_kv_ok form s n v) E))|].
  unfold as_kv in E. destruct (split_equals s) as [[a b]|]; [destruct a|]; try discriminate; injection E as <-; eauto.
Qed.
Lemma setting_one s n v n' v' : setting s n v -> setting s n' v' -> n' = n /\ v' = v.
Proof. intros H H'. apply (as_kv_ok "") in H, H'. rewrite H in H'. injection H' as -> ->. auto. Qed.

Definition env_step (hm : result (list (string * string)) string) (s : string) :=
  match hm, as_kv "NAME=VALUE" s with Ok hm, Ok (k, v) => Ok (entry k (fun _ => v) v hm) | Err e, _ => Err e | _, Err e => Err e end.
Lemma env_fold_snoc l s : env_fold (l ++ [s]) = env_step (env_fold l) s.
Proof. unfold env_fold. rewrite fold_left_app. reflexivity. Qed.
Lemma env_err l e : fold_left env_step l (Err e) = Err e.
Proof. induction l; cbn; auto. Qed.

Lemma last_snoc l s n v : last_setting (l ++ [s]) n v <-> setting s n v \/ last_setting l n v /\ forall v', ~ setting s n v'.
Proof.
  split.
  - intros (l1 & x & l2 & E & Hx & Hl). destruct l2 as [|y l2 _] using rev_ind.
    + change (l1 ++ [x])%list with (l1 ++ [x])%list in E. apply app_inj_tail in E. destruct E as [_ ->]. left. exact Hx.
    + right. rewrite app_comm_cons, app_assoc in E. apply app_inj_tail in E. destruct E as [-> ->]. split.
      * exists l1, x, l2. split; [reflexivity|]. split; [exact Hx|]. intros s' v' Hi. apply Hl. rewrite in_app_iff. auto.
      * intros v'. apply Hl. rewrite in_app_iff. right. left. reflexivity.
  - intros [Hs|[(l1 & x & l2 & -> & Hx & Hl) Hn]].
    + exists l, s, []. split; [reflexivity|]. split; [exact Hs|]. intros s' v' [].
    + exists l1, x, (l2 ++ [s])%list. split; [rewrite <- app_assoc; reflexivity|]. split; [exact Hx|].
      intros s' v' Hi. apply in_app_iff in Hi. destruct Hi as [Hi|[<-|[]]]; [exact (Hl s' v' Hi)|apply Hn].
Qed.

Lemma env_ok l : (forall s, In s l -> exists n v, setting s n v) ->
  exists env, env_fold l = Ok env /\ NoDup (keys env) /\ forall n v, lookup n env = Some v <-> last_setting l n v.
Proof.
  induction l as [|s l IH] using rev_ind; intros H.
  - exists []. split; [reflexivity|]. split; [constructor|]. intros n v. split; [discriminate|]. intros (l1 & x & l2 & E & _). destruct l1; discriminate.
  - destruct IH as (env & He & Hn & Hl); [intros x Hx; apply H; rewrite in_app_iff; auto|].
    destruct (H s) as (n & v & Hs); [rewrite in_app_iff; right; left; reflexivity|].
    rewrite env_fold_snoc, He. unfold env_step. rewrite (proj2 (as_kv_ok _ _ _ _) Hs). eexists. split; [reflexivity|].
    destruct (entry_same n v env) as [[H1 H2] H3]. split; [exact (H3 Hn)|]. intros n' v'. rewrite last_snoc.
    destruct (string_dec n' n) as [->|Hne].
    + rewrite H1. split; [intros [= <-]; left; exact Hs|]. intros [Hs'|[_ Hs']]; [destruct (setting_one _ _ _ _ _ Hs Hs') as [_ ->]; reflexivity|destruct (Hs' v Hs)].
    + rewrite (H2 n' Hne), Hl. split; [intros Hx; right; split; [exact Hx|intros w Hw; destruct (setting_one _ _ _ _ _ Hs Hw); contradiction]|].
      intros [Hs'|[Hx _]]; [destruct (setting_one _ _ _ _ _ Hs Hs'); contradiction|exact Hx].
Qed.
Lemma env_bad l1 s l2 : (forall x, In x l1 -> exists n v, setting x n v) -> malformed s -> exists t, env_fold (l1 ++ s :: l2) = Err (s ++ t).
Proof.
  intros H Hs. destruct (env_ok l1 H) as (env & He & _). destruct (as_kv_err "NAME=VALUE" s Hs) as [t Ht]. exists t.
  unfold env_fold in *. rewrite fold_left_app. cbn. change (fold_left env_step l2 (env_step (fold_left env_step l1 (Ok [])) s) = Err (s ++ t)).
  change (fold_left env_step l1 (Ok []) = Ok env) in He. rewrite He. unfold env_step at 2. rewrite Ht. apply env_err.
Qed.

(** ** The format *)

Lemma append_empty s : s ++ "" = s. Proof. induction s; cbn; congruence. Qed.
Lemma ends_with_exact suffix s : ends_with suffix s = true <-> named suffix s.
Proof.
  induction s as [|a s IH]; cbn [ends_with]; rewrite orb_true_iff, String.eqb_eq.
  - split.
    + intros [H|H]; [subst; exists ""; reflexivity|discriminate].
    + intros [p H]. destruct p; [|discriminate]. left. exact H.
  - rewrite IH. split.
    + intros [<-|[p ->]]; [exists ""; reflexivity|exists (String a p); reflexivity].
    + intros [p H]. destruct p as [|b p]; cbn in H; [left; exact H|]. injection H as -> ->. right. exists p. reflexivity.
Qed.
Definition of_name (n : string) : result format string :=
  if n =? "yaml" then Ok Yaml else if n =? "json" then Ok Json else if ends_with ".yaml" n then Ok Yaml else if ends_with ".yml" n then Ok Yaml
  else if ends_with ".json" n then Ok Json else Err "Could not figure out configuration format".
Lemma ends_apart a b n : named a n -> named b n -> String.length a = String.length b -> a = b.
Proof.
  intros [p ->] [q H] Hl. revert q H. induction p as [|c p IH]; intros q H.
  - cbn in H. destruct q as [|d q]; [exact H|]. exfalso. apply (f_equal String.length) in H. cbn in H.
    assert (L : forall x y, String.length (x ++ y) = String.length x + String.length y) by (induction x; cbn; intros; auto). rewrite L in H. lia.
  - destruct q as [|d q]; cbn in H.
    + exfalso. apply (f_equal String.length) in H. cbn in H.
      assert (L : forall x y, String.length (x ++ y) = String.length x + String.length y) by (induction x; cbn; intros; auto). rewrite L in H. lia.
    + injection H as -> H. exact (IH q H).
Qed.
Lemma yaml_not_json n : named ".yaml" n -> ~ named ".json" n.
Proof. intros H1 H2. discriminate (ends_apart _ _ n H1 H2 eq_refl). Qed.
Lemma shorter a b n : named (String a b) n -> named b n.
Proof. intros [p ->]. exists (p ++ String a ""). induction p; cbn; congruence. Qed.
Lemma yml_not_json n : named ".yml" n -> ~ named ".json" n.
Proof. intros H1 H2. apply shorter in H2. discriminate (ends_apart _ _ n H1 H2 eq_refl). Qed.
(** Without a format, the name decides *)
Lemma by_name m1 n f : value_of m1 "format" = None -> value_of m1 "config" = Some n -> format_of_name n f -> get_config_format (Some m1) = Ok f.
Proof.
  intros Hf Hc Hn. unfold get_config_format. cbn [bind]. rewrite Hf, Hc. cbn [orelse].
  assert (Hnot : n <> "yaml" /\ n <> "json").
  { destruct f; cbn in Hn; [destruct Hn as [p ->]|destruct Hn as [[p ->]|[p ->]]]; split; intros H; repeat (destruct p as [|? p]; cbn in H; try discriminate; try (injection H as _ H); try discriminate). }
  destruct Hnot as [H1 H2]. apply String.eqb_neq in H1, H2. rewrite H1, H2. destruct f; cbn in Hn.
  - destruct (ends_with ".yaml" n) eqn:E1; [apply ends_with_exact in E1; destruct (yaml_not_json n E1 Hn)|].
    destruct (ends_with ".yml" n) eqn:E2; [apply ends_with_exact in E2; destruct (yml_not_json n E2 Hn)|].
    rewrite (proj2 (ends_with_exact ".json" n) Hn). reflexivity.
  - destruct (ends_with ".yaml" n) eqn:E1; [reflexivity|]. destruct Hn as [Hn|Hn]; [apply ends_with_exact in Hn; congruence|].
    rewrite (proj2 (ends_with_exact ".yml" n) Hn). reflexivity.
Qed.

(** What clap gives *)
Definition filled (cfg : option string) (fmt : option format) : matches -> Prop := fun m =>
  value_of m "config" = cfg /\ value_of m "format" = Some (match fmt with Some f => format_text f | None => "yaml" end).
Lemma filled_in name cfg fmt sub : exists vs, clap_defaults (typed_first name cfg (option_map format_text fmt) sub) = Matches [] (Some (name, Matches vs sub)) /\
  filled cfg fmt (Matches vs sub).
Proof. destruct cfg as [c|], fmt as [[|]|]; eexists; (split; [reflexivity|split; reflexivity]). Qed.
Lemma filled_format cfg fmt m : filled cfg fmt m -> get_config_format (Some m) = Ok (match fmt with Some f => f | None => Yaml end).
Proof. intros [H1 H2]. unfold get_config_format. cbn [bind]. rewrite H2. destruct fmt as [[|]|]; reflexivity. Qed.
Lemma filled_in_ cfg fmt m : filled cfg fmt m -> get_config_in (Some m) = match cfg with Some c => c | None => "-" end.
Proof. intros [H1 H2]. unfold get_config_in. cbn [bind]. rewrite H1. destruct cfg; reflexivity. Qed.
Lemma filled_options cfg fmt m m2 id k : filled cfg fmt m -> value_of m2 "id" = Some id ->
  get_standard_config_opts (Some m) (Some m2) (Some k) = Ok (Options id (match cfg with Some c => c | None => "-" end) (match fmt with Some f => f | None => Yaml end)).
Proof. intros H Hi. unfold get_standard_config_opts. rewrite (filled_format _ _ _ H). cbn [bind]. destruct H as [-> _]. rewrite Hi. destruct cfg; reflexivity. Qed.
Lemma filled_no_id cfg fmt m m2 k : filled cfg fmt m -> value_of m2 "id" = None ->
  exists e, get_standard_config_opts (Some m) (Some m2) (Some k) = Err e.
Proof. intros H Hi. unfold get_standard_config_opts. rewrite (filled_format _ _ _ H). cbn [bind]. destruct H as [-> _]. rewrite Hi. destruct cfg; eexists; reflexivity. Qed.

(** ** Numbers *)

Lemma decimal_digit_exact a n : decimal_digit a = Some n <-> exists d, d < 10 /\ a = ascii_of_nat (48 + d) /\ n = N.of_nat d.
Proof.
  unfold decimal_digit. split.
  - destruct ((48 <=? N_of_ascii a)%N && (N_of_ascii a <=? 57)%N) eqn:E; [|discriminate]. apply andb_true_iff in E. destruct E as [E1 E2].
    apply N.leb_le in E1, E2. intros [= <-]. exists (N.to_nat (N_of_ascii a - 48)). split; [lia|]. split; [|lia].
    replace (48 + N.to_nat (N_of_ascii a - 48)) with (nat_of_ascii a) by (unfold nat_of_ascii; lia). symmetry. apply ascii_nat_embedding.
  - intros (d & Hd & -> & ->). do 10 (destruct d as [|d]; [reflexivity|]). lia.
Qed.
Lemma decimal_digits_exact s : forall acc n, (acc < 2 ^ 64)%N -> (parse_digits s acc = Some n <->
  exists ds, Forall (fun d => d < 10) ds /\ s = digits_text ds /\ n = (acc * 10 ^ N.of_nat (List.length ds) + N.of_nat (decimal ds))%N /\ (n < 2 ^ 64)%N).
Proof.
  assert (Hup : forall a m k, (a * 10 ^ k + m < 2 ^ 64 -> a < 2 ^ 64)%N).
  { intros a m k H. assert (1 <= 10 ^ k)%N by (assert (0 < 10 ^ k)%N by (apply N.neq_0_lt_0, N.pow_nonzero; lia); lia). nia. }
  induction s as [|a s IH]; intros acc n Ha; cbn [parse_digits].
  - split.
    + intros [= <-]. exists []. split; [constructor|]. split; [reflexivity|]. cbn [List.length decimal]. change (N.of_nat 0) with 0%N. rewrite N.pow_0_r. split; lia.
    + intros (ds & Hf & Hs & Hn & _). destruct ds as [|d ds]; [|discriminate]. cbn [List.length decimal] in Hn. change (N.of_nat 0) with 0%N in Hn. rewrite N.pow_0_r in Hn. f_equal. lia.
  - unfold bind. destruct (decimal_digit a) as [v|] eqn:E.
    + apply decimal_digit_exact in E. destruct E as (d & Hd & -> & ->). set (acc' := (acc * 10 + N.of_nat d)%N).
      assert (Hcons : forall ds, (acc * 10 ^ N.of_nat (List.length (d :: ds)) + N.of_nat (decimal (d :: ds)) = acc' * 10 ^ N.of_nat (List.length ds) + N.of_nat (decimal ds))%N).
      { intros ds. cbn [List.length decimal]. rewrite Nat2N.inj_succ, N.pow_succ_r', Nat2N.inj_add, Nat2N.inj_mul.
        replace (N.of_nat (10 ^ List.length ds)) with (10 ^ N.of_nat (List.length ds))%N.
        2: { induction (List.length ds) as [|k IHk]; [reflexivity|]. rewrite Nat2N.inj_succ, N.pow_succ_r', IHk. cbn [Nat.pow]. lia. }
        subst acc'. lia. }
      destruct (N.ltb acc' (2 ^ 64)) eqn:El.
      * apply N.ltb_lt in El. rewrite (IH acc' n El). split.
        -- intros (ds & Hf & -> & Hn & Hb). exists (d :: ds). split; [constructor; assumption|]. split; [reflexivity|]. rewrite Hcons. auto.
        -- intros (ds & Hf & Hs & Hn & Hb). destruct ds as [|d' ds]; [discriminate|]. cbn [digits_text] in Hs. injection Hs as Hd' ->.
           inversion Hf; subst. assert (d' = d).
           { apply (f_equal nat_of_ascii) in Hd'. rewrite !nat_ascii_embedding in Hd' by lia. lia. }
           subst d'. exists ds. split; [assumption|]. split; [reflexivity|]. rewrite Hcons in Hb |- *. auto.
      * apply N.ltb_ge in El. split; [discriminate|]. intros (ds & Hf & Hs & Hn & Hb). exfalso. destruct ds as [|d' ds]; [discriminate|]. cbn [digits_text] in Hs. injection Hs as Hd' ->.
        inversion Hf; subst. assert (d' = d).
        { apply (f_equal nat_of_ascii) in Hd'. rewrite !nat_ascii_embedding in Hd' by lia. lia. }
        subst d'. rewrite Hcons in Hb. apply Hup in Hb. lia.
    + split; [discriminate|]. intros (ds & Hf & Hs & _). destruct ds as [|d ds]; [discriminate|]. cbn [digits_text] in Hs. injection Hs as -> ->.
      inversion Hf; subst. exfalso. assert (Hx : decimal_digit (ascii_of_nat (48 + d)) = Some (N.of_nat d)) by (apply decimal_digit_exact; eauto). cbn [Nat.add] in Hx. rewrite Hx in E. discriminate.
Qed.
Lemma first_plus s : (match s with String "+" r => r | _ => s end) = match s with String a r => if Ascii.eqb a "+" then r else s | _ => s end.
Proof. destruct s as [|[[] [] [] [] [] [] [] []] s]; reflexivity. Qed.
Lemma parse_usize_exact s n : parse_usize s = Some n <-> number_text s n /\ (N.of_nat n < 2 ^ 64)%N.
Proof.
  unfold parse_usize. rewrite first_plus. set (t := match s with String a r => if Ascii.eqb a "+" then r else s | _ => s end).
  assert (Ht : forall ds, Forall (fun d => d < 10) ds -> ds <> [] -> (t = digits_text ds <-> s = digits_text ds \/ s = "+" ++ digits_text ds)).
  { intros ds Hf Hne. assert (Hp : forall d r, d < 10 -> String (ascii_of_nat (48 + d)) r <> "" /\ Ascii.eqb (ascii_of_nat (48 + d)) "+" = false).
    { intros d r Hd. split; [discriminate|]. do 10 (destruct d as [|d]; [reflexivity|]). lia. }
    subst t. destruct ds as [|d ds]; [contradiction|]. inversion Hf as [|? ? Hd Hf']; subst. destruct (Hp d (digits_text ds) Hd) as [_ Hq]. cbn [digits_text]. split.
    - intros H. destruct s as [|a s]; [discriminate|]. destruct (Ascii.eqb a "+") eqn:E; [apply Ascii.eqb_eq in E; subst; right; reflexivity|left; exact H].
    - intros [->| ->]; [rewrite Hq; reflexivity|reflexivity]. }
  split.
  - intros H. assert (Hne : t <> "") by (intros E; rewrite E in H; discriminate).
    assert (H' : bind (parse_digits t 0) (fun n => Some (N.to_nat n)) = Some n) by (destruct t; [contradiction|exact H]). clear H.
    destruct (parse_digits t 0) as [m|] eqn:E; [|discriminate]. cbn in H'. injection H' as <-.
    apply decimal_digits_exact in E; [|reflexivity]. destruct E as (ds & Hf & Hs & -> & Hb). rewrite N.mul_0_l, N.add_0_l in Hb |- *. rewrite Nat2N.id. split; [|exact Hb].
    exists ds. assert (ds <> []) by (intros ->; apply Hne; exact Hs). split; [assumption|]. split; [exact Hf|]. split; [reflexivity|]. apply Ht; auto.
  - intros [(ds & Hne & Hf & <- & Hs) Hb]. apply (Ht ds Hf Hne) in Hs.
    assert (E : parse_digits t 0 = Some (N.of_nat (decimal ds))).
    { apply decimal_digits_exact; [reflexivity|]. exists ds. rewrite N.mul_0_l, N.add_0_l. auto. }
    destruct t as [|a t']; [destruct ds; [contradiction|discriminate]|]. rewrite E. cbn. rewrite Nat2N.id. reflexivity.
Qed.
