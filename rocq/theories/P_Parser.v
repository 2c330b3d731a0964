(** * P_Parser: the parser against the grammar *)
From Coq Require Import Ascii String List Bool Arith ZArith NArith Lia.
From Verif Require Import M_Prog M_Config M_Launch M_Parser S_Launch S_Grammar P_Text.
Import ListNotations.
Local Open Scope string_scope.

Lemma app_assoc_s (a b c : string) : (a ++ b) ++ c = a ++ b ++ c.
Proof. induction a; cbn; congruence. Qed.
Lemma app_nil_s (a : string) : a ++ "" = a.
Proof. induction a; cbn; congruence. Qed.
Lemma length_app_s (a b : string) : String.length (a ++ b) = String.length a + String.length b.
Proof. induction a; cbn; congruence. Qed.

Definition starts (f : ascii -> bool) (r : string) : bool := match r with String c _ => f c | EmptyString => false end.

(** Literals, classes *)
Lemma lit_app w r : lit w (w ++ r) = Some (w, r).
Proof. induction w; cbn; [reflexivity|]. rewrite Ascii.eqb_refl, IHw. reflexivity. Qed.
Lemma lit_inv w : forall s x r, lit w s = Some (x, r) -> x = w /\ s = w ++ r.
Proof.
  induction w as [|a w IH]; intros s x r; cbn; [intros [= <- <-]; auto|].
  destruct s as [|b s]; [discriminate|]. destruct (Ascii.eqb_spec a b) as [->|]; [|discriminate].
  destruct (lit w s) as [[y z]|] eqn:E; [|discriminate]. intros [= <- <-]. apply IH in E as [-> ->]. auto.
Qed.

Lemma many_app f n : forall r, Forall (fun c => f c = true) (list_ascii_of_string n) -> starts f r = false -> many f (n ++ r) = (n, r).
Proof.
  induction n as [|c n IH]; cbn; intros r Hn Hr.
  - destruct r as [|d r]; [reflexivity|]. cbn in *. rewrite Hr. reflexivity.
  - inversion Hn; subst. rewrite H1, IH by auto. reflexivity.
Qed.
Lemma many_inv f : forall s n r, many f s = (n, r) -> s = n ++ r /\ Forall (fun c => f c = true) (list_ascii_of_string n).
Proof.
  induction s as [|c s IH]; cbn; intros n r.
  - intros [= <- <-]. split; [reflexivity|constructor].
  - destruct (f c) eqn:E.
    + destruct (many f s) as [x y]. intros [= <- <-]. destruct (IH x y eq_refl) as [-> H]. split; [reflexivity|]. constructor; auto.
    + intros [= <- <-]. split; [reflexivity|constructor].
Qed.

Lemma name_char c : is_name_char c = true <-> In c (list_ascii_of_string name_letters).
Proof.
  split.
  - destruct c as [[] [] [] [] [] [] [] []]; intros H; first [discriminate H | cbn; repeat (first [left; reflexivity | right])].
  - cbn. intros H. repeat (destruct H as [<-|H]; [reflexivity|]). destruct H.
Qed.

Lemma component_name_app n r : name_text n -> starts is_name_char r = false -> component_name (n ++ r) = Some (n, r).
Proof.
  intros [Hn Hl] Hr. unfold component_name, plus_class. rewrite many_app; auto.
  - destruct n; [congruence|reflexivity].
  - eapply Forall_impl; [|exact Hl]. intros c. apply name_char.
Qed.
Lemma component_name_inv s n r : component_name s = Some (n, r) -> s = n ++ r /\ name_text n.
Proof.
  unfold component_name, plus_class. destruct (many is_name_char s) as [x y] eqn:E. apply many_inv in E as [-> H].
  destruct x; [discriminate|]. intros [= <- <-]. split; [reflexivity|]. split; [discriminate|].
  eapply Forall_impl; [|exact H]. intros c. apply name_char.
Qed.

(** Numbers *)
Lemma digit_is c : digit c = if is_digit c then Some (N_of_ascii c - 48)%N else None.
Proof. destruct c as [[] [] [] [] [] [] [] []]; reflexivity. Qed.
Lemma digit_value c : is_digit c = true -> (Z.of_N (N_of_ascii c) - 48 = Z.of_N (N_of_ascii c - 48))%Z.
Proof. destruct c as [[] [] [] [] [] [] [] []]; intros H; first [discriminate H | reflexivity]. Qed.
Lemma digits_value_of s : forall acc, digits_value (Z.of_N acc) s = option_map Z.of_N (value_from acc (list_ascii_of_string s)).
Proof.
  induction s as [|c s IH]; intros acc; [reflexivity|]. cbn [digits_value list_ascii_of_string value_from].
  rewrite digit_is. destruct (is_digit c) eqn:E; [|reflexivity]. rewrite <- IH, digit_value by auto. f_equal. lia.
Qed.
Lemma digits_all s : forall acc n, value_from acc (list_ascii_of_string s) = Some n -> Forall (fun c => is_digit c = true) (list_ascii_of_string s).
Proof.
  induction s as [|c s IH]; intros acc n; cbn; [constructor|]. rewrite digit_is. destruct (is_digit c) eqn:E; [|discriminate].
  intros H. constructor; eauto.
Qed.
Lemma digits_some s : Forall (fun c => is_digit c = true) (list_ascii_of_string s) -> forall acc, exists n, value_from acc (list_ascii_of_string s) = Some n.
Proof.
  induction s as [|c s IH]; intros H acc; cbn; [eauto|]. inversion H; subst. rewrite digit_is, H2. apply IH; auto.
Qed.
Definition checked (o : option Z) : option Z := match o with Some z => if isize_ok z then Some z else None | None => None end.
Lemma parse_pos c r : is_digit c = true -> parse_isize (String c r) = checked (digits_value 0 (String c r)).
Proof. destruct c as [[] [] [] [] [] [] [] []]; intros H; first [discriminate H | reflexivity]. Qed.
Lemma parse_neg c r : parse_isize (String "-" (String c r)) = checked (match digits_value 0 (String c r) with Some z => Some (- z)%Z | None => None end).
Proof. reflexivity. Qed.
Lemma isize_fits z : isize_ok z = true <-> fits z.
Proof. unfold isize_ok, fits. rewrite andb_true_iff, Z.leb_le, Z.ltb_lt. tauto. Qed.

Definition preference (s : string) : Z := match parse_isize s with Some z => z | None => 0%Z end.

Lemma preference_of z s : priority_text z s -> preference s = z.
Proof.
  assert (A : forall z s, integer_text z s -> parse_isize s = checked (Some z)).
  { intros ? ? [ds n Hne Hv|ds n Hne Hv]; destruct ds as [|c ds]; try congruence.
    - pose proof (digits_all _ _ _ Hv) as F. inversion F; subst. rewrite parse_pos by auto.
      change 0%Z with (Z.of_N 0). rewrite digits_value_of, Hv. reflexivity.
    - rewrite parse_neg. change 0%Z with (Z.of_N 0). rewrite digits_value_of, Hv. reflexivity. }
  intros [z' s' Hi Hf|z' s' Hi Hf| |]; unfold preference; try reflexivity; rewrite (A _ _ Hi); unfold checked.
  - apply isize_fits in Hf. rewrite Hf. reflexivity.
  - destruct (isize_ok z') eqn:E; [apply isize_fits in E; contradiction|reflexivity].
Qed.
Lemma preference_priority sign n : sign = "" \/ sign = "-" -> Forall (fun c => is_digit c = true) (list_ascii_of_string n) ->
  priority_text (preference (sign ++ n)) (sign ++ n).
Proof.
  intros Hs Hn. assert (A : forall z, integer_text z (sign ++ n) -> priority_text (preference (sign ++ n)) (sign ++ n)).
  { intros z Hi. destruct (isize_ok z) eqn:E.
    - apply isize_fits in E. pose proof (Fits _ _ Hi E) as P. rewrite (preference_of _ _ P). exact P.
    - assert (~ fits z) by (intros F; apply isize_fits in F; congruence).
      pose proof (TooBig _ _ Hi H) as P. rewrite (preference_of _ _ P). exact P. }
  destruct n as [|c n]; [destruct Hs as [->| ->]; [exact NoNumber|exact NoDigits]|].
  destruct (digits_some _ Hn 0%N) as [v Hv].
  destruct Hs as [->| ->].
  - apply (A (Z.of_N v)). apply (Positive (String c n)); [discriminate|exact Hv].
  - apply (A (- Z.of_N v)%Z). apply (Negative (String c n)); [discriminate|exact Hv].
Qed.

Lemma port_preference_app z s r : priority_text z s -> port_preference (s ++ String "]" r) = Some (z, String "]" r).
Proof.
  intros H. rewrite <- (preference_of _ _ H). unfold port_preference, pbind, alt, star_class, pret.
  assert (A : forall ds, Forall (fun c => is_digit c = true) (list_ascii_of_string ds) ->
            many is_digit (ds ++ String "]" r) = (ds, String "]" r)) by (intros; apply many_app; auto).
  assert (B : forall z s, integer_text z s -> exists sign n, s = sign ++ n /\ (sign = "-" \/ sign = "" /\ starts is_digit n = true) /\
      Forall (fun c => is_digit c = true) (list_ascii_of_string n)).
  { intros ? ? [ds n Hne Hv|ds n Hne Hv]; pose proof (digits_all _ _ _ Hv) as F.
    - exists "", ds. repeat split; auto. right. split; auto. destruct ds; [congruence|]. inversion F; auto.
    - exists "-", ds. auto. }
  assert (C : forall sign n, (sign = "-" \/ sign = "" /\ (n = "" \/ starts is_digit n = true)) -> Forall (fun c => is_digit c = true) (list_ascii_of_string n) ->
     match match lit "-" ((sign ++ n) ++ String "]" r) with Some x => Some x | None => Some ("", (sign ++ n) ++ String "]" r) end with
     | Some (a, s') => let (n, r') := many is_digit s' in Some (preference (a ++ n), r')
     | None => None end = Some (preference (sign ++ n), String "]" r)).
  { intros sign n [->|[-> Hn]] Hd.
    - cbn [append lit Ascii.eqb Bool.eqb]. rewrite A by auto. reflexivity.
    - destruct Hn as [->|Hn]; [reflexivity|]. destruct n as [|c n]; [discriminate|].
      replace (lit "-" (("" ++ String c n) ++ String "]" r)) with (@None (string * string)).
      + change (("" ++ String c n) ++ String "]" r) with (String c n ++ String "]" r). rewrite A by auto. reflexivity.
      + cbn in Hn |- *. destruct c as [[] [] [] [] [] [] [] []]; first [discriminate Hn | reflexivity]. }
  destruct H as [z' s' Hi _|z' s' Hi _| |].
  - destruct (B _ _ Hi) as (sign & n & -> & Hs & Hd). etransitivity; [|apply C; auto; tauto].
    match goal with |- context [match ?x with Some _ => Some _ | None => Some _ end] => destruct x as [[? ?]|] end; unfold preference; try destruct (many _ _); reflexivity.
  - destruct (B _ _ Hi) as (sign & n & -> & Hs & Hd). etransitivity; [|apply C; auto; tauto].
    match goal with |- context [match ?x with Some _ => Some _ | None => Some _ end] => destruct x as [[? ?]|] end; unfold preference; try destruct (many _ _); reflexivity.
  - reflexivity.
  - reflexivity.
Qed.
Lemma port_preference_inv s z r : port_preference s = Some (z, r) -> exists t, s = t ++ r /\ priority_text z t.
Proof.
  unfold port_preference, pbind, alt, star_class, pret. destruct (lit "-" s) as [[x y]|] eqn:E.
  - apply lit_inv in E as [-> ->]. destruct (many is_digit y) as [n w] eqn:M. apply many_inv in M as [-> Hn].
    intros [= <- <-]. exists ("-" ++ n). split; [reflexivity|]. exact (preference_priority "-" n (or_intror eq_refl) Hn).
  - destruct (many is_digit s) as [n w] eqn:M. apply many_inv in M as [-> Hn].
    intros [= <- <-]. exists n. split; [reflexivity|]. exact (preference_priority "" n (or_introl eq_refl) Hn).
Qed.

Lemma in_port_app z s r : priority_text z s -> in_port (("[" ++ s ++ "]") ++ r) = Some (InPort Terminate z, r).
Proof.
  intros H. rewrite !app_assoc_s. unfold in_port, pbind at 1. rewrite lit_app. unfold pbind at 1. cbn [append].
  rewrite (port_preference_app _ _ _ H). reflexivity.
Qed.
Lemma in_port_inv s i r : in_port s = Some (i, r) -> exists t, s = t ++ r /\ input_text (ip_priority i) t /\ ip_breakable i = Terminate.
Proof.
  unfold in_port, pbind. destruct (lit "[" s) as [[a x]|] eqn:E; [|discriminate]. apply lit_inv in E as [-> ->].
  destruct (port_preference x) as [[z y]|] eqn:E; [|discriminate]. apply port_preference_inv in E as (t & -> & Ht).
  destruct (lit "]" y) as [[b w]|] eqn:E; [|discriminate]. apply lit_inv in E as [-> ->]. intros [= <- <-].
  exists ("[" ++ t ++ "]"). rewrite !app_assoc_s. split; [reflexivity|]. split; [constructor; auto|reflexivity].
Qed.

(** Identifiers *)
Lemma component_type_app t k r : kind_text t k -> component_type (k ++ String ":" r) = Some (t, String ":" r).
Proof. intros []; reflexivity. Qed.
Lemma type_word_inv w t s t' r : type_word w t s = Some (t', r) -> t' = t /\ s = w ++ r.
Proof.
  unfold type_word, pbind. destruct (lit w s) as [[a x]|] eqn:E; [|discriminate]. apply lit_inv in E as [-> ->]. intros [= <- <-]. auto.
Qed.
Lemma component_type_inv s t r : component_type s = Some (t, r) -> exists k, s = k ++ r /\ kind_text t k.
Proof.
  unfold component_type, alt.
  repeat match goal with
  | |- match ?x with Some y => _ | None => _ end = _ -> _ => destruct x as [[? ?]|] eqn:?E; [apply type_word_inv in E as [-> ->]; intros [= <- <-]; eexists; split; [reflexivity|constructor]|clear E]
  end.
  intros E. apply type_word_inv in E as [-> ->]. eexists; split; [reflexivity|constructor].
Qed.
Lemma identifier_app t n s r : component_text t n s -> starts is_name_char r = false -> identifier (s ++ r) = Some ((t, n), r).
Proof.
  intros [k Hk Hn] Hr. rewrite !app_assoc_s. cbn [append]. unfold identifier, pbind.
  rewrite (component_type_app t k) by auto. cbn [lit Ascii.eqb Bool.eqb]. rewrite component_name_app by auto. reflexivity.
Qed.
Lemma identifier_inv s i r : identifier s = Some (i, r) -> exists t, s = t ++ r /\ component_text (fst i) (snd i) t.
Proof.
  unfold identifier, pbind. destruct (component_type s) as [[t x]|] eqn:E; [|discriminate]. apply component_type_inv in E as (k & -> & Hk).
  destruct (lit ":" x) as [[a y]|] eqn:E; [|discriminate]. apply lit_inv in E as [-> ->].
  destruct (component_name y) as [[n z]|] eqn:E; [|discriminate]. apply component_name_inv in E as (-> & Hn).
  intros [= <- <-]. exists (k ++ ":" ++ n). rewrite !app_assoc_s. split; [reflexivity|]. constructor; auto.
Qed.

(** Output ports *)
Lemma out_port_app o s r : output_text o s -> s <> "" -> out_port (s ++ r) = Some (o, r).
Proof. intros [] H; [congruence|reflexivity..]. Qed.
Lemma out_port_inv s o r : out_port s = Some (o, r) -> exists t, s = t ++ r /\ output_text o t.
Proof.
  unfold out_port, pbind, alt. destruct (lit "[" s) as [[a x]|] eqn:E; [|discriminate]. apply lit_inv in E as [-> ->].
  destruct (lit "E" x) as [[b y]|] eqn:E; [apply lit_inv in E as [-> ->]|clear E; destruct (lit "O" x) as [[b y]|] eqn:E; [apply lit_inv in E as [-> ->]|clear E; destruct (lit "X" x) as [[b y]|] eqn:E; [apply lit_inv in E as [-> ->]|discriminate]]];
  unfold pret at 1; (destruct (lit "]" y) as [[c z]|] eqn:E; [|discriminate]); apply lit_inv in E as [-> ->]; intros [= <- <-]; [exists "[E]"|exists "[O]"|exists "[X]"]; (split; [reflexivity|constructor]).
Qed.

(** Pipes *)
Lemma spaces_all n : Forall (fun c => is_space c = true) (list_ascii_of_string (spaces n)).
Proof. induction n; cbn; constructor; auto. Qed.
Lemma all_spaces s : Forall (fun c => is_space c = true) (list_ascii_of_string s) -> exists n, s = spaces n.
Proof.
  induction s as [|c s IH]; cbn; intros H; [exists 0; reflexivity|]. inversion H; subst. apply Ascii.eqb_eq in H2 as ->.
  destruct IH as [n ->]; auto. exists (S n). reflexivity.
Qed.
(** What comes after a pipe starts with a bracket or a kind of component. *)
Definition opening (c : ascii) : bool := if in_dec ascii_dec c (list_ascii_of_string "[fljbdr") then true else false.
Lemma opening_in c : opening c = true -> In c (list_ascii_of_string "[fljbdr").
Proof. unfold opening. destruct (in_dec _ _ _); [auto|discriminate]. Qed.
Lemma pipe_app b s r : pipe_text b s -> starts opening r = true -> pipe (s ++ r) = Some (PPipe b, r).
Proof.
  intros [n t m Ht] Hr. destruct r as [|c r]; [discriminate|]. cbn in Hr. apply opening_in in Hr.
  assert (Hs : is_space c = false) by (cbn in Hr; repeat (destruct Hr as [<-|Hr]; [reflexivity|]); destruct Hr).
  rewrite !app_assoc_s. unfold pipe, pbind, star_class.
  rewrite many_app; [|apply spaces_all|destruct Ht; reflexivity].
  assert (A : alt pipe_type pipe_plain (t ++ spaces m ++ String c r) = Some (b, spaces m ++ String c r)).
  { destruct Ht; try reflexivity. destruct m; [|reflexivity]. cbn in Hr.
    repeat (destruct Hr as [<-|Hr]; [reflexivity|]). destruct Hr. }
  rewrite A. rewrite many_app; [|apply spaces_all|exact Hs]. reflexivity.
Qed.
Lemma pipe_inv s x r : pipe s = Some (x, r) -> exists b t, x = PPipe b /\ s = t ++ r /\ pipe_text b t.
Proof.
  unfold pipe, pbind, star_class, alt. destruct (many is_space s) as [a y] eqn:E. apply many_inv in E as [-> Ha].
  apply all_spaces in Ha as [n ->].
  destruct (pipe_type y) as [[b z]|] eqn:E.
  - unfold pipe_type, pbind in E. destruct (lit "|" y) as [[? w]|] eqn:E1; [|discriminate]. apply lit_inv in E1 as [-> ->].
    destruct (pipe_type_code w) as [[b' v]|] eqn:E2; [|discriminate].
    destruct (lit "|" v) as [[? u]|] eqn:E3; [|discriminate]. apply lit_inv in E3 as [-> ->]. injection E as -> ->.
    destruct (many is_space z) as [c y'] eqn:E. apply many_inv in E as [-> Hc]. apply all_spaces in Hc as [m ->].
    intros [= <- <-]. unfold pipe_type_code, alt, pbind in E2.
    destruct (lit "T" w) as [[? ?]|] eqn:E; [apply lit_inv in E as [-> ->]; injection E2 as <- ->|
    clear E; destruct (lit "C" w) as [[? ?]|] eqn:E; [apply lit_inv in E as [-> ->]; injection E2 as <- ->|
    clear E; destruct (lit "F" w) as [[? ?]|] eqn:E; [apply lit_inv in E as [-> ->]; injection E2 as <- ->|discriminate]]].
    + exists Terminate, (spaces n ++ "|T|" ++ spaces m). rewrite !app_assoc_s. repeat split. constructor; constructor.
    + exists Consume, (spaces n ++ "|C|" ++ spaces m). rewrite !app_assoc_s. repeat split. constructor; constructor.
    + exists Finish, (spaces n ++ "|F|" ++ spaces m). rewrite !app_assoc_s. repeat split. constructor; constructor.
  - clear E. unfold pipe_plain, pbind. destruct (lit "|" y) as [[? w]|] eqn:E1; [|discriminate]. apply lit_inv in E1 as [-> ->].
    unfold pret at 1. destruct (many is_space w) as [c y'] eqn:E. apply many_inv in E as [-> Hc]. apply all_spaces in Hc as [m ->].
    intros [= <- <-]. exists Terminate, (spaces n ++ "|" ++ spaces m). rewrite !app_assoc_s. repeat split. constructor; constructor.
Qed.

(** Components *)
Definition after (r : string) : Prop := starts is_name_char r = false /\ out_port r = None.
Lemma after_pipe b s r : pipe_text b s -> after (s ++ r).
Proof. intros [n t m Ht]. rewrite !app_assoc_s. destruct n; [destruct Ht|]; split; reflexivity. Qed.
Lemma after_nil : after "".
Proof. split; reflexivity. Qed.
Lemma output_start o s r : output_text o s -> after r -> starts is_name_char (s ++ r) = false.
Proof. intros [] [H _]; [exact H|reflexivity..]. Qed.

Lemma no_in_port t n s r : component_text t n s -> in_port (s ++ r) = None.
Proof. intros [k Hk Hn]. rewrite !app_assoc_s. destruct Hk; reflexivity. Qed.
Lemma no_identifier s r : identifier (String "[" s ++ r) = None.
Proof. reflexivity. Qed.
Lemma component_opening t n s r : component_text t n s -> starts opening (s ++ r) = true.
Proof. intros [k Hk Hn]. rewrite !app_assoc_s. destruct Hk; reflexivity. Qed.

Lemma start_app t n o s1 s2 r : component_text t n s1 -> output_text o s2 -> after r ->
  component_start (s1 ++ s2 ++ r) = Some (PConnection (StartC t n o None), r).
Proof.
  intros H1 H2 H3. unfold component_start, alt, component_start_full, component_start_quick, pbind.
  rewrite (identifier_app t n) by (auto; eapply output_start; eauto).
  destruct H2; try reflexivity. cbn [append]. destruct H3 as [_ ->]. reflexivity.
Qed.
Lemma start_inv s x r : component_start s = Some (x, r) ->
  exists t n o s1 s2, x = PConnection (StartC t n o None) /\ s = s1 ++ s2 ++ r /\ component_text t n s1 /\ output_text o s2.
Proof.
  unfold component_start, alt, component_start_full, component_start_quick, pbind.
  destruct (identifier s) as [[[t n] y]|] eqn:E; [|discriminate]. apply identifier_inv in E as (s1 & -> & H1). cbn in H1.
  destruct (out_port y) as [[o z]|] eqn:E.
  - apply out_port_inv in E as (s2 & -> & H2). intros [= <- <-]. exists t, n, o, s1, s2. auto.
  - intros [= <- <-]. exists t, n, POut, s1, "". repeat split; auto. constructor.
Qed.

Lemma end_app t n p s1 s2 : input_text p s1 -> component_text t n s2 ->
  component_end (s1 ++ s2) = Some (PConnection (EndC t n (InPort Terminate p) None), "").
Proof.
  intros H1 H2. unfold component_end, alt, component_end_full, component_end_quick, pbind.
  pose proof (identifier_app t n s2 "" H2 eq_refl) as Hi. rewrite app_nil_s in Hi.
  destruct H1 as [|z s Hz].
  - cbn [append]. pose proof (no_in_port t n s2 "" H2) as Hp. rewrite app_nil_s in Hp. rewrite Hp, Hi. reflexivity.
  - rewrite (in_port_app _ _ _ Hz), Hi. reflexivity.
Qed.
Lemma end_inv s x r : component_end s = Some (x, r) ->
  exists t n p s1 s2, x = PConnection (EndC t n (InPort Terminate p) None) /\ s = s1 ++ s2 ++ r /\ input_text p s1 /\ component_text t n s2.
Proof.
  unfold component_end, alt, component_end_full, component_end_quick, pbind.
  destruct (in_port s) as [[[b p] y]|] eqn:E.
  - apply in_port_inv in E as (s1 & -> & H1 & Hb). cbn in *. subst b.
    destruct (identifier y) as [[[t n] z]|] eqn:E.
    + apply identifier_inv in E as (s2 & -> & H2). intros [= <- <-]. exists t, n, p, s1, s2. auto.
    + destruct (identifier (s1 ++ y)) as [[[t n] z]|] eqn:E'; [|discriminate]. apply identifier_inv in E' as (s2 & Hs & H2).
      intros [= <- <-]. exists t, n, 0%Z, "", s2. rewrite Hs. repeat split; auto. constructor.
  - destruct (identifier s) as [[[t n] z]|] eqn:E'; [|discriminate]. apply identifier_inv in E' as (s2 & -> & H2).
    intros [= <- <-]. exists t, n, 0%Z, "", s2. repeat split; auto. constructor.
Qed.

Lemma middle_app t n p o s1 s2 s3 r : input_text p s1 -> component_text t n s2 -> output_text o s3 -> after r ->
  component_middle (s1 ++ s2 ++ s3 ++ r) = Some (PConnection (MiddleC t n (InPort Terminate p) o None), r).
Proof.
  intros H1 H2 H3 H4.
  unfold component_middle, alt, component_middle_full, component_middle_default_input, component_middle_default_output, component_middle_quick, pbind.
  pose proof (identifier_app t n s2 (s3 ++ r) H2 (output_start _ _ _ H3 H4)) as Hi.
  destruct H1 as [|z s Hz].
  - cbn [append]. rewrite (no_in_port t n s2 _ H2), Hi. destruct H3; try reflexivity. cbn [append]. destruct H4 as [_ ->]. reflexivity.
  - rewrite (in_port_app _ _ _ Hz), Hi.
    assert (HN : forall r', identifier (("[" ++ s ++ "]") ++ r') = None) by reflexivity. rewrite HN.
    destruct H3; try reflexivity. cbn [append]. destruct H4 as [_ ->]. reflexivity.
Qed.
Lemma middle_inv s x r : component_middle s = Some (x, r) ->
  exists t n p o s1 s2 s3, x = PConnection (MiddleC t n (InPort Terminate p) o None) /\ s = s1 ++ s2 ++ s3 ++ r /\
    input_text p s1 /\ component_text t n s2 /\ output_text o s3.
Proof.
  assert (A : component_middle_default_input s = Some (x, r) \/ component_middle_quick s = Some (x, r) ->
    exists t n p o s1 s2 s3, x = PConnection (MiddleC t n (InPort Terminate p) o None) /\ s = s1 ++ s2 ++ s3 ++ r /\
    input_text p s1 /\ component_text t n s2 /\ output_text o s3).
  { unfold component_middle_default_input, component_middle_quick, pbind. destruct (identifier s) as [[[t n] z]|] eqn:E; [|intros [H|H]; discriminate].
    apply identifier_inv in E as (s2 & -> & H2). destruct (out_port z) as [[o y]|] eqn:E.
    - apply out_port_inv in E as (s3 & -> & H3). intros [[= <- <-]|[= <- <-]].
      + exists t, n, 0%Z, o, "", s2, s3. repeat split; auto. constructor.
      + exists t, n, 0%Z, POut, "", s2, "". repeat split; auto; constructor.
    - intros [H|[= <- <-]]; [discriminate|]. exists t, n, 0%Z, POut, "", s2, "". repeat split; auto; constructor. }
  assert (B : component_middle_full s = Some (x, r) \/ component_middle_default_output s = Some (x, r) ->
    exists t n p o s1 s2 s3, x = PConnection (MiddleC t n (InPort Terminate p) o None) /\ s = s1 ++ s2 ++ s3 ++ r /\
    input_text p s1 /\ component_text t n s2 /\ output_text o s3).
  { unfold component_middle_full, component_middle_default_output, pbind.
    destruct (in_port s) as [[[b p] w]|] eqn:E; [|intros [H|H]; discriminate]. apply in_port_inv in E as (s1 & -> & H1 & Hb). cbn in *. subst b.
    destruct (identifier w) as [[[t n] z]|] eqn:E; [|intros [H|H]; discriminate].
    apply identifier_inv in E as (s2 & -> & H2). destruct (out_port z) as [[o y]|] eqn:E.
    - apply out_port_inv in E as (s3 & -> & H3). intros [[= <- <-]|[= <- <-]].
      + exists t, n, p, o, s1, s2, s3. repeat split; auto.
      + exists t, n, p, POut, s1, s2, "". repeat split; auto; constructor.
    - intros [H|[= <- <-]]; [discriminate|]. exists t, n, p, POut, s1, s2, "". repeat split; auto; constructor. }
  unfold component_middle, alt.
  destruct (component_middle_full s) as [y|] eqn:E1; [intros [= ->]; auto|].
  destruct (component_middle_default_input s) as [y|] eqn:E2; [intros [= ->]; auto|].
  destruct (component_middle_default_output s) as [y|] eqn:E3; [intros [= ->]; auto|]. auto.
Qed.

(** The rest of the text *)
Lemma input_opening p s t n s2 r : input_text p s -> component_text t n s2 -> starts opening (s ++ s2 ++ r) = true.
Proof. intros [|z u _] H2; [apply (component_opening t n s2); exact H2|reflexivity]. Qed.

Lemma component_length t n s : component_text t n s -> 1 <= String.length s.
Proof. intros [k Hk _]. rewrite length_app_s. destruct Hk; cbn; lia. Qed.
Lemma rest_length l s : rest_text l s -> List.length l <= String.length s.
Proof.
  induction 1; rewrite !length_app_s; cbn [List.length]; match goal with H : component_text _ _ _ |- _ => apply component_length in H end; lia.
Qed.

Lemma rest_app l s : rest_text l s ->
  exists b s1 body, s = s1 ++ body /\ pipe_text b s1 /\ starts opening body = true /\ List.length l <= String.length body /\
  forall fuel, List.length l <= fuel -> exists ms e r,
    repeat_rule fuel line_middle body = (ms, r) /\ component_end r = Some (e, "") /\
    attach_pipes (Some b) (List.concat ms ++ [e])%list = Good l.
Proof.
  induction 1 as [b p t n s1 s2 s3 H1 H2 H3|b p t n o s1 s2 s3 s4 l s5 H1 H2 H3 H4 H5 IH].
  - exists b, s1, (s2 ++ s3). split; [reflexivity|]. split; [exact H1|]. split.
    { pose proof (input_opening p s2 t n s3 "" H2 H3) as Ho. rewrite app_nil_s in Ho. exact Ho. }
    split. { rewrite length_app_s. apply component_length in H3. cbn. lia. }
    intros fuel Hf. destruct fuel as [|fuel]; [cbn in Hf; lia|].
    exists [], (PConnection (EndC t n (InPort Terminate p) None)), (s2 ++ s3). split; [|split].
    + cbn [repeat_rule]. unfold line_middle at 1. unfold pbind at 1.
      pose proof (middle_app t n p POut s2 s3 "" "" H2 H3 DefaultOutput after_nil) as Hm. cbn [append] in Hm. rewrite app_nil_s in Hm. rewrite Hm. reflexivity.
    + apply end_app; auto.
    + reflexivity.
  - destruct IH as (b' & s1' & body & -> & Hp & Ho & Hlen & IH).
    exists b, s1, (s2 ++ s3 ++ s4 ++ s1' ++ body). split; [reflexivity|]. split; [exact H1|]. split.
    { eapply input_opening; eauto. }
    split. { rewrite !length_app_s. apply component_length in H3. cbn [List.length]. lia. }
    intros fuel Hf. destruct fuel as [|fuel]; [cbn in Hf; lia|].
    destruct (IH fuel) as (ms & e & r & E1 & E2 & E3); [cbn in Hf; lia|].
    exists ([PConnection (MiddleC t n (InPort Terminate p) o None); PPipe b'] :: ms), e, r. split; [|split].
    + cbn [repeat_rule]. unfold line_middle at 1. unfold pbind at 1.
      rewrite (middle_app t n p o) by (auto; eapply after_pipe; eauto).
      unfold pbind at 1. rewrite (pipe_app b') by auto. unfold pret at 1. rewrite E1. reflexivity.
    + exact E2.
    + cbn. rewrite E3. reflexivity.
Qed.

Lemma rest_inv fuel : forall s ms r e, repeat_rule fuel line_middle s = (ms, r) -> component_end r = Some (e, "") ->
  forall b s1, pipe_text b s1 -> exists l, attach_pipes (Some b) (List.concat ms ++ [e])%list = Good l /\ rest_text l (s1 ++ s).
Proof.
  assert (Base : forall s e b s1, component_end s = Some (e, "") -> pipe_text b s1 ->
    exists l, attach_pipes (Some b) [e] = Good l /\ rest_text l (s1 ++ s)).
  { intros s e b s1 He Hp. apply end_inv in He as (t & n & p & s2 & s3 & -> & -> & H2 & H3). rewrite app_nil_s.
    exists [EndC t n (InPort b p) None]. split; [reflexivity|]. constructor; auto. }
  induction fuel as [|fuel IH]; cbn [repeat_rule]; intros s ms r e Hr He b s1 Hp.
  - injection Hr as <- <-. apply Base; auto.
  - destruct (line_middle s) as [[m y]|] eqn:E.
    + destruct (repeat_rule fuel line_middle y) as [ms' z] eqn:E2. injection Hr as <- <-.
      unfold line_middle, pbind in E. destruct (component_middle s) as [[c w]|] eqn:E3; [|discriminate].
      apply middle_inv in E3 as (t & n & p & o & s2 & s3 & s4 & -> & -> & H2 & H3 & H4).
      destruct (pipe w) as [[q v]|] eqn:E3; [|discriminate]. apply pipe_inv in E3 as (b' & s5 & -> & -> & H5).
      injection E as <- <-. destruct (IH _ _ _ _ E2 He b' s5 H5) as (l & Hl & Ht).
      exists (MiddleC t n (InPort b p) o None :: l). split; [cbn; rewrite Hl; reflexivity|]. constructor; auto.
    + injection Hr as <- <-. apply Base; auto.
Qed.

(** C39 *)
Lemma load_exact s l : load_connection_from_string s = Good (Some l) <-> connection_text l s.
Proof.
  split.
  - unfold load_connection_from_string, connection_set, alt. destruct (connection_set_has s) as [[pcs r]|] eqn:E.
    + destruct r; [|discriminate]. unfold connection_set_has, pbind in E.
      destruct (component_start s) as [[c y]|] eqn:E1; [|discriminate]. apply start_inv in E1 as (t & n & o & s1 & s2 & -> & -> & H1 & H2).
      destruct (pipe y) as [[q z]|] eqn:E1; [|discriminate]. apply pipe_inv in E1 as (b & s3 & -> & -> & H3).
      unfold star in E. destruct (repeat_rule _ line_middle z) as [ms w] eqn:E1.
      destruct (component_end w) as [[e v]|] eqn:E2; [|discriminate]. injection E as <- ->.
      destruct (rest_inv _ _ _ _ _ E1 E2 b s3 H3) as (l' & Hl & Ht). cbn. rewrite Hl. intros [= <-]. constructor; auto.
    + cbn. destruct s; [|discriminate]. intros [= <-]. constructor.
  - intros [|t n o s1 s2 l' s3 H1 H2 H3]; [reflexivity|].
    unfold load_connection_from_string, connection_set, alt, connection_set_has.
    destruct (rest_app _ _ H3) as (b & s4 & body & -> & Hp & Ho & Hlen & Hf).
    unfold pbind at 1. rewrite (start_app t n o) by (auto; eapply after_pipe; eauto).
    unfold pbind at 1. rewrite (pipe_app b) by auto. unfold pbind at 1. unfold star.
    destruct (Hf _ Hlen) as (ms & e & r & E1 & E2 & E3). rewrite E1. unfold pbind at 1. rewrite E2.
    cbn. rewrite E3. reflexivity.
Qed.

Lemma load_no_crash s m : load_connection_from_string s <> Good m -> exists l, load_connection_from_string s = Good l /\ l <> m.
Proof.
  intros H. unfold load_connection_from_string, connection_set, alt in *. destruct (connection_set_has s) as [[pcs r]|] eqn:E.
  - destruct r; [|eexists; split; [reflexivity|congruence]]. unfold connection_set_has, pbind in E.
    destruct (component_start s) as [[c y]|] eqn:E1; [|discriminate]. apply start_inv in E1 as (t & n & o & s1 & s2 & -> & -> & H1 & H2).
    destruct (pipe y) as [[q z]|] eqn:E1; [|discriminate]. apply pipe_inv in E1 as (b & s3 & -> & -> & H3).
    unfold star in E. destruct (repeat_rule _ line_middle z) as [ms w] eqn:E1.
    destruct (component_end w) as [[e v]|] eqn:E2; [|discriminate]. injection E as <- ->.
    destruct (rest_inv _ _ _ _ _ E1 E2 b s3 H3) as (l' & Hl & Ht). cbn in *. rewrite Hl in *. cbn in *. eexists; split; [reflexivity|congruence].
  - cbn in *. destruct s; eexists; (split; [reflexivity|congruence]).
Qed.
Lemma load_rejects s : (forall l, ~ connection_text l s) -> load_connection_from_string s = Good None.
Proof.
  intros H. destruct (load_connection_from_string s) as [[l|]|m] eqn:E; [|reflexivity|].
  - apply load_exact in E. destruct (H _ E).
  - destruct (load_no_crash s None) as (l & Hl & _); congruence.
Qed.

(** C40 *)
Lemma integer_show z : integer_text z (DecimalString.NilZero.string_of_int (Z.to_int z)).
Proof.
  pose proof (decimal_text z) as H. unfold code_text, decimal in H.
  set (t := DecimalString.NilZero.string_of_int (Z.to_int z)) in *. clearbody t.
  assert (Inj : forall a b, list_ascii_of_string a = list_ascii_of_string b -> a = b).
  { intros a b E. rewrite <- (string_of_list_ascii_of_string a), E. apply string_of_list_ascii_of_string. }
  destruct (Z.ltb_spec z 0).
  - destruct H as (r & Hr & Hne & Hv & _). destruct t as [|c t]; [discriminate|]. cbn in Hr. injection Hr as -> <-.
    replace z with (- Z.of_N (Z.to_N (- z)))%Z by lia. constructor; [|exact Hv]. intros ->. apply Hne. reflexivity.
  - destruct H as (Hne & Hv & _). replace z with (Z.of_N (Z.to_N z)) by lia. constructor; [|exact Hv]. intros ->. apply Hne. reflexivity.
Qed.
Lemma input_show i : fits (ip_priority i) -> input_text (ip_priority i) (show_input i).
Proof. intros H. unfold show_input. constructor. apply Fits; auto. apply integer_show. Qed.
Lemma component_show t n : name_text n -> component_text t n (show_component t n).
Proof. intros H. unfold show_component. constructor; auto. destruct t; constructor. Qed.
Lemma output_show o : output_text o (show_output o).
Proof. destruct o; constructor. Qed.
Lemma pipe_show i : pipe_text (ip_breakable i) (show_pipe i).
Proof.
  unfold show_pipe. destruct (ip_breakable i);
    [apply (Pipe Terminate 1 "|T|" 1 MarkT)|apply (Pipe Finish 1 "|F|" 1 MarkF)|apply (Pipe Consume 1 "|C|" 1 MarkC)].
Qed.
Lemma rest_show l : chain_end l -> rest_text l (show l).
Proof.
  induction 1 as [t n [b p] Hn Hf|t n [b p] o l Hn Hf Hl IH]; cbn [show show_one]; rewrite ?app_nil_s, ?app_assoc_s.
  - constructor; [apply (pipe_show (InPort b p))|apply (input_show (InPort b p)); auto|apply component_show; auto].
  - constructor; [apply (pipe_show (InPort b p))|apply (input_show (InPort b p)); auto|apply component_show; auto|apply output_show|auto].
Qed.
Lemma load_show l : writable l -> load_connection_from_string (show l) = Good (Some l).
Proof.
  intros H. apply load_exact. destruct H as [|t n o l Hn Hl]; [constructor|].
  cbn [show show_one]. rewrite app_assoc_s. constructor; [apply component_show; auto|apply output_show|apply rest_show; auto].
Qed.

(** C41 *)
Lemma priority_fits z s : priority_text z s -> fits z.
Proof. intros []; auto; unfold fits; lia. Qed.
Lemma input_fits z s : input_text z s -> fits z.
Proof. intros [|z' t H]; [unfold fits; lia|eapply priority_fits; eauto]. Qed.
Lemma component_named t n s : component_text t n s -> name_text n.
Proof. intros []; auto. Qed.
Lemma rest_chain l s : rest_text l s -> chain_end l.
Proof.
  induction 1; constructor; auto; try (eapply component_named; eauto); cbn; eapply input_fits; eauto.
Qed.
Lemma load_writable s l : load_connection_from_string s = Good (Some l) -> writable l /\ (l = [] <-> s = "").
Proof.
  rewrite load_exact. intros H. destruct H as [|t n o s1 s2 l s3 H1 H2 H3].
  - split; [constructor|]. split; reflexivity.
  - split; [constructor; [eapply component_named; eauto|eapply rest_chain; eauto]|]. split; [discriminate|].
    intros E. apply component_length in H1. apply (f_equal String.length) in E. rewrite length_app_s in E. cbn in E. lia.
Qed.

(** C42 *)
Lemma has_app c a b : has_char c (a ++ b) = has_char c a || has_char c b.
Proof. induction a; cbn; [reflexivity|]. rewrite IHa. apply orb_assoc. Qed.
Lemma markers_cons c x : Ascii.eqb "|" c = false -> markers (String c x) = markers x.
Proof. destruct c as [[] [] [] [] [] [] [] []]; intros H; first [discriminate H | reflexivity]. Qed.
Lemma markers_skip t r : has_char "|" t = false -> markers (t ++ r) = markers r.
Proof.
  induction t as [|c t IH]; cbn [has_char append]; [reflexivity|]. rewrite orb_false_iff. intros [H1 H2].
  rewrite markers_cons by auto. auto.
Qed.
Lemma no_char c s : Forall (fun d => Ascii.eqb c d = false) (list_ascii_of_string s) -> has_char c s = false.
Proof. induction s; cbn; intros H; [reflexivity|]. inversion H; subst. rewrite H2. auto. Qed.
Lemma name_no_bar c n : ~ In c (list_ascii_of_string name_letters) -> name_text n -> has_char c n = false.
Proof.
  intros Hc [_ H]. apply no_char. eapply Forall_impl; [|exact H]. cbn beta. intros d Hd. apply Ascii.eqb_neq. intros <-. auto.
Qed.
Lemma component_no_bar t n s : component_text t n s -> has_char "|" s = false.
Proof.
  intros [k Hk Hn]. rewrite !has_app, (name_no_bar "|" n) by (auto; intros H; apply name_char in H; discriminate). destruct Hk; reflexivity.
Qed.
Lemma digits_no_bar c s n : is_digit c = false -> value_from 0 (list_ascii_of_string s) = Some n -> has_char c s = false.
Proof.
  intros Hc H. apply digits_all in H. apply no_char. eapply Forall_impl; [|exact H]. cbn beta. intros d Hd. apply Ascii.eqb_neq. intros <-. congruence.
Qed.
Lemma priority_no_bar z s : priority_text z s -> has_char "|" s = false.
Proof.
  assert (A : forall z s, integer_text z s -> has_char "|" s = false).
  { intros ? ? [ds n Hne Hv|ds n Hne Hv]; [|change (has_char "|" ds = false)]; eapply digits_no_bar; eauto. }
  intros []; eauto.
Qed.
Lemma input_no_bar z s : input_text z s -> has_char "|" s = false.
Proof. intros [|z' t H]; [reflexivity|]. rewrite !has_app, (priority_no_bar _ _ H). reflexivity. Qed.
Lemma output_no_bar o s : output_text o s -> has_char "|" s = false.
Proof. intros []; reflexivity. Qed.
Lemma spaces_no_bar n : has_char "|" (spaces n) = false.
Proof. induction n; cbn; auto. Qed.
Lemma markers_pipe b s r : pipe_text b s -> starts opening r = true -> markers (s ++ r) = b :: markers r.
Proof.
  intros [n t m Ht] Hr. rewrite !app_assoc_s, markers_skip by apply spaces_no_bar.
  assert (A : markers (spaces m ++ r) = markers r) by (apply markers_skip, spaces_no_bar). rewrite <- A.
  destruct Ht; try reflexivity. cbn [append].
  destruct m as [|m]; cbn [spaces append].
  - destruct r as [|c r]; [discriminate|]. cbn in Hr. apply opening_in in Hr.
    destruct r as [|d r]; cbn in Hr; repeat (destruct Hr as [<-|Hr]; [try reflexivity|]); try destruct Hr;
    destruct d as [[] [] [] [] [] [] [] []]; reflexivity.
  - destruct (spaces m ++ r) as [|d x]; [reflexivity|]. destruct d as [[] [] [] [] [] [] [] []]; reflexivity.
Qed.
Definition in_breakable (c : connection) : option breakable := option_map ip_breakable (input_of c).
Lemma rest_markers l s : rest_text l s -> map in_breakable l = map Some (markers s).
Proof.
  induction 1 as [b p t n s1 s2 s3 H1 H2 H3|b p t n o s1 s2 s3 s4 l s5 H1 H2 H3 H4 H5 IH].
  - pose proof (input_opening p s2 t n s3 "" H2 H3) as Ho. rewrite app_nil_s in Ho.
    rewrite (markers_pipe _ _ _ H1 Ho). rewrite markers_skip by (eapply input_no_bar; eauto).
    rewrite <- (app_nil_s s3), markers_skip by (eapply component_no_bar; eauto). reflexivity.
  - rewrite (markers_pipe _ _ _ H1) by (eapply input_opening; eauto).
    rewrite markers_skip by (eapply input_no_bar; eauto). rewrite markers_skip by (eapply component_no_bar; eauto).
    rewrite markers_skip by (eapply output_no_bar; eauto). cbn. rewrite IH. reflexivity.
Qed.
Lemma load_markers s c l : load_connection_from_string s = Good (Some (c :: l)) ->
  map in_breakable (c :: l) = None :: map Some (markers s).
Proof.
  rewrite load_exact. intros H. inversion H as [|t n o s1 s2 l' s3 H1 H2 H3]; subst.
  rewrite markers_skip by (eapply component_no_bar; eauto). rewrite markers_skip by (eapply output_no_bar; eauto).
  rewrite <- (rest_markers _ _ H3). reflexivity.
Qed.
Lemma rest_defaults l s : rest_text l s -> has_char "[" s = false ->
  Forall (fun c => (forall i, input_of c = Some i -> ip_priority i = 0%Z) /\ (forall o, output_of c = Some o -> o = POut)) l.
Proof.
  assert (I : forall p s, input_text p s -> has_char "[" s = false -> p = 0%Z) by (intros ? ? [] ?; [reflexivity|discriminate]).
  assert (O : forall o s, output_text o s -> has_char "[" s = false -> o = POut) by (intros ? ? [] ?; [reflexivity|discriminate..]).
  induction 1 as [b p t n s1 s2 s3 H1 H2 H3|b p t n o s1 s2 s3 s4 l s5 H1 H2 H3 H4 H5 IH]; rewrite ?has_app, ?orb_false_iff; intros Hb.
  - repeat constructor; cbn; [intros i [= <-]; cbn; eapply I; eauto; tauto|discriminate].
  - constructor; [|apply IH; tauto]. cbn. split; [intros i [= <-]; cbn; eapply I; eauto; tauto|intros o' [= <-]; eapply O; eauto; tauto].
Qed.
Lemma load_defaults s l : load_connection_from_string s = Good (Some l) -> has_char "[" s = false ->
  Forall (fun c => (forall i, input_of c = Some i -> ip_priority i = 0%Z) /\ (forall o, output_of c = Some o -> o = POut)) l.
Proof.
  rewrite load_exact. intros [|t n o s1 s2 l' s3 H1 H2 H3]; [constructor|]. rewrite !has_app, !orb_false_iff. intros Hb.
  constructor; [|eapply rest_defaults; eauto; tauto]. cbn. split; [discriminate|]. intros o' [= <-].
  destruct H2; [reflexivity|cbn in Hb; destruct Hb as [_ [? _]]; discriminate..].
Qed.

(** C43 *)
Lemma too_big_taken : exists z t, integer_text z t /\ ~ fits z /\
  load_connection_from_string ("f:in | [" ++ t ++ "]j:a") = Good (Some [StartC CFaucet "in" POut None; EndC CJunction "a" (InPort Terminate 0) None]) /\
  load_connection_from_string "f:in | []j:a" = Good (Some [StartC CFaucet "in" POut None; EndC CJunction "a" (InPort Terminate 0) None]).
Proof.
  exists (9223372036854775808)%Z, "9223372036854775808". split; [|split; [|split]].
  - apply (Positive "9223372036854775808" 9223372036854775808%N); [discriminate|reflexivity].
  - unfold fits. lia.
  - vm_compute. reflexivity.
  - vm_compute. reflexivity.
Qed.
Lemma priority_taken : forall z t k n s1 o s2 b s3 n' k' s4,
  integer_text z t -> fits z -> component_text k n s1 -> output_text o s2 -> pipe_text b s3 -> component_text k' n' s4 ->
  load_connection_from_string (s1 ++ s2 ++ s3 ++ ("[" ++ t ++ "]") ++ s4) = Good (Some [StartC k n o None; EndC k' n' (InPort b z) None]).
Proof.
  exact (fun z t k n s1 o s2 b s3 n' k' s4 Hi Hf H1 H2 H3 H4 =>
    proj2 (load_exact _ _) (Chain k n o s1 s2 _ _ H1 H2 (Last b z k' n' s3 _ s4 H3 (Input z t (Fits z t Hi Hf)) H4))).
Qed.
