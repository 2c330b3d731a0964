(** * P_BufWriterExamples: lines that have been written and are not in the file *)
From Coq Require Import Ascii String List Bool Arith Lia.
From Verif Require Import M_Prog M_Motion M_Drain M_BufWriter S_Trace S_Motion S_Drain P_Prog P_Split P_Drain P_BufWriter.
Import ListNotations.

Definition from1 := PlReceiver (PJ 0 1) 1.
Definition to_out : drain := Drain false (Some from1) (Some "out.txt"%string).
Lemma to_out_ready : drain_ready to_out from1 "out.txt".
Proof. repeat split; discriminate. Qed.
Definition two_lines : trace :=
  [(ERecv (CData 1), AMsg (VData (b "ab"))); (EWrite 7 (b "ab"), AOk); (ERecv (CData 1), AMsg (VData (b "c"))); (EWrite 7 (b "c"), AOk)].
Lemma small_kept d s : d <> [] -> length (bw_held s) + length d < bw_capacity -> write_whole d s (BufW (bw_held s ++ d) (bw_file s)) true.
Proof. intros Hd H. apply WW_kept; [exact Hd|apply MR_room; lia|lia]. Qed.
Lemma two_held : stored 7 two_lines (BufW (b "abc") []).
Proof.
  unfold two_lines.
  refine (St_write 7 [_; _; _] (BufW (b "ab") []) (b "c") AOk _ true _ (small_kept (b "c") (BufW (b "ab") []) _ _) _); [|discriminate|cbn; lia|tauto].
  refine (St_other 7 [_; _] _ _ _ _ _); [|cbn; tauto].
  refine (St_write 7 [_] bw_new (b "ab") AOk _ true _ (small_kept (b "ab") bw_new _ _) _); [|discriminate|cbn; lia|tauto].
  refine (St_other 7 [] _ _ _ (St_new 7) _). cbn; tauto.
Qed.

Lemma two_running : exec (drain_start to_out None) ((ECreate "out.txt", AFd 7) :: two_lines) (At (ERecv (CData 1))).
Proof. eapply drive_sound with (fuel := 100) (answers := [AFd 7; AMsg (VData (b "ab")); AOk; AMsg (VData (b "c")); AOk]). vm_compute. reflexivity. Qed.

(** The file is full: nothing is taken when the memory is handed over at the end. *)
Definition two_lost : trace := two_lines ++ [(ERecv (CData 1), AClosed); (EFlush 7, AErr); (EClose (CData 1), AOk); (EDropFd 7, AOk)].
Lemma two_failed : exec (drain_start to_out None) ((ECreate "out.txt", AFd 7) :: two_lost) (Done (Err (CloseIOError (J 0 None 1 Terminate)))).
Proof. eapply drive_sound with (fuel := 100) (answers := [AFd 7; AMsg (VData (b "ab")); AOk; AMsg (VData (b "c")); AOk; AClosed; AErr; AOk; AOk]). vm_compute. reflexivity. Qed.
Lemma two_not_there : stored 7 two_lost (BufW (b "abc") []).
Proof.
  refine (St_other 7 (two_lines ++ [_; _; _]) _ _ _ _ _); [|cbn; tauto]. refine (St_other 7 (two_lines ++ [_; _]) _ _ _ _ _); [|cbn; tauto].
  refine (St_flush 7 (two_lines ++ [_]) (BufW (b "abc") []) AErr _ false _ _ _); [|apply FA_held, FB_refused; discriminate|split; discriminate].
  refine (St_other 7 two_lines _ _ _ two_held _). cbn; tauto.
Qed.
(** The run that ends well *)
Definition two_there : trace := two_lines ++ [(ERecv (CData 1), AClosed); (EFlush 7, AOk); (EClose (CData 1), AOk); (EDropFd 7, AOk)].
Lemma two_done : exec (drain_start to_out None) ((ECreate "out.txt", AFd 7) :: two_there) (Done (Ok 3)).
Proof. eapply drive_sound with (fuel := 100) (answers := [AFd 7; AMsg (VData (b "ab")); AOk; AMsg (VData (b "c")); AOk; AClosed; AOk; AOk; AOk]). vm_compute. reflexivity. Qed.
Lemma two_stored : stored 7 two_there (BufW [] (b "abc")).
Proof.
  refine (St_other 7 (two_lines ++ [_; _; _]) _ _ _ _ _); [|cbn; tauto]. refine (St_other 7 (two_lines ++ [_; _]) _ _ _ _ _); [|cbn; tauto].
  refine (St_flush 7 (two_lines ++ [_]) (BufW (b "abc") []) AOk _ true _ _ _); [|apply FA_file|tauto].
  - refine (St_other 7 two_lines _ _ _ two_held _). cbn; tauto.
  - (* two bytes, then one *)
    refine (FB_some (BufW (b "abc") []) 2 (BufW [] (b "abc")) true _ (FB_some (BufW (b "c") (b "ab")) 1 (BufW [] (b "abc")) true _ (FB_done (BufW [] (b "abc")) eq_refl))); cbn; lia.
Qed.
(** A message of 9000 bytes is not held. *)
Definition large : bytes := repeat "x"%char (90 * 100).
Lemma large_past : write_whole large bw_new (BufW [] large) true.
Proof.
  refine (WW_past large bw_new bw_new (90 * 100) _ true _ _ _ _ _).
  - discriminate.
  - apply MR_flush; [|apply FB_done; reflexivity]. unfold large. rewrite repeat_length. cbn [bw_new bw_held length]. unfold bw_capacity. apply Nat.ltb_lt. vm_compute. reflexivity.
  - unfold large. rewrite repeat_length. apply Nat.leb_le. vm_compute. reflexivity.
  - unfold large. rewrite repeat_length. split; [apply Nat.ltb_lt; vm_compute; reflexivity|apply le_n].
  - assert (E : skipn (90 * 100) large = []) by (apply skipn_all2; unfold large; rewrite repeat_length; apply le_n). rewrite E.
    assert (E2 : firstn (90 * 100) large = large) by (apply firstn_all2; unfold large; rewrite repeat_length; apply le_n). rewrite E2. apply WW_nothing.
Qed.
