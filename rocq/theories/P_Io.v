(** C102: a program that reads an object sees its bytes at the position it asked for. *)
From Verif Require Import Base Str M_Io M_Log S_Io L_Base L_Str L_Io.
Local Open Scope string_scope.
Local Open Scope Z_scope.

(** Whatever a program asks of the reader of an object, in whatever order, the replies are those of a position in its
    bytes: reads give the bytes there, and move it by as many; seeks move it to where they say, if that is a position. *)
Theorem C102_session : forall data, zlen data < 2 ^ 63 -> forall requests, Forall possible requests ->
  forall replies, session (open_reader data) requests replies <-> transcript data 0 requests replies.
Proof. intros data S qs F es. exact (sessions data S qs 0 _ (opened_stands data) F es). Qed.

(** No program waits for a reply forever, and none gets two different ones. *)
Theorem C102_replies : forall data, zlen data < 2 ^ 63 -> forall requests, Forall possible requests ->
  exists! replies, session (open_reader data) requests replies.
Proof.
  intros data S qs F. pose proof (opened_stands data) as O. revert O. generalize (open_reader data) as r. generalize 0 as p. revert F.
  induction qs as [|q qs IH]; intros F p r O.
  - exists []. split; [constructor|]. intros es H. now inversion H.
  - inversion F as [|? ? Q F']; subst. destruct (serve_total data S p r q O Q) as [r' [a SE]]. destruct (serve_answered data S p r q r' a O Q SE) as [p' [A O']].
    destruct (IH F' p' r' O') as [es [E U]]. exists (a :: es). split; [econstructor; eassumption|]. intros es2 H. inversion H as [|? ? r2 a2 ? es3 SE2 SS]; subst.
    destruct (serve_answered data S p r q r2 a2 O Q SE2) as [p2 [A2 O2]]. destruct (answered_one data p q p' a p2 a2 (proj1 (st_pos _ _ _ O)) Q A A2) as [<- <-]. f_equal.
    apply U. apply (sessions data S qs p' r' O' F'). now apply (sessions data S qs p' r2 O2 F').
Qed.

(** The readers of log files and their blocks are modelled by the bytes that are left.  A request for exactly [n] bytes
    is answered as that model answers it. *)
Theorem C102_log_reads : forall before rest n p' a, answered (before ++ rest) (zlen before) (ReadExact (Z.of_N n)) p' a ->
  match read_exact n rest with
  | Ok (s, rest') => a = Bytes s /\ exists before', before ++ rest = before' ++ rest' /\ zlen before' = p'
  | _ => a = Eof
  end.
Proof.
  intros before rest n p' a H. assert (P : part (before ++ rest) (zlen before) (Z.of_N n) = take (N.to_nat n) rest).
  { unfold part, zlen. rewrite Nat2Z.id, drop_app. f_equal. lia. }
  pose proof (zlen_nonneg before) as ZB. unfold read_exact. inversion H as [|n0 s B L|n0 s B L| | |]; subst; apply part_is in B; try lia; rewrite P in B; subst s.
  - assert (LE : (N.to_nat n <= String.length rest)%nat).
    { destruct (Nat.le_gt_cases (N.to_nat n) (String.length rest)) as [X|X]; [exact X|]. rewrite take_all in L by lia. unfold zlen in L. lia. }
    destruct (N.ltb_spec (N.of_nat (String.length rest)) n) as [X|X]; [lia|]. unfold split_at. destruct (N.leb_spec (N.of_nat (String.length rest)) n) as [Y|Y].
    { rewrite take_all by lia. split; [reflexivity|]. exists (before ++ rest). rewrite app_nil_r_s, zlen_app. split; [reflexivity|]. unfold zlen. lia. }
    split; [reflexivity|]. exists (before ++ take (N.to_nat n) rest).
    rewrite app_assoc_s, take_drop. split; [reflexivity|]. rewrite zlen_app. lia.
  - destruct (N.ltb_spec (N.of_nat (String.length rest)) n) as [X|X]; [reflexivity|]. exfalso. unfold zlen in L. rewrite length_take in L by lia. lia.
Qed.

(** Reads around a seek back to a place within what the buffer holds, a seek from the end, and one to before the start *)
Example C102_case :
  session (open_reader "#HUDI#abc") [ReadExact 6; Seek (FromHere (-5)); Read 2; Seek (FromEnd (-3)); ReadUpTo 100; Read 1; Seek (FromHere (-100)); Seek (FromStart 8); ReadExact 2; Seek (FromHere 0)]
    [Bytes "#HUDI#"; At 1; Bytes "HU"; At 6; Bytes "abc"; Bytes ""; BadSeek; At 8; Eof; At 9].
Proof.
  apply C102_session; [reflexivity| |].
  - repeat constructor; cbn; unfold is_position, is_offset; lia.
  - pose (data := "#HUDI#abc").
    assert (B : forall p n s, 0 <= p -> 0 <= n -> s = part data p n -> bytes_at data p n s) by (intros; now apply part_is).
    eapply tr_more; [apply an_exact; [apply B; [lia|lia|reflexivity]|reflexivity]|].
    eapply tr_more; [apply an_seek with (to := FromHere (-5)); cbn; unfold is_position; lia|].
    eapply tr_more; [apply an_read; apply B; [cbn; lia|lia|reflexivity]|].
    eapply tr_more; [apply an_seek with (to := FromEnd (-3)); cbn; unfold is_position; lia|].
    eapply tr_more; [apply an_up; apply B; [cbn; lia|lia|reflexivity]|].
    eapply tr_more; [apply an_read; apply B; [cbn; lia|lia|reflexivity]|].
    eapply tr_more; [apply an_bad; unfold is_position; cbn; lia|].
    eapply tr_more; [apply an_seek with (to := FromStart 8); unfold is_position; cbn; lia|].
    eapply tr_more; [apply an_eof with (s := "c"); [apply B; [cbn; lia|lia|reflexivity]|reflexivity]|].
    eapply tr_more; [apply an_seek with (to := FromHere 0); unfold is_position; cbn; lia|]. constructor.
Qed.
Example C102_read_case : answered "ab#HUDI#" (zlen "ab") (ReadExact (Z.of_N 6)) 8 (Bytes "#HUDI#").
Proof. apply (an_exact "ab#HUDI#" 2 6); [|reflexivity]. right. exists "ab", "". repeat split. now left. Qed.

Print Assumptions C102_session.
Print Assumptions C102_replies.
Print Assumptions C102_log_reads.
