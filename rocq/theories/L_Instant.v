(** Proofs about instant file names. *)
From Verif Require Import Base Str L_Str M_Time L_Time M_Instant S_Time S_Timeline.
From Coq Require Import ZifyBool ZifyNat ZifyN.
Local Open Scope string_scope.

(** ** Accepted timestamps contain no dot *)
Lemma trim_start_char : forall n s c, (String.length s <= n)%nat ->
  (N_of_ascii c < 128)%N -> is_ascii_ws c = false ->
  has_char c (trim_start s) = has_char c s.
Proof.
  induction n as [|n IH]; intros s c Hl Hc Hw.
  - destruct s; [reflexivity|cbn in Hl; lia].
  - destruct s as [|x s1]; [reflexivity|]. cbn [trim_start]. cbn [String.length] in Hl.
    destruct (is_ascii_ws x) eqn:Ex.
    { rewrite IH by (assumption || lia). cbn [has_char].
      destruct (Ascii.eqb x c) eqn:E; [apply Ascii.eqb_eq in E; subst; congruence|reflexivity]. }
    destruct s1 as [|x2 s2]; [reflexivity|]. cbn [String.length] in Hl.
    assert (Hne : forall y, (128 <= N_of_ascii y)%N -> Ascii.eqb y c = false).
    { intros y Hy. destruct (Ascii.eqb y c) eqn:E; [apply Ascii.eqb_eq in E; subst; lia|reflexivity]. }
    destruct ((N_of_ascii x =? 194)%N && ((N_of_ascii x2 =? 133)%N || (N_of_ascii x2 =? 160)%N)) eqn:E1.
    { rewrite IH by (assumption || lia). cbn [has_char]. rewrite !Hne by lia. reflexivity. }
    destruct s2 as [|x3 s3]; [reflexivity|]. cbn [String.length] in Hl.
    match goal with |- context [if ?g then _ else _] => destruct g eqn:E2 end; [|reflexivity].
    rewrite IH by (assumption || lia). cbn [has_char].
    rewrite (Hne x), (Hne x2), (Hne x3) by lia. reflexivity.
Qed.

Lemma trim_start_dot : forall s, has_char "." (trim_start s) = has_char "." s.
Proof. intros s. eapply trim_start_char; [reflexivity| |]; reflexivity. Qed.

Lemma scan_digits_char : forall c max acc s v r, is_digit c = false ->
  scan_digits max acc s = (v, r) -> has_char c r = has_char c s.
Proof.
  intros c. induction max as [|k IH]; intros acc s v r Hc H.
  - destruct s; cbn in H; injection H as <- <-; reflexivity.
  - destruct s as [|x s]; [cbn in H; injection H as <- <-; reflexivity|].
    cbn [scan_digits] in H. destruct (is_digit x) eqn:E.
    + apply IH in H; [|assumption]. rewrite H. cbn [has_char].
      now rewrite (is_digit_neq x c E Hc).
    + injection H as <- <-. reflexivity.
Qed.

Lemma scan_number_char : forall c max s v r, is_digit c = false ->
  scan_number max s = Some (v, r) -> has_char c r = has_char c s.
Proof.
  intros c max s v r Hc H. unfold scan_number in H. destruct s as [|x s]; [discriminate|].
  destruct (is_digit x); [|discriminate]. injection H as H. eapply scan_digits_char; eauto.
Qed.

Lemma scan_num2_dot : forall s v r, scan_num2 s = Some (v, r) -> has_char "." r = has_char "." s.
Proof.
  intros s v r H. unfold scan_num2 in H. apply (scan_number_char ".") in H; [|reflexivity].
  now rewrite H, trim_start_dot.
Qed.

Lemma scan_year_dot : forall s v r, scan_year s = Some (v, r) -> has_char "." r = has_char "." s.
Proof.
  intros s v r H. unfold scan_year in H. rewrite <- (trim_start_dot s).
  destruct (trim_start s) as [|x t]; [discriminate|].
  destruct (Ascii.eqb x "-") eqn:E1.
  - destruct (scan_number _ t) as [[v' r']|] eqn:E; [|discriminate]. injection H as <- <-.
    apply (scan_number_char ".") in E; [|reflexivity]. rewrite E. apply Ascii.eqb_eq in E1. subst. reflexivity.
  - destruct (Ascii.eqb x "+") eqn:E2.
    + apply (scan_number_char ".") in H; [|reflexivity]. rewrite H. apply Ascii.eqb_eq in E2. subst. reflexivity.
    + apply (scan_number_char ".") in H; [|reflexivity]. exact H.
Qed.

Lemma parse_ymdhms_dot : forall s t, parse_ymdhms s = Some t -> has_char "." s = false.
Proof.
  intros s t H. unfold parse_ymdhms in H.
  destruct (scan_year s) as [[y s1]|] eqn:E1; [|discriminate]. destruct (negb _); [discriminate|].
  destruct (scan_num2 s1) as [[mo s2]|] eqn:E2; [|discriminate]. destruct (negb _); [discriminate|].
  destruct (scan_num2 s2) as [[d s3]|] eqn:E3; [|discriminate]. destruct (negb _); [discriminate|].
  destruct (scan_num2 s3) as [[h s4]|] eqn:E4; [|discriminate]. destruct (negb _); [discriminate|].
  destruct (scan_num2 s4) as [[mi s5]|] eqn:E5; [|discriminate]. destruct (negb _); [discriminate|].
  destruct (scan_num2 s5) as [[sec s6]|] eqn:E6; [|discriminate]. destruct (negb _); [discriminate|].
  destruct s6; [|discriminate].
  apply scan_year_dot in E1. apply scan_num2_dot in E2, E3, E4, E5, E6. cbn in E6. congruence.
Qed.

Lemma parse_digits_char : forall c s acc v, is_digit c = false ->
  parse_digits acc s = Some v -> has_char c s = false.
Proof.
  intros c. induction s as [|x s IH]; intros acc v Hc H; [reflexivity|].
  cbn [parse_digits] in H. destruct (is_digit x) eqn:E; [|discriminate].
  cbn [has_char]. rewrite (is_digit_neq x c E Hc). eapply IH; eauto.
Qed.

Lemma parse_u32_dot : forall s v, parse_u32 s = Some v -> has_char "." s = false.
Proof.
  intros s v H. unfold parse_u32, parse_unsigned in H.
  destruct s as [|x s]; [discriminate|].
  destruct (Ascii.eqb x "+") eqn:E.
  - destruct s as [|x2 s]; [discriminate|].
    destruct (parse_digits 0 (String x2 s)) as [w|] eqn:P; [|discriminate].
    apply (parse_digits_char ".") in P; [|reflexivity].
    apply Ascii.eqb_eq in E. subst. cbn [has_char] in *. now rewrite P.
  - destruct (parse_digits 0 (String x s)) as [w|] eqn:P; [|discriminate].
    apply (parse_digits_char ".") in P; [|reflexivity]. exact P.
Qed.

Lemma parse_naive_datetime_dot : forall ts t,
  String.length ts = 14%nat \/ String.length ts = 17%nat ->
  parse_naive_datetime ts = Ok t -> has_char "." ts = false.
Proof.
  intros ts t Hl H. unfold parse_naive_datetime, slice_to, slice_from in H.
  destruct (is_char_boundary ts 14); [|discriminate]. cbn [bind] in H.
  destruct (parse_ymdhms (take 14 ts)) as [t0|] eqn:E; [|discriminate]. cbn [ok_or bind] in H.
  apply parse_ymdhms_dot in E.
  rewrite <- (take_drop 14 ts), has_char_app, E. cbn [orb].
  destruct (Nat.eqb_spec (String.length ts) 17) as [E17|E17].
  - destruct (parse_u32 (drop 14 ts)) as [ms|] eqn:Em; [|discriminate].
    now apply parse_u32_dot in Em.
  - rewrite drop_all by lia. reflexivity.
Qed.

(** ** Suffixes *)
Lemma parse_suffix_completed : forall a, parse_action_and_state (action_str a) = Ok (a, Completed).
Proof. intros []; reflexivity. Qed.

Definition suffix_of (a : action) (s : state) : string :=
  match s, a with
  | Completed, _ => action_str a
  | Inflight, Commit => "inflight"
  | _, _ => action_str a ++ "." ++ state_str s
  end.

Lemma parse_suffix_of : forall a s, parse_action_and_state (suffix_of a s) = Ok (a, s).
Proof. intros [] []; reflexivity. Qed.

Lemma file_name_suffix : forall i, file_name i = i_timestamp i ++ "." ++ suffix_of (i_action i) (i_state i).
Proof. intros [ts a s e]. unfold file_name. cbn. destruct a, s; reflexivity. Qed.

Lemma file_name_spec : forall i, file_name i = timeline_name (i_timestamp i) (i_action i) (i_state i).
Proof. intros [ts a s e]. unfold file_name. cbn. destruct a, s; reflexivity. Qed.

Lemma validate_ok : forall ts u, validate_timestamp ts = Ok u ->
  String.length ts = 14%nat \/ String.length ts = 17%nat.
Proof.
  intros ts u H. unfold validate_timestamp in H.
  destruct (Nat.eqb_spec (String.length ts) 14); [auto|].
  destruct (Nat.eqb_spec (String.length ts) 17); [auto|discriminate].
Qed.

Lemma parse_datetime_naive : forall L ts tz dt, parse_datetime L ts tz = Ok dt ->
  exists t, parse_naive_datetime ts = Ok t.
Proof.
  intros L ts tz dt H. unfold parse_datetime in H.
  destruct (parse_naive_datetime ts); [eauto|discriminate|discriminate].
Qed.

(** What parsing a name yields. *)
Lemma try_from_inv : forall L name tz i,
  try_from_file_name_and_timezone L name tz = Ok i ->
  exists suffix dt, name = i_timestamp i ++ "." ++ suffix
    /\ has_char "." (i_timestamp i) = false
    /\ (String.length (i_timestamp i) = 14%nat \/ String.length (i_timestamp i) = 17%nat)
    /\ parse_datetime L (i_timestamp i) tz = Ok dt
    /\ i_epoch i = epoch_millis dt
    /\ parse_action_and_state suffix = Ok (i_action i, i_state i).
Proof.
  intros L name tz i H. unfold try_from_file_name_and_timezone in H.
  destruct (split_once "." name) as [[ts suffix]|] eqn:Es; [|discriminate]. cbn [ok_or bind] in H.
  destruct (validate_timestamp ts) as [u|e|] eqn:Ev; try discriminate. cbn [bind] in H.
  destruct (parse_datetime L ts tz) as [dt|e|] eqn:Ed; try discriminate. cbn [bind] in H.
  destruct (parse_action_and_state suffix) as [[a s]|e|] eqn:Ea; try discriminate. cbn [bind] in H.
  injection H as <-. cbn. apply split_once_some in Es as [-> Hn]. apply validate_ok in Ev.
  exists suffix, dt. repeat split; auto.
Qed.

Lemma try_from_intro : forall L ts a s tz dt suffix,
  String.length ts = 14%nat \/ String.length ts = 17%nat ->
  parse_datetime L ts tz = Ok dt ->
  parse_action_and_state suffix = Ok (a, s) ->
  try_from_file_name_and_timezone L (ts ++ "." ++ suffix) tz =
  Ok {| i_timestamp := ts; i_action := a; i_state := s; i_epoch := epoch_millis dt |}.
Proof.
  intros L ts a s tz dt suffix Hl Hd Ha. unfold try_from_file_name_and_timezone.
  pose proof (parse_datetime_naive L ts tz dt Hd) as [t Ht].
  cbn [String.append]. rewrite split_once_app by (eapply parse_naive_datetime_dot; eauto).
  cbn [ok_or bind]. unfold validate_timestamp.
  replace (Nat.eqb (String.length ts) 14 || Nat.eqb (String.length ts) 17)%bool with true
    by (destruct Hl as [-> | ->]; reflexivity).
  cbn [bind]. rewrite Hd. cbn [bind]. rewrite Ha. reflexivity.
Qed.

Lemma file_name_round_trip : forall L tz i dt,
  String.length (i_timestamp i) = 14%nat \/ String.length (i_timestamp i) = 17%nat ->
  parse_datetime L (i_timestamp i) tz = Ok dt -> i_epoch i = epoch_millis dt ->
  try_from_file_name_and_timezone L (file_name i) tz = Ok i.
Proof.
  intros L tz i dt Hl Hd He. rewrite file_name_suffix.
  rewrite (try_from_intro L (i_timestamp i) (i_action i) (i_state i) tz dt _ Hl Hd (parse_suffix_of _ _)).
  rewrite <- He. destruct i; reflexivity.
Qed.

Lemma length_render : forall c, String.length (render c) = 14%nat \/ String.length (render c) = 17%nat.
Proof.
  intros c. rewrite render_split, length_app_s, length_head14. unfold tail_ms.
  destruct (c_ms c); [right; now rewrite length_pad|left; reflexivity].
Qed.

Lemma parse_datetime_utc : forall L c tz, valid_civil c -> is_utc tz ->
  parse_datetime L (render c) tz = Ok (civil_ndt c).
Proof.
  intros L c tz Hv Hz. unfold parse_datetime. rewrite parse_render by assumption. cbn [bind].
  unfold convert_to_timezone, timezone_from_str. unfold is_utc in Hz. now rewrite Hz.
Qed.
