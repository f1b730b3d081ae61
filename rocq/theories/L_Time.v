(** Proofs about timestamps: parsing of rendered civil times, calendar arithmetic, order. *)
From Verif Require Import Base Str L_Str M_Time S_Time.
From Coq Require Import ZifyBool ZifyNat ZifyN.
Ltac Zify.zify_post_hook ::= Z.div_mod_to_equations.
Local Open Scope Z_scope.

(** ** Digits *)
Lemma digit_cases : forall n, 0 <= n <= 9 ->
  n = 0 \/ n = 1 \/ n = 2 \/ n = 3 \/ n = 4 \/ n = 5 \/ n = 6 \/ n = 7 \/ n = 8 \/ n = 9.
Proof. lia. Qed.

Lemma N_of_digit : forall n, 0 <= n <= 9 -> N_of_ascii (digit n) = Z.to_N (48 + n).
Proof. intros n H. destruct (digit_cases n H) as [E|[E|[E|[E|[E|[E|[E|[E|[E|E]]]]]]]]]; subst; reflexivity. Qed.

Lemma is_digit_digit : forall n, 0 <= n <= 9 -> is_digit (digit n) = true.
Proof. intros n H. unfold is_digit. rewrite N_of_digit by lia. lia. Qed.

Lemma digit_val_digit : forall n, 0 <= n <= 9 -> digit_val (digit n) = n.
Proof. intros n H. unfold digit_val. rewrite N_of_digit by lia. lia. Qed.

Lemma is_digit_mod : forall n, is_digit (digit (n mod 10)) = true.
Proof. intros n. apply is_digit_digit. lia. Qed.
Lemma digit_val_mod : forall n, digit_val (digit (n mod 10)) = n mod 10.
Proof. intros n. apply digit_val_digit. lia. Qed.

Lemma trim_start_digit : forall c s, is_digit c = true -> trim_start (String c s) = String c s.
Proof.
  intros c s H. unfold is_digit in H.
  assert (Hc : (48 <= N_of_ascii c <= 57)%N) by lia. clear H.
  cbn [trim_start]. unfold is_ascii_ws.
  replace (((9 <=? N_of_ascii c) && (N_of_ascii c <=? 13) || (N_of_ascii c =? 32))%N) with false by lia.
  destruct s as [|c2 s2]; [reflexivity|].
  replace (N_of_ascii c =? 194)%N with false by lia.
  replace (N_of_ascii c =? 225)%N with false by lia.
  replace (N_of_ascii c =? 226)%N with false by lia.
  replace (N_of_ascii c =? 227)%N with false by lia.
  cbn [andb orb]. destruct s2; reflexivity.
Qed.

Lemma is_digit_not_cont : forall c, is_digit c = true -> is_cont_byte c = false.
Proof. intros c H. unfold is_digit, is_cont_byte in *. lia. Qed.

Lemma is_digit_neq : forall c d, is_digit c = true -> is_digit d = false -> Ascii.eqb c d = false.
Proof.
  intros c d H1 H2. destruct (Ascii.eqb c d) eqn:E; [|reflexivity].
  apply Ascii.eqb_eq in E. congruence.
Qed.

(** ** Padding *)
Lemma length_pad : forall w n, String.length (pad w n) = w.
Proof. induction w as [|w IH]; intros n; cbn [pad]; [reflexivity|]. rewrite length_app_s, IH. cbn. lia. Qed.

Lemma pad2 : forall n, 0 <= n < 100 ->
  pad 2 n = String (digit (n / 10 mod 10)) (String (digit (n mod 10)) "").
Proof. reflexivity. Qed.
Lemma pad3 : forall n,
  pad 3 n = String (digit (n / 10 / 10 mod 10)) (String (digit (n / 10 mod 10)) (String (digit (n mod 10)) "")).
Proof. reflexivity. Qed.
Lemma pad4 : forall n,
  pad 4 n = String (digit (n / 10 / 10 / 10 mod 10)) (String (digit (n / 10 / 10 mod 10))
             (String (digit (n / 10 mod 10)) (String (digit (n mod 10)) ""))).
Proof. reflexivity. Qed.

Lemma scan_num2_pad : forall n r, 0 <= n < 100 -> scan_num2 (pad 2 n ++ r) = Some (n, r).
Proof.
  intros n r H. rewrite pad2 by assumption. cbn [String.append]. unfold scan_num2.
  rewrite trim_start_digit by apply is_digit_mod.
  unfold scan_number. rewrite is_digit_mod. cbn [scan_digits]. rewrite !is_digit_mod.
  rewrite !digit_val_mod. f_equal. f_equal. lia.
Qed.

Lemma scan_year_pad : forall n r, 0 <= n < 10000 -> scan_year (pad 4 n ++ r) = Some (n, r).
Proof.
  intros n r H. rewrite pad4. cbn [String.append]. unfold scan_year.
  rewrite trim_start_digit by apply is_digit_mod.
  rewrite !is_digit_neq by (try apply is_digit_mod; reflexivity).
  unfold scan_number. rewrite is_digit_mod. cbn [scan_digits]. rewrite !is_digit_mod.
  rewrite !digit_val_mod. f_equal. f_equal. lia.
Qed.

Lemma parse_u32_pad3 : forall n, 0 <= n <= 999 -> parse_u32 (pad 3 n) = Some n.
Proof.
  intros n H. rewrite pad3. unfold parse_u32, parse_unsigned.
  rewrite is_digit_neq by (try apply is_digit_mod; reflexivity).
  cbn [parse_digits]. rewrite !is_digit_mod, !digit_val_mod.
  replace (10 * (10 * (10 * 0 + n / 10 / 10 mod 10) + n / 10 mod 10) + n mod 10) with n by lia.
  unfold u32_max. replace (n <=? 4294967295) with true by lia. reflexivity.
Qed.

(** ** Calendar *)
Lemma is_leap_spec : forall y, is_leap y = true <-> leap_year y.
Proof.
  intros y. unfold is_leap, leap_year.
  rewrite andb_true_iff, orb_true_iff, negb_true_iff, !Z.eqb_eq, Z.eqb_neq.
  rewrite <- !Z.mod_divide by lia. tauto.
Qed.

Lemma month_length_days : forall y m n, month_length y m n -> 1 <= m <= 12 /\ n = days_in_month y m.
Proof.
  intros y m n H. destruct H as [m H|m H|H|H]; cbn [In] in *; unfold days_in_month.
  - repeat (destruct H as [<-|H]; [split; [lia|reflexivity]|]); contradiction.
  - repeat (destruct H as [<-|H]; [split; [lia|reflexivity]|]); contradiction.
  - split; [lia|]. apply is_leap_spec in H. cbn. now rewrite H.
  - split; [lia|]. cbn. destruct (is_leap y) eqn:E; [|reflexivity].
    apply is_leap_spec in E. contradiction.
Qed.

Lemma month_length_exists : forall y m, 1 <= m <= 12 -> month_length y m (days_in_month y m).
Proof.
  intros y m H.
  assert (Hc : m = 1 \/ m = 2 \/ m = 3 \/ m = 4 \/ m = 5 \/ m = 6 \/ m = 7 \/ m = 8 \/ m = 9
               \/ m = 10 \/ m = 11 \/ m = 12) by lia.
  unfold days_in_month.
  destruct Hc as [E|[E|[E|[E|[E|[E|[E|[E|[E|[E|[E|E]]]]]]]]]]]; subst; cbn;
    try (apply ml31; cbn; tauto); try (apply ml30; cbn; tauto).
  destruct (is_leap y) eqn:E; [apply ml29; now apply is_leap_spec|].
  apply ml28. rewrite <- is_leap_spec. congruence.
Qed.

Definition valid_dateb (y m d : Z) : bool :=
  (1 <=? m) && (m <=? 12) && (1 <=? d) && (d <=? days_in_month y m).

Lemma valid_date_b : forall y m d,
  valid_date y m d <-> 0 <= y <= 9999 /\ 1 <= m <= 12 /\ 1 <= d <= days_in_month y m.
Proof.
  intros y m d. unfold valid_date. split.
  - intros (Hy & Hm & n & Hn & Hd). apply month_length_days in Hn as [_ ->]. auto.
  - intros (Hy & Hm & Hd). split; [assumption|]. split; [assumption|].
    exists (days_in_month y m). split; [now apply month_length_exists|assumption].
Qed.

Lemma days_in_month_bound : forall y m, 28 <= days_in_month y m <= 31.
Proof.
  intros y m. unfold days_in_month.
  destruct (m =? 2); [destruct (is_leap y); lia|].
  destruct ((m =? 4) || (m =? 6) || (m =? 9) || (m =? 11)); lia.
Qed.

Lemma days_before_year_succ : forall y,
  days_before_year (y + 1) = days_before_year y + 365 + (if is_leap y then 1 else 0).
Proof.
  intros y. unfold days_before_year, is_leap.
  destruct (y mod 4 =? 0) eqn:E4; destruct (y mod 100 =? 0) eqn:E100; destruct (y mod 400 =? 0) eqn:E400;
    cbn [andb orb negb]; lia.
Qed.

Lemma days_before_year_mono : forall a c, a <= c -> days_before_year a + 365 * (c - a) <= days_before_year c.
Proof.
  intros a c H. replace c with (a + (c - a)) by lia.
  generalize (c - a) (Zle_minus_le_0 _ _ H). intros k Hk. pattern k.
  apply natlike_ind; [|intros x Hx IH|assumption].
  - rewrite Z.add_0_r. lia.
  - replace (a + Z.succ x) with ((a + x) + 1) by lia.
    rewrite days_before_year_succ. destruct (is_leap (a + x)); lia.
Qed.

Ltac month_cases m :=
  match goal with
  | H : 1 <= m <= 12 |- _ =>
    let Hc := fresh "Hc" in
    assert (Hc : m = 1 \/ m = 2 \/ m = 3 \/ m = 4 \/ m = 5 \/ m = 6 \/ m = 7 \/ m = 8 \/ m = 9
               \/ m = 10 \/ m = 11 \/ m = 12) by lia;
    clear H;
    destruct Hc as [Hc|[Hc|[Hc|[Hc|[Hc|[Hc|[Hc|[Hc|[Hc|[Hc|[Hc|Hc]]]]]]]]]]]; subst m
  end.

Lemma days_before_month_succ : forall y m, 1 <= m <= 11 ->
  days_before_month y (m + 1) = days_before_month y m + days_in_month y m.
Proof.
  intros y m H. assert (H12 : 1 <= m <= 12) by lia. unfold days_before_month, days_in_month.
  month_cases m; try lia; cbn; destruct (is_leap y); reflexivity.
Qed.

Lemma days_before_month_mono : forall y m m', 1 <= m -> m < m' -> m' <= 12 ->
  days_before_month y m + days_in_month y m <= days_before_month y m'.
Proof.
  intros y m m' H1 H2 H3.
  replace m' with ((m + 1) + (m' - m - 1)) by lia.
  assert (Hk : 0 <= m' - m - 1) by lia.
  assert (Hb : m + 1 + (m' - m - 1) <= 12) by lia.
  revert Hb. pattern (m' - m - 1). apply natlike_ind; [|intros x Hx IH|assumption]; intros Hb.
  - rewrite Z.add_0_r, days_before_month_succ by lia. lia.
  - replace (m + 1 + Z.succ x) with ((m + 1 + x) + 1) by lia.
    rewrite days_before_month_succ by lia.
    pose proof (days_in_month_bound y (m + 1 + x)). lia.
Qed.

Lemma days_in_year : forall y m d, 1 <= m <= 12 -> 1 <= d <= days_in_month y m ->
  0 <= days_before_month y m + (d - 1) <= 364 + (if is_leap y then 1 else 0).
Proof.
  intros y m d Hm Hd.
  assert (Hd' : d - 1 < days_in_month y m) by lia. assert (Hd0 : 0 <= d - 1) by lia.
  clear Hd. generalize dependent (d - 1). intros k Hk H0.
  assert (B : 0 <= days_before_month y m /\
              days_before_month y m + days_in_month y m <= 365 + (if is_leap y then 1 else 0)).
  { clear k Hk H0. unfold days_before_month, days_in_month.
    month_cases m; cbn -[Z.le is_leap]; destruct (is_leap y); lia. }
  lia.
Qed.

Definition lex_date_lt (y m d y' m' d' : Z) : Prop :=
  y < y' \/ (y = y' /\ (m < m' \/ (m = m' /\ d < d'))).

Lemma days_from_civil_lt : forall y m d y' m' d',
  1 <= m <= 12 -> 1 <= d <= days_in_month y m ->
  1 <= m' <= 12 -> 1 <= d' <= days_in_month y' m' ->
  lex_date_lt y m d y' m' d' ->
  days_from_civil y m d < days_from_civil y' m' d'.
Proof.
  intros y m d y' m' d' Hm Hd Hm' Hd' [Hy|[<- [Hlt|[<- Hlt]]]]; unfold days_from_civil.
  - pose proof (days_in_year y m d Hm Hd) as B. pose proof (days_in_year y' m' d' Hm' Hd') as B'.
    pose proof (days_before_year_succ y) as S.
    assert (M : days_before_year (y + 1) <= days_before_year y').
    { pose proof (days_before_year_mono (y + 1) y' ltac:(lia)). lia. }
    destruct (is_leap y), (is_leap y'); lia.
  - pose proof (days_before_month_mono y m m' ltac:(lia) Hlt ltac:(lia)). lia.
  - lia.
Qed.

(** ** Day numbering agrees with the specification *)
Lemma next_day_civil : forall y m d y' m' d',
  next_day y m d y' m' d' -> days_from_civil y' m' d' = days_from_civil y m d + 1.
Proof.
  intros y m d y' m' d' H. destruct H as [y m d n Hn Hd|y m n Hn Hm|y n Hn]; unfold days_from_civil.
  - lia.
  - apply month_length_days in Hn as [Hm12 ->]. rewrite days_before_month_succ by lia. lia.
  - apply month_length_days in Hn as [_ ->]. rewrite days_before_year_succ.
    unfold days_before_month, days_in_month. cbn. destruct (is_leap y); lia.
Qed.

Lemma day_number_civil : forall y m d n, day_number y m d n -> n = days_from_civil y m d.
Proof.
  intros y m d n H. induction H as [|y m d y' m' d' n H IH Hn|y m d y' m' d' n H IH Hn].
  - reflexivity.
  - apply next_day_civil in Hn. lia.
  - apply next_day_civil in Hn. lia.
Qed.

(** Every date of the calendar has a number. *)
Lemma day_number_month_forward : forall y m d n, day_number y m 1 n -> 1 <= m <= 12 ->
  1 <= d <= days_in_month y m -> day_number y m d (n + (d - 1)).
Proof.
  intros y m d n H Hm Hd. replace d with (1 + (d - 1)) at 1 by lia.
  assert (Hk : 0 <= d - 1) by lia. assert (Hb : 1 + (d - 1) <= days_in_month y m) by lia.
  revert Hb. pattern (d - 1). apply natlike_ind; [|intros x Hx IH|assumption]; intros Hb.
  - now rewrite !Z.add_0_r.
  - replace (n + Z.succ x) with ((n + x) + 1) by lia.
    eapply dn_next; [apply IH; lia|]. replace (1 + Z.succ x) with ((1 + x) + 1) by lia.
    apply nd_same with (days_in_month y m); [now apply month_length_exists|lia].
Qed.

Lemma day_number_months : forall y m n, day_number y 1 1 n -> 1 <= m <= 12 ->
  exists n', day_number y m 1 n'.
Proof.
  intros y m n H Hm. replace m with (1 + (m - 1)) by lia.
  assert (Hk : 0 <= m - 1) by lia. assert (Hb : 1 + (m - 1) <= 12) by lia.
  revert Hb. pattern (m - 1). apply natlike_ind; [|intros x Hx IH|assumption]; intros Hb.
  - exists n. exact H.
  - destruct (IH ltac:(lia)) as [n' Hn'].
    replace (1 + Z.succ x) with ((1 + x) + 1) by lia.
    pose proof (days_in_month_bound y (1 + x)) as Bd.
    pose proof (day_number_month_forward y (1 + x) (days_in_month y (1 + x)) n' Hn' ltac:(lia) ltac:(lia)) as Hl.
    eexists. eapply dn_next; [exact Hl|].
    apply nd_month; [apply month_length_exists; lia|lia].
Qed.

Lemma day_number_year_next : forall y n, day_number y 1 1 n -> exists n', day_number (y + 1) 1 1 n'.
Proof.
  intros y n H. destruct (day_number_months y 12 n H ltac:(lia)) as [n' Hn'].
  pose proof (day_number_month_forward y 12 31 n' Hn' ltac:(lia) ltac:(cbn; lia)) as Hl.
  eexists. eapply dn_next; [exact Hl|]. apply nd_year. apply (month_length_exists y 12). lia.
Qed.

Lemma day_number_month_backward : forall y m n k,
  1 <= m <= 12 -> 0 <= k -> k < days_in_month y m ->
  day_number y m (days_in_month y m) n -> day_number y m (days_in_month y m - k) (n - k).
Proof.
  intros y m n k Hm Hk. pattern k. apply natlike_ind; [|intros x Hx IH|assumption]; intros Hb H.
  - now rewrite !Z.sub_0_r.
  - replace (n - Z.succ x) with ((n - x) - 1) by lia.
    eapply dn_prev; [apply IH; [lia|assumption]|].
    replace (days_in_month y m - x) with ((days_in_month y m - Z.succ x) + 1) by lia.
    apply nd_same with (days_in_month y m); [now apply month_length_exists|lia].
Qed.

Lemma day_number_year_prev : forall y n, day_number (y + 1) 1 1 n -> exists n', day_number y 1 1 n'.
Proof.
  intros y n H.
  assert (H12 : exists n', day_number y 12 1 n').
  { assert (Hd : day_number y 12 (days_in_month y 12) (n - 1)).
    { eapply dn_prev; [exact H|]. apply nd_year. apply (month_length_exists y 12). lia. }
    apply (day_number_month_backward y 12 _ (days_in_month y 12 - 1)) in Hd; [|lia|cbn; lia|cbn; lia].
    replace (days_in_month y 12 - (days_in_month y 12 - 1)) with 1 in Hd by lia. eauto. }
  assert (Hall : forall k, 0 <= k -> k <= 11 -> exists n', day_number y (12 - k) 1 n').
  { intros k Hk. pattern k. apply natlike_ind; [|intros x Hx IH|assumption]; intros Hb.
    - exact H12.
    - destruct (IH ltac:(lia)) as [n' Hn'].
      pose proof (days_in_month_bound y (12 - Z.succ x)) as Bd.
      assert (Hd : day_number y (12 - Z.succ x) (days_in_month y (12 - Z.succ x)) (n' - 1)).
      { eapply dn_prev; [exact Hn'|]. replace (12 - x) with ((12 - Z.succ x) + 1) by lia.
        apply nd_month; [apply month_length_exists; lia|lia]. }
      apply (day_number_month_backward y _ _ (days_in_month y (12 - Z.succ x) - 1)) in Hd; [|lia|lia|lia].
      replace (days_in_month y (12 - Z.succ x) - (days_in_month y (12 - Z.succ x) - 1)) with 1 in Hd by lia.
      eauto. }
  exact (Hall 11 ltac:(lia) ltac:(lia)).
Qed.

Lemma day_number_year : forall y, exists n, day_number y 1 1 n.
Proof.
  intros y. destruct (Z_le_gt_dec 1970 y) as [H|H].
  - replace y with (1970 + (y - 1970)) by lia.
    pattern (y - 1970). apply natlike_ind; [|intros x Hx [n IH]|lia].
    + exists 0. constructor.
    + replace (1970 + Z.succ x) with ((1970 + x) + 1) by lia. eauto using day_number_year_next.
  - replace y with (1970 - (1970 - y)) by lia.
    pattern (1970 - y). apply natlike_ind; [|intros x Hx [n IH]|lia].
    + exists 0. constructor.
    + apply (day_number_year_prev _ n). now replace (1970 - Z.succ x + 1) with (1970 - x) by lia.
Qed.

Lemma day_number_exists : forall y m d, 1 <= m <= 12 -> 1 <= d <= days_in_month y m ->
  day_number y m d (days_from_civil y m d).
Proof.
  intros y m d Hm Hd. destruct (day_number_year y) as [n Hn].
  destruct (day_number_months y m n Hn Hm) as [n' Hn'].
  pose proof (day_number_month_forward y m d n' Hn' Hm Hd) as H.
  now rewrite (day_number_civil _ _ _ _ H) in H.
Qed.

(** ** Parsing of rendered timestamps *)
Definition civil_ndt (c : civil) : ndt :=
  {| nd_days := days_from_civil (c_year c) (c_month c) (c_day c);
     nd_secs := c_hour c * 3600 + c_min c * 60 + c_sec c;
     nd_nanos := match c_ms c with None => 0 | Some ms => ms * 1000000 end |}.

Lemma slice_to_app : forall a s n, String.length a = n ->
  (s = "" \/ exists x s', s = String x s' /\ is_cont_byte x = false)%string ->
  slice_to (a ++ s) n = Ok a /\ slice_from (a ++ s) n = Ok s.
Proof.
  intros a s n <- Hs. unfold slice_to, slice_from, is_char_boundary.
  rewrite drop_app, take_app, length_app_s.
  destruct Hs as [->|(x & s' & -> & Hx)].
  - cbn [String.length]. rewrite Nat.add_0_r, Nat.eqb_refl. auto.
  - rewrite Hx. cbn [negb]. rewrite orb_true_r. auto.
Qed.

Definition head14 (c : civil) : string :=
  (pad 4 (c_year c) ++ pad 2 (c_month c) ++ pad 2 (c_day c)
   ++ pad 2 (c_hour c) ++ pad 2 (c_min c) ++ pad 2 (c_sec c))%string.
Definition tail_ms (c : civil) : string := match c_ms c with None => "" | Some ms => pad 3 ms end.

Lemma render_split : forall c, render c = (head14 c ++ tail_ms c)%string.
Proof. intros c. unfold render, head14, tail_ms. now rewrite !app_assoc_s. Qed.

Lemma length_head14 : forall c, String.length (head14 c) = 14%nat.
Proof. intros c. unfold head14. rewrite !length_app_s, !length_pad. reflexivity. Qed.

Lemma parse_head14 : forall c, valid_civil c ->
  parse_ymdhms (head14 c) =
  Some {| nd_days := days_from_civil (c_year c) (c_month c) (c_day c);
          nd_secs := c_hour c * 3600 + c_min c * 60 + c_sec c; nd_nanos := 0 |}.
Proof.
  intros c (Hd & Hh & Hmi & Hs & _). apply valid_date_b in Hd as (Hy & Hm & Hdd).
  pose proof (days_in_month_bound (c_year c) (c_month c)) as Bd.
  unfold head14, parse_ymdhms.
  rewrite scan_year_pad by lia. rewrite scan_num2_pad by lia. rewrite scan_num2_pad by lia.
  rewrite scan_num2_pad by lia. rewrite scan_num2_pad by lia.
  rewrite <- (app_nil_r_s (pad 2 (c_sec c))), scan_num2_pad by lia.
  unfold in_range, valid_ymd.
  replace (negb ((-2147483648 <=? c_year c) && (c_year c <=? 2147483647))) with false by lia.
  replace (negb ((1 <=? c_month c) && (c_month c <=? 12))) with false by lia.
  replace (negb ((1 <=? c_day c) && (c_day c <=? 31))) with false by lia.
  replace (negb ((0 <=? c_hour c) && (c_hour c <=? 23))) with false by lia.
  replace (negb ((0 <=? c_min c) && (c_min c <=? 59))) with false by lia.
  replace (negb ((0 <=? c_sec c) && (c_sec c <=? 60))) with false by lia.
  match goal with |- context [negb ?x] => replace x with true by lia end.
  replace (c_sec c =? 60) with false by lia. reflexivity.
Qed.

Lemma parse_render : forall c, valid_civil c -> parse_naive_datetime (render c) = Ok (civil_ndt c).
Proof.
  intros c Hv. unfold parse_naive_datetime. rewrite render_split.
  assert (Ht : (tail_ms c = "" \/ exists x s', tail_ms c = String x s' /\ is_cont_byte x = false)%string).
  { unfold tail_ms. destruct (c_ms c) as [ms|]; [right|left; reflexivity].
    rewrite pad3. eexists _, _. split; [reflexivity|]. apply is_digit_not_cont, is_digit_mod. }
  destruct (slice_to_app (head14 c) (tail_ms c) 14 (length_head14 c) Ht) as [E1 E2].
  rewrite E1. cbn [bind]. rewrite parse_head14 by assumption. cbn [ok_or bind].
  rewrite length_app_s, length_head14. unfold civil_ndt, tail_ms in *.
  destruct Hv as (_ & _ & _ & _ & Hms).
  destruct (c_ms c) as [ms|].
  - rewrite length_pad. cbn [Nat.add Nat.eqb]. rewrite E2. cbn [bind].
    rewrite parse_u32_pad3 by assumption. cbn [ok_or bind]. unfold with_nanosecond.
    replace (ms * 1000000 <? 2000000000) with true by lia. reflexivity.
  - cbn [String.length Nat.add Nat.eqb]. reflexivity.
Qed.

Lemma epoch_civil : forall c, valid_civil c ->
  epoch_millis (civil_ndt c) =
  (days_from_civil (c_year c) (c_month c) (c_day c) * 86400
   + (c_hour c * 3600 + c_min c * 60 + c_sec c)) * 1000
  + match c_ms c with None => 0 | Some ms => ms end.
Proof.
  intros c (_ & _ & _ & _ & Hms). unfold epoch_millis, civil_ndt. cbn.
  destruct (c_ms c); lia.
Qed.

Lemma epoch_denotes : forall c, valid_civil c -> denotes_millis c (epoch_millis (civil_ndt c)).
Proof.
  intros c Hv. rewrite epoch_civil by assumption. destruct Hv as (Hd & _).
  apply valid_date_b in Hd as (Hy & Hm & Hdd).
  exists (days_from_civil (c_year c) (c_month c) (c_day c)).
  split; [now apply day_number_exists|]. destruct (c_ms c); lia.
Qed.

Lemma denotes_unique : forall c t, valid_civil c -> denotes_millis c t -> t = epoch_millis (civil_ndt c).
Proof.
  intros c t Hv (n & Hn & ->). rewrite epoch_civil by assumption.
  apply day_number_civil in Hn. subst. destruct (c_ms c); lia.
Qed.

(** ** Lexicographic order of renderings *)
Lemma scmp_cons : forall x y s t,
  scmp (String x s) (String y t) =
  match N.compare (N_of_ascii x) (N_of_ascii y) with Eq => scmp s t | r => r end.
Proof. intros. unfold scmp. cbn. unfold Ascii.compare. reflexivity. Qed.

Lemma scmp_digit : forall a c s t, 0 <= a <= 9 -> 0 <= c <= 9 ->
  scmp (String (digit a) s) (String (digit c) t) =
  match a ?= c with Eq => scmp s t | r => r end.
Proof.
  intros a c s t Ha Hc. rewrite scmp_cons, !N_of_digit by assumption.
  rewrite Z2N.inj_compare by lia.
  destruct (Z.compare_spec a c) as [E|E|E].
  - now rewrite (proj2 (Z.compare_eq_iff _ _)) by lia.
  - now rewrite (proj2 (Z.compare_lt_iff _ _)) by lia.
  - now rewrite (proj2 (Z.compare_gt_iff _ _)) by lia.
Qed.

Lemma scmp_pad : forall w a c s t, 0 <= a < 10 ^ Z.of_nat w -> 0 <= c < 10 ^ Z.of_nat w ->
  scmp (pad w a ++ s) (pad w c ++ t) = match a ?= c with Eq => scmp s t | r => r end.
Proof.
  induction w as [|w IH]; intros a c s t Ha Hc.
  - cbn in *. assert (a = 0) by lia. assert (c = 0) by lia. subst. reflexivity.
  - rewrite Nat2Z.inj_succ, Z.pow_succ_r in Ha, Hc by lia.
    cbn [pad]. rewrite !app_assoc_s. cbn [String.append].
    rewrite IH by lia. rewrite scmp_digit by lia.
    destruct (Z.compare_spec (a / 10) (c / 10)) as [E|E|E];
      destruct (Z.compare_spec (a mod 10) (c mod 10)) as [E'|E'|E'];
      destruct (Z.compare_spec a c) as [E''|E''|E'']; try reflexivity; exfalso; lia.
Qed.

(** Comparison of the six leading fields. *)
Definition cmp_fields (c1 c2 : civil) : comparison :=
  match c_year c1 ?= c_year c2 with Eq =>
  match c_month c1 ?= c_month c2 with Eq =>
  match c_day c1 ?= c_day c2 with Eq =>
  match c_hour c1 ?= c_hour c2 with Eq =>
  match c_min c1 ?= c_min c2 with Eq => c_sec c1 ?= c_sec c2
  | r => r end | r => r end | r => r end | r => r end | r => r end.

Lemma valid_ranges : forall c, valid_civil c ->
  0 <= c_year c < 10 ^ 4 /\ 0 <= c_month c < 10 ^ 2 /\ 0 <= c_day c < 10 ^ 2 /\
  0 <= c_hour c < 10 ^ 2 /\ 0 <= c_min c < 10 ^ 2 /\ 0 <= c_sec c < 10 ^ 2.
Proof.
  intros c (Hd & Hh & Hmi & Hs & _). apply valid_date_b in Hd as (Hy & Hm & Hdd).
  pose proof (days_in_month_bound (c_year c) (c_month c)). lia.
Qed.

Lemma scmp_render : forall c1 c2, valid_civil c1 -> valid_civil c2 ->
  scmp (render c1) (render c2) =
  match cmp_fields c1 c2 with Eq => scmp (tail_ms c1) (tail_ms c2) | r => r end.
Proof.
  intros c1 c2 H1 H2. apply valid_ranges in H1 as (Y1 & M1 & D1 & A1 & B1 & S1).
  apply valid_ranges in H2 as (Y2 & M2 & D2 & A2 & B2 & S2).
  unfold render, cmp_fields. fold (tail_ms c1) (tail_ms c2).
  rewrite scmp_pad by assumption. destruct (c_year c1 ?= c_year c2); try reflexivity.
  rewrite scmp_pad by assumption. destruct (c_month c1 ?= c_month c2); try reflexivity.
  rewrite scmp_pad by assumption. destruct (c_day c1 ?= c_day c2); try reflexivity.
  rewrite scmp_pad by assumption. destruct (c_hour c1 ?= c_hour c2); try reflexivity.
  rewrite scmp_pad by assumption. destruct (c_min c1 ?= c_min c2); try reflexivity.
  now rewrite scmp_pad by assumption.
Qed.

Definition secs_of (c : civil) : Z :=
  days_from_civil (c_year c) (c_month c) (c_day c) * 86400
   + (c_hour c * 3600 + c_min c * 60 + c_sec c).

Lemma cmp_fields_secs : forall c1 c2, valid_civil c1 -> valid_civil c2 ->
  (secs_of c1 ?= secs_of c2) = cmp_fields c1 c2.
Proof.
  intros c1 c2 (Hd1 & Hh1 & Hm1 & Hs1 & _) (Hd2 & Hh2 & Hm2 & Hs2 & _).
  apply valid_date_b in Hd1 as (Hy1 & Hmo1 & Hdd1). apply valid_date_b in Hd2 as (Hy2 & Hmo2 & Hdd2).
  assert (Hlt : forall a c, lex_date_lt (c_year a) (c_month a) (c_day a) (c_year c) (c_month c) (c_day c) ->
     1 <= c_month a <= 12 -> 1 <= c_day a <= days_in_month (c_year a) (c_month a) ->
     1 <= c_month c <= 12 -> 1 <= c_day c <= days_in_month (c_year c) (c_month c) ->
     0 <= c_hour a <= 23 -> 0 <= c_min a <= 59 -> 0 <= c_sec a <= 59 ->
     0 <= c_hour c <= 23 -> 0 <= c_min c <= 59 -> 0 <= c_sec c <= 59 -> secs_of a < secs_of c).
  { intros a c H Ha1 Ha2 Hc1 Hc2 ? ? ? ? ? ?. unfold secs_of.
    pose proof (days_from_civil_lt _ _ _ _ _ _ Ha1 Ha2 Hc1 Hc2 H). lia. }
  unfold cmp_fields.
  destruct (Z.compare_spec (c_year c1) (c_year c2)) as [Ey|Ey|Ey];
    [|apply Z.compare_lt_iff; apply Hlt; try assumption; left; lia
     |apply Z.compare_gt_iff; apply Hlt; try assumption; left; lia].
  destruct (Z.compare_spec (c_month c1) (c_month c2)) as [Em|Em|Em];
    [|apply Z.compare_lt_iff; apply Hlt; try assumption; right; lia
     |apply Z.compare_gt_iff; apply Hlt; try assumption; right; lia].
  destruct (Z.compare_spec (c_day c1) (c_day c2)) as [Ed|Ed|Ed];
    [|apply Z.compare_lt_iff; apply Hlt; try assumption; right; lia
     |apply Z.compare_gt_iff; apply Hlt; try assumption; right; lia].
  unfold secs_of. rewrite Ey, Em, Ed.
  destruct (Z.compare_spec (c_hour c1) (c_hour c2)) as [E1|E1|E1];
    [|apply Z.compare_lt_iff; lia|apply Z.compare_gt_iff; lia].
  destruct (Z.compare_spec (c_min c1) (c_min c2)) as [E2|E2|E2];
    [|apply Z.compare_lt_iff; lia|apply Z.compare_gt_iff; lia].
  destruct (Z.compare_spec (c_sec c1) (c_sec c2)) as [E3|E3|E3];
    [apply Z.compare_eq_iff; lia|apply Z.compare_lt_iff; lia|apply Z.compare_gt_iff; lia].
Qed.

Lemma render_order : forall c1 c2, valid_civil c1 -> valid_civil c2 ->
  sle (render c1) (render c2) -> epoch_millis (civil_ndt c1) <= epoch_millis (civil_ndt c2).
Proof.
  intros c1 c2 H1 H2 H. rewrite !epoch_civil by assumption. fold (secs_of c1) (secs_of c2).
  unfold sle in H. rewrite scmp_render, <- cmp_fields_secs in H by assumption.
  destruct H1 as (_ & _ & _ & _ & M1). destruct H2 as (_ & _ & _ & _ & M2).
  destruct (Z.compare_spec (secs_of c1) (secs_of c2)) as [E|E|E]; [| |congruence].
  - unfold tail_ms in H. destruct (c_ms c1) as [m1|], (c_ms c2) as [m2|]; try lia.
    + rewrite <- (app_nil_r_s (pad 3 m1)), <- (app_nil_r_s (pad 3 m2)), scmp_pad in H
        by (change (10 ^ Z.of_nat 3) with 1000; lia).
      destruct (Z.compare_spec m1 m2); try lia. congruence.
    + rewrite pad3 in H. cbn in H. congruence.
  - destruct (c_ms c1) as [m1|], (c_ms c2) as [m2|]; lia.
Qed.

(** With equal widths the two orders coincide. *)
Lemma render_order_same_width : forall c1 c2, valid_civil c1 -> valid_civil c2 ->
  String.length (render c1) = String.length (render c2) ->
  scmp (render c1) (render c2) = (epoch_millis (civil_ndt c1) ?= epoch_millis (civil_ndt c2)).
Proof.
  intros c1 c2 H1 H2 Hl. rewrite !epoch_civil by assumption. fold (secs_of c1) (secs_of c2).
  rewrite !render_split, !length_app_s, !length_head14 in Hl.
  rewrite scmp_render, <- cmp_fields_secs by assumption.
  destruct H1 as (_ & _ & _ & _ & M1). destruct H2 as (_ & _ & _ & _ & M2).
  unfold tail_ms in *.
  destruct (c_ms c1) as [m1|], (c_ms c2) as [m2|]; rewrite ?length_pad in Hl; cbn in Hl; try discriminate.
  - rewrite <- (app_nil_r_s (pad 3 m1)), <- (app_nil_r_s (pad 3 m2)), scmp_pad
        by (change (10 ^ Z.of_nat 3) with 1000; lia).
    rewrite scmp_refl.
    destruct (Z.compare_spec (secs_of c1) (secs_of c2)) as [E|E|E];
    destruct (Z.compare_spec m1 m2) as [E'|E'|E'];
    symmetry; first [apply Z.compare_eq_iff; lia | apply Z.compare_lt_iff; lia | apply Z.compare_gt_iff; lia].
  - rewrite scmp_refl.
    destruct (Z.compare_spec (secs_of c1) (secs_of c2)) as [E|E|E];
    symmetry; first [apply Z.compare_eq_iff; lia | apply Z.compare_lt_iff; lia | apply Z.compare_gt_iff; lia].
Qed.
