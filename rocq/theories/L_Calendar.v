(** Which texts of digits are timestamps (C53). *)
From Verif Require Import Base Str M_Time S_Time S_FileGroup S_Calendar L_Base L_Str L_Time.
Local Open Scope Z_scope.

Lemma all_digits_app : forall a b, all_digits (a ++ b) -> all_digits a /\ all_digits b.
Proof. induction a as [|c a IH]; intros b H; cbn in *; [auto|]. destruct H as [D H]. destruct (IH b H). auto. Qed.
Lemma split_at : forall n s, (n <= String.length s)%nat -> exists a b, s = (a ++ b)%string /\ String.length a = n /\ String.length b = (String.length s - n)%nat.
Proof.
  induction n as [|n IH]; intros s H; [exists ""%string, s; repeat split; lia|]. destruct s as [|c s]; [cbn in H; lia|]. cbn in H.
  destruct (IH s ltac:(lia)) as [a [b [E [A B]]]]. exists (String c a), b. subst s. repeat split; [cbn; lia|cbn; cbn in B; lia].
Qed.
Lemma digit_of : forall c, (48 <= N_of_ascii c <= 57)%N -> exists d, 0 <= d <= 9 /\ c = digit d.
Proof.
  intros c H. exists (Z.of_N (N_of_ascii c) - 48). split; [lia|]. unfold digit.
  replace (48 + (Z.of_N (N_of_ascii c) - 48)) with (Z.of_N (N_of_ascii c)) by lia. now rewrite N2Z.id, ascii_N_embedding.
Qed.
Lemma pad_more : forall s w n, all_digits s -> 0 <= n ->
  exists m, (pad w n ++ s)%string = pad (w + String.length s) m /\ n * 10 ^ Z.of_nat (String.length s) <= m < (n + 1) * 10 ^ Z.of_nat (String.length s).
Proof.
  induction s as [|c s IH]; intros w n D N.
  - exists n. cbn [String.length]. rewrite app_nil_r_s, Nat.add_0_r. split; [reflexivity|]. change (10 ^ Z.of_nat 0) with 1. lia.
  - destruct D as [C D]. destruct (digit_of c C) as [d [Dd ->]]. destruct (IH (S w) (10 * n + d) D ltac:(lia)) as [m [E B]]. exists m. split.
    + cbn [String.length]. rewrite Nat.add_succ_r, <- Nat.add_succ_l, <- E. cbn [pad].
      replace ((10 * n + d) / 10) with n by (rewrite Z.mul_comm, Z.div_add_l by lia; rewrite Z.div_small; lia).
      replace ((10 * n + d) mod 10) with d by (rewrite Z.add_comm, Z.mul_comm, Z.mod_add, Z.mod_small; lia).
      rewrite app_assoc_s. reflexivity.
    + cbn [String.length]. rewrite Nat2Z.inj_succ, Z.pow_succ_r by lia. nia.
Qed.
Lemma pad_of : forall s, all_digits s -> exists m, s = pad (String.length s) m /\ 0 <= m < 10 ^ Z.of_nat (String.length s).
Proof. intros s D. destruct (pad_more s 0 0 D ltac:(lia)) as [m [E B]]. exists m. cbn [pad append Nat.add] in E. split; [exact E|lia]. Qed.

(** The six fields of 14 digits. *)
Lemma fields_of : forall s, all_digits s -> String.length s = 14%nat -> exists c, head14 c = s /\ c_ms c = None
  /\ 0 <= c_year c <= 9999 /\ 0 <= c_month c <= 99 /\ 0 <= c_day c <= 99 /\ 0 <= c_hour c <= 99 /\ 0 <= c_min c <= 99 /\ 0 <= c_sec c <= 99.
Proof.
  intros s D Ln.
  assert (P : forall n s, all_digits s -> (n <= String.length s)%nat -> exists m r, s = (pad n m ++ r)%string /\ 0 <= m < 10 ^ Z.of_nat n /\ all_digits r /\ String.length r = (String.length s - n)%nat).
  { intros n s0 D0 L0. destruct (split_at n s0 L0) as [a [b [E [A B]]]]. subst s0. destruct (all_digits_app _ _ D0) as [Da Db]. destruct (pad_of a Da) as [m [Ea Bm]].
    exists m, b. rewrite A in *. rewrite <- Ea. auto. }
  destruct (P 4%nat s D ltac:(lia)) as [y [r1 [-> [By [D1 L1]]]]]. rewrite Ln in L1.
  destruct (P 2%nat r1 D1 ltac:(lia)) as [mo [r2 [-> [Bm [D2 L2]]]]]. rewrite L1 in L2.
  destruct (P 2%nat r2 D2 ltac:(lia)) as [d [r3 [-> [Bd [D3 L3]]]]]. rewrite L2 in L3.
  destruct (P 2%nat r3 D3 ltac:(lia)) as [h [r4 [-> [Bh [D4 L4]]]]]. rewrite L3 in L4.
  destruct (P 2%nat r4 D4 ltac:(lia)) as [mi [r5 [-> [Bi [D5 L5]]]]]. rewrite L4 in L5.
  destruct (P 2%nat r5 D5 ltac:(lia)) as [se [r6 [-> [Bs [D6 L6]]]]]. rewrite L5 in L6. destruct r6; [|discriminate L6].
  change (10 ^ Z.of_nat 4) with 10000 in *. change (10 ^ Z.of_nat 2) with 100 in *.
  exists {| c_year := y; c_month := mo; c_day := d; c_hour := h; c_min := mi; c_sec := se; c_ms := None |}.
  unfold head14. cbn [c_year c_month c_day c_hour c_min c_sec c_ms]. rewrite app_nil_r_s. repeat split; lia.
Qed.

(** The parser on any fields. *)
Definition clock_ndt (c : civil) : ndt :=
  {| nd_days := days_from_civil (c_year c) (c_month c) (c_day c);
     nd_secs := c_hour c * 3600 + c_min c * 60 + (if c_sec c =? 60 then 59 else c_sec c);
     nd_nanos := if c_sec c =? 60 then 1000000000 else 0 |}.
Definition clockb (c : civil) : bool :=
  (1 <=? c_month c) && (c_month c <=? 12) && (1 <=? c_day c) && (c_day c <=? days_in_month (c_year c) (c_month c))
  && (c_hour c <=? 23) && (c_min c <=? 59) && (c_sec c <=? 60).
Lemma parse_fields : forall c, 0 <= c_year c <= 9999 -> 0 <= c_month c <= 99 -> 0 <= c_day c <= 99 -> 0 <= c_hour c <= 99 -> 0 <= c_min c <= 99 -> 0 <= c_sec c <= 99 ->
  parse_ymdhms (head14 c) = if clockb c then Some (clock_ndt c) else None.
Proof.
  intros c Hy Hm Hd Hh Hmi Hs. pose proof (days_in_month_bound (c_year c) (c_month c)) as Bd.
  unfold head14, parse_ymdhms.
  rewrite scan_year_pad by lia. rewrite scan_num2_pad by lia. rewrite scan_num2_pad by lia. rewrite scan_num2_pad by lia. rewrite scan_num2_pad by lia.
  rewrite <- (app_nil_r_s (pad 2 (c_sec c))), scan_num2_pad by lia.
  unfold clockb, in_range, valid_ymd, clock_ndt.
  replace (negb ((-2147483648 <=? c_year c) && (c_year c <=? 2147483647))) with false by lia.
  replace ((-262143 <=? c_year c) && (c_year c <=? 262142)) with true by lia. cbn [andb].
  destruct (1 <=? c_month c) eqn:E1; [|reflexivity]. destruct (c_month c <=? 12) eqn:E2; [|reflexivity]. cbn [andb negb].
  destruct (1 <=? c_day c) eqn:E3; [|reflexivity]. cbn [andb negb].
  replace (0 <=? c_hour c) with true by lia. replace (0 <=? c_min c) with true by lia. replace (0 <=? c_sec c) with true by lia. cbn [andb negb].
  destruct (c_day c <=? 31) eqn:E4; [|replace (c_day c <=? days_in_month (c_year c) (c_month c)) with false by lia; reflexivity]. cbn [negb].
  destruct (c_hour c <=? 23); [|now rewrite andb_false_r]. cbn [negb]. destruct (c_min c <=? 59); [|now rewrite andb_false_r]. cbn [negb].
  destruct (c_sec c <=? 60); [|now rewrite andb_false_r]. cbn [negb]. rewrite !andb_true_r.
  destruct (c_day c <=? days_in_month (c_year c) (c_month c)); [|reflexivity]. cbn [negb]. destruct (c_sec c =? 60); reflexivity.
Qed.
Lemma clock_iff : forall c, c_ms c = None -> 0 <= c_year c <= 9999 -> 0 <= c_month c <= 99 -> 0 <= c_day c <= 99 -> 0 <= c_hour c <= 99 -> 0 <= c_min c <= 99 -> 0 <= c_sec c <= 99 ->
  clockb c = true <-> clock_time c.
Proof.
  intros c E Hy Hm Hd Hh Hmi Hs. unfold clockb, clock_time. rewrite valid_date_b, E. rewrite !andb_true_iff, !Z.leb_le. intuition lia.
Qed.

Definition with_ms (c : civil) (ms : option Z) : civil :=
  {| c_year := c_year c; c_month := c_month c; c_day := c_day c; c_hour := c_hour c; c_min := c_min c; c_sec := c_sec c; c_ms := ms |}.
Lemma clock_bounds : forall c, clock_time c -> 0 <= c_year c <= 9999 /\ 0 <= c_month c <= 99 /\ 0 <= c_day c <= 99 /\ 0 <= c_hour c <= 99 /\ 0 <= c_min c <= 99 /\ 0 <= c_sec c <= 99.
Proof. intros c [D H]. apply valid_date_b in D. pose proof (days_in_month_bound (c_year c) (c_month c)). lia. Qed.
Lemma head_inj : forall c c', 0 <= c_year c <= 9999 /\ 0 <= c_month c <= 99 /\ 0 <= c_day c <= 99 /\ 0 <= c_hour c <= 99 /\ 0 <= c_min c <= 99 /\ 0 <= c_sec c <= 99 ->
  0 <= c_year c' <= 9999 /\ 0 <= c_month c' <= 99 /\ 0 <= c_day c' <= 99 /\ 0 <= c_hour c' <= 99 /\ 0 <= c_min c' <= 99 /\ 0 <= c_sec c' <= 99 ->
  head14 c = head14 c' -> c_year c = c_year c' /\ c_month c = c_month c' /\ c_day c = c_day c' /\ c_hour c = c_hour c' /\ c_min c = c_min c' /\ c_sec c = c_sec c'.
Proof.
  intros c c' (Hy & Hm & Hd & Hh & Hi & Hs) (Hy' & Hm' & Hd' & Hh' & Hi' & Hs') E. unfold head14 in E.
  pose proof (f_equal scan_year E) as X. rewrite !scan_year_pad in X by lia. assert (X1 := f_equal (fun o => match o with Some (v, _) => v | None => 0 end) X). assert (E1 := f_equal (fun o => match o with Some (_, r) => r | None => EmptyString end) X). cbv beta iota in X1, E1. clear X. split; [exact X1|].
  pose proof (f_equal scan_num2 E1) as X. rewrite !scan_num2_pad in X by lia. assert (X2 := f_equal (fun o => match o with Some (v, _) => v | None => 0 end) X). assert (E2 := f_equal (fun o => match o with Some (_, r) => r | None => EmptyString end) X). cbv beta iota in X2, E2. clear X. split; [exact X2|].
  pose proof (f_equal scan_num2 E2) as X. rewrite !scan_num2_pad in X by lia. assert (X3 := f_equal (fun o => match o with Some (v, _) => v | None => 0 end) X). assert (E3 := f_equal (fun o => match o with Some (_, r) => r | None => EmptyString end) X). cbv beta iota in X3, E3. clear X. split; [exact X3|].
  pose proof (f_equal scan_num2 E3) as X. rewrite !scan_num2_pad in X by lia. assert (X4 := f_equal (fun o => match o with Some (v, _) => v | None => 0 end) X). assert (E4 := f_equal (fun o => match o with Some (_, r) => r | None => EmptyString end) X). cbv beta iota in X4, E4. clear X. split; [exact X4|].
  pose proof (f_equal scan_num2 E4) as X. rewrite !scan_num2_pad in X by lia. assert (X5 := f_equal (fun o => match o with Some (v, _) => v | None => 0 end) X). assert (E5 := f_equal (fun o => match o with Some (_, r) => r | None => EmptyString end) X). cbv beta iota in X5, E5. clear X. split; [exact X5|].
  rewrite <- (app_nil_r_s (pad 2 (c_sec c))), <- (app_nil_r_s (pad 2 (c_sec c'))) in E5.
  pose proof (f_equal scan_num2 E5) as X. rewrite !scan_num2_pad in X by lia. now injection X as X6.
Qed.
Lemma slices_at : forall a b, all_digits b -> slice_to (a ++ b) (String.length a) = Ok a /\ slice_from (a ++ b) (String.length a) = Ok b.
Proof.
  intros a b D. apply slice_to_app; [reflexivity|]. destruct b as [|x b]; [left; reflexivity|]. right. exists x, b. split; [reflexivity|].
  apply is_digit_not_cont. destruct D as [C _]. unfold is_digit. rewrite andb_true_iff, !N.leb_le. exact C.
Qed.

(** Texts of digits are accepted exactly when they are a time. *)
Theorem digits_exact : forall s, all_digits s -> (String.length s = 14 \/ String.length s = 17)%nat ->
  (exists c t, clock_time c /\ s = render c /\ parse_naive_datetime s = Ok t)
  \/ (~ (exists c, clock_time c /\ s = render c)) /\ parse_naive_datetime s = Err ETimeline.
Proof.
  intros s D Ln.
  assert (X : exists a b, s = (a ++ b)%string /\ String.length a = 14%nat /\ (b = ""%string \/ String.length b = 3%nat)).
  { destruct (split_at 14 s ltac:(lia)) as [a [b [E [A B]]]]. exists a, b. split; [exact E|]. split; [exact A|].
    destruct Ln as [Ln|Ln]; rewrite Ln in B; cbn in B; [left; destruct b; [reflexivity|discriminate]|right; exact B]. }
  destruct X as [a [b [-> [La Lb]]]]. destruct (all_digits_app _ _ D) as [Da Db].
  destruct (fields_of a Da La) as [c [Ec [Ems (Hy & Hm & Hd & Hh & Hi & Hs)]]].
  pose proof (parse_fields c Hy Hm Hd Hh Hi Hs) as PF. pose proof (clock_iff c Ems Hy Hm Hd Hh Hi Hs) as CI. rewrite Ec in PF.
  assert (NO : forall c', clock_time c' -> (a ++ b)%string = render c' -> clockb c = true).
  { intros c' C' E. rewrite render_split in E. assert (a = head14 c').
    { apply (f_equal (take 14)) in E. rewrite <- La in E at 1. rewrite take_app in E. rewrite E. rewrite <- (length_head14 c'). apply take_app. }
    subst a. destruct (head_inj c c') as (E1 & E2 & E3 & E4 & E5 & E6); [lia|now apply clock_bounds|congruence|].
    apply CI. destruct C' as (V & H1 & H2 & H3 & H4). unfold clock_time. rewrite E1, E2, E3, E4, E5, E6, Ems. auto. }
  destruct (slices_at a b Db) as [S1 S2]. rewrite La in S1, S2. unfold parse_naive_datetime. rewrite S1. cbn [bind]. rewrite PF.
  destruct (clockb c) eqn:CB.
  - left. cbn [ok_or bind]. assert (CT : clock_time c) by now apply CI. destruct Lb as [ -> |Lb].
    + rewrite app_nil_r_s, La. exists c, (clock_ndt c). split; [exact CT|]. split; [|reflexivity]. rewrite render_split, Ec. unfold tail_ms. now rewrite Ems, app_nil_r_s.
    + destruct (pad_of b Db) as [ms [Eb Bm]]. rewrite Lb in Eb, Bm. change (10 ^ Z.of_nat 3) with 1000 in Bm.
      rewrite length_app_s, La, Lb. cbn [Nat.add Nat.eqb]. rewrite S2. cbn [bind]. rewrite Eb, parse_u32_pad3 by lia. cbn [ok_or bind]. unfold with_nanosecond.
      replace (ms * 1000000 <? 2000000000) with true by lia. cbn [ok_or].
      exists (with_ms c (Some ms)). eexists. split; [|split; [|reflexivity]].
      * destruct CT as (V & H1 & H2 & H3 & H4). unfold clock_time, with_ms. cbn. repeat split; try lia; apply V.
      * rewrite render_split. unfold tail_ms, with_ms, head14. cbn. rewrite <- Ec. reflexivity.
  - right. cbn [ok_or bind]. split; [|reflexivity]. intros [c' [C' E]]. pose proof (NO c' C' E); congruence.
Qed.
