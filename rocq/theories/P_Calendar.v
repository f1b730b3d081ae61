(** C53: which texts are times; C07: when there is a latest commit. *)
From Verif Require Import Base Str M_Time M_Instant M_Timeline S_Time S_FileGroup S_Timeline S_Calendar L_Time L_Instant L_Timeline L_Whole L_Calendar P_Timeline.
From Coq Require Import Sorting.Sorted.
Local Open Scope string_scope.

(** Fourteen or seventeen digits are accepted as a time exactly when they are one, on a clock that also shows leap
    seconds; any other digits are an error, never a panic. *)
Theorem C53_digits_exact : forall L tz s, is_utc tz -> all_digits s -> (String.length s = 14 \/ String.length s = 17)%nat ->
  ((exists t, parse_datetime L s tz = Ok t) <-> exists c, clock_time c /\ s = render c)
  /\ ((forall t, parse_datetime L s tz <> Ok t) -> parse_datetime L s tz = Err ETimeline).
Proof.
  intros L tz s U D Ln. unfold parse_datetime, convert_to_timezone.
  assert (Z : timezone_from_str tz = Ok TzUtc) by (unfold timezone_from_str; unfold is_utc in U; rewrite U; reflexivity).
  destruct (digits_exact s D Ln) as [[c [t [C [R P]]]]|[N P]]; rewrite P; cbn [bind].
  - rewrite Z. cbn [bind]. split; [split; intros _; eauto|]. intros H. now elim (H t).
  - split; [split; [intros [t T]; discriminate T|intros X; now elim N]|reflexivity].
Qed.
Print Assumptions C53_digits_exact.

(** So the only digits accepted that are not a time of C53_epoch_is_calendar_time have second 60 (C02). *)
Theorem C53_accepted_digits : forall L tz s t, is_utc tz -> all_digits s -> (String.length s = 14 \/ String.length s = 17)%nat ->
  parse_datetime L s tz = Ok t ->
  exists c, s = render c /\ (c_sec c = 60%Z \/ valid_civil c /\ denotes_millis c (epoch_millis t)).
Proof.
  intros L tz s t U D Ln P. destruct (proj1 (proj1 (C53_digits_exact L tz s U D Ln)) (ex_intro _ t P)) as [c [C R]]. exists c. split; [exact R|].
  destruct C as (V & H1 & H2 & H3 & H4). destruct (Z.eq_dec (c_sec c) 60) as [E|E]; [now left|right].
  assert (VC : valid_civil c) by (unfold valid_civil; repeat split; try apply V; try lia; exact H4). split; [exact VC|].
  unfold parse_datetime in P. rewrite R, parse_render in P by exact VC. cbn [bind] in P. unfold convert_to_timezone in P.
  assert (Z : timezone_from_str tz = Ok TzUtc) by (unfold timezone_from_str; unfold is_utc in U; rewrite U; reflexivity). rewrite Z in P. injection P as <-. now apply epoch_denotes.
Qed.
Print Assumptions C53_accepted_digits.
Example C53_digits_case : is_utc "UTC" /\ all_digits "20230229000000" /\ parse_datetime no_local "20230229000000" "UTC" = Err ETimeline
  /\ all_digits "20240229000000" /\ (exists t, parse_datetime no_local "20240229000000" "UTC" = Ok t)
  /\ parse_datetime no_local "20240100000000" "UTC" = Err ETimeline /\ parse_datetime no_local "20241301000000" "UTC" = Err ETimeline
  /\ parse_datetime no_local "20240101240000" "UTC" = Err ETimeline /\ parse_datetime no_local "20240101000061000" "UTC" = Err ETimeline.
Proof. repeat split; try (vm_compute; congruence). vm_compute. eauto. Qed.

(** In local time a date and time is the instant that the host says it is; one that the host does not know, or knows
    twice, is an error. *)
Theorem C53_local : forall L c tz, valid_civil c -> to_ascii_lowercase tz = "local" ->
  exists n, denotes_millis c (epoch_millis n) /\ parse_datetime L (render c) tz = match L n with Some t => Ok t | None => Err ETimeline end.
Proof.
  intros L c tz V Z. exists (civil_ndt c). split; [now apply epoch_denotes|]. unfold parse_datetime. rewrite parse_render by exact V. cbn [bind].
  unfold convert_to_timezone, timezone_from_str. rewrite Z. cbn [String.eqb Ascii.eqb Bool.eqb bind]. now destruct (L (civil_ndt c)).
Qed.
Print Assumptions C53_local.
Example C53_local_case : valid_civil c_a /\ to_ascii_lowercase "Local" = "local" /\ parse_datetime no_local (render c_a) "Local" = Err ETimeline
  /\ exists t, parse_datetime Some (render c_a) "Local" = Ok t.
Proof. split; [exact valid_a|]. split; [reflexivity|]. split; [vm_compute; reflexivity|eexists; vm_compute; reflexivity]. Qed.

(** Texts that are not digits, or have another length, are accepted too: blanks may stand for missing digits, and after
    14 characters anything may follow, which does not count. *)
Theorem C53_loose_refuted : forall L, exists s1 s2 s3 t1 t2 t3, ~ all_digits s1 /\ ~ all_digits s2 /\ ~ all_digits s3
  /\ parse_datetime L s1 "UTC" = Ok t1 /\ parse_datetime L s2 "UTC" = Ok t2 /\ parse_datetime L s3 "UTC" = Ok t3
  /\ epoch_millis t1 = epoch_millis t2 /\ s1 <> s2 /\ String.length s3 = 17%nat.
Proof.
  intros L. exists "2024 1 1 0 0 0", "20240101000000 or later", "20240101000000+12". eexists. eexists. eexists.
  split; [intros X; cbn in X; decompose [and] X; lia|]. split; [intros X; cbn in X; decompose [and] X; lia|]. split; [intros X; cbn in X; decompose [and] X; lia|].
  split; [vm_compute; reflexivity|]. split; [vm_compute; reflexivity|]. split; [vm_compute; reflexivity|]. split; [vm_compute; reflexivity|]. split; [discriminate|reflexivity].
Qed.
Print Assumptions C53_loose_refuted.

(** The call that reports the latest commit fails exactly when no file of the listing is a completed commit; otherwise
    it is a commit that no other is later than. *)
Theorem C07_latest_or_error : forall L f tz names l, sorts f -> new_timeline L f tz names = Ok l ->
  match get_latest_commit_timestamp l with
  | Ok ts => exists i n, In n names /\ denotes_completed L tz [Commit; DeltaCommit; ReplaceCommit] n i /\ i_timestamp i = ts
               /\ forall n' j, In n' names -> denotes_completed L tz [Commit; DeltaCommit; ReplaceCommit] n' j -> (i_epoch j <= i_epoch i)%Z
  | Err e => e = ETimeline /\ forall n i, In n names -> ~ denotes_completed L tz [Commit; DeltaCommit; ReplaceCommit] n i
  | Panic => False
  end.
Proof.
  intros L f tz names l SU N. pose proof (latest_spec L f tz names l SU N) as H. destruct (new_timeline_exact L f tz names l SU N) as [l0 [D0 [PM _]]].
  pose proof (denotes_one L tz [Commit; DeltaCommit; ReplaceCommit]) as U.
  unfold get_latest_commit_timestamp. destruct (latest_commit_timestamp l) as [ts|]; cbn [ok_or].
  - destruct H as [i [I [E [_ M]]]]. apply (Permutation_in _ (Permutation_sym PM)), (denoted_in _ _ _ D0) in I as [n [I D]]. exists i, n. split; [exact I|]. split; [exact D|]. split; [exact E|].
    intros n' j I' D'. apply M, (Permutation_in _ PM). exact (denoted_all _ _ _ U D0 n' j I' D').
  - split; [reflexivity|exact H].
Qed.
Print Assumptions C07_latest_or_error.
Example C07_error_case : (let* l := new_timeline no_local isort "utc" ["20240103000000.commit.requested"; "hoodie.properties"; "20240103000000.clean"] in get_latest_commit_timestamp l) = Err ETimeline
  /\ (let* l := new_timeline no_local isort "utc" ["20240103000000.commit"; "20240105000000.deltacommit"; "20240104000000.commit"] in get_latest_commit_timestamp l) = Ok "20240105000000".
Proof. split; vm_compute; reflexivity. Qed.
