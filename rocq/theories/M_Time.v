(** Model of the date-time handling of crates/core/src/timeline/instant.rs:160-190, including the
    part of the chrono library (version 0.4.39, pinned in Cargo.toml) it relies on:
    [NaiveDateTime::parse_from_str(_, "%Y%m%d%H%M%S")], [NaiveDate::from_ymd_opt],
    [NaiveTime::with_nanosecond], [DateTime::timestamp_millis] and the order on [DateTime<Utc>]. *)
From Verif Require Import Base Str.
Local Open Scope Z_scope.

(** ** Calendar *)

(** Proleptic Gregorian leap years (chrono [NaiveDate]). *)
Definition is_leap (y : Z) : bool :=
  (y mod 4 =? 0) && (negb (y mod 100 =? 0) || (y mod 400 =? 0)).

Definition days_in_month (y m : Z) : Z :=
  if m =? 2 then (if is_leap y then 29 else 28)
  else if (m =? 4) || (m =? 6) || (m =? 9) || (m =? 11) then 30 else 31.

(** Days of year [y] before the first of month [m]. *)
Definition days_before_month (y m : Z) : Z :=
  let l := if is_leap y then 1 else 0 in
  if m <=? 1 then 0 else if m =? 2 then 31 else if m =? 3 then 59 + l
  else if m =? 4 then 90 + l else if m =? 5 then 120 + l else if m =? 6 then 151 + l
  else if m =? 7 then 181 + l else if m =? 8 then 212 + l else if m =? 9 then 243 + l
  else if m =? 10 then 273 + l else if m =? 11 then 304 + l else 334 + l.

(** Days from 0001-01-01 to the first of January of year [y] (floor division, any sign). *)
Definition days_before_year (y : Z) : Z :=
  let p := y - 1 in 365 * p + p / 4 - p / 100 + p / 400.

(** Days since 1970-01-01 (719162 = days before 1970). *)
Definition days_from_civil (y m d : Z) : Z :=
  days_before_year y + days_before_month y m + (d - 1) - 719162.

(** A naive date-time: day number, second of the day, nanosecond.  As in chrono a leap second is
    second 59 with a nanosecond field of at least 10^9. *)
Record ndt := { nd_days : Z; nd_secs : Z; nd_nanos : Z }.

(** [NaiveDate::from_ymd_opt] validity, with chrono's year range. *)
Definition valid_ymd (y m d : Z) : bool :=
  (-262143 <=? y) && (y <=? 262142) && (1 <=? m) && (m <=? 12) && (1 <=? d) && (d <=? days_in_month y m).

(** ** Parsing *)

(** chrono [scan::number(s, 1, max)]: between one and [max] digits.  (The i64 overflow check of
    chrono is omitted: the inputs here have at most 14 characters.) *)
Fixpoint scan_digits (max : nat) (acc : Z) (s : string) : Z * string :=
  match max, s with
  | S k, String c xs => if is_digit c then scan_digits k (10 * acc + digit_val c) xs else (acc, s)
  | _, _ => (acc, s)
  end.
Definition scan_number (max : nat) (s : string) : option (Z * string) :=
  match s with
  | EmptyString => None
  | String c _ => if is_digit c then Some (scan_digits max 0 s) else None
  end.

(** chrono [Item::Numeric] with [signed = false] (month, day, hour, minute, second): leading
    white space is skipped, then one or two digits. *)
Definition scan_num2 (s : string) : option (Z * string) := scan_number 2 (trim_start s).

(** chrono [Numeric::Year]: [signed = true]; with an explicit sign there is no width limit. *)
Definition scan_year (s0 : string) : option (Z * string) :=
  let s := trim_start s0 in
  match s with
  | EmptyString => None
  | String c xs =>
      if Ascii.eqb c "-" then
        match scan_number (String.length xs) xs with
        | Some (v, r) => Some (- v, r)
        | None => None
        end
      else if Ascii.eqb c "+" then scan_number (String.length xs) xs
      else scan_number 4 s
  end.

Definition in_range (lo v hi : Z) : bool := (lo <=? v) && (v <=? hi).

(** [NaiveDateTime::parse_from_str(s, "%Y%m%d%H%M%S")].  The setters of chrono's [Parsed] check
    the ranges of month (1-12), day (1-31), hour (0-23), minute (0-59) and second (0-60); nothing
    may be left over; [NaiveDate::from_ymd_opt] must accept the date. *)
Definition parse_ymdhms (s : string) : option ndt :=
  match scan_year s with None => None | Some (y, s1) =>
  if negb (in_range (-2147483648) y 2147483647) then None else
  match scan_num2 s1 with None => None | Some (mo, s2) =>
  if negb (in_range 1 mo 12) then None else
  match scan_num2 s2 with None => None | Some (d, s3) =>
  if negb (in_range 1 d 31) then None else
  match scan_num2 s3 with None => None | Some (h, s4) =>
  if negb (in_range 0 h 23) then None else
  match scan_num2 s4 with None => None | Some (mi, s5) =>
  if negb (in_range 0 mi 59) then None else
  match scan_num2 s5 with None => None | Some (sec, s6) =>
  if negb (in_range 0 sec 60) then None else
  match s6 with
  | String _ _ => None
  | EmptyString =>
      if negb (valid_ymd y mo d) then None
      else
        let '(sec', nano) := if sec =? 60 then (59, 1000000000) else (sec, 0) in
        Some {| nd_days := days_from_civil y mo d;
                nd_secs := h * 3600 + mi * 60 + sec';
                nd_nanos := nano |}
  end end end end end end end.

(** [NaiveDateTime::with_nanosecond] (chrono): replaces the nanosecond field if below 2*10^9. *)
Definition with_nanosecond (t : ndt) (n : Z) : option ndt :=
  if n <? 2000000000
  then Some {| nd_days := nd_days t; nd_secs := nd_secs t; nd_nanos := n |}
  else None.

(** crates/core/src/timeline/instant.rs:165-179 [Instant::parse_naive_datetime].  The slice
    [&timestamp[..14]] panics when the string is shorter than 14 bytes or byte 14 is inside a
    character.  With exactly 17 bytes the last three are parsed as u32 milliseconds (u32 product
    [millis * 1_000_000] cannot overflow: at most three digits). *)
Definition parse_naive_datetime (ts : string) : outcome ndt :=
  let* head := slice_to ts 14 in
  let* t := ok_or (parse_ymdhms head) ETimeline in
  if Nat.eqb (String.length ts) 17 then
    let* tail := slice_from ts 14 in
    let* ms := ok_or (parse_u32 tail) ETimeline in
    ok_or (with_nanosecond t (ms * 1000000)) ETimeline
  else Ok t.

(** crates/core/src/config/table.rs:318-340 [TimelineTimezoneValue]. *)
Inductive timezone := TzUtc | TzLocal.
Definition timezone_from_str (s : string) : outcome timezone :=
  let l := to_ascii_lowercase s in
  if String.eqb l "utc" then Ok TzUtc
  else if String.eqb l "local" then Ok TzLocal
  else Err EConfigInvalid.

(** [DateTime<Utc>::timestamp_millis] (chrono): seconds*1000 plus the nanoseconds in whole
    milliseconds (1000 or more for a leap second). *)
Definition epoch_millis (t : ndt) : Z :=
  (nd_days t * 86400 + nd_secs t) * 1000 + nd_nanos t / 1000000.

(** Order on [DateTime<Utc>]: lexicographic on (date, second, fraction). *)
Definition dt_cmp (a c : ndt) : comparison :=
  match nd_days a ?= nd_days c with
  | Eq => match nd_secs a ?= nd_secs c with
          | Eq => nd_nanos a ?= nd_nanos c
          | r => r
          end
  | r => r
  end.
Definition dt_lt (a c : ndt) : bool := match dt_cmp a c with Lt => true | _ => false end.
Definition dt_le (a c : ndt) : bool := match dt_cmp a c with Gt => false | _ => true end.

Section WithLocal.
(** The host's local time zone: [Local.from_local_datetime(&naive).single()] converted to UTC;
    [None] when the local time does not exist or is ambiguous.  Any function is allowed. *)
Variable local_to_utc : ndt -> option ndt.

(** crates/core/src/timeline/instant.rs:181-190 [Instant::convert_to_timezone]. *)
Definition convert_to_timezone (t : ndt) (tz : string) : outcome ndt :=
  let* z := timezone_from_str tz in
  match z with
  | TzUtc => Ok t
  | TzLocal => ok_or (local_to_utc t) ETimeline
  end.

(** crates/core/src/timeline/instant.rs:160-163 [Instant::parse_datetime]. *)
Definition parse_datetime (ts tz : string) : outcome ndt :=
  let* t := parse_naive_datetime ts in
  convert_to_timezone t tz.
End WithLocal.
