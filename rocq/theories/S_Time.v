(** Specification: well-formed timestamps are zero-padded decimal renderings of a civil date and
    time, [yyyyMMddHHmmss] or [yyyyMMddHHmmssSSS].  Nothing here refers to the parser. *)
From Verif Require Import Base.
Local Open Scope Z_scope.

(** A civil date-time; [c_ms = None] for the 14-character form. *)
Record civil := {
  c_year : Z; c_month : Z; c_day : Z;
  c_hour : Z; c_min : Z; c_sec : Z;
  c_ms : option Z
}.

(** Gregorian calendar. *)
Definition leap_year (y : Z) : Prop := (4 | y) /\ (~ (100 | y) \/ (400 | y)).

(** The number of days of a month, as a relation. *)
Inductive month_length (y : Z) : Z -> Z -> Prop :=
| ml31 : forall m, In m [1; 3; 5; 7; 8; 10; 12] -> month_length y m 31
| ml30 : forall m, In m [4; 6; 9; 11] -> month_length y m 30
| ml29 : leap_year y -> month_length y 2 29
| ml28 : ~ leap_year y -> month_length y 2 28.

Definition valid_date (y m d : Z) : Prop :=
  0 <= y <= 9999 /\ 1 <= m <= 12 /\ exists n, month_length y m n /\ 1 <= d <= n.

Definition valid_civil (c : civil) : Prop :=
  valid_date (c_year c) (c_month c) (c_day c)
  /\ 0 <= c_hour c <= 23 /\ 0 <= c_min c <= 59 /\ 0 <= c_sec c <= 59
  /\ match c_ms c with None => True | Some ms => 0 <= ms <= 999 end.

(** Zero-padded decimal rendering on [w] digits. *)
Definition digit (n : Z) : ascii := ascii_of_N (Z.to_N (48 + n)).
Fixpoint pad (w : nat) (n : Z) : string :=
  match w with
  | O => ""%string
  | S k => (pad k (n / 10) ++ String (digit (n mod 10)) "")%string
  end.

Definition render (c : civil) : string :=
  (pad 4 (c_year c) ++ pad 2 (c_month c) ++ pad 2 (c_day c)
   ++ pad 2 (c_hour c) ++ pad 2 (c_min c) ++ pad 2 (c_sec c)
   ++ match c_ms c with None => "" | Some ms => pad 3 ms end)%string.

(** The day after a date. *)
Inductive next_day : Z -> Z -> Z -> Z -> Z -> Z -> Prop :=
| nd_same : forall y m d n, month_length y m n -> 1 <= d < n -> next_day y m d y m (d + 1)
| nd_month : forall y m n, month_length y m n -> m < 12 -> next_day y m n y (m + 1) 1
| nd_year : forall y n, month_length y 12 n -> next_day y 12 n (y + 1) 1 1.

(** Day numbering: 1970-01-01 is day 0 and consecutive days have consecutive numbers. *)
Inductive day_number : Z -> Z -> Z -> Z -> Prop :=
| dn_epoch : day_number 1970 1 1 0
| dn_next : forall y m d y' m' d' n,
    day_number y m d n -> next_day y m d y' m' d' -> day_number y' m' d' (n + 1)
| dn_prev : forall y m d y' m' d' n,
    day_number y' m' d' n -> next_day y m d y' m' d' -> day_number y m d (n - 1).

(** The instant, in milliseconds since 1970-01-01T00:00:00Z, that a civil date-time denotes. *)
Definition denotes_millis (c : civil) (t : Z) : Prop :=
  exists n, day_number (c_year c) (c_month c) (c_day c) n
    /\ t = (((n * 24 + c_hour c) * 60 + c_min c) * 60 + c_sec c) * 1000
           + match c_ms c with None => 0 | Some ms => ms end.
