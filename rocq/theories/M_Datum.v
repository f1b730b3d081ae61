(** Model of [apache_avro::from_avro_datum] (release 0.17) without a reader schema, as
    crates/core/src/file_group/log_file/avro.rs:58 calls it: a value in Avro's binary form.
    The library is not in /repo: this follows its modules [decode], [util] and [types]. *)
From Verif Require Import Base Str M_Utf8 M_Log M_Avro.
Local Open Scope string_scope.

(** What [zag_i64] returns: a number and the bytes after it, the end of the input, or a number of more than ten bytes. *)
Inductive zag := ZNumber (z : Z) (rest : string) | ZEnd | ZOverflow.
(** [util::decode_variable]: seven bits of each byte, the lowest first, in an [u64]; at most ten bytes.
    [more] is the number of bytes that may follow. *)
Fixpoint decode_variable (more : nat) (shift i : N) (s : string) : option (option (N * string)) :=
  match more with
  | O => None
  | S more =>
      match s with
      | EmptyString => Some None
      | String c r =>
          let b := N_of_ascii c in
          let i := N.lor i (N.shiftl (N.land b 127) shift mod 2 ^ 64)%N in
          if (N.shiftr b 7 =? 0)%N then Some (Some (i, r)) else decode_variable more (shift + 7) i r
      end
  end.
(** [util::zag_i64]: an even number stands for its half, an odd one for the complement of its half *)
Definition zag_i64 (s : string) : zag :=
  match decode_variable 10 0 0 s with
  | None => ZOverflow
  | Some None => ZEnd
  | Some (Some (z, r)) =>
      let h := Z.of_N (N.shiftr z 1) in
      ZNumber (if (N.land z 1 =? 0)%N then h else (- h - 1)%Z) r
  end.
Definition long (s : string) : option (Z * string) :=
  match zag_i64 s with ZNumber z r => Some (z, r) | _ => None end.
(** [util::zag_i32] *)
Definition int (s : string) : option (Z * string) :=
  match long s with
  | Some (z, r) => if ((-2147483648 <=? z) && (z <=? 2147483647))%Z then Some (z, r) else None
  | None => None
  end.
(** [util::safe_len]: no allocation of more than 512 MB *)
Definition MAX_ALLOCATION : N := 536870912.
Definition safe_len (z : Z) : option N :=
  if ((0 <=? z) && (z <=? Z.of_N MAX_ALLOCATION))%Z then Some (Z.to_N z) else None.
(** [decode::decode_len] *)
Definition decode_len (s : string) : option (N * string) :=
  match long s with
  | Some (z, r) => match safe_len z with Some n => Some (n, r) | None => None end
  | None => None
  end.
(** [decode::decode_seq_len]: the number of items in the next block of an array or a map.  A negative number
    is followed by the size of the block in bytes, which is not used. *)
Definition decode_seq_len (s : string) : option (N * string) :=
  match long s with
  | Some (z, r) =>
      if (z <? 0)%Z then
        match long r with
        | Some (_, r) => match safe_len (- z) with Some n => Some (n, r) | None => None end
        | None => None
        end
      else match safe_len z with Some n => Some (n, r) | None => None end
  | None => None
  end.
(** [Read::read_exact] *)
Definition exactly (n : N) (s : string) : option (string * string) :=
  match read_exact n s with Ok x => Some x | _ => None end.
(** [f32::from_le_bytes], [f64::from_le_bytes]: the bits *)
Fixpoint le (s : string) : N :=
  match s with EmptyString => 0 | String c r => (N_of_ascii c + 256 * le r)%N end.
Definition bytes (s : string) : option (string * string) :=
  match decode_len s with Some (n, r) => exactly n r | None => None end.
(** The branch [Schema::String] of [decode_internal]: bytes that end early are the value null. *)
Definition text (s : string) : option (option string * string) :=
  match decode_len s with
  | Some (n, r) =>
      match exactly n r with
      | Some (t, r) => if utf8_valid t then Some (Some t, r) else None
      | None => Some (None, "")
      end
  | None => None
  end.
(** The inner loops of the branches [Schema::Array] and [Schema::Map]: [n] items *)
Fixpoint decode_items {A} (item : list A -> string -> option (list A * string)) (n : nat) (done : list A) (s : string)
  : option (list A * string) :=
  match n with
  | O => Some (done, s)
  | S n => match item done s with Some (done, r) => decode_items item n done r | None => None end
  end.
(** The loops over the blocks, which a block of no items ends.  Every block takes a byte, so [fuel] is enough if
    it is more than the length of the input. *)
Fixpoint decode_blocks {A} (item : list A -> string -> option (list A * string)) (fuel : nat) (done : list A) (s : string)
  : option (list A * string) :=
  match fuel with
  | O => None
  | S fuel =>
      match decode_seq_len s with
      | Some (n, r) =>
          if (n =? 0)%N then Some (done, r) else
          match decode_items item (N.to_nat n) done r with
          | Some (done, r) => decode_blocks item fuel done r
          | None => None
          end
      | None => None
      end
  end.
(** [Vec::push] *)
Definition push_item (dec : string -> option (value * string)) (done : list value) (s : string) : option (list value * string) :=
  match dec s with Some (v, r) => Some ((done ++ [v])%list, r) | None => None end.
(** [HashMap::insert] of a key, which has to be a string, and its value *)
Fixpoint put_key (k : string) (v : value) (m : list (string * value)) : list (string * value) :=
  match m with
  | [] => [(k, v)]
  | (k', v') :: m => if String.eqb k k' then (k, v) :: m else (k', v') :: put_key k v m
  end.
Definition push_entry (dec : string -> option (value * string)) (done : list (string * value)) (s : string) : option (list (string * value) * string) :=
  match text s with
  | Some (Some k, r) => match dec r with Some (v, r) => Some (put_key k v done, r) | None => None end
  | _ => None
  end.

(** [decode::decode_internal].  The end of the input is the value null where a boolean is expected or inside a
    string, and null in the first variant where the variant of a union is expected; elsewhere it is an error.
    A reference to a named type, big decimals and UUIDs are not modelled (an error here). *)
Fixpoint decode (s : avro) (b : string) {struct s} : option (value * string) :=
  match s with
  | ScNull => Some (AvNull, b)
  | ScBoolean =>
      match b with
      | EmptyString => Some (AvNull, "")
      | String c r =>
          if (N_of_ascii c =? 0)%N then Some (AvBoolean false, r)
          else if (N_of_ascii c =? 1)%N then Some (AvBoolean true, r) else None
      end
  | ScInt => match int b with Some (z, r) => Some (AvInt z, r) | None => None end
  | ScLong => match long b with Some (z, r) => Some (AvLong z, r) | None => None end
  | ScFloat => match exactly 4 b with Some (f, r) => Some (AvFloat (le f), r) | None => None end
  | ScDouble => match exactly 8 b with Some (f, r) => Some (AvDouble (le f), r) | None => None end
  | ScBytes => match bytes b with Some (x, r) => Some (AvBytes x, r) | None => None end
  | ScString =>
      match text b with
      | Some (Some t, r) => Some (AvString t, r)
      | Some (None, r) => Some (AvNull, r)
      | None => None
      end
  | ScArray i =>
      match decode_blocks (push_item (decode i)) (S (String.length b)) [] b with
      | Some (l, r) => Some (AvArray l, r)
      | None => None
      end
  | ScMap i =>
      match decode_blocks (push_entry (decode i)) (S (String.length b)) [] b with
      | Some (l, r) => Some (AvMap l, r)
      | None => None
      end
  | ScUnion vs =>
      match zag_i64 b with
      | ZEnd => Some (AvUnion 0 AvNull, "")
      | ZOverflow => None
      | ZNumber z r =>
          if ((0 <=? z) && (z <? Z.of_nat (List.length vs)))%Z then
            match (fix pick (l : list avro) (i : nat) {struct l} : option (value * string) :=
                     match l, i with [], _ => None | s :: _, O => decode s r | _ :: l, S i => pick l i end) vs (Z.to_nat z) with
            | Some (v, r) => Some (AvUnion (Z.to_nat z) v, r)
            | None => None
            end
          else None
      end
  | ScRecord fs =>
      match (fix all (l : list (string * list string * avro)) (b : string) {struct l} : option (list (string * value) * string) :=
               match l with
               | [] => Some ([], b)
               | (n, _, s) :: l =>
                   match decode s b with
                   | Some (v, r) => match all l r with Some (vs, r) => Some ((n, v) :: vs, r) | None => None end
                   | None => None
                   end
               end) fs b with
      | Some (l, r) => Some (AvRecord l, r)
      | None => None
      end
  | ScEnum symbols =>
      match int b with
      | Some (z, r) =>
          if ((0 <=? z) && (z <? Z.of_nat (List.length symbols)))%Z then
            match nth_error symbols (Z.to_nat z) with
            | Some t => Some (AvEnum (Z.to_nat z) t, r)
            | None => None
            end
          else None
      | None => None
      end
  | ScFixed n => match exactly (N.of_nat n) b with Some (x, r) => Some (AvFixed n x, r) | None => None end
  | ScDecimal _ _ fixed =>
      match (match fixed with None => bytes b | Some n => exactly (N.of_nat n) b end) with
      | Some (x, r) => Some (AvDecimal x, r)
      | None => None
      end
  | ScDate => match int b with Some (z, r) => Some (AvDate z, r) | None => None end
  | ScTimeMillis => match int b with Some (z, r) => Some (AvTimeMillis z, r) | None => None end
  | ScTimeMicros => match long b with Some (z, r) => Some (AvTimeMicros z, r) | None => None end
  | ScTimestampMillis => match long b with Some (z, r) => Some (AvTimestampMillis z, r) | None => None end
  | ScTimestampMicros => match long b with Some (z, r) => Some (AvTimestampMicros z, r) | None => None end
  | ScTimestampNanos => match long b with Some (z, r) => Some (AvTimestampNanos z, r) | None => None end
  | ScLocalTimestamp => match long b with Some (z, r) => Some (AvLocalTimestamp z, r) | None => None end
  | ScDuration => match exactly 12 b with Some (x, r) => Some (AvDuration x, r) | None => None end
  | ScBigDecimal | ScUuid | ScRef => None
  end.
