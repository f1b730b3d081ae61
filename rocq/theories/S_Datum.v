(** Specification of Avro's binary form (the section "Binary encoding" of the Avro specification): which bytes
    stand for a value of a schema.  Only the types of M_Avro are used. *)
From Verif Require Import Base Str M_Utf8 M_Log M_Avro S_Log S_Avro.
Local Open Scope string_scope.

(** A number in groups of seven bits, the lowest first; all bytes but the last have the high bit set. *)
Inductive groups : N -> string -> Prop :=
| gr_last : forall n, (n < 128)%N -> groups n (String (ascii_of_N n) "")
| gr_more : forall n d, (128 <= n)%N -> groups (n / 128) d -> groups n (String (ascii_of_N (128 + n mod 128)) d).
(** Small numbers of either sign become small natural numbers. *)
Definition zigzag (z : Z) : N := Z.to_N (if (z <? 0)%Z then (-2 * z - 1)%Z else (2 * z)%Z).
Definition number (z : Z) (d : string) : Prop := long_range z /\ groups (zigzag z) d.
(** The length of a text, and of a block of items; the decoder refuses more than 512 MB. *)
Definition size (n : nat) (d : string) : Prop := (Z.of_nat n <= 536870912)%Z /\ number (Z.of_nat n) d.
(** [n] on [k] bytes, the lowest first *)
Fixpoint little_endian (k : nat) (n : N) : string :=
  match k with O => "" | S k => String (ascii_of_N (n mod 256)) (little_endian k (n / 256)) end.
Definition byte (n : N) : string := String (ascii_of_N n) "".

Inductive encodes : avro -> value -> string -> Prop :=
| en_null : encodes ScNull AvNull ""
| en_boolean : forall b : bool, encodes ScBoolean (AvBoolean b) (byte (if b then 1 else 0))
| en_int : forall z d, int_range z -> number z d -> encodes ScInt (AvInt z) d
| en_long : forall z d, number z d -> encodes ScLong (AvLong z) d
| en_float : forall f, (f < 2 ^ 32)%N -> encodes ScFloat (AvFloat f) (little_endian 4 f)
| en_double : forall f, (f < 2 ^ 64)%N -> encodes ScDouble (AvDouble f) (little_endian 8 f)
| en_bytes : forall x d, size (String.length x) d -> encodes ScBytes (AvBytes x) (d ++ x)
| en_string : forall x d, utf8_valid x = true -> size (String.length x) d -> encodes ScString (AvString x) (d ++ x)
| en_array : forall s l d, blocks s l d -> encodes (ScArray s) (AvArray l) d
| en_map : forall s l d, NoDup (map fst l) -> entry_blocks s l d -> encodes (ScMap s) (AvMap l) d
| en_union : forall vs i s v n d, nth_error vs i = Some s -> number (Z.of_nat i) n -> encodes s v d -> encodes (ScUnion vs) (AvUnion i v) (n ++ d)
| en_record : forall fs r d, fields fs r d -> encodes (ScRecord fs) (AvRecord r) d
| en_enum : forall symbols i x d, nth_error symbols i = Some x -> int_range (Z.of_nat i) -> number (Z.of_nat i) d -> encodes (ScEnum symbols) (AvEnum i x) d
| en_fixed : forall x, encodes (ScFixed (String.length x)) (AvFixed (String.length x) x) x
| en_decimal : forall p q x d, size (String.length x) d -> encodes (ScDecimal p q None) (AvDecimal x) (d ++ x)
| en_fixed_decimal : forall p q x, encodes (ScDecimal p q (Some (String.length x))) (AvDecimal x) x
| en_date : forall z d, int_range z -> number z d -> encodes ScDate (AvDate z) d
| en_time_millis : forall z d, int_range z -> number z d -> encodes ScTimeMillis (AvTimeMillis z) d
| en_time_micros : forall z d, number z d -> encodes ScTimeMicros (AvTimeMicros z) d
| en_millis : forall z d, number z d -> encodes ScTimestampMillis (AvTimestampMillis z) d
| en_micros : forall z d, number z d -> encodes ScTimestampMicros (AvTimestampMicros z) d
| en_nanos : forall z d, number z d -> encodes ScTimestampNanos (AvTimestampNanos z) d
| en_local : forall z d, number z d -> encodes ScLocalTimestamp (AvLocalTimestamp z) d
| en_duration : forall x, String.length x = 12%nat -> encodes ScDuration (AvDuration x) x
(** the fields of a record, one after another *)
with fields : list (string * list string * avro) -> list (string * value) -> string -> Prop :=
| fl_nil : fields [] [] ""
| fl_cons : forall n al s v d fs r e, encodes s v d -> fields fs r e -> fields ((n, al, s) :: fs) ((n, v) :: r) (d ++ e)
(** items of an array, one after another *)
with items : avro -> list value -> string -> Prop :=
| it_nil : forall s, items s [] ""
| it_cons : forall s v d l e, encodes s v d -> items s l e -> items s (v :: l) (d ++ e)
(** an array in blocks, each with the number of its items, which is negative if the size of the block follows; a
    block of no items ends it *)
with blocks : avro -> list value -> string -> Prop :=
| bl_end : forall s, blocks s [] (byte 0)
| bl_block : forall s l n d l' d', l <> [] -> size (List.length l) n -> items s l d -> blocks s l' d' -> blocks s (l ++ l')%list (n ++ d ++ d')
| bl_sized : forall s l n m d l' d', l <> [] -> (Z.of_nat (List.length l) <= 536870912)%Z -> number (- Z.of_nat (List.length l)) n -> number (Z.of_nat (String.length d)) m ->
    items s l d -> blocks s l' d' -> blocks s (l ++ l')%list (n ++ m ++ d ++ d')
(** the same for maps, whose entries are a string and a value *)
with entries : avro -> list (string * value) -> string -> Prop :=
| ey_nil : forall s, entries s [] ""
| ey_cons : forall s k v c d l e, encodes ScString (AvString k) c -> encodes s v d -> entries s l e -> entries s ((k, v) :: l) (c ++ d ++ e)
with entry_blocks : avro -> list (string * value) -> string -> Prop :=
| eb_end : forall s, entry_blocks s [] (byte 0)
| eb_block : forall s l n d l' d', l <> [] -> size (List.length l) n -> entries s l d -> entry_blocks s l' d' -> entry_blocks s (l ++ l')%list (n ++ d ++ d')
| eb_sized : forall s l n m d l' d', l <> [] -> (Z.of_nat (List.length l) <= 536870912)%Z -> number (- Z.of_nat (List.length l)) n -> number (Z.of_nat (String.length d)) m ->
    entries s l d -> entry_blocks s l' d' -> entry_blocks s (l ++ l')%list (n ++ m ++ d ++ d').

(** The values that have a binary form: the bits of floats and the texts are ones, no text, list or map is too long
    for the decoder, and the keys of a map are different. *)
Inductive storable : avro -> value -> Prop :=
| sb_float : forall f, (f < 2 ^ 32)%N -> storable ScFloat (AvFloat f)
| sb_double : forall f, (f < 2 ^ 64)%N -> storable ScDouble (AvDouble f)
| sb_bytes : forall x, (Z.of_nat (String.length x) <= 536870912)%Z -> storable ScBytes (AvBytes x)
| sb_string : forall x, utf8_valid x = true -> (Z.of_nat (String.length x) <= 536870912)%Z -> storable ScString (AvString x)
| sb_array : forall s l, (Z.of_nat (List.length l) <= 536870912)%Z -> Forall (storable s) l -> storable (ScArray s) (AvArray l)
| sb_map : forall s l, (Z.of_nat (List.length l) <= 536870912)%Z -> NoDup (map fst l) ->
    Forall (fun e => storable ScString (AvString (fst e)) /\ storable s (snd e)) l -> storable (ScMap s) (AvMap l)
| sb_union : forall vs i s v, (Z.of_nat (List.length vs) <= 2147483647)%Z -> nth_error vs i = Some s -> storable s v -> storable (ScUnion vs) (AvUnion i v)
| sb_record : forall fs r, Forall2 (fun f e => storable (snd f) (snd e)) fs r -> storable (ScRecord fs) (AvRecord r)
| sb_enum : forall symbols i x, (Z.of_nat (List.length symbols) <= 2147483647)%Z -> storable (ScEnum symbols) (AvEnum i x)
| sb_decimal : forall p q x, (Z.of_nat (String.length x) <= 536870912)%Z -> storable (ScDecimal p q None) (AvDecimal x)
| sb_fixed_decimal : forall p q x, storable (ScDecimal p q (Some (String.length x))) (AvDecimal x)
| sb_duration : forall x, String.length x = 12%nat -> storable ScDuration (AvDuration x)
| sb_other : forall s v, s <> ScBigDecimal -> s <> ScUuid ->
    match v with
    | AvNull | AvBoolean _ | AvInt _ | AvLong _ | AvFixed _ _ | AvDate _ | AvTimeMillis _ | AvTimeMicros _ | AvTimestampMillis _
    | AvTimestampMicros _ | AvTimestampNanos _ | AvLocalTimestamp _ => True
    | _ => False
    end -> storable s v.
