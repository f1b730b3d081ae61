(** Specification for reading Avro rows into Arrow columns (C48-C50): what a schema that the Avro parser
    accepts is, which values belong to a schema, and what a value is in Arrow.  Only the types of M_Avro are used. *)
From Verif Require Import Base Str M_Avro.
Local Open Scope string_scope.

(** ** Schemas *)
(** [part x s]: the schema [x] occurs in [s]. *)
Inductive part : avro -> avro -> Prop :=
| pt_refl : forall s, part s s
| pt_array : forall x s, part x s -> part x (ScArray s)
| pt_map : forall x s, part x s -> part x (ScMap s)
| pt_union : forall x s vs, In s vs -> part x s -> part x (ScUnion vs)
| pt_field : forall x n al s fs, In (n, al, s) fs -> part x s -> part x (ScRecord fs).
(** A schema the parser accepts: a union has one null at most and no union in it; the fields of a record have
    different names, which are not empty and have no dot.  (The last condition, on aliases, is not checked by
    the parser: an alias is not the name of a field of the record.) *)
Inductive valid : avro -> Prop :=
| vs_array : forall s, valid s -> valid (ScArray s)
| vs_map : forall s, valid s -> valid (ScMap s)
| vs_union : forall vs, (forall v, In v vs -> valid v /\ forall us, v <> ScUnion us) ->
    (forall a b c, vs <> (a ++ ScNull :: b ++ ScNull :: c)%list) -> valid (ScUnion vs)
| vs_record : forall fs, NoDup (map (fun f => fst (fst f)) fs) ->
    (forall n al s, In (n, al, s) fs -> n <> "" /\ ~ In "."%char (list_ascii_of_string n) /\ valid s
       /\ forall a, In a al -> ~ In "."%char (list_ascii_of_string a) /\ forall f, In f fs -> fst (fst f) <> a) -> valid (ScRecord fs)
| vs_other : forall s, (forall i, s <> ScArray i) -> (forall i, s <> ScMap i) -> (forall l, s <> ScUnion l) -> (forall l, s <> ScRecord l) -> valid s.
(** A field that may be null. *)
Definition may_be_null (s : avro) : Prop := exists vs, s = ScUnion vs /\ In ScNull vs.

(** ** Values *)
Definition int_range (z : Z) : Prop := (-2147483648 <= z <= 2147483647)%Z.
Definition long_range (z : Z) : Prop := (-9223372036854775808 <= z <= 9223372036854775807)%Z.
(** The values the Avro decoder produces for a schema. *)
Inductive conforms : avro -> value -> Prop :=
| cf_null : conforms ScNull AvNull
| cf_boolean : forall b, conforms ScBoolean (AvBoolean b)
| cf_int : forall z, int_range z -> conforms ScInt (AvInt z)
| cf_long : forall z, long_range z -> conforms ScLong (AvLong z)
| cf_float : forall f, conforms ScFloat (AvFloat f)
| cf_double : forall f, conforms ScDouble (AvDouble f)
| cf_bytes : forall s, conforms ScBytes (AvBytes s)
| cf_string : forall s, conforms ScString (AvString s)
| cf_array : forall s l, Forall (conforms s) l -> conforms (ScArray s) (AvArray l)
| cf_map : forall s l, Forall (fun e => conforms s (snd e)) l -> conforms (ScMap s) (AvMap l)
| cf_union : forall vs i s v, nth_error vs i = Some s -> conforms s v -> conforms (ScUnion vs) (AvUnion i v)
| cf_record : forall fs r, Forall2 (fun f e => fst e = fst (fst f) /\ conforms (snd f) (snd e)) fs r -> conforms (ScRecord fs) (AvRecord r)
| cf_enum : forall symbols i s, nth_error symbols i = Some s -> conforms (ScEnum symbols) (AvEnum i s)
| cf_fixed : forall n s, String.length s = n -> conforms (ScFixed n) (AvFixed n s)
| cf_decimal : forall p q x s, conforms (ScDecimal p q x) (AvDecimal s)
| cf_big_decimal : forall s, conforms ScBigDecimal (AvBigDecimal s)
| cf_uuid : forall s, conforms ScUuid (AvUuid s)
| cf_date : forall z, int_range z -> conforms ScDate (AvDate z)
| cf_time_millis : forall z, int_range z -> conforms ScTimeMillis (AvTimeMillis z)
| cf_time_micros : forall z, long_range z -> conforms ScTimeMicros (AvTimeMicros z)
| cf_millis : forall z, long_range z -> conforms ScTimestampMillis (AvTimestampMillis z)
| cf_micros : forall z, long_range z -> conforms ScTimestampMicros (AvTimestampMicros z)
| cf_nanos : forall z, long_range z -> conforms ScTimestampNanos (AvTimestampNanos z)
| cf_local : forall z, long_range z -> conforms ScLocalTimestamp (AvLocalTimestamp z)
| cf_duration : forall s, conforms ScDuration (AvDuration s).

(** What a value is in Arrow; the branch of a union does not show. *)
Fixpoint meaning (v : value) : slot :=
  match v with
  | AvNull => SlNull
  | AvBoolean b => SlBool b
  | AvInt z | AvLong z | AvDate z | AvTimeMillis z | AvTimeMicros z
  | AvTimestampMillis z | AvTimestampMicros z | AvTimestampNanos z | AvLocalTimestamp z => SlInt z
  | AvFloat f => SlF32 f
  | AvDouble f => SlF64 f
  | AvString s | AvEnum _ s => SlText s
  | AvBytes s | AvFixed _ s | AvDecimal s | AvBigDecimal s | AvDuration s | AvUuid s => SlBytes s
  | AvUnion _ v => meaning v
  | AvArray l => SlList (map meaning l)
  | AvMap l => SlList (map (fun e => SlStruct [("key", SlText (fst e)); ("value", meaning (snd e))]) l)
  | AvRecord r => SlStruct (map (fun e => (fst e, meaning (snd e))) r)
  end.
(** A batch shows the rows: row [i] of its columns, under the names of its fields, is the [i]th value. *)
Definition batch_shows (batch : list field * list array) (vs : list value) : Prop :=
  List.length (fst batch) = List.length (snd batch)
  /\ (forall c, In c (snd batch) -> array_len c = List.length vs)
  /\ forall i v, nth_error vs i = Some v ->
       SlStruct (combine (map fname (fst batch)) (map (fun c => slot_at c i) (snd batch))) = meaning v.

(** ** The schemas whose values are kept *)
(** The columns that can be read at all: not maps, unions other than with null, decimals, durations, nor lists of
    these, of byte strings or of times. *)
Fixpoint readable (s : avro) : bool :=
  match s with
  | ScMap _ | ScDecimal _ _ _ | ScBigDecimal | ScUuid | ScTimestampNanos | ScLocalTimestamp | ScDuration | ScRef => false
  | ScUnion [ScNull; x] | ScUnion [x; ScNull] => readable x
  | ScUnion _ => false
  | ScRecord fs => forallb (fun f => readable (snd f)) fs
  | ScArray i => readable_item i
  | _ => true
  end
with readable_item (s : avro) : bool :=
  match s with
  | ScNull | ScBoolean | ScInt | ScLong | ScFloat | ScDouble | ScString | ScEnum _ => true
  | ScUnion [ScNull; x] | ScUnion [x; ScNull] => readable_item x
  | ScRecord fs => forallb (fun f => readable (snd f)) fs
  | ScArray i => readable_item i
  | _ => false
  end.
(** The schemas without a construct whose values get lost or whose reading panics: no UUID, no big decimal, no
    timestamp in nanoseconds; no list of booleans where the list or the booleans may be null; no list of
    records directly in a list.  [opt]: under a union with null. *)
Fixpoint lossless (opt : bool) (s : avro) : bool :=
  match s with
  | ScBigDecimal | ScUuid | ScTimestampNanos => false
  | ScUnion [ScNull; x] | ScUnion [x; ScNull] => lossless true x
  | ScRecord fs => forallb (fun f => lossless false (snd f)) fs
  | ScArray i => lossless_item opt false false i
  | _ => true
  end
with lossless_item (list_opt opt deep : bool) (s : avro) : bool :=
  match s with
  | ScBoolean => negb list_opt && negb opt
  | ScUnion [ScNull; x] | ScUnion [x; ScNull] => lossless_item list_opt true deep x
  | ScRecord fs => negb deep && forallb (fun f => lossless false (snd f)) fs
  | ScArray i => lossless_item opt false true i
  | _ => true
  end.
(** The schemas for which a missing value does no harm: lists of records and lists of lists do not occur. *)
Fixpoint tolerant_item (s : avro) : bool :=
  match s with
  | ScUnion [ScNull; x] | ScUnion [x; ScNull] => tolerant_item x
  | ScRecord _ | ScArray _ => false
  | _ => true
  end.
Fixpoint tolerant (s : avro) : bool :=
  match s with
  | ScUnion [ScNull; x] | ScUnion [x; ScNull] => tolerant x
  | ScRecord fs => forallb (fun f => tolerant (snd f)) fs
  | ScArray i => tolerant_item i
  | _ => true
  end.
(** The values whose nulls do no harm: no null stands for a list of records, a list of lists, or a record with
    one of these in it. *)
Inductive nulls_ok : avro -> value -> Prop :=
| no_null : forall vs i, nth_error vs i = Some ScNull -> (forall x, In x vs -> tolerant x = true) -> nulls_ok (ScUnion vs) (AvUnion i AvNull)
| no_some : forall vs i s v, nth_error vs i = Some s -> s <> ScNull -> nulls_ok s v -> nulls_ok (ScUnion vs) (AvUnion i v)
| no_record : forall fs r, Forall2 (fun f e => nulls_ok (snd f) (snd e)) fs r -> nulls_ok (ScRecord fs) (AvRecord r)
| no_array : forall s l, Forall (nulls_ok s) l -> nulls_ok (ScArray s) (AvArray l)
| no_other : forall s v, (forall l, s <> ScUnion l) -> (forall l, s <> ScRecord l) -> (forall i, s <> ScArray i) -> nulls_ok s v.

(** ** Simple columns *)
(** The scalar types whose values are kept, and the fields of these types, nullable or not. *)
Definition kept_scalar (s : avro) : bool :=
  match s with
  | ScNull | ScBoolean | ScInt | ScLong | ScFloat | ScDouble | ScBytes | ScString | ScEnum _ | ScFixed _
  | ScDate | ScTimeMillis | ScTimeMicros | ScTimestampMillis | ScTimestampMicros => true
  | _ => false
  end.
(** The items of lists that are kept also when they are null or in lists that are null. *)
Definition kept_item (s : avro) : bool :=
  match s with ScNull | ScInt | ScLong | ScFloat | ScDouble | ScString | ScEnum _ => true | _ => false end.
(** [maybe k s]: the schema is one of the kind [k] or a union of null and one of the kind. *)
Inductive maybe (k : avro -> Prop) : avro -> Prop :=
| mb_plain : forall s, k s -> maybe k s
| mb_left : forall s, k s -> s <> ScNull -> maybe k (ScUnion [ScNull; s])
| mb_right : forall s, k s -> s <> ScNull -> maybe k (ScUnion [s; ScNull]).
Definition scalar_column (s : avro) : Prop := maybe (fun x => kept_scalar x = true) s.
(** a list, which may be null, of items, which may be null; of booleans only without nulls *)
Definition list_column (s : avro) : Prop :=
  s = ScArray ScBoolean \/ maybe (fun x => exists i, x = ScArray i /\ maybe (fun y => kept_item y = true) i) s.

(** ** The Arrow schema (C50) *)
(** The type that a schema becomes; the fields of records keep their names and positions, and they and the
    items of lists may be null exactly if the schema says so. *)
Inductive arrow_type : avro -> dtype -> Prop :=
| at_null : arrow_type ScNull DNull
| at_boolean : arrow_type ScBoolean DBoolean
| at_int : arrow_type ScInt DInt32
| at_long : arrow_type ScLong DInt64
| at_float : arrow_type ScFloat DFloat32
| at_double : arrow_type ScDouble DFloat64
| at_bytes : arrow_type ScBytes DBinary
| at_string : arrow_type ScString DUtf8
| at_enum : forall symbols, arrow_type (ScEnum symbols) DUtf8
| at_fixed : forall n, arrow_type (ScFixed n) (DFixed n)
| at_decimal : forall p q x, arrow_type (ScDecimal p q x) (DDecimal p q)
| at_big_decimal : arrow_type ScBigDecimal DLargeBinary
| at_uuid : arrow_type ScUuid (DFixed 16)
| at_date : arrow_type ScDate DDate32
| at_time_millis : arrow_type ScTimeMillis DTime32Milli
| at_time_micros : arrow_type ScTimeMicros DTime64Micro
| at_millis : arrow_type ScTimestampMillis DTimestampMilli
| at_micros : arrow_type ScTimestampMicros DTimestampMicro
| at_nanos : arrow_type ScTimestampNanos DTimestampNano
| at_duration : arrow_type ScDuration DDuration
| at_array : forall s d n, arrow_type s d -> (n = true <-> may_be_null s) -> arrow_type (ScArray s) (DList "element" d n)
| at_map : forall s d, arrow_type s d -> arrow_type (ScMap s) (DDict DUtf8 d)
| at_nullable : forall vs s d, vs = [ScNull; s] \/ vs = [s; ScNull] -> arrow_type s d -> arrow_type (ScUnion vs) d
| at_union : forall vs l, (forall s, vs <> [ScNull; s] /\ vs <> [s; ScNull]) -> Forall2 (fun s f => arrow_type s (ftype f)) vs l -> arrow_type (ScUnion vs) (DUnion l)
| at_record : forall fs l, Forall2 (fun f df => fname df = fst (fst f) /\ arrow_type (snd f) (ftype df) /\ (fnull df = true <-> may_be_null (snd f))) fs l ->
    arrow_type (ScRecord fs) (DStruct l).
(** A union with null of more than two types occurs inside. *)
Definition wide_null (s : avro) : Prop := exists vs, part (ScUnion vs) s /\ In ScNull vs /\ List.length vs <> 2.

(** ** For examples *)
(** A record schema with one field, rows of it, and the first column of a batch at a row. *)
Definition one (name : string) (s : avro) : avro := ScRecord [(name, [], s)].
Definition cell_at (r : outcome (list field * list array)) (i : nat) : option slot :=
  match r with Ok (_, c :: _) => Some (slot_at c i) | _ => None end.
Definition rows_of (name : string) (vs : list value) : list value := map (fun v => AvRecord [(name, v)]) vs.
