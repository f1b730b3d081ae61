(** Specification for C91: what in the stored bytes can make a reader panic. *)
From Verif Require Import Base Str M_Utf8 M_Log M_Reader M_Config M_Table S_Log S_Reader.
Local Open Scope string_scope.

(** [x] is somewhere in the bytes. *)
Definition within (x bytes : string) : Prop := exists a b, bytes = a ++ x ++ b.
(** The bytes hold, somewhere, the beginning of a block with this header (whether or not a block is there). *)
Definition holds_header (header : metadata) (bytes : string) : Prop :=
  (N.of_nat (List.length header) < 2 ^ 32)%N /\ (forall k v, In (k, v) header -> utf8_valid v = true /\ (len v < 2 ^ 32)%N)
  /\ exists size version type, String.length size = 8 /\ String.length version = 4 /\ String.length type = 4
    /\ within ("#HUDI#" ++ size ++ version ++ type ++ put_metadata header) bytes.
(** A text with fourteen bytes or more whose first fourteen are whole characters. *)
Definition has_time_part (ts : string) : Prop := is_char_boundary ts 14 = true.

(** A schema that the Arrow reader does not panic on, whatever values are decoded with it. *)
Definition calm_schema (avro_schema avro_value : Type) (datum : avro_schema -> string -> option (avro_value * string)) (check_schema : avro_schema -> outcome unit)
    (to_batch : avro_schema -> list avro_value -> outcome record_batch) (sch : avro_schema) : Prop :=
  check_schema sch <> Panic /\ forall vs, (forall v, In v vs -> exists bytes rest, datum sch bytes = Some (v, rest)) -> to_batch sch vs <> Panic.

(** Bytes in whose headers every instant time has a time part, and every schema is one that the Arrow reader does not panic on. *)
Section Calm.
Variable avro_schema avro_value : Type.
Variable parse_schema : string -> option avro_schema.
Variable datum : avro_schema -> string -> option (avro_value * string).
Variable check_schema : avro_schema -> outcome unit.
Variable to_batch : avro_schema -> list avro_value -> outcome record_batch.
Definition calm (bytes : string) : Prop :=
  forall header, holds_header header bytes ->
    (forall ts, In (InstantTime, ts) header -> has_time_part ts)
    /\ (forall text sch, In (Schema, text) header -> parse_schema text = Some sch -> calm_schema avro_schema avro_value datum check_schema to_batch sch).
End Calm.

(** Every answer of the storage is a value or an error. *)
Record calm_store (dtype : Type) (st : store dtype) : Prop := {
  cs_json : forall p, st_json _ st p <> Panic;
  cs_schema : forall p, st_schema _ st p <> Panic;
  cs_files : forall p, st_files _ st p <> Panic;
  cs_dirs : forall p, st_dirs _ st p <> Panic;
  cs_meta : forall p, st_meta _ st p <> Panic;
  cs_parquet : forall p, st_parquet _ st p <> Panic;
  cs_bytes : forall p, st_bytes _ st p <> Panic;
  cs_open : forall h s, st_open _ st h s <> Panic
}.

(** A batch of records that a log file of the table may hold: it is made with a schema from a header, or is in Parquet. *)
Definition logged_batch (dtype : Type) (st : store dtype) (avro_schema avro_value : Type) (parse_schema : string -> option avro_schema) (to_batch : avro_schema -> list avro_value -> outcome record_batch)
    (parquet : string -> option (list record_batch)) (b : record_batch) : Prop :=
  exists path bytes, st_bytes _ st path = Ok bytes
    /\ ((exists header text sch vs, holds_header header bytes /\ In (Schema, text) header /\ parse_schema text = Some sch /\ to_batch sch vs = Ok b)
        \/ exists content bs, parquet content = Some bs /\ In b bs).
(** No log record has fewer columns than a base file, and no base file has a map in a column that orders records. *)
Definition columns_fit (dtype : Type) (st : store dtype) (m : options) (logged : record_batch -> Prop) : Prop :=
  forall path base, st_parquet _ st path = Ok base ->
    (forall b, logged b -> (List.length (rb_fields base) <= List.length (rb_fields b))%nat)
    /\ (forall f, In f (rb_fields base) -> f_name f = "_hoodie_commit_seqno" \/ oget "hoodie.table.precombine.field" m = Some (f_name f) -> f_type f <> TMap).
(** The options of the table say how the paths of partitions are written. *)
Definition flags_given (tb : table) : Prop :=
  forall key, In key ["hoodie.datasource.write.hive_style_partitioning"; "hoodie.datasource.write.partitionpath.urlencode"] ->
    oget key (t_configs tb) = Some "true" \/ oget key (t_configs tb) = Some "false".
