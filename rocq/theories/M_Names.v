(** Names of enumerated values, and filters that are built by method calls. *)
From Verif Require Import Base Str M_Log M_Expr M_Instant.
Local Open Scope string_scope.

(** meta_field.rs:28-35 *)
Inductive meta_field := CommitTime | CommitSeqno | RecordKey | PartitionPath | FileName | Operation.
(** meta_field.rs:37-54 [as_ref], [fmt] *)
Definition meta_field_name (f : meta_field) : string :=
  match f with
  | CommitTime => "_hoodie_commit_time" | CommitSeqno => "_hoodie_commit_seqno" | RecordKey => "_hoodie_record_key"
  | PartitionPath => "_hoodie_partition_path" | FileName => "_hoodie_file_name" | Operation => "_hoodie_operation"
  end.
(** meta_field.rs:56-71 [from_str]; the error is another one in the code, of no consequence here *)
Definition meta_field_of (s : string) : outcome meta_field :=
  if String.eqb s "_hoodie_commit_time" then Ok CommitTime
  else if String.eqb s "_hoodie_commit_seqno" then Ok CommitSeqno
  else if String.eqb s "_hoodie_record_key" then Ok RecordKey
  else if String.eqb s "_hoodie_partition_path" then Ok PartitionPath
  else if String.eqb s "_hoodie_file_name" then Ok FileName
  else if String.eqb s "_hoodie_operation" then Ok Operation
  else Err EUnsupported.
(** meta_field.rs:91-94 [field_index]: the discriminants 28-35 *)
Definition field_index (f : meta_field) : nat :=
  match f with CommitTime => 0 | CommitSeqno => 1 | RecordKey => 2 | PartitionPath => 3 | FileName => 4 | Operation => 5 end%nat.
(** meta_field.rs:74-80, 96-98 [schema], 81-88, 100-102 [schema_with_operation]: the names, as all types are [Utf8] *)
Definition meta_schema : list string := map meta_field_name [CommitTime; CommitSeqno; RecordKey; PartitionPath; FileName].
Definition meta_schema_with_operation : list string := map meta_field_name [CommitTime; CommitSeqno; RecordKey; PartitionPath; FileName; Operation].

(** log_block.rs:39-51 [as_ref] *)
Definition block_type_name (t : block_type) : string :=
  match t with
  | Command => ":command" | Delete => ":delete" | Corrupted => ":corrupted" | AvroData => "avro"
  | HfileData => "hfile" | ParquetData => "parquet" | CdcData => "cdc"
  end.
(** log_block.rs:53-69 [from_str] *)
Definition block_type_named (s : string) : outcome block_type :=
  if String.eqb s ":command" then Ok Command
  else if String.eqb s ":delete" then Ok Delete
  else if String.eqb s ":corrupted" then Ok Corrupted
  else if String.eqb s "avro_data" then Ok AvroData
  else if String.eqb s "hfile" then Ok HfileData
  else if String.eqb s "parquet" then Ok ParquetData
  else if String.eqb s "cdc" then Ok CdcData
  else Err ELogFormat.

(** filter.rs:79-90, 141-143 [FilterField::new], [name], [col] *)
Record filter_field := { ff_name : string }.
Definition col (name : string) : filter_field := {| ff_name := name |}.
(** filter.rs:92-138 *)
Definition field_eq (f : filter_field) (v : string) : filter_expr := {| fe_field := ff_name f; fe_op := OEq; fe_value := v |}.
Definition field_ne (f : filter_field) (v : string) : filter_expr := {| fe_field := ff_name f; fe_op := ONe; fe_value := v |}.
Definition field_lt (f : filter_field) (v : string) : filter_expr := {| fe_field := ff_name f; fe_op := OLt; fe_value := v |}.
Definition field_lte (f : filter_field) (v : string) : filter_expr := {| fe_field := ff_name f; fe_op := OLte; fe_value := v |}.
Definition field_gt (f : filter_field) (v : string) : filter_expr := {| fe_field := ff_name f; fe_op := OGt; fe_value := v |}.
Definition field_gte (f : filter_field) (v : string) : filter_expr := {| fe_field := ff_name f; fe_op := OGte; fe_value := v |}.
