(** Specification of file slices handed to Python and back. *)
From Verif Require Import Base Str M_Time M_FileGroup M_Log M_Config M_Reader M_Python.
Local Open Scope string_scope.

(** File groups made from file names: what listings and commit metadata give rise to. *)
Inductive named_group : file_group -> Prop :=
| ng_new : forall id p, named_group (new_group id p)
| ng_base : forall g name m b g', named_group g -> base_file_of name m = Ok b -> add_base_file g b = (g', Ok tt) -> named_group g'
| ng_log : forall g name m l g', named_group g -> log_file_of name m = Ok l -> add_log_file g l = (g', Ok tt) -> named_group g'
| ng_merge : forall g h g', named_group g -> named_group h -> merge_group g h = (g', Ok tt) -> named_group g'.

(** Two file slices of the same files. *)
Definition same_files (f s : file_slice) : Prop :=
  fs_partition f = fs_partition s /\ base_file_name (fs_base f) = base_file_name (fs_base s)
  /\ map log_file_name (fs_logs f) = map log_file_name (fs_logs s).

(** What Python sees of a file slice [s]: the file id and the commit of its base file, its partition, and
    paths in the order in which the log files are read. *)
Definition python_shows (s : file_slice) (x : py_slice) : Prop :=
  ps_file_id x = bf_file_id (fs_base s) /\ ps_creation x = bf_commit (fs_base s) /\ ps_partition x = fs_partition s /\
  py_base_path x = base_relative_path s /\ py_log_paths x = map (log_relative_path s) (fs_logs s).

(** Reading [x] through Python is reading [s], whatever the storage and the decoders do. *)
Definition reads_as (s : file_slice) (x : py_slice) : Prop :=
  forall sort iter read_parquet avro_schema avro_value parse_schema datum check_schema to_batch parquet local_to_utc fetch configs,
  py_read_file_slice sort iter read_parquet avro_schema avro_value parse_schema datum check_schema to_batch parquet local_to_utc fetch configs x
  = read_file_slice sort iter read_parquet avro_schema avro_value parse_schema datum check_schema to_batch parquet local_to_utc fetch configs s.

(** The sizes and the number of records shown for [s] are those of its base file in the storage. *)
Definition shows_sizes (metadata : string -> outcome file_meta) (s : file_slice) (x : py_slice) : Prop :=
  exists m, metadata (base_relative_path s) = Ok m
    /\ ps_base_size x = fm_size m /\ ps_base_byte_size x = fm_byte_size m /\ ps_num_records x = fm_num_records m.
