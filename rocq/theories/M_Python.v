(** Model of python/src/internal.rs: file slices handed to Python and read back. *)
From Verif Require Import Base Str M_Time M_FileGroup M_Log M_Config M_Reader.
Local Open Scope string_scope.

(** internal.rs:117-137 [HudiFileSlice] *)
Record py_slice := {
  ps_file_id : string;
  ps_partition : string;
  ps_creation : string;
  ps_base_name : string;
  ps_base_size : Z;
  ps_base_byte_size : Z;
  ps_log_names : list string;
  ps_num_records : Z
}.
(** internal.rs:179-203 [From<&FileSlice>]; without metadata the default one is used *)
Definition py_slice_of (f : file_slice) : py_slice :=
  let m := match bf_meta (fs_base f) with Some m => m | None => new_meta "" 0 end in
  {| ps_file_id := bf_file_id (fs_base f); ps_partition := fs_partition f; ps_creation := bf_commit (fs_base f);
     ps_base_name := base_file_name (fs_base f); ps_base_size := fm_size m; ps_base_byte_size := fm_byte_size m;
     ps_log_names := map log_file_name (fs_logs f); ps_num_records := fm_num_records m |}.
(** internal.rs:142-175: the methods of [HudiFileSlice]; paths of text are always text *)
Definition py_base_path (s : py_slice) : string := path_join (ps_partition s) (ps_base_name s).
Definition py_log_paths (s : py_slice) : list string := map (path_join (ps_partition s)) (ps_log_names s).

(** internal.rs:87-107: the file slice that the reader builds from what it is given *)
Definition py_rebuild (s : py_slice) : outcome file_slice :=
  match add_base_file_from_name (new_group (ps_file_id s) (ps_partition s)) (ps_base_name s) with
  | (g, Ok _) =>
      match add_each add_log_file_from_name g (ps_log_names s) with
      | (g, Ok _) => match fg_slices g with (_, f) :: _ => Ok f | [] => Err EFileGroup end
      | (_, Err e) => Err e
      | (_, Panic) => Panic
      end
  | (_, Err e) => Err e
  | (_, Panic) => Panic
  end.

Section Read.
Variable sort : (nat * (cell * cell) -> nat * (cell * cell) -> comparison) -> list (nat * (cell * cell)) -> list (nat * (cell * cell)).
Variable iter : list (string * nat) -> list (string * nat).
Variable read_parquet : string -> outcome record_batch.
Variable avro_schema avro_value : Type.
Variable parse_schema : string -> option avro_schema.
Variable datum : avro_schema -> string -> option (avro_value * string).
Variable check_schema : avro_schema -> outcome unit.
Variable to_batch : avro_schema -> list avro_value -> outcome record_batch.
Variable parquet : string -> option (list record_batch).
Variable local_to_utc : ndt -> option ndt.
Variable fetch : string -> outcome string.
(** internal.rs:86-113 [HudiFileGroupReader::read_file_slice] *)
Definition py_read_file_slice (configs : options) (s : py_slice) : outcome record_batch :=
  let* f := py_rebuild s in
  read_file_slice sort iter read_parquet avro_schema avro_value parse_schema datum check_schema to_batch parquet local_to_utc fetch configs f.
End Read.
