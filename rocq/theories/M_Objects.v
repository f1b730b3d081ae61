(** Model of crates/core/src/storage/mod.rs over an object store: a table's storage as a set of objects
    with keys and contents.  Stores that report empty directories (a local file system) are not
    modelled: a directory exists as long as an object lies below it. *)
From Verif Require Import Base Str M_Time M_Instant M_Timeline M_FileGroup M_Builder M_Listing M_Expr M_Log M_Config M_Reader M_Table M_Storage.
Local Open Scope string_scope.

Record object := { o_key : string; o_data : string }.
Definition o_size (o : object) : Z := Z.of_nat (String.length (o_data o)).

Section Objects.
Variable objs : list object.
Variable base : url.

(** mod.rs:217-239 [list_dirs], [list_dirs_as_obj_paths] *)
Definition list_dirs (sub : string) : outcome (list string) := list_dir_names (map o_key objs) base sub.
(** mod.rs:241-258 [list_files]: name and size of every object directly under the path *)
Definition list_files (sub : string) : outcome (list file_meta) :=
  let* prefix := object_path base sub in
  mapM (fun o => let* name := ok_or (filename (o_key o)) EStorage in Ok (new_meta name (o_size o)))
    (filter (fun o => match under prefix (o_key o) with Some r => negb (has_char "/" r) | None => false end) objs).
(** [ObjectStore::head] and [ObjectStore::get]: the object with a key *)
Definition find_object (relative : string) : outcome object :=
  let* key := object_path base relative in
  ok_or (find (fun o => String.eqb (o_key o) key) objs) EStorage.
(** mod.rs:167-173 [get_file_data] *)
Definition get_file_data (relative : string) : outcome string := let* o := find_object relative in Ok (o_data o).
(** mod.rs:119-145 [get_file_metadata]; [footer] gives the total size of the row groups and the number
    of rows *)
Definition get_file_metadata (footer : string -> outcome (Z * Z)) (relative : string) : outcome file_meta :=
  let* o := find_object relative in
  let* name := ok_or (filename (o_key o)) EStorage in
  let* (bytes, rows) := footer (o_data o) in
  Ok {| fm_name := name; fm_size := o_size o; fm_byte_size := bytes; fm_num_records := rows; fm_populated := true |}.

(** The storage of a table (see M_Table) over the objects: mod.rs:147-165 [get_parquet_file_schema],
    mod.rs:182-205 [get_parquet_file_data], mod.rs:207-215 [get_storage_reader], timeline/mod.rs:222-241
    (commit metadata as JSON).  The decoders work on the content of the object. *)
Variable dtype : Type.
Variable parse_json : string -> outcome (list (string * json)).
Variable parse_schema : string -> outcome (list (string * dtype)).
Variable parse_rows : string -> outcome record_batch.
Variable footer : string -> outcome (Z * Z).
Variable open : options -> options -> outcome unit.
Definition object_store : store dtype := {|
  st_json := fun p => let* d := get_file_data p in parse_json d;
  st_schema := fun p => let* d := get_file_data p in parse_schema d;
  st_files := list_files;
  st_dirs := list_dirs;
  st_meta := get_file_metadata footer;
  st_parquet := fun p => let* d := get_file_data p in parse_rows d;
  st_bytes := get_file_data;
  st_open := open |}.
End Objects.
