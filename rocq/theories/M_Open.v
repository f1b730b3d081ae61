(** Model of opening a table: table/builder.rs:107-129 ([TableBuilder::build]) and
    storage/mod.rs:62-87 ([Storage::new]). *)
From Verif Require Import Base Str M_Time M_Instant M_Timeline M_FileGroup M_Builder M_Listing M_Expr M_Log M_Config M_Reader M_Table M_Storage M_Objects.
Local Open Scope string_scope.

Section Open.
(** Iteration over a [HashMap]; the environment; [Url::parse] (or [from_directory_path]); the object
    store that [parse_url_opts] gives for a URL and storage options; the global configuration file in
    that store; the local time zone; [sort_unstable]. *)
Variable iter : options -> list (string * string).
Variable env : list (string * string).
Variable parse : string -> option url.
Variable stores : url -> options -> outcome (list object).
Variable global : list object -> outcome string.
Variable local_to_utc : ndt -> option ndt.
Variable sort_unstable : list instant -> list instant.

(** storage/mod.rs:62-87 [Storage::new] *)
Definition storage_new (storage hudi : options) : outcome (url * list object) :=
  match table_try BasePath hudi with
  | Some v =>
      let* uri := to_string v in
      let* u := parse_uri parse uri in
      let* objs := stores u storage in
      Ok (u, objs)
  | None => Err EStorage
  end.
(** builder.rs:178-236: the files that options are read from *)
Definition read_properties (storage hudi : options) : outcome string :=
  let* (u, objs) := storage_new storage hudi in get_file_data objs u ".hoodie/hoodie.properties".
Definition read_global (storage hudi : options) : outcome string :=
  let* (_, objs) := storage_new storage hudi in global objs.

(** builder.rs:107-129 [build]; the result also shows the storage that the timeline and the view opened.
    Invalid options hit an [expect]. *)
Definition build (b : builder) : outcome (table * url * list object) :=
  let* b := resolve iter env (fun s h => let* _ := storage_new s h in Ok tt) read_properties read_global b in
  let* _ := expect (validate_configs (b_hudi b)) in
  let* (u, objs) := storage_new (b_storage b) (b_hudi b) in
  let* tz := timeline_timezone (b_hudi b) in
  let* files := list_files objs u ".hoodie" in
  let* commits := new_timeline local_to_utc sort_unstable tz (map fm_name files) in
  Ok ({| t_configs := b_hudi b; t_storage := b_storage b; t_commits := commits |}, u, objs).

(** file_group/reader.rs:47-67 [new_with_configs_and_options]: the options of the reader and the storage it opens *)
Definition reader_new (configs : options) (opts : list (string * string)) : outcome (options * url * list object) :=
  let o := reader_options iter configs opts in
  let* (u, objs) := storage_new (snd o) (fst o) in
  Ok (fst o, u, objs).
(** table/mod.rs:383-403 [create_file_group_reader_with_options] *)
Definition table_reader (tb : table) (opts : list (string * string)) : outcome (options * url * list object) :=
  reader_new (t_configs tb) (iter (oputs opts (oputs (iter (t_storage tb)) []))).
(** file_group/reader.rs:74-86 [new_with_options]: a reader without a table *)
Definition uri_reader (uri : string) (opts : list (string * string)) : outcome (options * url * list object) :=
  reader_new [(table_key BasePath, uri)] opts.
(** Whether the storage of a reader opens (M_Table [st_open]) *)
Definition storage_opens (hudi storage : options) : outcome unit := let* _ := storage_new storage hudi in Ok tt.
End Open.
