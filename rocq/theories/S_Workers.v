(** Specification of planning a query and reading its file slices elsewhere (C85), in calls of the API: what is left to
    the caller.  [os] are the results of the calls of [read_file_slice], one for each slice. *)
From Verif Require Import Base Str M_Time M_FileGroup M_Log M_Config M_Reader M_Table M_Python S_Config S_Reader.
Local Open Scope string_scope.

Section Workers.
Variable dtype : Type.
Variable avro_schema avro_value : Type.
Variable parse_schema : string -> option avro_schema.
Variable datum : avro_schema -> string -> option (avro_value * string).
Variable check_schema : avro_schema -> outcome unit.
Variable to_batch : avro_schema -> list avro_value -> outcome record_batch.
Variable parquet : string -> option (list record_batch).
Variable local_to_utc : ndt -> option ndt.
Variable st : store dtype.
Variable tb : table.

(** A reader with these options reads a slice. *)
Definition reader_reads (configs : options) (s : file_slice) (o : outcome record_batch) : Prop :=
  exists sort visit, sorts sort /\ visits visit
    /\ o = read_file_slice sort visit (st_parquet _ st) avro_schema avro_value parse_schema datum check_schema to_batch parquet local_to_utc (st_bytes _ st) configs s.
(** A worker that has the table makes a reader and reads its slices. *)
Definition worker (opts : list (string * string)) (ss : list file_slice) (os : list (outcome record_batch)) : Prop :=
  exists iter, visits_all iter /\
  let o := table_reader_options iter (t_configs tb) (t_storage tb) opts in
  st_open _ st (fst o) (snd o) = Ok tt /\ Forall2 (reader_reads (fst o)) ss os.
(** A worker that has only the URI and options. *)
Definition uri_worker (uri : string) (opts : list (string * string)) (ss : list file_slice) (os : list (outcome record_batch)) : Prop :=
  exists iter, visits_all iter /\
  let o := reader_options iter [("hoodie.base.path", uri)] opts in
  st_open _ st (fst o) (snd o) = Ok tt /\ Forall2 (reader_reads (fst o)) ss os.
(** The same in Python, where slices are handed over as names. *)
Definition py_reader_reads (configs : options) (x : py_slice) (o : outcome record_batch) : Prop :=
  exists sort visit, sorts sort /\ visits visit
    /\ o = py_read_file_slice sort visit (st_parquet _ st) avro_schema avro_value parse_schema datum check_schema to_batch parquet local_to_utc (st_bytes _ st) configs x.
Definition py_worker (opts : list (string * string)) (xs : list py_slice) (os : list (outcome record_batch)) : Prop :=
  exists iter, visits_all iter /\
  let o := table_reader_options iter (t_configs tb) (t_storage tb) opts in
  st_open _ st (fst o) (snd o) = Ok tt /\ Forall2 (py_reader_reads (fst o)) xs os.
End Workers.
