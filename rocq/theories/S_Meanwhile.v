(** Specification of the records that queries return while writers add files. *)
From Verif Require Import Base Str M_Time M_FileGroup M_Log M_Config M_Reader M_Table M_Storage M_Objects S_Log S_Reader S_History.
Local Open Scope string_scope.

Section Meanwhile.
Variable dtype : Type.
Variable avro_schema avro_value : Type.
Variable avro_parse : string -> option avro_schema.
Variable datum : avro_schema -> string -> option (avro_value * string).
Variable check_schema : avro_schema -> outcome unit.
Variable to_batch : avro_schema -> list avro_value -> outcome record_batch.
Variable parquet : string -> option (list record_batch).
(** The storage with the objects of one moment. *)
Variable store_of : list object -> store dtype.
Variable moments : list (list object).

(** At every moment the files of the file group [id] in the partition [part] hold the history [g], last
    written at [now], and what writers have added to it since. *)
Definition written_on (format : string) (sch : list field) (k p s : nat) (part id now : string) (g : group) : Prop :=
  forall objs, In objs moments -> exists now' g' listed contents, continues k p s now g now' g'
    /\ st_files _ (store_of objs) part = Ok listed
    /\ laid_out avro_schema avro_value avro_parse datum check_schema to_batch parquet (st_parquet _ (store_of objs)) (st_bytes _ (store_of objs))
         format part id sch listed contents g'.
(** A file is read after its directory was listed. *)
Definition read_after_listing (st : store dtype) : Prop :=
  forall part, exists objs, In objs moments /\ st_files _ st part = st_files _ (store_of objs) part
    /\ forall name, let path := path_join part name in
         (exists objs', In objs' moments /\ incl objs objs' /\ st_parquet _ st path = st_parquet _ (store_of objs') path)
         /\ (exists objs', In objs' moments /\ incl objs objs' /\ st_bytes _ st path = st_bytes _ (store_of objs') path).
End Meanwhile.
