(** Specification for C80: files of a table that were not written to the end.  Stated on the API model alone. *)
From Verif Require Import Base Str M_Builder M_Table M_Json.
Local Open Scope string_scope.

(** What is there of a file: a first part of its content (all of it, or nothing, or something between), or no file at all. *)
Definition part_of (whole part : outcome string) : Prop :=
  (exists d p q, whole = Ok d /\ part = Ok p /\ d = p ++ q) \/ (exists e, part = Err e).

(** Two storages of a table that differ in the metadata of commits only: in the second each of these files is a part of the file in the first.
    In the first they are what their writer meant to write: a JSON object each, if the file is there at all. *)
Record unfinished (dtype : Type) number_of collect (st st' : store dtype) : Prop := {
  un_json : exists content content', (forall p, st_json _ st p = (let* d := content p in parse_metadata number_of collect d))
    /\ (forall p, st_json _ st' p = (let* d := content' p in parse_metadata number_of collect d))
    /\ (forall p d, content p = Ok d -> exists m, parse_metadata number_of collect d = Ok m)
    /\ forall p, part_of (content p) (content' p);
  un_schema : st_schema _ st' = st_schema _ st;
  un_files : st_files _ st' = st_files _ st;
  un_dirs : st_dirs _ st' = st_dirs _ st;
  un_meta : st_meta _ st' = st_meta _ st;
  un_parquet : st_parquet _ st' = st_parquet _ st;
  un_bytes : st_bytes _ st' = st_bytes _ st;
  un_open : st_open _ st' = st_open _ st }.
