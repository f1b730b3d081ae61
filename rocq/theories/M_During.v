(** Queries that run while the objects of the store change: table/mod.rs and storage/mod.rs send one
    request at a time to the object store, and each is answered from the objects of that moment. *)
From Verif Require Import Base Str M_Time M_Instant M_Timeline M_FileGroup M_Builder M_Listing M_Expr M_Log M_Config M_Reader M_Table M_Storage M_Objects.

Section During.
(** The objects of the store, one set after the other, while a query runs. *)
Variable moments : list (list object).
Variable base : url.
Variable dtype : Type.
Variable parse_json : string -> outcome (list (string * json)).
Variable parse_schema : string -> outcome (list (string * dtype)).
Variable parse_rows : string -> outcome record_batch.
Variable footer : string -> outcome (Z * Z).
Variable open : options -> options -> outcome unit.

(** What a query sees: every request (storage/mod.rs:119-258) is answered at some moment, and no two
    requests need be answered at the same one.  A query makes each request once. *)
Definition sees (st : store dtype) : Prop :=
  let at_some {A} (f : store dtype -> A) := exists objs, In objs moments /\ f st = f (object_store objs base dtype parse_json parse_schema parse_rows footer open) in
  forall p, at_some (fun s => st_json _ s p) /\ at_some (fun s => st_schema _ s p) /\ at_some (fun s => st_files _ s p)
    /\ at_some (fun s => st_dirs _ s p) /\ at_some (fun s => st_meta _ s p) /\ at_some (fun s => st_parquet _ s p) /\ at_some (fun s => st_bytes _ s p).
End During.
