(** Specification of a whole table on an object store with deletions: like S_Whole, with histories that delete. *)
From Verif Require Import Base Str M_FileGroup M_Builder M_Log M_Reader M_Avro M_Objects
  S_FileGroup S_Builder S_Listing S_Log S_Reader S_Avro S_Storage S_Objects S_History S_Values S_Datum S_Whole S_Deletes.
Local Open Scope string_scope.

Section Erased.
Variable objs : list object.
Variable table : list string.
Variable format : string.
Variable partitioned : bool.
Variable parse_schema : string -> option avro.
Variable code : dtype -> nat.
Variable rank : dtype -> slot -> Z.
Variable parse_rows : string -> outcome record_batch.
Variable dfs : list M_Avro.field.
Variable k p s : nat.
(** The objects of each file group are what the writes and deletions of a history left. *)
Definition erased_by (t : string) (hist : string * string -> group) (dels : string * string -> deletions) : Prop :=
  forall g c, has_base objs table format partitioned g c -> exists now contents, dhistory k p s now (hist g) (dels g) /\ clean_at (hist g) t
    /\ forall dir listed content, object_partition objs table partitioned (fst g) dir -> directory_listing objs table dir listed ->
         (forall n o, file_in objs table dir n o -> content (file_path (fst g) n) = Ok (o_data o)) ->
         written_out parse_schema encodes code rank (fun path => let* d := content path in parse_rows d) content format (fst g) (snd g) dfs listed contents (hist g).
End Erased.

(** The records of a table at [t]: for every key the newest of the versions that count, in any of the file groups [of]. *)
Definition table_alive (k p s : nat) (of : string * string -> Prop) (hist : string * string -> group) (dels : string * string -> deletions) (t : string) (out : list (list cell)) : Prop :=
  NoDup (map (key_at k) out)
  /\ (forall g x r, of g -> alive k (hist g) (dels g) t x r -> exists r', In r' out /\ key_at k r' = key_at k r)
  /\ (forall r, In r out -> (exists g x, of g /\ alive k (hist g) (dels g) t x r)
        /\ forall g x r', of g -> alive k (hist g) (dels g) t x r' -> key_at k r' = key_at k r -> ~ newer p s r' r).
