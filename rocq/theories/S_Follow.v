(** Specification of a copy of a table that is kept up to date by reading changes. *)
From Verif Require Import Base Str M_Time M_Instant M_FileGroup M_Builder M_Reader M_Objects
  S_Time S_FileGroup S_Builder S_Storage S_Objects S_Reader S_History S_Json S_Whole.
Local Open Scope string_scope.

(** A change takes the place of the record with its key, or is a new record. *)
Definition apply_changes (k : nat) (copy changes : list (list cell)) : list (list cell) :=
  (filter (fun r => negb (existsb (fun c => String.eqb (key_at k c) (key_at k r)) changes)) copy ++ changes)%list.

(** The same table at [t], seen at two times: the same file groups with the same versions up to [t]. *)
Definition same_table (t : string) (of of' : string * string -> Prop) (hist hist' : string * string -> group) : Prop :=
  (forall g, of g <-> of' g) /\ forall g, of g -> same_versions t (hist g) (hist' g).

(** No version up to [t] is lost or invented between the file groups [of] and the file groups [of']; clustering may have
    moved versions to new file groups. *)
Definition versions_kept (t : string) (of of' : string * string -> Prop) (hist : string * string -> group) : Prop :=
  forall x r, sle x t -> ((exists g, of g /\ In (x, r) (g_versions (hist g))) <-> exists g, of' g /\ In (x, r) (g_versions (hist g))).
(** Nothing was moved to the file groups [of] after [t]: those with versions up to [t] had a base file by then. *)
Definition nothing_moved (t : string) (of : string * string -> Prop) (hist : string * string -> group) : Prop :=
  forall g x r, of g -> In (x, r) (g_versions (hist g)) -> sle x t -> exists c, In c (map fst (g_bases (hist g))) /\ sle c t.

(** What writers did to the objects of a table after [t], which is [time]: no object is gone, the partitions are still
    there, and base files and replacecommits that were added are later. *)
Record only_later (objs objs' : list object) (table : list string) (format : string) (partitioned : bool) (local_to_utc : ndt -> option ndt) (tz t : string) (time : Z) : Prop := {
  ol_kept : forall o, In o objs -> In o objs';
  ol_partitions : forall path dir, object_partition objs table partitioned path dir -> object_partition objs' table partitioned path dir;
  ol_bases : forall dir name o b, Forall legal dir -> file_in objs' table dir name o -> ~ In o objs -> base_file_of name (Some (new_meta name (o_size o))) = Ok b -> slt t (bf_commit b);
  ol_replacements : forall ts o dt, file_in objs' table [".hoodie"] (ts ++ ".replacecommit") o -> ~ In o objs -> has_char "." ts = false -> parse_datetime local_to_utc ts tz = Ok dt -> (time < epoch_millis dt)%Z
}.
