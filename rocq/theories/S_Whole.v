(** Specification of a whole table on an object store: its file groups, the replacements, and the history of
    every file group.  Nothing but the keys and contents of the objects is used. *)
From Verif Require Import Base Str M_Time M_Instant M_FileGroup M_Builder M_Expr M_Log M_Reader M_Avro M_Objects
  S_Time S_Timeline S_Table S_FileGroup S_Builder S_Listing S_Log S_Reader S_Avro S_Storage S_Objects S_History S_Values S_Datum S_Json.
Local Open Scope string_scope.

Section Whole.
Variable objs : list object.
Variable table : list string.
Variable format : string.
Variable partitioned : bool.

(** Among the objects is a base file of the file group [g] (its partition and its file id), of the commit [c]. *)
Definition has_base (g : string * string) (c : string) : Prop :=
  exists dir name o b, object_partition objs table partitioned (fst g) dir /\ file_in objs table dir name o
    /\ ~ marker_name name /\ base_named format name /\ base_file_of name (Some (new_meta name (o_size o))) = Ok b
    /\ bf_file_id b = snd g /\ bf_commit b = c.

(** A replacecommit in the timeline directory, of [time] or before, says that the file group is replaced. *)
Section Replaced.
Variable number_of : string -> option Z.
Variable collect : list (string * json) -> list (string * json).
Variable local_to_utc : ndt -> option ndt.
Variable tz : string.
Definition replaced_in (time : Z) (g : string * string) : Prop :=
  exists ts o dt m, file_in objs table [".hoodie"] (ts ++ ".replacecommit") o /\ has_char "." ts = false
    /\ parse_datetime local_to_utc ts tz = Ok dt /\ (epoch_millis dt <= time)%Z
    /\ metadata_text number_of collect m (o_data o) /\ replaces m (fst g) (snd g).
(** The file groups of the table at [t], which is [time]. *)
Definition live (t : string) (time : Z) (g : string * string) : Prop :=
  (exists c, has_base g c /\ sle c t) /\ ~ replaced_in time g.
(** The replacecommits of [time] or before are readable; a file like "….replacecommit." is none (C54). *)
Definition replacements_in_order (time : Z) : Prop :=
  (forall ts o, ~ file_in objs table [".hoodie"] (ts ++ ".replacecommit.") o)
  /\ forall ts o dt, file_in objs table [".hoodie"] (ts ++ ".replacecommit") o -> has_char "." ts = false
       -> parse_datetime local_to_utc ts tz = Ok dt -> (epoch_millis dt <= time)%Z
       -> exists m, metadata_text number_of collect m (o_data o) /\ replace_metadata_ok m.
(** The last of the commits names a file, and the schema [sch] can be read from it. *)
Definition schema_found {T} (parse_pschema : string -> outcome (list (string * T))) (commits : list instant) (sch : list (string * T)) : Prop :=
  exists before i o m dir n o', commits = (before ++ [i])%list
    /\ file_in objs table [".hoodie"] (timeline_name (i_timestamp i) (i_action i) (i_state i)) o /\ metadata_text number_of collect m (o_data o)
    /\ names_schema_file m (file_path (join "/" dir) n) /\ Forall legal dir /\ file_in objs table dir n o' /\ parse_pschema (o_data o') = Ok sch.
End Replaced.
(** In every partition base files have proper names, log files have a base file, and the statistics in the base
    files can be read. *)
Definition files_in_order (footer : string -> outcome (Z * Z)) : Prop :=
  forall path dir, object_partition objs table partitioned path dir ->
    (forall listed, directory_listing objs table dir listed -> listing_ok format listed)
    /\ forall name o, file_in objs table dir name o -> ~ marker_name name -> base_named format name -> exists stats, footer (o_data o) = Ok stats.

(** The writers of the table: the objects of each of its file groups are what the writes of a history left. *)
Section Writers.
Variable parse_schema : string -> option avro.
Variable code : dtype -> nat.
Variable rank : dtype -> slot -> Z.
Variable parse_rows : string -> outcome record_batch.
Variable dfs : list M_Avro.field.
Variable k p s : nat.
Definition written_by (t : string) (hist : string * string -> group) : Prop :=
  forall g c, has_base g c -> exists now contents, history k p s now (hist g) /\ clean_at (hist g) t
    /\ forall dir listed content, object_partition objs table partitioned (fst g) dir -> directory_listing objs table dir listed ->
         (forall n o, file_in objs table dir n o -> content (file_path (fst g) n) = Ok (o_data o)) ->
         written_out parse_schema encodes code rank (fun path => let* d := content path in parse_rows d) content format (fst g) (snd g) dfs listed contents (hist g).
End Writers.
End Whole.

(** The records of a table at [t]: for every key the newest version among those committed at or before [t] in any
    of the file groups [of]. *)
Definition table_at (k p s : nat) (of : string * string -> Prop) (hist : string * string -> group) (t : string) (out : list (list cell)) : Prop :=
  NoDup (map (key_at k) out)
  /\ (forall g x r, of g -> In (x, r) (g_versions (hist g)) -> sle x t -> exists r', In r' out /\ key_at k r' = key_at k r)
  /\ (forall r, In r out -> (exists g x, of g /\ In (x, r) (g_versions (hist g)) /\ sle x t)
        /\ forall g x r', of g -> In (x, r') (g_versions (hist g)) -> sle x t -> key_at k r' = key_at k r -> ~ newer p s r' r).
(** Writers keep the versions of a key in one file group. *)
Definition keys_apart (k : nat) (of : string * string -> Prop) (hist : string * string -> group) : Prop :=
  forall g g' x x' r r', of g -> of g' -> In (x, r) (g_versions (hist g)) -> In (x', r') (g_versions (hist g')) -> key_at k r = key_at k r' -> g = g'.

(** A filter on a partition column, with a value of the type of the column. *)
Definition filter_fits {T V} (cast : T -> string -> option V) (sch : list (string * T)) (columns : list string) (f : filter_expr) : Prop :=
  In (fe_field f) columns /\ exists ty v, In (fe_field f, ty) sch /\ (forall ty', In (fe_field f, ty') sch -> ty' = ty) /\ cast ty (fe_value f) = Some v.
