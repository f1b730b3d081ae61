(** Specification of the history of a file group: what writers that follow the table layout write, and
    what they leave in storage. *)
From Verif Require Import Base Str M_Time M_FileGroup M_Listing M_Log M_Config M_Reader M_Table S_Time S_FileGroup S_Listing S_Log S_Reader S_Config.
Local Open Scope string_scope.

(** Times of writes: dates and times to the millisecond.  Their text sorts like the times (C02). *)
Definition timestamp (x : string) : Prop := exists c, valid_civil c /\ c_ms c <> None /\ x = render c.

(** A file group as its writers see it. *)
Record group := {
  g_versions : list (string * list cell);               (* the versions of records, with the time of the write that committed them *)
  g_bases : list (string * list (list cell));           (* base files: commit time and rows *)
  g_blocks : list (string * string * list (list cell)); (* log data: commit time of the base file, instant, rows *)
  g_failed : list string;                               (* instants of writes that did not commit *)
  g_rollbacks : list (string * string * string)         (* rollback blocks: base file, instant, the instant rolled back *)
}.
Definition new_group_history : group := {| g_versions := []; g_bases := []; g_blocks := []; g_failed := []; g_rollbacks := [] |}.

Section History.
(** The columns of the record key, the ordering field and the sequence number. *)
Variable k p s : nat.

Definition has_newest (g : group) (b : string) : Prop :=
  In b (map fst (g_bases g)) /\ forall c, In c (map fst (g_bases g)) -> sle c b.

(** The records after the writes up to [t]: for every key the newest version, by ordering field and
    sequence number, among those committed at or before [t]. *)
Definition current_at (g : group) (t : string) (out : list (list cell)) : Prop :=
  NoDup (map (key_at k) out)
  /\ (forall x r, In (x, r) (g_versions g) -> sle x t -> exists r', In r' out /\ key_at k r' = key_at k r)
  /\ (forall r, In r out -> (exists x, In (x, r) (g_versions g) /\ sle x t)
        /\ forall x r', In (x, r') (g_versions g) -> sle x t -> key_at k r' = key_at k r -> ~ newer p s r' r).

(** A write at time [x]. *)
Inductive write (g : group) (x : string) : group -> Prop :=
(* a commit rewrites the base file with new versions *)
| w_commit : forall new rows, latest_rows k p s (map snd (g_versions g) ++ new)%list rows ->
    write g x {| g_versions := (g_versions g ++ map (pair x) new)%list; g_bases := (g_bases g ++ [(x, rows)])%list;
                 g_blocks := g_blocks g; g_failed := g_failed g; g_rollbacks := g_rollbacks g |}
(* a deltacommit appends new versions to the log of the newest base file *)
| w_delta : forall b new, has_newest g b ->
    write g x {| g_versions := (g_versions g ++ map (pair x) new)%list; g_bases := g_bases g;
                 g_blocks := (g_blocks g ++ [(b, x, new)])%list; g_failed := g_failed g; g_rollbacks := g_rollbacks g |}
(* a compaction writes a base file with the newest versions *)
| w_compact : forall rows, latest_rows k p s (map snd (g_versions g)) rows ->
    write g x {| g_versions := g_versions g; g_bases := (g_bases g ++ [(x, rows)])%list;
                 g_blocks := g_blocks g; g_failed := g_failed g; g_rollbacks := g_rollbacks g |}
(* a deltacommit that fails after appending to the log *)
| w_fail : forall b rows, has_newest g b ->
    write g x {| g_versions := g_versions g; g_bases := g_bases g;
                 g_blocks := (g_blocks g ++ [(b, x, rows)])%list; g_failed := (g_failed g ++ [x])%list; g_rollbacks := g_rollbacks g |}
(* a rollback of a failed write *)
| w_rollback : forall y b rows, In y (g_failed g) -> In (b, y, rows) (g_blocks g) ->
    write g x {| g_versions := g_versions g; g_bases := g_bases g; g_blocks := g_blocks g; g_failed := g_failed g;
                 g_rollbacks := (g_rollbacks g ++ [(b, x, y)])%list |}.
(** Writes happen one after another. [continues now g now' g']: from [g], last written at [now], some writes
    lead to [g'], last written at [now']. *)
Inductive continues (now : string) (g : group) : string -> group -> Prop :=
| c_same : continues now g now g
| c_write : forall now' g' x g'', continues now g now' g' -> timestamp x -> slt now' x -> write g' x g'' -> continues now g x g''.
(** A file group begins empty, or with a base file to which clustering moved records of other file groups: their versions
    up to then, with the times of the writes that committed them. *)
Inductive history : string -> group -> Prop :=
| h_new : history "" new_group_history
| h_moved : forall x moved rows, timestamp x -> (forall y r, In (y, r) moved -> sle y x) -> latest_rows k p s (map snd moved) rows ->
    history x {| g_versions := moved; g_bases := [(x, rows)]; g_blocks := []; g_failed := []; g_rollbacks := [] |}
| h_write : forall now g x g', history now g -> timestamp x -> slt now x -> write g x g' -> history x g'.

(** The failed writes up to [t] are rolled back by then. *)
Definition clean_at (g : group) (t : string) : Prop :=
  forall b x rows, In (b, x, rows) (g_blocks g) -> In x (g_failed g) -> sle x t -> exists y, In (b, y, x) (g_rollbacks g) /\ sle y t.
End History.

(** ** The files of a file group *)
Definition file_path (part name : string) : string := if String.eqb part "" then name else part ++ "/" ++ name.

Section Layout.
Variable avro_schema avro_value : Type.
Variable parse_schema : string -> option avro_schema.
Variable datum : avro_schema -> string -> option (avro_value * string).
Variable check_schema : avro_schema -> outcome unit.
Variable to_batch : avro_schema -> list avro_value -> outcome record_batch.
Variable parquet : string -> option (list record_batch).
Variable read_parquet : string -> outcome record_batch.
Variable bytes : string -> outcome string.
Variable format part id : string.
Variable sch : list field.
Variable listed : list file_meta.

Definition base_of (m : file_meta) (c : string) : Prop :=
  exists b, base_listed format listed m b /\ bf_file_id b = id /\ bf_commit b = c.
Definition log_of (m : file_meta) (c : string) : Prop :=
  exists l, log_listed format listed m l /\ lf_file_id l = id /\ lf_base_commit l = c.

(** The files in the directory of the partition hold the group: [contents] are the blocks of its log
    files, by name, with their record batches. *)
Record laid_out (contents : string -> list (wblock * list record_batch)) (g : group) : Prop := {
  lo_paths : (forall r, part <> r ++ "/") /\ (forall r, id <> "/" ++ r);
  lo_names : forall m b, base_listed format listed m b -> bf_file_id b = id -> base_file_name b = fm_name m;
  lo_bases : forall c, In c (map fst (g_bases g)) <-> exists m, base_of m c;
  lo_rows : forall m c rows, base_of m c -> In (c, rows) (g_bases g) ->
    read_parquet (file_path part (fm_name m)) = Ok {| rb_fields := sch; rb_rows := rows |};
  lo_typed : forall x r, In (x, r) (g_versions g) -> wf_row sch r;
  lo_distinct : forall m1 l1 m2 l2, log_listed format listed m1 l1 -> log_listed format listed m2 l2 -> lf_file_id l1 = id -> lf_file_id l2 = id ->
    lf_base_commit l1 = lf_base_commit l2 -> lf_version l1 = lf_version l2 -> lf_write_token l1 = lf_write_token l2 -> m1 = m2;
  lo_logs : forall m c, log_of m c -> bytes (file_path part (fm_name m)) = Ok (put_log (map fst (contents (fm_name m))))
    /\ forall w bs, In (w, bs) (contents (fm_name m)) ->
         wf_block avro_schema avro_value record_batch parse_schema datum check_schema to_batch parquet w bs
         /\ Forall (wf_batch sch) bs /\ target_given w /\ exists x, at_instant w x /\ timestamp x;
  lo_blocks : forall c x r, (exists rows, In (c, x, rows) (g_blocks g) /\ In r rows)
    <-> exists m w bs, log_of m c /\ In (w, bs) (contents (fm_name m)) /\ at_instant w x /\ In r (rows_of bs);
  lo_rollbacks : forall c y x, In (c, y, x) (g_rollbacks g)
    <-> exists m w bs, log_of m c /\ In (w, bs) (contents (fm_name m)) /\ at_instant w y /\ rolls_back w x
}.
End Layout.

(** ** Tables whose queries merge records *)
(** The settings of a table under which queries return the newest version of each record: times in UTC, no
    start time or read-optimized mode in the table's own configuration, merging by an ordering field; the
    storage options are those of the storage only, as the builder leaves them. *)
Record merging_table (tb : table) (sch : list field) (p s k : nat) : Prop := {
  mt_storage : one_per_key (t_storage tb) /\ forall key v r, In (key, v) (t_storage tb) -> key <> "hoodie." ++ r;
  mt_start : read_start (t_configs tb) = None;
  mt_utc : in_utc (t_configs tb);
  mt_logs : oget "hoodie.read.use.read_optimized.mode" (t_configs tb) <> Some "true";
  mt_merge : merges_latest (t_configs tb) /\ merge_columns (t_configs tb) sch p s k
}.
(** Readers that a table makes for these options open their storage. *)
Definition readers_open {dtype} (st : store dtype) (tb : table) (opts : list (string * string)) : Prop :=
  forall iter, visits_all iter -> let o := table_reader_options iter (t_configs tb) (t_storage tb) opts in st_open _ st (fst o) (snd o) = Ok tt.
(** Versions up to [t] with the same key differ in the ordering field or the sequence number. *)
Definition distinct_versions (k p s : nat) (g : group) (t : string) : Prop :=
  forall x a y b, In (x, a) (g_versions g) -> In (y, b) (g_versions g) -> sle x t -> sle y t -> key_at k a = key_at k b ->
    nth p a Null = nth p b Null -> nth s a Null = nth s b Null -> a = b.
(** The same versions up to [t]. *)
Definition same_versions (t : string) (g g' : group) : Prop :=
  forall x r, sle x t -> (In (x, r) (g_versions g) <-> In (x, r) (g_versions g')).
