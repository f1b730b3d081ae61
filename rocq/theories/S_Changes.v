(** Specification of the changes of a whole table between two times.  Nothing but the keys and contents of the
    objects is used. *)
From Verif Require Import Base Str M_Time M_Instant M_FileGroup M_Builder M_Listing M_Log M_Reader M_Avro M_Objects
  S_Time S_Timeline S_Table S_FileGroup S_Builder S_Listing S_Log S_Reader S_Avro S_Storage S_Objects S_History S_Incremental S_Values S_Datum S_Json S_Whole.
Local Open Scope string_scope.

Section Changes.
Variable objs : list object.
Variable table : list string.
Variable number_of : string -> option Z.
Variable collect : list (string * json) -> list (string * json).

(** The names of completed commits have a date and time to the millisecond before the dot; a file like
    "….commit." is none (C54). *)
Definition timeline_in_order : Prop := forall ts a o, has_char "." ts = false ->
  (file_in objs table [".hoodie"] (timeline_name ts a Completed) o -> timestamp ts)
  /\ ~ file_in objs table [".hoodie"] (timeline_name ts a Completed ++ ".") o.

Variable start e : string.
(** A completed commit after [start] and up to [e], by its file in the timeline directory, with its metadata. *)
Definition commit_object (ts : string) (a : action) (m : list (string * json)) : Prop :=
  exists o, file_in objs table [".hoodie"] (timeline_name ts a Completed) o /\ timestamp ts /\ slt start ts /\ sle ts e
    /\ metadata_text number_of collect m (o_data o).
(** The file groups that these commits name, and those that they replace. *)
Definition replaced_between (g : string * string) : Prop :=
  exists ts m, commit_object ts ReplaceCommit m /\ replaces m (fst g) (snd g).
Definition changed_group (g : string * string) : Prop :=
  (exists ts a m c n, commit_object ts a m /\ names_base m (fst g) (snd g) c n /\ sle c e) /\ ~ replaced_between g.

(** The commits record what they write to a file group (as in C59):
    - every base file, and every log file with data of a write that committed;
    - with it the newest base file at that time;
    - only files that are there;
    - and if a log file has data of a failed write too, also one with its rollback. *)
Section Recorded.
Variable format part id : string.
Variable listed : list file_meta.
Variable contents : string -> list (wblock * list value).
Variable g : group.
Notation base_of := (base_of format id listed).
Notation log_of := (log_of format id listed).
Definition log_recorded (fm : file_meta) (c : string) : Prop :=
  exists ts a m l, commit_object ts a m /\ names_log_file m part id c l /\ log_file_name l = fm_name fm.
Record changes_recorded : Prop := {
  cr_bases : forall c, In c (map fst (g_bases g)) -> slt start c -> sle c e -> exists ts a m n, commit_object ts a m /\ names_base m part id c n;
  cr_blocks : forall c x rows fm w vs, In (c, x, rows) (g_blocks g) -> ~ In x (g_failed g) -> slt start x -> sle x e ->
    log_of fm c -> In (w, vs) (contents (fm_name fm)) -> at_instant w x -> log_recorded fm c;
  cr_newest : forall ts a m c n b, commit_object ts a m -> names_base m part id c n -> In b (map fst (g_bases g)) -> sle b ts -> sle b c;
  cr_base_files : forall ts a m c n, commit_object ts a m -> names_base m part id c n -> exists fm, base_of fm c /\ fm_name fm = n;
  cr_log_files : forall ts a m c l, commit_object ts a m -> names_log_file m part id c l -> exists fm, log_of fm c /\ fm_name fm = log_file_name l;
  cr_failed : forall fm c w vs x, log_recorded fm c -> In (w, vs) (contents (fm_name fm)) -> at_instant w x -> In x (g_failed g) -> slt start x -> sle x e ->
    exists fm' w' vs' y, log_recorded fm' c /\ In (w', vs') (contents (fm_name fm')) /\ at_instant w' y /\ rolls_back w' x /\ slt start y /\ sle y e
}.
End Recorded.

(** The writers of the table: the objects of each of its file groups are what the writes of a history left, every
    row carries the time of its write, later versions are newer, and the commits record all of it. *)
Section Writers.
Variable format : string.
Variable partitioned : bool.
Variable parse_schema : string -> option avro.
Variable code : dtype -> nat.
Variable rank : dtype -> slot -> Z.
Variable parse_rows : string -> outcome record_batch.
Variable dfs : list M_Avro.field.
Variable k p s ct : nat.
Definition changes_written (hist : string * string -> group) : Prop :=
  (forall ts a m part id c n, commit_object ts a m -> names_base m part id c n -> has_base objs table format partitioned (part, id) c)
  /\ forall g c, has_base objs table format partitioned g c -> exists now contents, history k p s now (hist g) /\ stamped ct (hist g) /\ later_is_newer k p s (hist g) e
    /\ forall dir listed content, object_partition objs table partitioned (fst g) dir -> directory_listing objs table dir listed ->
         (forall n o, file_in objs table dir n o -> content (file_path (fst g) n) = Ok (o_data o)) ->
         written_out parse_schema encodes code rank (fun path => let* d := content path in parse_rows d) content format (fst g) (snd g) dfs listed contents (hist g)
         /\ changes_recorded format (fst g) (snd g) listed contents (hist g).
End Writers.

(** The metadata of these commits can be read and names proper files; there is one write stat for each file group
    (C11), and one base file for each of its commit times. *)
Definition commits_in_order : Prop :=
  (forall ts a o, file_in objs table [".hoodie"] (timeline_name ts a Completed) o -> timestamp ts -> slt start ts -> sle ts e ->
     exists m, metadata_text number_of collect m (o_data o) /\ writes_fine m /\ (a = ReplaceCommit -> replace_metadata_ok m))
  /\ forall ts a m ts' a' m' part id c n n', commit_object ts a m -> commit_object ts' a' m' -> names_base m part id c n -> names_base m' part id c n' -> n = n'.
Definition one_stat_each : Prop := forall ts a m, commit_object ts a m -> unique_stats m.
End Changes.

(** The changes of a table after [start] and up to [e]: for every key with a version committed in that time in one
    of the file groups [of] its newest version as of [e], and no other record. *)
Definition table_changed (k p s : nat) (of : string * string -> Prop) (hist : string * string -> group) (start e : string) (out : list (list cell)) : Prop :=
  NoDup (map (key_at k) out)
  /\ (forall g x r, of g -> In (x, r) (g_versions (hist g)) -> slt start x -> sle x e -> exists r', In r' out /\ key_at k r' = key_at k r)
  /\ (forall r, In r out -> (exists g x, of g /\ In (x, r) (g_versions (hist g)) /\ slt start x /\ sle x e)
        /\ forall g x r', of g -> In (x, r') (g_versions (hist g)) -> sle x e -> key_at k r' = key_at k r -> ~ newer p s r' r).
