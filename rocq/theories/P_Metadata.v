(** Instants listed afresh and what their metadata tells: C69 (instants of an action), C70 (clustering commits), C71 (schema and text of commits). *)
From Coq Require Import Sorted.
From Verif Require L_Table.
From Verif Require Import Base Str M_Utf8 M_Time M_Instant M_Timeline M_FileGroup M_Builder M_Metadata S_Time S_Timeline S_Builder S_Table S_Metadata L_Str L_Timeline L_Metadata.
Local Open Scope string_scope.

(** ** C69 *)
(** Each call returns exactly the completed instants of its action, in the order asked for. *)
Theorem C69_instants_of_action : forall L f tz names desc l, sorts f ->
  (get_completed_commits L f tz names desc = Ok l -> listed_instants L tz names Commit desc l)
  /\ (get_completed_deltacommits L f tz names desc = Ok l -> listed_instants L tz names DeltaCommit desc l)
  /\ (get_completed_replacecommits L f tz names desc = Ok l -> listed_instants L tz names ReplaceCommit desc l).
Proof. intros L f tz names desc l S. repeat split; now apply listed_ok. Qed.
Print Assumptions C69_instants_of_action.
(** Whenever the timeline can be loaded the three calls answer, and together they return its instants. *)
Theorem C69_calls_cover_timeline : forall L f tz names l, sorts f -> new_timeline L f tz names = Ok l ->
  forall desc1 desc2 desc3, exists lc ld lr,
    get_completed_commits L f tz names desc1 = Ok lc /\ get_completed_deltacommits L f tz names desc2 = Ok ld
    /\ get_completed_replacecommits L f tz names desc3 = Ok lr /\ Permutation l (lc ++ ld ++ lr)%list.
Proof. exact split_timeline. Qed.
Print Assumptions C69_calls_cover_timeline.
Definition mx_names := ["20240103000000000.replacecommit"; "20240101000000000.commit"; "20240102000000000.deltacommit"; "20240104000000000.replacecommit";
  "20240104000000000.replacecommit.inflight"; "20240105000000000.replacecommit.requested"; "hoodie.properties"].
Definition mx_local (d : ndt) : option ndt := Some d.
Example C69_case : sorts isort
  /\ (let* l := new_timeline mx_local isort "utc" mx_names in Ok (List.length l)) = Ok 4%nat
  /\ (let* l := get_completed_replacecommits mx_local isort "utc" mx_names true in Ok (map i_timestamp l)) = Ok ["20240104000000000"; "20240103000000000"]
  /\ (let* l := get_completed_deltacommits mx_local isort "utc" mx_names false in Ok (map i_timestamp l)) = Ok ["20240102000000000"]
  /\ (let* l := get_completed_commits mx_local isort "utc" mx_names false in Ok (map i_timestamp l)) = Ok ["20240101000000000"].
Proof. split; [exact isort_sorts|]. repeat split; vm_compute; reflexivity. Qed.

(** ** C70 *)
(** The call answers exactly if every completed replacecommit can be read and names its operation, and
    then with those whose operation is [cluster], in the order asked for. *)
Theorem C70_clustering_commits_partial : forall L f read tz names desc l,
  get_completed_clustering_commits L f read tz names desc = Ok l <->
  exists rs, get_completed_replacecommits L f tz names desc = Ok rs
    /\ (forall i, In i rs -> exists op, written_by read i op)
    /\ kept (fun i => written_by read i "cluster") rs l.
Proof.
  intros L f read tz names desc l. unfold get_completed_clustering_commits. split.
  - intros H. destruct (get_completed_replacecommits L f tz names desc) as [rs|e|]; try discriminate. exists rs. split; [reflexivity|]. now apply clustering_iff.
  - intros [rs [ -> H]]. now apply clustering_iff.
Qed.
Print Assumptions C70_clustering_commits_partial.
(** Writers spell the operation in upper case (as in the tables of crates/test/data, with [UPSERT] and
    [INSERT_OVERWRITE_TABLE]): a clustering commit of theirs is not listed. *)
Definition mx_read (op4 : json) (path : string) : outcome (list (string * json)) :=
  if String.eqb path ".hoodie/20240103000000000.replacecommit" then Ok [("operationType", JStr "cluster")]
  else if String.eqb path ".hoodie/20240104000000000.replacecommit" then Ok [("operationType", op4)] else Err EStorage.
Theorem C70_upper_case_refuted : exists L f tz names read i l, sorts f
  /\ get_completed_replacecommits L f tz names false = Ok [i] /\ written_by read i "CLUSTER"
  /\ get_completed_clustering_commits L f read tz names false = Ok l /\ l = [].
Proof.
  exists mx_local, isort, "utc", ["20240104000000000.replacecommit"], (mx_read (JStr "CLUSTER")). eexists. eexists.
  split; [exact isort_sorts|]. split; [vm_compute; reflexivity|]. split; [eexists; split; vm_compute; reflexivity|]. split; vm_compute; reflexivity.
Qed.
Print Assumptions C70_upper_case_refuted.
(** One replacecommit that does not name its operation makes the call fail, although another one is a
    clustering commit. *)
Theorem C70_unnamed_operation_refuted : exists L f tz names read i j, sorts f
  /\ get_completed_replacecommits L f tz names false = Ok [i; j] /\ written_by read i "cluster"
  /\ get_completed_clustering_commits L f read tz names false = Err ECommitMetadata.
Proof.
  exists mx_local, isort, "utc", mx_names, (mx_read JNull). eexists. eexists.
  split; [exact isort_sorts|]. split; [vm_compute; reflexivity|]. split; [eexists; split; vm_compute; reflexivity|]. vm_compute; reflexivity.
Qed.
Print Assumptions C70_unnamed_operation_refuted.
Example C70_case : exists l, get_completed_clustering_commits mx_local isort (mx_read (JStr "insert_overwrite")) "utc" mx_names true = Ok l
  /\ map i_timestamp l = ["20240103000000000"].
Proof. eexists. split; vm_compute; reflexivity. Qed.

(** ** C71 *)
(** The schema of the table is the one that its last completed commit records; there is none exactly if
    the timeline is empty or that commit records none. *)
Theorem C71_avro_schema : forall read commits s, latest_avro_schema read commits = Ok s <->
  exists before i md, commits = (before ++ [i])%list /\ read (instant_file i) = Ok md /\ records_schema md s.
Proof. exact avro_schema_iff. Qed.
Print Assumptions C71_avro_schema.
(** A schema that only an earlier commit records is not found. *)
Theorem C71_earlier_schema_refuted : exists read i j md s, instant_le i j /\ read (instant_file i) = Ok md /\ records_schema md s
  /\ latest_avro_schema read [i; j] = Err ECommitMetadata.
Proof.
  exists (fun p => if String.eqb p ".hoodie/20240101000000000.commit" then Ok [("extraMetadata", JObj [("schema", JStr "{}")])] else Ok [("extraMetadata", JObj [])]).
  exists {| i_timestamp := "20240101000000000"; i_action := Commit; i_state := Completed; i_epoch := 1704067200000 |}.
  exists {| i_timestamp := "20240102000000000"; i_action := Commit; i_state := Completed; i_epoch := 1704153600000 |}.
  eexists. exists "{}". split; [discriminate|]. split; [reflexivity|]. split; [eexists; split; reflexivity|reflexivity].
Qed.
Print Assumptions C71_earlier_schema_refuted.
(** The text of an instant's metadata is the content of its file, if that is UTF-8. *)
Theorem C71_metadata_text : forall read i text, get_instant_metadata_in_json read i = Ok text <->
  read (instant_file i) = Ok text /\ utf8_valid text = true.
Proof.
  intros read i text. unfold get_instant_metadata_in_json. change (instant_relative_path i) with (instant_file i). split.
  - intros H. apply L_Base.bind_ok in H as [bytes [H1 H]]. destruct (utf8_valid bytes) eqn:E; [|discriminate]. injection H as <-. auto.
  - intros [ -> E]. cbn [bind]. now rewrite E.
Qed.
Print Assumptions C71_metadata_text.
(** The file whose schema is the schema of the table is the one that the last commit names. *)
Theorem C71_schema_file : forall read before i md path, read (instant_file i) = Ok md -> names_schema_file md path -> latest_schema_path read (before ++ [i]) = Ok path.
Proof. intros read before i md path R N. eapply L_Table.schema_path; [|exact R|exact N]. induction before as [|x l IH]; [reflexivity|]. cbn [app last_opt]. rewrite IH. now destruct (l ++ [i])%list. Qed.
Print Assumptions C71_schema_file.
(** A deltacommit: the path of the write stat is a log file, and the base file is in the partition. *)
Definition md_delta : list (string * json) :=
  [("partitionToWriteStats", JObj [("city=ams", JArr [JObj [("path", JStr "city=ams/.f_1.log.1_0-0-0"); ("baseFile", JStr "f_0-0-0_1.parquet")]])])].
Example C71_schema_file_case : names_schema_file md_delta "city=ams/f_0-0-0_1.parquet".
Proof.
  do 5 eexists. split; [reflexivity|]. split; [reflexivity|]. right. split; [intros r E; assert (X : ends_with ".parquet" "city=ams/.f_1.log.1_0-0-0" = true) by (apply ends_with_spec; eauto); discriminate X|].
  exists "f_0-0-0_1.parquet". split; [reflexivity|]. split; [discriminate|]. split; [intros r E; assert (X : ends_with "/" "city=ams" = true) by (apply ends_with_spec; eauto); discriminate X|]. right. split; [discriminate|reflexivity].
Qed.
Example C71_case : latest_avro_schema (fun p => if String.eqb p ".hoodie/20240101000000000.commit" then Ok [("extraMetadata", JObj [("schema", JStr "{}")])] else Err EStorage)
  [{| i_timestamp := "20240101000000000"; i_action := Commit; i_state := Completed; i_epoch := 1704067200000 |}] = Ok "{}"
  /\ get_instant_metadata_in_json (fun _ => Ok "{}") {| i_timestamp := "20240101000000000"; i_action := Commit; i_state := Completed; i_epoch := 1704067200000 |} = Ok "{}".
Proof. split; reflexivity. Qed.
