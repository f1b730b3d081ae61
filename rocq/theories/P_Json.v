(** C79: commit metadata is read from its JSON text.  C80: metadata that was not written to the end. *)
From Verif Require Import Base Str M_Time M_Instant M_Timeline M_Utf8 M_FileGroup M_Builder M_Listing M_Expr M_Log M_Config M_Reader M_Table M_Json S_Json S_Torn E_Table E_Json L_Base L_Str L_Json L_Torn.
Local Open Scope string_scope.

(** The files that are accepted are the JSON objects of RFC 8259 (S_Json) nested no deeper than 127, and what is read is what they stand for.
    Everything else is an error of the timeline, never a panic. *)
Theorem C79_reads : forall number_of collect d,
  (forall m, parse_metadata number_of collect d = Ok m <-> metadata_text number_of collect m d)
  /\ ((forall m, ~ metadata_text number_of collect m d) -> parse_metadata number_of collect d = Err ETimeline).
Proof.
  intros number_of collect d. unfold parse_metadata. split.
  - intros m. rewrite <- slice_text. destruct (from_slice number_of collect d); split; congruence.
  - intros N. destruct (from_slice number_of collect d) as [m|] eqn:E; [|reflexivity]. apply slice_text in E. now elim (N m).
Qed.
Print Assumptions C79_reads.
Example C79_example_reads : parse_metadata jx_number jx_collect jx_c1 = Ok tx_md1 /\ metadata_text jx_number jx_collect tx_md1 jx_c1.
Proof. split; [exact jx_reads1|]. apply C79_reads. exact jx_reads1. Qed.
Example C79_example_refused : Forall (fun d => parse_metadata jx_number jx_collect d = Err ETimeline)
  [""; " "; "null"; "[]"; "{"; "{}}"; "{,}"; "{""a"":1,}"; "{""a"":01}"; "{""a"":+1}"; "{""a"":1.}"; "{""a"":[1,]}"; "{""a"" 1}"; "{'a':1}"; "{""a"":tru}"; "{""a"":""\ud800""}"; "{""a"":""\x""}"; String "239" (String "187" (String "191" "{}"))].
Proof. repeat (constructor; [vm_compute; reflexivity|]). constructor. Qed.
Example C79_example_values : parse_metadata jx_number jx_collect "{""a"":[true,false,null,-1.5e+3,""😀\n""],""b"":{}}"
  = Ok [("a", JArr [JBool true; JBool false; JNull; JNum 7; JStr (String "240" (String "159" (String "152" (String "128" (String "010" "")))))]); ("b", JObj [])].
Proof. vm_compute. reflexivity. Qed.
(** Arrays inside of each other up to the limit, and one more. *)
Fixpoint nested (n : nat) : string := match n with O => "" | S n => "[" ++ nested n ++ "]" end.
Example C79_example_depth : (exists m, parse_metadata jx_number jx_collect ("{""a"":" ++ nested 126 ++ "}") = Ok m) /\ parse_metadata jx_number jx_collect ("{""a"":" ++ nested 127 ++ "}") = Err ETimeline.
Proof. split; [eexists; vm_compute; reflexivity|vm_compute; reflexivity]. Qed.

(** A file stands for one metadata at most: the reading of JSON texts is not ambiguous. *)
Theorem C79_one_meaning : forall number_of collect d m m', metadata_text number_of collect m d -> metadata_text number_of collect m' d -> m = m'.
Proof. intros number_of collect d m m' H H'. apply slice_text in H, H'. congruence. Qed.
Print Assumptions C79_one_meaning.

(** For a map that keeps one entry for a key: of members with the same key the last counts, and keys are compared after escapes were read. *)
Theorem C79_last_member : forall number_of collect w e w' l, is_map collect -> blank w -> blank w' -> members number_of collect 126 l e -> l <> [] ->
  exists m, parse_metadata number_of collect (w ++ "{" ++ e ++ "}" ++ w') = Ok m /\ NoDup (map fst m) /\ forall k, jget k m = last_member k l.
Proof.
  intros number_of collect w e w' l IM B B' M N. exists (collect l). split; [|apply IM]. apply C79_reads. exists w, ("{" ++ e ++ "}"), w'. split; [exact B|]. split; [exact B'|].
  split; [now apply tx_object|]. cbn [append]. now rewrite app_assoc_s.
Qed.
Print Assumptions C79_last_member.
Example C79_example_last : is_map jx_collect /\ parse_metadata jx_number jx_collect "{""a"":1,""b"":22,""a"":null}" = Ok [("a", JNull); ("b", JNum 2)].
Proof. split; [exact jx_is_map|vm_compute; reflexivity]. Qed.

(** A file cut at any byte: an error, or what the whole file stands for, and then only blanks are missing. *)
Theorem C79_cut : forall number_of collect d m p q, metadata_text number_of collect m d -> d = p ++ q ->
  parse_metadata number_of collect p = Err ETimeline \/ (parse_metadata number_of collect p = Ok m /\ blank q).
Proof.
  intros number_of collect d m p q T E. unfold parse_metadata. destruct (from_slice number_of collect p) as [m'|] eqn:P; [right|now left].
  destruct (slice_prefix _ _ _ _ _ _ _ T E P) as [ -> B]. now split.
Qed.
Print Assumptions C79_cut.
Example C79_example_cut : map (fun n => parse_metadata jx_number jx_collect (take n jx_c1)) [0; 1; 40; 120; 220; 221; 222]%nat
  = map (fun n => if (221 <=? n)%nat then Ok tx_md1 else Err ETimeline) [0; 1; 40; 120; 220; 221; 222]%nat.
Proof. vm_compute. reflexivity. Qed.

(** ** C80: the answers of a table while files with commit metadata are incomplete or missing *)
(** The timeline's own answers: each is the answer from the complete files, or an error. *)
Theorem C80_timeline : forall dtype number_of collect (st st' : store dtype) local_to_utc cs, unfinished dtype number_of collect st st' ->
  let same_or_error {A} (f : (string -> outcome (list (string * json))) -> outcome A) := f (st_json _ st') = f (st_json _ st) \/ exists e, f (st_json _ st') = Err e in
  (forall tz t, same_or_error (fun rd => get_replaced_file_groups_as_of local_to_utc rd tz cs t))
  /\ (forall order tz a b, same_or_error (fun rd => get_file_groups_between local_to_utc rd order tz cs a b))
  /\ same_or_error (fun rd => clustering_of rd cs)
  /\ same_or_error (fun rd => latest_avro_schema rd cs)
  /\ same_or_error (fun rd => latest_schema_path rd cs).
Proof.
  intros dtype number_of collect st st' local_to_utc cs UN. pose proof (unfinished_less _ _ _ _ _ UN) as LE. cbn zeta beta. repeat split; intros.
  - now apply less_replaced.
  - now apply less_between.
  - now apply less_clustering.
  - now apply less_avro.
  - now apply less_path.
Qed.
Print Assumptions C80_timeline.

(** Snapshots, snapshots of the past and increments: whatever a query on the table with incomplete files returns, it could return on the table with complete files, or it is an error. *)
Theorem C80_queries : forall dtype value cast cmp avro_schema avro_value avro_parse datum check_schema to_batch parquet local_to_utc number_of collect (st st' : store dtype) tb,
  unfinished dtype number_of collect st st' ->
  (forall t fs c c' r, get_file_slices_as_of dtype value cast cmp local_to_utc st' tb t fs c c' r ->
     get_file_slices_as_of dtype value cast cmp local_to_utc st tb t fs c c' r \/ exists e, r = Err e)
  /\ (forall t fs c c' r, read_snapshot_as_of dtype value cast cmp avro_schema avro_value avro_parse datum check_schema to_batch parquet local_to_utc st' tb t fs c c' r ->
     read_snapshot_as_of dtype value cast cmp avro_schema avro_value avro_parse datum check_schema to_batch parquet local_to_utc st tb t fs c c' r \/ exists e, r = Err e)
  /\ (forall fs c c' r, read_snapshot dtype value cast cmp avro_schema avro_value avro_parse datum check_schema to_batch parquet local_to_utc st' tb fs c c' r ->
     read_snapshot dtype value cast cmp avro_schema avro_value avro_parse datum check_schema to_batch parquet local_to_utc st tb fs c c' r \/ exists e, r = Err e)
  /\ (forall a b r, read_incremental dtype avro_schema avro_value avro_parse datum check_schema to_batch parquet local_to_utc st' tb a b r ->
     read_incremental dtype avro_schema avro_value avro_parse datum check_schema to_batch parquet local_to_utc st tb a b r \/ exists e, r = Err e).
Proof.
  intros dtype value cast cmp avro_schema avro_value avro_parse datum check_schema to_batch parquet local_to_utc number_of collect st st' tb UN. repeat split; intros.
  - exact (torn_slices_as_of dtype value cast cmp local_to_utc number_of collect st st' tb UN t fs c c' r H).
  - exact (torn_snapshot_as_of dtype value cast cmp avro_schema avro_value avro_parse datum check_schema to_batch parquet local_to_utc number_of collect st st' tb UN t fs c c' r H).
  - exact (torn_snapshot dtype value cast cmp avro_schema avro_value avro_parse datum check_schema to_batch parquet local_to_utc number_of collect st st' tb UN fs c c' r H).
  - exact (torn_increment dtype avro_schema avro_value avro_parse datum check_schema to_batch parquet local_to_utc number_of collect st st' tb UN a b r H).
Qed.
Print Assumptions C80_queries.
(** The example table with a replacecommit cut after [n] bytes: with 100 the replaced file groups are an error, with all of them (or without its last blank) they are those of the table. *)
Example C80_example : (forall n, unfinished unit jx_number jx_collect (jx_store jx_c3) (jx_store (take n jx_c3)))
  /\ get_replaced_file_groups_as_of tx_local (st_json _ (jx_store (take 100 jx_c3))) "utc" (t_commits tx_table) "20240104000000000" = Err ETimeline
  /\ exists gs, get_replaced_file_groups_as_of tx_local (st_json _ (jx_store jx_c3)) "utc" (t_commits tx_table) "20240104000000000" = Ok gs /\ map (fun g => fg_id g) gs = ["f4"].
Proof. split; [exact jx_unfinished|]. split; [vm_compute; reflexivity|]. eexists. split; vm_compute; reflexivity. Qed.
