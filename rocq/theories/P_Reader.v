(** Properties C31 - C33, C35 and C36: merging record batches and reading file slices. *)
From Coq Require Import Sorted.
From Verif Require Import Base Str M_Time S_Time M_Timeline S_Timeline M_FileGroup M_Expr M_Log S_Log M_Config M_Reader S_Reader L_Config L_Reader.
Local Open Scope string_scope.

(** Example: three meta columns and an ordering field; key "a" in three batches, "b" once. *)
Definition ex_sch : list field :=
  [{| f_name := "_hoodie_commit_time"; f_type := TUtf8; f_null := true |}; {| f_name := "_hoodie_commit_seqno"; f_type := TUtf8; f_null := true |};
   {| f_name := "_hoodie_record_key"; f_type := TUtf8; f_null := true |}; {| f_name := "ts"; f_type := TInt; f_null := true |}].
Definition ex_row (t s k : string) (ts : Z) : list cell := [VText t; VText s; VText k; VInt ts].
Definition ex_m : options := [("hoodie.table.precombine.field", "ts")].
Definition ex_a : record_batch := {| rb_fields := ex_sch; rb_rows := [ex_row "20250101000000000" "1" "a" 5; ex_row "20250101000000000" "2" "b" 7] |}.
Definition ex_b : record_batch := {| rb_fields := ex_sch; rb_rows := [ex_row "20250102000000000" "3" "a" 9] |}.
Definition ex_c : record_batch := {| rb_fields := ex_sch; rb_rows := [ex_row "20250103000000000" "4" "a" 8] |}.
Fact ex_latest : merges_latest ex_m.
Proof. right. split; [intros v [=]|]. split; discriminate. Qed.
Ltac ex_column := split; [split; [eexists; split; reflexivity|intros j f L E; do 4 (destruct j as [|j]; [first [exfalso; now apply Nat.lt_irrefl in L|cbn in E; injection E as <-; discriminate|exfalso; lia]|]); exfalso; lia]|eexists; split; reflexivity].
Fact ex_columns : merge_columns ex_m ex_sch 3 1 2.
Proof. split; [|split; ex_column]. exists "ts", TInt. split; [reflexivity|]. split; [ex_column|discriminate]. Qed.
Ltac ex_batch := split; [reflexivity|]; repeat constructor; cbn; try discriminate.
Fact ex_wf : forall b, In b [ex_a; ex_b; ex_c] -> wf_batch ex_sch b.
Proof. intros b [ <- |[ <- |[ <- |[]]]]; ex_batch. Qed.
Definition ex_merge := merge_record_batches isort (fun m => m).

(** C31: merging batches of one schema returns exactly one row per key, an input row with no newer
    input row of its key; whatever the unstable sort and the hash map do. *)
Theorem C31_one_latest_row_per_key : forall sort iter m sch batches p s k, sorts sort -> visits iter ->
  merges_latest m -> merge_columns m sch p s k -> Forall (wf_batch sch) batches ->
  exists out, merge_record_batches sort iter m sch batches = Ok out /\ rb_fields out = sch
    /\ latest_rows k p s (rows_of batches) (rb_rows out).
Proof. intros sort iter m sch batches p s k HS HI ML MC W. exact (merge_exact sort iter m sch batches p s k HS HI (conj ML MC) W). Qed.
Print Assumptions C31_one_latest_row_per_key.
Example C31_case : exists out, ex_merge ex_m ex_sch [ex_a; ex_b; ex_c] = Ok out /\ rb_fields out = ex_sch
  /\ latest_rows 2 3 1 (rows_of [ex_a; ex_b; ex_c]) (rb_rows out).
Proof.
  apply C31_one_latest_row_per_key; [apply isort_sorts|intros l; reflexivity|exact ex_latest|exact ex_columns|]. apply Forall_forall. exact ex_wf.
Qed.
Example C31_case_value : ex_merge ex_m ex_sch [ex_a; ex_b; ex_c]
  = Ok {| rb_fields := ex_sch; rb_rows := [ex_row "20250102000000000" "3" "a" 9; ex_row "20250101000000000" "2" "b" 7] |}.
Proof. vm_compute. reflexivity. Qed.
(** Columns are matched by position, not by name: a batch whose columns come in another order, even with
    the right names and types, is misread, and its keys are lost. *)
Definition ex_swapped : record_batch :=
  {| rb_fields := [nth 0 ex_sch (hd {| f_name := ""; f_type := TInt; f_null := true |} ex_sch); nth 2 ex_sch (hd {| f_name := ""; f_type := TInt; f_null := true |} ex_sch);
                   nth 1 ex_sch (hd {| f_name := ""; f_type := TInt; f_null := true |} ex_sch); nth 3 ex_sch (hd {| f_name := ""; f_type := TInt; f_null := true |} ex_sch)];
     rb_rows := [[VText "20250104000000000"; VText "new key"; VText "5"; VInt 1]] |}.
Theorem C31_reordered_columns_refuted : forall sort iter, sorts sort -> visits iter ->
  exists m sch batches b out, merges_latest m /\ In b batches /\ Permutation (rb_fields b) sch
    /\ (exists k r, column_at (rb_fields b) "_hoodie_record_key" k /\ In r (rb_rows b) /\ key_at k r = "new key")
    /\ merge_record_batches sort iter m sch batches = Ok out
    /\ exists k, column_at (rb_fields out) "_hoodie_record_key" k /\ forall r, In r (rb_rows out) -> key_at k r <> "new key".
Proof.
  intros sort iter HS HI.
  destruct (C31_one_latest_row_per_key sort iter ex_m ex_sch [ex_a; {| rb_fields := ex_sch; rb_rows := rb_rows ex_swapped |}] 3 1 2 HS HI ex_latest ex_columns) as [out [H1 [H2 H3]]].
  { constructor; [apply ex_wf; now left|]. constructor; [ex_batch|constructor]. }
  exists ex_m, ex_sch, [ex_a; ex_swapped], ex_swapped, out. split; [exact ex_latest|]. split; [right; now left|]. split; [apply perm_skip, perm_swap|]. split.
  - exists 1%nat, [VText "20250104000000000"; VText "new key"; VText "5"; VInt 1]. split; [|split; [now left|reflexivity]].
    split; [eexists; split; reflexivity|]. intros j f L E. destruct j as [|j]; [cbn in E; injection E as <-; discriminate|]. lia.
  - split; [exact H1|]. exists 2%nat. rewrite H2. split; [exact (proj1 (proj2 (proj2 ex_columns)))|]. intros r I. apply H3 in I as [I _]. destruct I as [ <- |[ <- |[ <- |[]]]]; discriminate.
Qed.
Print Assumptions C31_reordered_columns_refuted.

(** C32: without ties the merged rows depend only on the multiset of input rows. *)
Theorem C32_batching_irrelevant : forall sort1 iter1 sort2 iter2 m sch batches1 batches2 p s k out1 out2,
  sorts sort1 -> visits iter1 -> sorts sort2 -> visits iter2 -> merges_latest m -> merge_columns m sch p s k ->
  Forall (wf_batch sch) batches1 -> Forall (wf_batch sch) batches2 ->
  Permutation (rows_of batches1) (rows_of batches2) -> no_ties k p s (rows_of batches1) ->
  merge_record_batches sort1 iter1 m sch batches1 = Ok out1 -> merge_record_batches sort2 iter2 m sch batches2 = Ok out2 ->
  Permutation (rb_rows out1) (rb_rows out2).
Proof.
  intros sort1 iter1 sort2 iter2 m sch b1 b2 p s k o1 o2 S1 I1 S2 I2 ML MC. exact (merge_permuted sort1 iter1 sort2 iter2 m sch b1 b2 p s k o1 o2 S1 I1 S2 I2 (conj ML MC)).
Qed.
Print Assumptions C32_batching_irrelevant.
Example C32_case : no_ties 2 3 1 (rows_of [ex_a; ex_b; ex_c]) /\ Permutation (rows_of [ex_a; ex_b; ex_c]) (rows_of [ex_c; ex_a; ex_b]).
Proof.
  split.
  - intros x y Ix Iy _ E _. cbn in Ix, Iy. destruct Ix as [ <- |[ <- |[ <- |[ <- |[]]]]]; destruct Iy as [ <- |[ <- |[ <- |[ <- |[]]]]]; try reflexivity; discriminate E.
  - cbn. change [ex_row "20250101000000000" "1" "a" 5; ex_row "20250101000000000" "2" "b" 7; ex_row "20250102000000000" "3" "a" 9; ex_row "20250103000000000" "4" "a" 8]
      with (rows_of [ex_a; ex_b] ++ [ex_row "20250103000000000" "4" "a" 8])%list.
    symmetry. apply Permutation_cons_append.
Qed.
(** Merging a merged batch with further batches gives the latest rows of everything, and without ties
    the same rows as merging everything at once. *)
Theorem C32_staged : forall sort1 iter1 sort2 iter2 sort3 iter3 m sch a b p s k merged out all,
  sorts sort1 -> visits iter1 -> sorts sort2 -> visits iter2 -> sorts sort3 -> visits iter3 -> merges_latest m -> merge_columns m sch p s k ->
  Forall (wf_batch sch) a -> Forall (wf_batch sch) b -> no_ties k p s (rows_of (a ++ b)%list) ->
  merge_record_batches sort1 iter1 m sch a = Ok merged ->
  merge_record_batches sort2 iter2 m sch (merged :: b) = Ok out ->
  merge_record_batches sort3 iter3 m sch (a ++ b)%list = Ok all ->
  latest_rows k p s (rows_of (a ++ b)%list) (rb_rows out) /\ Permutation (rb_rows out) (rb_rows all).
Proof.
  intros sort1 iter1 sort2 iter2 sort3 iter3 m sch a b p s k merged out all S1 I1 S2 I2 S3 I3 ML MC WA WB NT H1 H2 H3.
  exact (merge_staged_same sort1 iter1 sort2 iter2 sort3 iter3 m sch a b p s k merged out all S1 I1 S2 I2 S3 I3 (conj ML MC) WA WB NT H1 H2 H3).
Qed.
Print Assumptions C32_staged.
Example C32_staged_case : exists merged, ex_merge ex_m ex_sch [ex_a; ex_b] = Ok merged
  /\ ex_merge ex_m ex_sch [merged; ex_c] = Ok {| rb_fields := ex_sch; rb_rows := [ex_row "20250102000000000" "3" "a" 9; ex_row "20250101000000000" "2" "b" 7] |}.
Proof. eexists. split; vm_compute; reflexivity. Qed.
(** With ties the choice is arbitrary. *)
Theorem C32_ties_refuted : exists sort1 sort2 m sch batches p s k out1 out2, sorts sort1 /\ sorts sort2 /\ merges_latest m /\ merge_columns m sch p s k
  /\ Forall (wf_batch sch) batches /\ merge_record_batches sort1 (fun x => x) m sch batches = Ok out1 /\ merge_record_batches sort2 (fun x => x) m sch batches = Ok out2
  /\ ~ Permutation (rb_rows out1) (rb_rows out2).
Proof.
  exists isort, (fun cmp l => isort cmp (rev l)), ex_m, ex_sch,
    [{| rb_fields := ex_sch; rb_rows := [ex_row "20250101000000000" "1" "a" 5; ex_row "20250102000000000" "1" "a" 5] |}], 3%nat, 1%nat, 2%nat,
    {| rb_fields := ex_sch; rb_rows := [ex_row "20250101000000000" "1" "a" 5] |}, {| rb_fields := ex_sch; rb_rows := [ex_row "20250102000000000" "1" "a" 5] |}.
  split; [apply isort_sorts|]. split; [apply isort_rev_sorts|]. split; [exact ex_latest|]. split; [exact ex_columns|]. split; [constructor; [ex_batch|constructor]|].
  split; [vm_compute; reflexivity|]. split; [vm_compute; reflexivity|]. intros P. apply Permutation_length_1 in P. discriminate.
Qed.
Print Assumptions C32_ties_refuted.

(** C33: without merging, the output is the concatenation of the batches. *)
Theorem C33_append_only : forall sort iter m sch batches, ~ merges_latest m -> Forall (wf_batch sch) batches ->
  merge_record_batches sort iter m sch batches = Ok {| rb_fields := sch; rb_rows := rows_of batches |}.
Proof. intros sort iter m sch batches N W. exact (merge_append sort iter m sch batches W (append_strategy m N)). Qed.
Print Assumptions C33_append_only.
Definition ex_append : options := [("hoodie.table.record.merge.strategy", "APPEND_ONLY"); ("hoodie.table.precombine.field", "ts")].
Example C33_case : ~ merges_latest ex_append /\ ex_merge ex_append ex_sch [ex_b; ex_a; ex_b] = Ok {| rb_fields := ex_sch; rb_rows := rows_of [ex_b; ex_a; ex_b] |}.
Proof.
  assert (N : ~ merges_latest ex_append).
  { intros [[v [[= <-] E]]|[H _]]; [discriminate|]. apply (H _ eq_refl). now left. }
  split; [exact N|]. apply C33_append_only; [exact N|]. repeat (constructor; [apply ex_wf; cbn; tauto|]). constructor.
Qed.

(** C35: a base file read with a start timestamp (in a table with meta fields) gives exactly the rows
    committed in the window, in order. *)
Theorem C35_window_exact : forall read_parquet m path records t start,
  read_parquet path = Ok records -> oget "hoodie.populate.meta.fields" m <> Some "false" -> read_start m = Some start ->
  typed_column (rb_fields records) "_hoodie_commit_time" TUtf8 t -> Forall (wf_row (rb_fields records)) (rb_rows records) ->
  exists out, read_base_file read_parquet m path = Ok out /\ rb_fields out = rb_fields records
    /\ selects (in_window t start (read_end m)) (rb_rows records) (rb_rows out).
Proof. exact base_window. Qed.
Print Assumptions C35_window_exact.
Definition ex_all : record_batch := {| rb_fields := ex_sch; rb_rows := rows_of [ex_a; ex_b; ex_c] |}.
Definition ex_pq (p : string) : outcome record_batch := if String.eqb p "p/f" then Ok ex_all else Err EStorage.
Definition ex_window (s e : string) : options := [("hoodie.read.file_group.start_timestamp", s); ("hoodie.read.file_group.end_timestamp", e)].
Fact ex_all_wf : Forall (wf_row (rb_fields ex_all)) (rb_rows ex_all).
Proof. apply (rows_all_wf ex_sch [ex_a; ex_b; ex_c]). apply Forall_forall. exact ex_wf. Qed.
Example C35_case : exists out, read_base_file ex_pq (ex_window "20250101000000000" "20250102000000000") "p/f" = Ok out /\ rb_fields out = ex_sch
  /\ selects (in_window 0 "20250101000000000" (Some "20250102000000000")) (rows_of [ex_a; ex_b; ex_c]) (rb_rows out).
Proof.
  apply (C35_window_exact ex_pq (ex_window "20250101000000000" "20250102000000000") "p/f" ex_all 0 "20250101000000000"); [reflexivity|discriminate|reflexivity|ex_column|exact ex_all_wf].
Qed.
Example C35_case_value : read_base_file ex_pq (ex_window "20250101000000000" "20250102000000000") "p/f" = Ok ex_b.
Proof. vm_compute. reflexivity. Qed.
(** Without a start timestamp all rows are returned; also in tables without meta fields. *)
Theorem C35_snapshot_all : forall read_parquet m path records, read_parquet path = Ok records ->
  oget "hoodie.populate.meta.fields" m = Some "false" \/ read_start m = None -> read_base_file read_parquet m path = Ok records.
Proof. exact base_all. Qed.
Print Assumptions C35_snapshot_all.
Example C35_snapshot_case : read_base_file ex_pq [("hoodie.read.file_group.end_timestamp", "20250101000000000")] "p/f" = Ok ex_all.
Proof. apply C35_snapshot_all; [reflexivity|now right]. Qed.
(** Consecutive windows neither lose nor repeat a row. *)
Theorem C35_windows_split : forall read_parquet m1 m2 m12 path records t start mid stop out1 out2 out12,
  read_parquet path = Ok records -> typed_column (rb_fields records) "_hoodie_commit_time" TUtf8 t -> Forall (wf_row (rb_fields records)) (rb_rows records) ->
  (forall m, In m [m1; m2; m12] -> oget "hoodie.populate.meta.fields" m <> Some "false") ->
  read_start m1 = Some start -> read_end m1 = Some mid -> read_start m2 = Some mid -> read_end m2 = Some stop -> read_start m12 = Some start -> read_end m12 = Some stop ->
  sle start mid -> sle mid stop ->
  read_base_file read_parquet m1 path = Ok out1 -> read_base_file read_parquet m2 path = Ok out2 -> read_base_file read_parquet m12 path = Ok out12 ->
  Permutation (rb_rows out12) (rb_rows out1 ++ rb_rows out2)%list /\ forall r, ~ (In r (rb_rows out1) /\ In r (rb_rows out2)).
Proof. exact base_windows_split. Qed.
Print Assumptions C35_windows_split.
Example C35_split_case : read_base_file ex_pq (ex_window "20250101000000000" "20250103000000000") "p/f"
  = Ok {| rb_fields := ex_sch; rb_rows := rows_of [ex_b; ex_c] |} /\ read_base_file ex_pq (ex_window "20250102000000000" "20250103000000000") "p/f" = Ok ex_c.
Proof. split; vm_compute; reflexivity. Qed.

(** C36: with an end timestamp, every row comes from the base file or from a log block whose instant
    is not after it. *)
Theorem C36_no_later_log_records : forall sort iter read_parquet avro_schema avro_value parse_schema datum check_schema to_batch parquet local_to_utc fetch
    m slice files out stop stop_time,
  sorts sort -> visits iter ->
  read_file_slice sort iter read_parquet avro_schema avro_value parse_schema datum check_schema to_batch parquet local_to_utc fetch m slice = Ok out ->
  in_utc m -> map (log_relative_path slice) (fs_logs slice) = map fst files ->
  (forall f, In f files -> file_ok avro_schema avro_value record_batch parse_schema datum check_schema to_batch parquet local_to_utc fetch (read_range "utc" m) "utc" f) ->
  (forall x, read_start m = Some x -> exists c, x = render c /\ valid_civil c) ->
  read_end m = Some (render stop) -> valid_civil stop -> denotes_millis stop stop_time ->
  exists records, read_parquet (base_relative_path slice) = Ok records /\
  forall r, In r (rb_rows out) ->
    In r (rb_rows records)
    \/ exists r0, r = firstn (List.length (rb_fields records)) r0 /\
       (In r0 (rb_rows records) \/ exists f x b, In f files /\ In x (snd f) /\ In b (snd x) /\ In r0 (rb_rows b)
         /\ forall c ts, at_instant (fst x) (render c) -> valid_civil c -> denotes_millis c ts -> (ts <= stop_time)%Z).
Proof. exact slice_times. Qed.
Print Assumptions C36_no_later_log_records.
(** In read-optimized mode, and without log files, the slice is its base file. *)
Theorem C36_read_optimized : forall sort iter read_parquet avro_schema avro_value parse_schema datum check_schema to_batch parquet local_to_utc fetch m slice,
  oget "hoodie.read.use.read_optimized.mode" m = Some "true" \/ fs_logs slice = [] ->
  read_file_slice sort iter read_parquet avro_schema avro_value parse_schema datum check_schema to_batch parquet local_to_utc fetch m slice
  = read_base_file read_parquet m (base_relative_path slice).
Proof. exact slice_read_optimized. Qed.
Print Assumptions C36_read_optimized.
(** Otherwise the slice is the latest row of each key among the rows of its base file and of the surviving
    log blocks (C29). *)
Theorem C36_slice_exact : forall sort iter read_parquet avro_schema avro_value parse_schema datum check_schema to_batch parquet local_to_utc fetch
    m slice tz files base p s k, sorts sort -> visits iter ->
  fs_logs slice <> [] -> oget "hoodie.read.use.read_optimized.mode" m <> Some "true" -> timeline_timezone m = Ok tz ->
  map (log_relative_path slice) (fs_logs slice) = map fst files ->
  (forall f, In f files -> file_ok avro_schema avro_value record_batch parse_schema datum check_schema to_batch parquet local_to_utc fetch (read_range tz m) tz f) ->
  read_base_file read_parquet m (base_relative_path slice) = Ok base ->
  merges_latest m -> merge_columns m (rb_fields base) p s k -> wf_batch (rb_fields base) base ->
  (forall f x b, In f files -> In x (snd f) -> In b (snd x) -> wf_batch (rb_fields base) b) ->
  exists kept out,
    selects (surviving record_batch local_to_utc (read_range tz m) tz (List.concat (map snd files))) (List.concat (map snd files)) kept
    /\ read_file_slice sort iter read_parquet avro_schema avro_value parse_schema datum check_schema to_batch parquet local_to_utc fetch m slice = Ok out
    /\ rb_fields out = rb_fields base
    /\ latest_rows k p s (rb_rows base ++ rows_of (List.concat (map snd kept)))%list (rb_rows out).
Proof. exact slice_exact. Qed.
Print Assumptions C36_slice_exact.

(** Example: a base file with the first batch, a log file with the other two. *)
Definition ex_slice : file_slice :=
  {| fs_base := {| bf_file_id := "f"; bf_write_token := "0-0-0"; bf_commit := "20250101000000000"; bf_ext := "parquet"; bf_meta := None |};
     fs_logs := [{| lf_file_id := "f"; lf_base_commit := "20250101000000000"; lf_ext := "log"; lf_version := "1"; lf_write_token := "0-0-0"; lf_meta := None |}];
     fs_partition := "p" |}.
Definition ex_base_of (p : string) : outcome record_batch := if String.eqb p (base_relative_path ex_slice) then Ok ex_a else Err EStorage.
Definition ex_decode (s : string) : option (list record_batch) := if String.eqb s "B!" then Some [ex_b] else if String.eqb s "C!" then Some [ex_c] else None.
Definition ex_wblock (t b : string) : wblock := {| w_version := V1; w_header := [(InstantTime, t)]; w_content := CParquet b; w_footer := [] |}.
Definition ex_log : list (wblock * list record_batch) := [(ex_wblock "20250102000000000" "B!", [ex_b]); (ex_wblock "20250103000000000" "C!", [ex_c])].
Definition ex_log_path : string := "p/.f_20250101000000000.log.1_0-0-0".
Definition ex_fetch (p : string) : outcome string := if String.eqb p ex_log_path then Ok (put_log (map fst ex_log)) else Err EStorage.
Definition ex_local (d : ndt) : option ndt := Some d.
Definition ex_file_ok := file_ok unit unit record_batch (fun _ => None) (fun _ _ => None) (fun _ => Ok tt) (fun _ _ => Err EArrow) ex_decode ex_local ex_fetch.
Definition ex_read_slice := read_file_slice isort (fun m => m) ex_base_of unit unit (fun _ => None) (fun _ _ => None) (fun _ => Ok tt) (fun _ _ => Err EArrow) ex_decode ex_local ex_fetch.
Definition ex_at (t : string) : options := ("hoodie.read.file_group.end_timestamp", t) :: ex_m.
Fact ex_wblock_wf : forall t b bs, In t ["20250102000000000"; "20250103000000000"] -> ex_decode b = Some bs -> (len b < 2 ^ 64)%N ->
  wf_block unit unit record_batch (fun _ => None) (fun _ _ => None) (fun _ => Ok tt) (fun _ _ => Err EArrow) ex_decode (ex_wblock t b) bs.
Proof.
  intros t b bs T D L. split; cbn [ex_wblock w_version w_header w_content w_footer put_content].
  - discriminate.
  - split; [repeat constructor; intros []|]. intros k v [E|[]]. injection E as <- <-. destruct T as [ <- |[ <- |[]]]; split; reflexivity.
  - split; [split; [constructor|intros k v []]|]. intros N. now elim N.
  - exists t. now left.
  - exact L.
  - discriminate.
  - now apply holds_parquet.
Qed.
Fact ex_log_ok : forall e f, In e ["20250102000000000"; "20250103000000000"] -> In f [(ex_log_path, ex_log)] -> ex_file_ok (read_range "utc" (ex_at e)) "utc" f.
Proof.
  intros e f E [ <- |[]]. split; [reflexivity|]. intros x [ <- |[ <- |[]]].
  - split; [apply ex_wblock_wf; [now left|reflexivity|reflexivity]|]. split; [intros v [=]|]. exists true, "20250102000000000". split; [now left|]. destruct E as [ <- |[ <- |[]]]; reflexivity.
  - split; [apply ex_wblock_wf; [right; now left|reflexivity|reflexivity]|]. split; [intros v [=]|].
    destruct E as [ <- |[ <- |[]]]; [exists false|exists true]; exists "20250103000000000"; (split; [now left|reflexivity]).
Qed.
Example C36_case : exists kept out,
  selects (surviving record_batch ex_local (read_range "utc" (ex_at "20250102000000000")) "utc" ex_log) ex_log kept
  /\ ex_read_slice (ex_at "20250102000000000") ex_slice = Ok out /\ rb_fields out = ex_sch
  /\ latest_rows 2 3 1 (rb_rows ex_a ++ rows_of (List.concat (map snd kept)))%list (rb_rows out).
Proof.
  apply (C36_slice_exact isort (fun m => m) ex_base_of unit unit (fun _ => None) (fun _ _ => None) (fun _ => Ok tt) (fun _ _ => Err EArrow) ex_decode ex_local ex_fetch
    (ex_at "20250102000000000") ex_slice "utc" [(ex_log_path, ex_log)] ex_a 3 1 2); try reflexivity.
  - apply isort_sorts.
  - intros l. apply Permutation_refl.
  - discriminate.
  - discriminate.
  - intros f If. apply ex_log_ok; [now left|exact If].
  - right. split; [intros v [=]|]. split; discriminate.
  - exact ex_columns.
  - apply ex_wf. now left.
  - intros f x b [ <- |[]] [ <- |[ <- |[]]] [ <- |[]]; apply ex_wf; cbn; tauto.
Qed.
Example C36_case_value : ex_read_slice (ex_at "20250102000000000") ex_slice
  = Ok {| rb_fields := ex_sch; rb_rows := [ex_row "20250102000000000" "3" "a" 9; ex_row "20250101000000000" "2" "b" 7] |}.
Proof. vm_compute. reflexivity. Qed.
Example C36_times_case : in_utc (ex_at "20250102000000000") /\ read_start (ex_at "20250102000000000") = None
  /\ read_end (ex_at "20250102000000000") = Some (render {| c_year := 2025; c_month := 1; c_day := 2; c_hour := 0; c_min := 0; c_sec := 0; c_ms := Some 0%Z |}).
Proof. split; [intros v [=]|split; reflexivity]. Qed.
