(** Model of crates/core/src/merge/record_merger.rs, util/arrow.rs and file_group/reader.rs. *)
From Verif Require Import Base Str M_Time M_Timeline M_FileGroup M_Expr M_Log M_Config.
Local Open Scope string_scope.

(** ** Record batches, by rows.  Arrow types and values are reduced to what is compared here: floats
    and the values of other types are represented by their rank in the order of the Arrow row format
    (for floats the IEEE total order). *)
Inductive ctype := TBool | TInt | TFloat | TUtf8 | TOther (n : nat) | TMap.
Inductive cell := Null | VBool (b : bool) | VInt (z : Z) | VFloat (rank : Z) | VText (s : string) | VOther (n : nat) (rank : Z).
Record field := { f_name : string; f_type : ctype; f_null : bool }.
Record record_batch := { rb_fields : list field; rb_rows : list (list cell) }.

Definition ctype_eqb (a b : ctype) : bool :=
  match a, b with
  | TBool, TBool | TInt, TInt | TFloat, TFloat | TUtf8, TUtf8 | TMap, TMap => true
  | TOther n, TOther m => Nat.eqb n m
  | _, _ => false
  end.
(** [RecordBatch::num_rows], [Schema::index_of]: the first field of that name *)
Fixpoint index_of (fields : list field) (name : string) : outcome nat :=
  match fields with
  | [] => Err EArrow
  | f :: r => if String.eqb (f_name f) name then Ok O else let* i := index_of r name in Ok (S i)
  end.
Definition cell_of (i : nat) (row : list cell) : cell := nth i row Null.
Definition type_of (fields : list field) (i : nat) : option ctype := option_map f_type (nth_error fields i).

(** arrow_select::concat::concat_batches: columns are matched by position; a batch with too few
    columns panics, different types of a column are an error, and so are nulls in a column that the
    schema declares without nulls ([RecordBatch::try_new]).  With an empty schema the number of rows
    is kept. *)
Fixpoint concat_columns (n : nat) (i : nat) (batches : list record_batch) : outcome (list ctype) :=
  match n with
  | O => Ok []
  | S n' =>
      let* types := mapM (fun b => match type_of (rb_fields b) i with Some t => Ok t | None => Panic end) batches in
      let* t := match types with
                | [] => Err EArrow
                | t :: r => if forallb (ctype_eqb t) r then Ok t else Err EArrow
                end in
      let* rest := concat_columns n' (S i) batches in
      Ok (t :: rest)
  end.
Definition row_fits (sch : list field) (row : list cell) : bool :=
  forallb (fun fc => match snd fc with Null => f_null (fst fc) | _ => true end) (combine sch row).
Definition concat_batches (sch : list field) (batches : list record_batch) : outcome record_batch :=
  let rows := List.concat (map (fun b => map (firstn (List.length sch)) (rb_rows b)) batches) in
  match batches with
  | [] => Ok {| rb_fields := sch; rb_rows := [] |}
  | _ =>
      let* types := concat_columns (List.length sch) 0 batches in
      if forallb (fun ft => ctype_eqb (f_type (fst ft)) (snd ft)) (combine sch types) && forallb (row_fits sch) rows
      then Ok {| rb_fields := sch; rb_rows := rows |} else Err EArrow
  end.

(** ** util/arrow.rs:55-69 [lexsort_to_indices] *)
(** the order of the row format with default options: ascending, nulls first; values of one column
    have one type, the order between types is immaterial *)
Definition cell_tag (c : cell) : Z := match c with Null => 0 | VBool _ => 1 | VInt _ => 2 | VFloat _ => 3 | VText _ => 4 | VOther _ _ => 5 end.
Definition cell_cmp (a b : cell) : comparison :=
  match a, b with
  | VBool x, VBool y => Z.compare (if x then 1 else 0) (if y then 1 else 0)
  | VInt x, VInt y => Z.compare x y
  | VFloat x, VFloat y => Z.compare x y
  | VText x, VText y => scmp x y
  | VOther _ x, VOther _ y => Z.compare x y
  | _, _ => Z.compare (cell_tag a) (cell_tag b)
  end.
Definition row_cmp (a b : cell * cell) : comparison :=
  match cell_cmp (fst a) (fst b) with Eq => cell_cmp (snd a) (snd b) | c => c end.
(** the row format does not support maps: [RowConverter::new(..).unwrap()] panics *)
Definition sortable (t : option ctype) : bool := match t with Some TMap => false | _ => true end.

Section Merge.
(** [sort_unstable_by]: any order that the comparison allows. *)
Variable sort : (nat * (cell * cell) -> nat * (cell * cell) -> comparison) -> list (nat * (cell * cell)) -> list (nat * (cell * cell)).
(** Iteration over a [HashMap]: any order. *)
Variable iter : list (string * nat) -> list (string * nat).

(** indices are [u32] in the code: batches with 2^32 rows or more are not modelled *)
Definition lexsort_to_indices (types : list (option ctype)) (rows : list (cell * cell)) : outcome (list nat) :=
  if forallb sortable types
  then Ok (map fst (sort (fun x y => row_cmp (snd y) (snd x)) (combine (seq 0 (List.length rows)) rows)))
  else Panic.

(** ** merge/record_merger.rs:116-133: the first index of each key; [StringArray::value] of a null
    gives the empty string *)
Definition key_text (c : cell) : string := match c with VText s => s | _ => "" end.
Fixpoint keep_first (key : nat -> string) (indices : list nat) (kept : list (string * nat)) : list (string * nat) :=
  match indices with
  | [] => kept
  | i :: r =>
      keep_first key r (if existsb (fun e => String.eqb (fst e) (key i)) kept then kept else (kept ++ [(key i, i)])%list)
  end.

(** record_merger.rs:82-137 *)
Definition merge_record_batches (configs : options) (sch : list field) (batches : list record_batch) : outcome record_batch :=
  match batches with
  | [] => Ok {| rb_fields := sch; rb_rows := [] |}
  | _ =>
      let* strategy := merge_strategy configs in
      if String.eqb strategy "append_only" then concat_batches sch batches
      else
        let* all := concat_batches sch batches in
        match rb_rows all with
        | [] => Ok all
        | _ =>
            let* precombine := precombine_field configs in
            let* p := index_of (rb_fields all) precombine in
            let* s := index_of (rb_fields all) "_hoodie_commit_seqno" in
            let* sorted := lexsort_to_indices [type_of (rb_fields all) p; type_of (rb_fields all) s]
                             (map (fun r => (cell_of p r, cell_of s r)) (rb_rows all)) in
            let* k := index_of (rb_fields all) "_hoodie_record_key" in
            if match type_of (rb_fields all) k with Some TUtf8 => true | _ => false end then
              let row i := nth i (rb_rows all) [] in
              let kept := keep_first (fun i => key_text (cell_of k (row i))) sorted [] in
              Ok {| rb_fields := sch; rb_rows := map (fun e => row (snd e)) (iter kept) |}
            else Err EArrow
        end
  end.

(** ** file_group/reader.rs *)
(** metadata/meta_field.rs:72-79 *)
Definition meta_schema : list (string * ctype) :=
  [("_hoodie_commit_time", TUtf8); ("_hoodie_commit_seqno", TUtf8); ("_hoodie_record_key", TUtf8);
   ("_hoodie_partition_path", TUtf8); ("_hoodie_file_name", TUtf8)].
(** casts and comparisons of text, the only type of the meta fields *)
Definition cast_text (t : ctype) (s : string) : option cell := match t with TUtf8 => Some (VText s) | _ => None end.
Definition cmp_text (a b : cell) : option comparison := match a, b with VText x, VText y => Some (scmp x y) | _, _ => None end.
Definition commit_time_filter (op value : string) : outcome (schemable ctype cell) :=
  let* f := filter_of_tuple ("_hoodie_commit_time", op, value) in
  schemable_of ctype cell cast_text meta_schema f.
(** a comparison kernel on a column and a scalar: nulls stay null; other types are an error *)
Definition compare_column (f : schemable ctype cell) (t : option ctype) (column : list cell) : outcome (list (option bool)) :=
  match t with
  | Some TUtf8 => mapM (fun c => match c with Null => Ok None | _ => let* b := apply_comparison ctype cell cmp_text f c in Ok (Some b) end) column
  | _ => Err EArrow
  end.
(** [arrow::compute::and] *)
Definition and_null (a b : option bool) : option bool :=
  match a, b with Some x, Some y => Some (x && y) | _, _ => None end.
Fixpoint mask_of (records : record_batch) (filters : list (schemable ctype cell)) (mask : list (option bool)) : outcome (list (option bool)) :=
  match filters with
  | [] => Ok mask
  | f :: r =>
      let* i := match index_of (rb_fields records) (sf_name _ _ f) with Ok i => Ok i | _ => Err EReadFileSlice end in
      let* c := compare_column f (type_of (rb_fields records) i) (map (cell_of i) (rb_rows records)) in
      mask_of records r (map (fun ab => and_null (fst ab) (snd ab)) (combine mask c))
  end.
(** reader.rs:88-144 [create_filtering_mask_for_base_file_records] *)
Definition create_mask (configs : options) (records : record_batch) : outcome (option (list (option bool))) :=
  let* populated := populates_meta configs in
  if negb populated then Ok None else
  let* start := start_timestamp configs in
  match start with
  | None => Ok None
  | Some start =>
      let* f := commit_time_filter ">" start in
      let* stop := end_timestamp configs in
      let* g := match stop with
                | Some e => let* g := commit_time_filter "<=" e in Ok [g]
                | None => Ok []
                end in
      let* mask := mask_of records (f :: g) (map (fun _ => Some true) (rb_rows records)) in
      Ok (Some mask)
  end.
(** [filter_record_batch]: a null drops the row *)
Fixpoint filter_rows (rows : list (list cell)) (mask : list (option bool)) : list (list cell) :=
  match rows, mask with
  | r :: rs, Some true :: ms => r :: filter_rows rs ms
  | _ :: rs, _ :: ms => filter_rows rs ms
  | _, _ => []
  end.
Definition filter_record_batch (records : record_batch) (mask : list (option bool)) : record_batch :=
  {| rb_fields := rb_fields records; rb_rows := filter_rows (rb_rows records) mask |}.

(** [Storage::get_parquet_file_data] *)
Variable read_parquet : string -> outcome record_batch.
(** reader.rs:153-170 *)
Definition read_base_file (configs : options) (path : string) : outcome record_batch :=
  let* records := match read_parquet path with Err _ => Err EReadFileSlice | o => o end in
  let* mask := create_mask configs records in
  Ok (match mask with Some mask => filter_record_batch records mask | None => records end).

(** Decoders of log blocks and the log file bytes, see M_Log. *)
Variable avro_schema avro_value : Type.
Variable parse_schema : string -> option avro_schema.
Variable datum : avro_schema -> string -> option (avro_value * string).
Variable check_schema : avro_schema -> outcome unit.
Variable to_batch : avro_schema -> list avro_value -> outcome record_batch.
Variable parquet : string -> option (list record_batch).
Variable local_to_utc : ndt -> option ndt.
Variable fetch : string -> outcome string.

(** reader.rs:172-186 [create_instant_range_for_log_file_scan] *)
Definition log_range (configs : options) : outcome instant_range :=
  let* tz := timeline_timezone configs in
  let* start := start_timestamp configs in
  let* stop := end_timestamp configs in
  Ok {| r_timezone := tz; r_start := start; r_end := stop; r_start_incl := false; r_end_incl := true |}.
(** reader.rs:194-227 [read_file_slice]; the scanner uses the time zone of the configurations
    (log_file/reader.rs:55-58) *)
Definition read_file_slice (configs : options) (slice : file_slice) : outcome record_batch :=
  let path := base_relative_path slice in
  let* base_only := if negb (has_log_file slice) then Ok true else read_optimized configs in
  if base_only then read_base_file configs path
  else
    let* base := read_base_file configs path in
    let* range := log_range configs in
    let* tz := timeline_timezone configs in
    let* logs := scan avro_schema avro_value record_batch parse_schema datum check_schema to_batch parquet local_to_utc
                   fetch range tz (map (log_relative_path slice) (fs_logs slice)) in
    merge_record_batches configs (rb_fields base) (base :: List.concat logs).
End Merge.
