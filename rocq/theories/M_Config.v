(** Model of crates/core/src/config/{mod,table,read,internal,util}.rs, merge/mod.rs (strategy names)
    and the option resolution and validation of table/builder.rs. *)
From Verif Require Import Base Str M_Utf8.
Local Open Scope string_scope.

(** ** [HashMap<String, String>]: an association list with distinct keys *)
Definition options := list (string * string).
Fixpoint oget (k : string) (m : options) : option string :=
  match m with
  | [] => None
  | (k', v) :: r => if String.eqb k' k then Some v else oget k r
  end.
Definition ohas (k : string) (m : options) : bool := match oget k m with Some _ => true | None => false end.
(** [HashMap::insert] *)
Fixpoint oput (k v : string) (m : options) : options :=
  match m with
  | [] => [(k, v)]
  | (k', v') :: r => if String.eqb k' k then (k', v) :: r else (k', v') :: oput k v r
  end.
(** [HashMap::extend] / [collect] *)
Fixpoint oputs (l : list (string * string)) (m : options) : options :=
  match l with [] => m | (k, v) :: r => oputs r (oput k v m) end.

(** ** Values, config/mod.rs:82-95 *)
Inductive cval :=
| CBool (b : bool)
| CInt (n : Z)
| CUInt (n : Z)
| CStr (s : string)
| CList (l : list string).

(** [bool::from_str] *)
Definition parse_bool (s : string) : option bool :=
  if String.eqb s "true" then Some true else if String.eqb s "false" then Some false else None.
(** [isize::from_str] on a 64-bit target: an optional sign, then at least one digit *)
Definition parse_isize (s : string) : option Z :=
  match s with
  | String c r =>
      if Ascii.eqb c "-" then
        match r with
        | EmptyString => None
        | _ => match parse_digits 0 r with
               | Some v => if (v <=? 9223372036854775808)%Z then Some (- v)%Z else None
               | None => None
               end
        end
      else parse_unsigned 9223372036854775807 s
  | EmptyString => None
  end.

(** config/table.rs:46-117 *)
Inductive table_config :=
| BaseFileFormat | BasePath | Checksum | DatabaseName | DropsPartitionFields | IsHiveStylePartitioning
| IsPartitionPathUrlencoded | KeyGeneratorClass | PartitionFields | PrecombineField | PopulatesMetaFields
| RecordKeyFields | RecordMergeStrategy | TableName | TableType | TableVersion | TimelineLayoutVersion | TimelineTimezone.
(** config/table.rs:119-142 *)
Definition table_key (c : table_config) : string :=
  match c with
  | BaseFileFormat => "hoodie.table.base.file.format"
  | BasePath => "hoodie.base.path"
  | Checksum => "hoodie.table.checksum"
  | DatabaseName => "hoodie.database.name"
  | DropsPartitionFields => "hoodie.datasource.write.drop.partition.columns"
  | IsHiveStylePartitioning => "hoodie.datasource.write.hive_style_partitioning"
  | IsPartitionPathUrlencoded => "hoodie.datasource.write.partitionpath.urlencode"
  | KeyGeneratorClass => "hoodie.table.keygenerator.class"
  | PartitionFields => "hoodie.table.partition.fields"
  | PrecombineField => "hoodie.table.precombine.field"
  | PopulatesMetaFields => "hoodie.populate.meta.fields"
  | RecordKeyFields => "hoodie.table.recordkey.fields"
  | RecordMergeStrategy => "hoodie.table.record.merge.strategy"
  | TableName => "hoodie.table.name"
  | TableType => "hoodie.table.type"
  | TableVersion => "hoodie.table.version"
  | TimelineLayoutVersion => "hoodie.timeline.layout.version"
  | TimelineTimezone => "hoodie.table.timeline.timezone"
  end.
(** config/read.rs:44-64 and 65-75 *)
Inductive read_config := FileGroupStartTimestamp | FileGroupEndTimestamp | InputPartitions | ListingParallelism | UseReadOptimizedMode.
Definition read_key (c : read_config) : string :=
  match c with
  | FileGroupStartTimestamp => "hoodie.read.file_group.start_timestamp"
  | FileGroupEndTimestamp => "hoodie.read.file_group.end_timestamp"
  | InputPartitions => "hoodie.read.input.partitions"
  | ListingParallelism => "hoodie.read.listing.parallelism"
  | UseReadOptimizedMode => "hoodie.read.use.read_optimized.mode"
  end.
(** config/internal.rs:42-53 *)
Definition skip_validation_key : string := "hoodie.internal.skip.config.validation".

(** [configs.get(key).ok_or(NotFound)] *)
Definition raw (m : options) (k : string) : outcome string := ok_or (oget k m) EConfigNotFound.
Definition as_string (m : options) (k : string) : outcome cval := let* v := raw m k in Ok (CStr v).
Definition as_bool (m : options) (k : string) : outcome cval := let* v := raw m k in let* b := ok_or (parse_bool v) EConfigParse in Ok (CBool b).
Definition as_int (m : options) (k : string) : outcome cval := let* v := raw m k in let* n := ok_or (parse_isize v) EConfigParse in Ok (CInt n).
Definition as_uint (m : options) (k : string) : outcome cval := let* v := raw m k in let* n := ok_or (parse_usize v) EConfigParse in Ok (CUInt n).
Definition as_list (m : options) (k : string) : outcome cval := let* v := raw m k in Ok (CList (split "," v)).

(** config/table.rs:294-305 [TableTypeValue::from_str], with the canonical name ([AsRef]) as value *)
Definition table_type_of (s : string) : outcome string :=
  let v := to_ascii_lowercase s in
  if String.eqb v "copy_on_write" || String.eqb v "copy-on-write" || String.eqb v "cow" then Ok "COPY_ON_WRITE"
  else if String.eqb v "merge_on_read" || String.eqb v "merge-on-read" || String.eqb v "mor" then Ok "MERGE_ON_READ"
  else Err EConfigInvalid.
(** config/table.rs:314-324 *)
Definition base_file_format_of (s : string) : outcome string :=
  let v := to_ascii_lowercase s in
  if String.eqb v "parquet" then Ok "parquet" else if String.eqb v "orc" then Err EConfigUnsupported else Err EConfigInvalid.
(** config/table.rs:341-351 *)
Definition timezone_of (s : string) : outcome string :=
  let v := to_ascii_lowercase s in
  if String.eqb v "utc" then Ok "utc" else if String.eqb v "local" then Ok "local" else Err EConfigInvalid.
(** merge/mod.rs:36-46 *)
Definition merge_strategy_of (s : string) : outcome string :=
  let v := to_ascii_lowercase s in
  if String.eqb v "append_only" then Ok "append_only"
  else if String.eqb v "overwrite_with_latest" then Ok "overwrite_with_latest"
  else Err EConfigInvalid.

(** config/table.rs:173-246 [parse_value] *)
Definition table_value (c : table_config) (m : options) : outcome cval :=
  let k := table_key c in
  match c with
  | BaseFileFormat => let* v := raw m k in let* v := base_file_format_of v in Ok (CStr v)
  | BasePath | DatabaseName | KeyGeneratorClass | PrecombineField | TableName => as_string m k
  | Checksum | TableVersion | TimelineLayoutVersion => as_int m k
  | DropsPartitionFields | IsHiveStylePartitioning | IsPartitionPathUrlencoded | PopulatesMetaFields => as_bool m k
  | PartitionFields | RecordKeyFields => as_list m k
  | RecordMergeStrategy => let* v := raw m k in let* v := merge_strategy_of v in Ok (CStr v)
  | TableType => let* v := raw m k in let* v := table_type_of v in Ok (CStr v)
  | TimelineTimezone => let* v := raw m k in let* v := timezone_of v in Ok (CStr v)
  end.
(** config/table.rs:153-167 [default_value] *)
Definition table_default (c : table_config) : option cval :=
  match c with
  | BaseFileFormat => Some (CStr "parquet")
  | DatabaseName => Some (CStr "default")
  | DropsPartitionFields => Some (CBool false)
  | PartitionFields => Some (CList [])
  | PopulatesMetaFields => Some (CBool true)
  | TimelineTimezone => Some (CStr "utc")
  | _ => None
  end.
(** config/read.rs:86-93 and 95-124 *)
Definition read_default (c : read_config) : option cval :=
  match c with
  | InputPartitions => Some (CUInt 0)
  | ListingParallelism => Some (CUInt 10)
  | UseReadOptimizedMode => Some (CBool false)
  | _ => None
  end.
Definition read_value (c : read_config) (m : options) : outcome cval :=
  let k := read_key c in
  match c with
  | FileGroupStartTimestamp | FileGroupEndTimestamp => as_string m k
  | InputPartitions | ListingParallelism => as_uint m k
  | UseReadOptimizedMode => as_bool m k
  end.

(** config/mod.rs:71-79 [parse_value_or_default]: any error gives the default; a missing default panics *)
Definition or_default (v : outcome cval) (d : option cval) : outcome cval :=
  match v with
  | Ok x => Ok x
  | _ => match d with Some x => Ok x | None => Panic end
  end.
(** config/mod.rs:97-162 [to::<T>()]: panics on another variant *)
Definition to_bool (v : cval) : outcome bool := match v with CBool b => Ok b | _ => Panic end.
Definition to_isize (v : cval) : outcome Z := match v with CInt n => Ok n | _ => Panic end.
Definition to_usize (v : cval) : outcome Z := match v with CUInt n => Ok n | _ => Panic end.
Definition to_list (v : cval) : outcome (list string) := match v with CList l => Ok l | _ => Panic end.
(** [to_string] of numbers and booleans is only used on string values here: not modelled *)
Definition to_string (v : cval) : outcome string := match v with CStr s => Ok s | _ => Panic end.

(** config/mod.rs:222-229 [get_or_default], with config/table.rs:248-284 for table options *)
Definition table_or_default (c : table_config) (m : options) : outcome cval :=
  match table_value c m with
  | Ok x => Ok x
  | _ =>
      match c with
      | RecordMergeStrategy =>
          let* p := or_default (table_value PopulatesMetaFields m) (table_default PopulatesMetaFields) in
          let* p := to_bool p in
          if negb p then Ok (CStr "append_only")
          else if negb (ohas (table_key PrecombineField) m) then Ok (CStr "append_only")
          else Ok (CStr "overwrite_with_latest")
      | _ => match table_default c with Some x => Ok x | None => Panic end
      end
  end.
Definition read_or_default (c : read_config) (m : options) : outcome cval := or_default (read_value c m) (read_default c).
(** config/mod.rs:231-243 [try_get] *)
Definition table_try (c : table_config) (m : options) : option cval :=
  match table_value c m with Ok v => Some v | _ => table_default c end.
Definition read_try (c : read_config) (m : options) : option cval :=
  match read_value c m with Ok v => Some v | _ => read_default c end.

(** ** Validation *)
(** config/table.rs:169-171 *)
Definition required (c : table_config) : bool := match c with TableName | TableType | TableVersion => true | _ => false end.
(** config/mod.rs:53-65 [validate] *)
Definition validate (req : bool) (v : outcome cval) : outcome unit :=
  match v with
  | Ok _ => Ok tt
  | Err e => match req, e with false, EConfigNotFound => Ok tt | _, _ => Err e end
  | Panic => Panic
  end.
(** the order of the enumerations ([strum::EnumIter]) *)
Definition all_table_configs : list table_config :=
  [BaseFileFormat; BasePath; Checksum; DatabaseName; DropsPartitionFields; IsHiveStylePartitioning;
   IsPartitionPathUrlencoded; KeyGeneratorClass; PartitionFields; PrecombineField; PopulatesMetaFields;
   RecordKeyFields; RecordMergeStrategy; TableName; TableType; TableVersion; TimelineLayoutVersion; TimelineTimezone].
Definition all_read_configs : list read_config :=
  [FileGroupStartTimestamp; FileGroupEndTimestamp; InputPartitions; ListingParallelism; UseReadOptimizedMode].

(** merge/record_merger.rs:45-79 [RecordMerger::validate_configs] *)
Definition validate_merge (m : options) : outcome unit :=
  let* s := table_or_default RecordMergeStrategy m in
  let* s := to_string s in
  let* s := merge_strategy_of s in
  let* p := table_or_default PopulatesMetaFields m in
  let* p := to_bool p in
  if negb p && negb (String.eqb s "append_only") then Err EConfigInvalid else
  match table_try PrecombineField m with
  | None => if String.eqb s "overwrite_with_latest" then Err EConfigInvalid else Ok tt
  | Some _ => Ok tt
  end.

(** table/builder.rs:238-283 [validate_configs] *)
Definition validate_configs (m : options) : outcome unit :=
  let* skip := or_default (as_bool m skip_validation_key) (Some (CBool false)) in
  let* skip := to_bool skip in
  if skip then Ok tt else
  let* _ := mapM (fun c => validate (required c) (table_value c m)) all_table_configs in
  let* _ := mapM (fun c => validate false (read_value c m)) all_read_configs in
  let* v := table_value TableVersion m in
  let* v := to_isize v in
  if negb ((5 <=? v)%Z && (v <=? 6)%Z) then Err EUnsupported else
  let* v := table_value TimelineLayoutVersion m in
  let* v := to_isize v in
  if negb (v =? 1)%Z then Err EUnsupported else
  let* d := table_or_default DropsPartitionFields m in
  let* d := to_bool d in
  if d then Err EUnsupported else
  validate_merge m.

(** ** Properties files, config/util.rs:53-80 *)
(** [BufRead::lines]: pieces that end with a line feed, which is removed with a carriage return
    before it, and a last piece without one; an error for a line that is not UTF-8 *)
Definition strip_cr (l : string) : string :=
  match rsplit_once "013" l with Some (a, EmptyString) => a | _ => l end.
Fixpoint lines_of (pieces : list string) : list string :=
  match pieces with
  | [] => []
  | [last] => if String.eqb last "" then [] else [last]
  | p :: r => strip_cr p :: lines_of r
  end.
Definition lines (data : string) : list string := lines_of (split "010" data).
(** [splitn(2, |c| split_chars.contains(c))] *)
Fixpoint split_any (chars s : string) : option (string * string) :=
  match s with
  | EmptyString => None
  | String c r =>
      if has_char c chars then Some ("", r)
      else match split_any chars r with Some (a, b) => Some (String c a, b) | None => None end
  end.
(** one line: nothing for blank lines and comments *)
Definition parse_line (chars line : string) : option (string * string) :=
  let t := trim line in
  if String.eqb t "" || starts_with "#" t then None
  else match split_any chars t with
       | Some (k, v) => Some (trim k, trim v)
       | None => Some (trim t, "")
       end.
Fixpoint parse_lines (chars : string) (ls : list string) (m : options) : outcome options :=
  match ls with
  | [] => Ok m
  | l :: r =>
      if utf8_valid l then
        match parse_line chars l with
        | Some (k, v) => parse_lines chars r (oput k v m)
        | None => parse_lines chars r m
        end
      else Err EConfigParse
  end.
Definition parse_data (chars data : string) : outcome options := parse_lines chars (lines data) [].

(** ** Option resolution, table/builder.rs:107-236 *)
Section Resolve.
(** Iteration over a [HashMap]: any order. *)
Variable iter : options -> list (string * string).

(** config/util.rs:33-51 [split_hudi_options_from_others] *)
Definition is_hudi (k : string) : bool := starts_with "hoodie." k.
Fixpoint split_options (l : list (string * string)) (hudi others : options) : options * options :=
  match l with
  | [] => (hudi, others)
  | (k, v) :: r => if is_hudi k then split_options r (oput k v hudi) others else split_options r hudi (oput k v others)
  end.
(** builder.rs:285-293 [extend_if_absent] *)
Fixpoint put_if_absent (l : list (string * string)) (m : options) : options :=
  match l with
  | [] => m
  | (k, v) :: r => put_if_absent r (if ohas k m then m else oput k v m)
  end.

(** table/builder.rs:44-51 *)
Record builder := { b_base : string; b_hudi : options; b_storage : options; b_options : options }.

(** builder.rs:149-164 [resolve_user_provided_options] *)
Definition resolve_user (b : builder) : builder :=
  let hudi := oput (table_key BasePath) (b_base b) (b_hudi b) in
  let (gh, go) := split_options (iter (b_options b)) [] [] in
  {| b_base := b_base b; b_hudi := put_if_absent (iter gh) hudi; b_storage := put_if_absent (iter go) (b_storage b);
     b_options := b_options b |}.
(** builder.rs:166-176 [resolve_cloud_env_vars], storage/mod.rs:60 *)
Definition is_cloud (k : string) : bool := starts_with "AWS_" k || starts_with "AZURE_" k || starts_with "GOOGLE_" k.
Fixpoint cloud_vars (env : list (string * string)) (storage : options) : options :=
  match env with
  | [] => storage
  | (k, v) :: r =>
      let k' := to_ascii_lowercase k in
      cloud_vars r (if is_cloud k && negb (ohas k' storage) then oput k' v storage else storage)
  end.
Definition resolve_env (env : list (string * string)) (b : builder) : builder :=
  {| b_base := b_base b; b_hudi := b_hudi b; b_storage := cloud_vars env (b_storage b); b_options := b_options b |}.
(** builder.rs:197-211 [imbue_table_properties]; [file] is the content of .hoodie/hoodie.properties *)
Definition imbue_properties (file : outcome string) (hudi : options) : outcome options :=
  let* data := file in
  let* props := parse_data "=" data in
  Ok (oputs (iter props) hudi).
(** builder.rs:213-236 [imbue_global_hudi_configs_if_absent]; errors are ignored *)
Definition imbue_global (file : outcome string) (hudi : options) : options :=
  match file with
  | Ok data =>
      match parse_data (String " " (String "009" "=")) data with
      | Ok conf => put_if_absent (filter (fun kv => is_hudi (fst kv)) (iter conf)) hudi
      | _ => hudi
      end
  | _ => hudi
  end.
(** builder.rs:131-147 and 178-195 [resolve_options], [resolve_hudi_options]; the storage options and
    the hudi options determine the storage that the files are read from *)
Definition resolve (env : list (string * string)) (open : options -> options -> outcome unit)
    (properties global : options -> options -> outcome string) (b : builder) : outcome builder :=
  let b := resolve_env env (resolve_user b) in
  let* _ := open (b_storage b) (b_hudi b) in
  let* hudi := imbue_properties (properties (b_storage b) (b_hudi b)) (b_hudi b) in
  let hudi := imbue_global (global (b_storage b) (b_hudi b)) hudi in
  Ok {| b_base := b_base b; b_hudi := hudi; b_storage := b_storage b; b_options := b_options b |}.

(** ** Options of a file group reader *)
(** file_group/reader.rs:48-67 [new_with_configs_and_options]: hudi options and storage options *)
Definition reader_options (table : options) (opts : list (string * string)) : options * options :=
  let (hudi, others) := split_options opts [] [] in
  (oputs (iter hudi) table, others).
(** table/mod.rs:383-403 [create_file_group_reader_with_options] *)
Definition table_reader_options (table storage : options) (opts : list (string * string)) : options * options :=
  reader_options table (iter (oputs opts (oputs (iter storage) []))).
End Resolve.

(** ** Lookups made while a table is queried *)
(** table/partition.rs:35-50 *)
Definition is_table_partitioned (m : options) : outcome bool :=
  let* f := table_or_default PartitionFields m in
  let* f := to_list f in
  let* non := match table_try KeyGeneratorClass m with
              | Some v => let* s := to_string v in Ok (String.eqb s "org.apache.hudi.keygen.NonpartitionedKeyGenerator")
              | None => Ok false
              end in
  Ok (match f with [] => false | _ => negb non end).
(** table/partition.rs:72-77, in [PartitionPruner::new]: hive-style and URL-encoded flags *)
Definition pruner_flags (m : options) : outcome (bool * bool) :=
  let* h := table_or_default IsHiveStylePartitioning m in
  let* h := to_bool h in
  let* u := table_or_default IsPartitionPathUrlencoded m in
  let* u := to_bool u in
  Ok (h, u).
(** table/mod.rs:190-194, timeline/selector.rs:148-153, file_group/reader.rs:172-176 *)
Definition timeline_timezone (m : options) : outcome string := let* v := table_or_default TimelineTimezone m in to_string v.
(** table/mod.rs:209-212 *)
Definition partition_fields (m : options) : outcome (list string) := let* v := table_or_default PartitionFields m in to_list v.
(** table/listing.rs:64-67 and 167-170 *)
Definition base_format (m : options) : outcome string := let* v := table_or_default BaseFileFormat m in to_string v.
Definition listing_parallelism (m : options) : outcome Z := let* v := read_or_default ListingParallelism m in to_usize v.
(** crates/datafusion/src/lib.rs:100-105 *)
Definition input_partitions (m : options) : outcome Z := let* v := read_or_default InputPartitions m in to_usize v.
(** file_group/reader.rs:92-95, 103-106, 119-122, 197-200 *)
Definition populates_meta (m : options) : outcome bool := let* v := table_or_default PopulatesMetaFields m in to_bool v.
Definition start_timestamp (m : options) : outcome (option string) :=
  match read_try FileGroupStartTimestamp m with Some v => let* s := to_string v in Ok (Some s) | None => Ok None end.
Definition end_timestamp (m : options) : outcome (option string) :=
  match read_try FileGroupEndTimestamp m with Some v => let* s := to_string v in Ok (Some s) | None => Ok None end.
Definition read_optimized (m : options) : outcome bool := let* v := read_or_default UseReadOptimizedMode m in to_bool v.
(** merge/record_merger.rs:91-95 and 107 *)
Definition merge_strategy (m : options) : outcome string :=
  let* v := table_or_default RecordMergeStrategy m in let* s := to_string v in merge_strategy_of s.
Definition precombine_field (m : options) : outcome string := let* v := table_value PrecombineField m in to_string v.
(** table/mod.rs:170-188: [expect] turns an error into a panic *)
Definition expect {A} (o : outcome A) : outcome A := match o with Err _ => Panic | _ => o end.
Definition table_name (m : options) : outcome string := let* v := expect (table_value TableName m) in to_string v.
Definition table_type (m : options) : outcome string := let* v := expect (table_value TableType m) in to_string v.
Definition is_mor (m : options) : outcome bool := let* t := table_type m in Ok (String.eqb t "MERGE_ON_READ").
