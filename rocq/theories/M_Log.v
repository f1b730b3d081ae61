(** Model of crates/core/src/file_group/log_file/{log_format,log_block,reader,content,avro,scanner}.rs.
    A file is a string of bytes; a reader is the rest of the bytes. *)
From Verif Require Import Base Str M_Utf8 M_Time M_Timeline.
Local Open Scope string_scope.

(** log_format.rs:22 *)
Definition MAGIC : string := "#HUDI#".
(** log_format.rs:24-31 *)
Inductive log_version := V0 | V1 | V2 | V3.
(** log_format.rs:42-57 *)
Definition version_of (n : N) : outcome log_version :=
  match n with
  | 0%N => Ok V0 | 1%N => Ok V1 | 2%N => Ok V2 | 3%N => Ok V3
  | _ => Err ELogFormat
  end.
(** log_format.rs:59-83 *)
Definition has_block_type (v : log_version) : bool := match v with V0 => false | _ => true end.
Definition has_header (v : log_version) : bool := match v with V0 => false | _ => true end.
Definition has_content_length (v : log_version) : bool := match v with V0 => false | _ => true end.
Definition has_footer (v : log_version) : bool := match v with V1 => true | _ => false end.
Definition has_total_log_block_length (v : log_version) : bool := match v with V1 => true | _ => false end.

(** log_block.rs:27-37 *)
Inductive block_type := Command | Delete | Corrupted | AvroData | HfileData | ParquetData | CdcData.
(** log_block.rs:71-91 *)
Definition block_type_of (n : N) : outcome block_type :=
  match n with
  | 0%N => Ok Command | 1%N => Ok Delete | 2%N => Ok Corrupted | 3%N => Ok AvroData
  | 4%N => Ok HfileData | 5%N => Ok ParquetData | 6%N => Ok CdcData
  | _ => Err ELogFormat
  end.
(** log_block.rs:99-109 *)
Inductive meta_key := InstantTime | TargetInstantTime | Schema | CommandBlockType | CompactedBlockTimes
  | RecordPositions | BlockIdentifier.
(** log_block.rs:111-130 *)
Definition meta_key_of (n : N) : outcome meta_key :=
  match n with
  | 0%N => Ok InstantTime | 1%N => Ok TargetInstantTime | 2%N => Ok Schema | 3%N => Ok CommandBlockType
  | 4%N => Ok CompactedBlockTimes | 5%N => Ok RecordPositions | 6%N => Ok BlockIdentifier
  | _ => Err ELogFormat
  end.
Definition meta_key_eqb (a b : meta_key) : bool :=
  match a, b with
  | InstantTime, InstantTime | TargetInstantTime, TargetInstantTime | Schema, Schema
  | CommandBlockType, CommandBlockType | CompactedBlockTimes, CompactedBlockTimes
  | RecordPositions, RecordPositions | BlockIdentifier, BlockIdentifier => true
  | _, _ => false
  end.

(** [HashMap<BlockMetadataKey, String>]: one entry per key. *)
Definition metadata := list (meta_key * string).
Fixpoint meta_insert (k : meta_key) (v : string) (m : metadata) : metadata :=
  match m with
  | [] => [(k, v)]
  | (k', v') :: r => if meta_key_eqb k' k then (k', v) :: r else (k', v') :: meta_insert k v r
  end.
Fixpoint meta_get (k : meta_key) (m : metadata) : option string :=
  match m with
  | [] => None
  | (k', v) :: r => if meta_key_eqb k' k then Some v else meta_get k r
  end.

(** ** Reading bytes *)
(** [uN::from_be_bytes] *)
Fixpoint be_acc (acc : N) (s : string) : N :=
  match s with
  | EmptyString => acc
  | String c r => be_acc (acc * 256 + N_of_ascii c) r
  end.
Definition be (s : string) : N := be_acc 0 s.
(** [Read::take(n)]: the bytes the limited reader sees, and those after them. *)
Definition split_at (n : N) (s : string) : string * string :=
  if (N.of_nat (String.length s) <=? n)%N then (s, "") else (take (N.to_nat n) s, drop (N.to_nat n) s).
(** [Read::read_exact] into a buffer of [n] bytes; fewer bytes are an [UnexpectedEof] error *)
Definition read_exact (n : N) (s : string) : outcome (string * string) :=
  if (N.of_nat (String.length s) <? n)%N then Err EIo else Ok (split_at n s).
(** reader.rs:100-104, 139-143, 155-156, 185-187, 192-193, 214-216 and content.rs:56-58, 88-99 *)
Definition read_u32 (s : string) : outcome (N * string) := let* (b, r) := read_exact 4 s in Ok (be b, r).
Definition read_u64 (s : string) : outcome (N * string) := let* (b, r) := read_exact 8 s in Ok (be b, r).

(** reader.rs:85-97 [read_magic]; fewer than six bytes left are the end of the file *)
Definition read_magic (s : string) : outcome (bool * string) :=
  match read_exact 6 s with
  | Ok (m, r) => if String.eqb m MAGIC then Ok (true, r) else Err ELogFormat
  | _ => Ok (false, "")
  end.

(** reader.rs:188-201: one entry *)
Definition read_entry (s : string) : outcome (meta_key * string * string) :=
  let* (k, s) := read_u32 s in
  let* key := meta_key_of k in
  let* (len, s) := read_u32 s in
  let* (v, s) := read_exact len s in
  if utf8_valid v then Ok (key, v, s) else Err EUtf8.
(** reader.rs:188-201: the loop over the entries *)
Fixpoint read_entries (n : nat) (m : metadata) (s : string) : outcome (metadata * string) :=
  match n with
  | O => Ok (m, s)
  | S n' =>
      let* (k, v, s') := read_entry s in
      read_entries n' (meta_insert k v m) s'
  end.
(** reader.rs:168-204 [read_block_metadata]; [present] is [has_header] or [has_footer] *)
Definition read_metadata (present : bool) (s : string) : outcome (metadata * string) :=
  if present then
    let* (n, s) := read_u32 s in
    read_entries (N.to_nat n) [] s
  else Ok ([], s).

Section Log.
(** Avro schemas and values, Arrow record batches.  [parse_schema] is [AvroSchema::parse_str];
    [datum] is [from_avro_datum] with the bytes it leaves; [check_schema] is
    [AvroArrowArrayReader::try_new]; [to_batch] builds a batch from at most 1024 rows (a value that
    is not a record is an error); [parquet] is the Parquet reader on a whole content. *)
Variable avro_schema avro_value batch : Type.
Variable parse_schema : string -> option avro_schema.
Variable datum : avro_schema -> string -> option (avro_value * string).
Variable check_schema : avro_schema -> outcome unit.
Variable to_batch : avro_schema -> list avro_value -> outcome batch.
Variable parquet : string -> option (list batch).

(** avro.rs:40-64: the next record: its length, then the datum from the limited reader; bytes the
    datum does not use are not skipped *)
Definition read_record (sch : avro_schema) (s : string) : outcome (avro_value * string) :=
  let* (len, s) := read_u32 s in
  let (window, after) := split_at len s in
  let* (v, unread) := ok_or (datum sch window) EArrow in
  Ok (v, unread ++ after).
Fixpoint read_records (sch : avro_schema) (n : nat) (s : string) : outcome (list avro_value * string) :=
  match n with
  | O => Ok ([], s)
  | S n' =>
      let* (v, s) := read_record sch s in
      let* (vs, s) := read_records sch n' s in
      Ok (v :: vs, s)
  end.
(** content.rs:39-44: the batch size *)
Definition BATCH_SIZE : nat := 1024.
(** content.rs:101-111 with arrow_array_reader.rs:147-186 [next_batch]; [fuel] is the number of
    records left *)
Fixpoint read_batches (sch : avro_schema) (fuel n : nat) (s : string) : outcome (list batch * string) :=
  match fuel with
  | O => Ok ([], s)
  | S fuel' =>
      match n with
      | O => Ok ([], s)
      | _ =>
          let k := Nat.min BATCH_SIZE n in
          let* (rows, s) := read_records sch k s in
          let* b := to_batch sch rows in
          let* (bs, s) := read_batches sch fuel' (n - k) s in
          Ok (b :: bs, s)
      end
  end.
(** content.rs:82-111 [decode_avro_record_content] *)
Definition decode_avro (sch : avro_schema) (s : string) : outcome (list batch * string) :=
  let* (v, s) := read_u32 s in
  if negb (v =? 3)%N then Err ELogBlock else
  let* (n, s) := read_u32 s in
  let* _ := check_schema sch in
  read_batches sch (N.to_nat n) (N.to_nat n) s.

(** content.rs:62-78: the content inside the limited reader, with the bytes left in it *)
Definition decode_window (ty : block_type) (header : metadata) (s : string) : outcome (list batch * string) :=
  match ty with
  | AvroData =>
      let* text := ok_or (meta_get Schema header) ELogBlock in
      let* sch := ok_or (parse_schema text) EAvro in
      decode_avro sch s
  | ParquetData => let* bs := ok_or (parquet s) EArrow in Ok (bs, "")
  | Command => Ok ([], s)
  | _ => Err ELogBlock
  end.
(** content.rs:46-79 [decode_content] *)
Definition decode_content (v : log_version) (fallback : N) (ty : block_type) (header : metadata) (s : string)
  : outcome (list batch * string) :=
  let* (len, s) := (if has_content_length v then read_u64 s else Ok (fallback, s)) in
  let (window, after) := split_at len s in
  let* (bs, unread) := decode_window ty header window in
  Ok (bs, unread ++ after).

(** log_block.rs:156-165 *)
Record log_block := {
  lb_version : log_version;
  lb_type : block_type;
  lb_header : metadata;
  lb_batches : list batch;
  lb_footer : metadata;
  lb_skipped : bool
}.

(** Local time zone of the process, see M_Timeline. *)
Variable local_to_utc : ndt -> option ndt.

(** reader.rs:219-231 [should_skip_block] *)
Definition should_skip_block (header : metadata) (range : instant_range) (tz : string) : outcome bool :=
  let* t := ok_or (meta_get InstantTime header) ELogFormat in
  not_in_range local_to_utc range t tz.

(** reader.rs:145-157 [read_block_type] *)
Definition read_block_type (v : log_version) (s : string) : outcome (block_type * string) :=
  if negb (has_block_type v) then Err ELogFormat else
  let* (n, s) := read_u32 s in
  let* ty := block_type_of n in
  Ok (ty, s).

(** reader.rs:239-271, the part after the magic *)
Definition read_block_body (range : instant_range) (tz : string) (s : string) : outcome (log_block * string) :=
  let* (len, s) := read_u64 s in
  let* (vn, s) := read_u32 s in
  let* v := version_of vn in
  let* (ty, s) := read_block_type v s in
  let* (header, s) := read_metadata (has_header v) s in
  let* skipped := should_skip_block header range tz in
  let* (bs, s) := decode_content v len ty header s in
  let* (footer, s) := read_metadata (has_footer v) s in
  let* (_, s) := (if has_total_log_block_length v then read_u64 s else Ok (0%N, s)) in
  Ok ({| lb_version := v; lb_type := ty; lb_header := header; lb_batches := bs; lb_footer := footer;
         lb_skipped := skipped |}, s).
(** reader.rs:233-271 [read_next_block] *)
Definition read_next_block (range : instant_range) (tz : string) (s : string) : outcome (option (log_block * string)) :=
  let* (more, s) := read_magic s in
  if more then let* r := read_block_body range tz s in Ok (Some r) else Ok None.

(** reader.rs:67-76 [read_all_blocks]; [None]: out of fuel (never, see C27) *)
Fixpoint read_loop (range : instant_range) (tz : string) (fuel : nat) (s : string) : option (outcome (list log_block)) :=
  match fuel with
  | O => None
  | S f =>
      match read_next_block range tz s with
      | Ok None => Some (Ok [])
      | Ok (Some (b, s')) =>
          match read_loop range tz f s' with
          | Some (Ok bs) => Some (Ok (if lb_skipped b then bs else b :: bs))
          | other => other
          end
      | Err e => Some (Err e)
      | Panic => Some Panic
      end
  end.
Definition read_all_blocks (range : instant_range) (tz : string) (s : string) : outcome (list log_block) :=
  match read_loop range tz (S (String.length s)) s with Some r => r | None => Panic end.

(** ** Blocks, log_block.rs:167-213 *)
Definition instant_time (b : log_block) : outcome string := ok_or (meta_get InstantTime (lb_header b)) ELogBlock.
Definition is_command (b : log_block) : bool := match lb_type b with Command => true | _ => false end.
Definition target_instant_time (b : log_block) : outcome string :=
  if negb (is_command b) then Err ELogBlock else ok_or (meta_get TargetInstantTime (lb_header b)) ELogBlock.
(** log_block.rs:138-153, 196-212; the only command is rollback *)
Definition is_rollback_block (b : log_block) : bool :=
  is_command b &&
  match meta_get CommandBlockType (lb_header b) with
  | Some v => match parse_u32 v with Some n => Z.eqb n 0 | None => false end
  | None => false
  end.

(** ** The scanner, scanner.rs:43-80 *)
(** scanner.rs:52-67: the blocks of each file and the rollback targets (a set as a list); [fetch]
    reads a file from storage *)
Fixpoint scan_files (fetch : string -> outcome string) (range : instant_range) (tz : string) (paths : list string)
  : outcome (list (list log_block) * list string) :=
  match paths with
  | [] => Ok ([], [])
  | p :: r =>
      let* content := fetch p in
      let* blocks := read_all_blocks range tz content in
      let* targets := mapM target_instant_time (filter is_rollback_block blocks) in
      let* (rest, more) := scan_files fetch range tz r in
      Ok (blocks :: rest, (targets ++ more)%list)
  end.
(** scanner.rs:69-77 *)
Fixpoint valid_batches (targets : list string) (blocks : list log_block) : outcome (list (list batch)) :=
  match blocks with
  | [] => Ok []
  | b :: r =>
      let* t := instant_time b in
      let* rest := valid_batches targets r in
      Ok (if existsb (String.eqb t) targets then rest else lb_batches b :: rest)
  end.
Definition scan (fetch : string -> outcome string) (range : instant_range) (tz : string) (paths : list string)
  : outcome (list (list batch)) :=
  let* (all, targets) := scan_files fetch range tz paths in
  valid_batches targets (List.concat all).
End Log.
Arguments lb_version {batch}.
Arguments lb_type {batch}.
Arguments lb_header {batch}.
Arguments lb_batches {batch}.
Arguments lb_footer {batch}.
Arguments lb_skipped {batch}.
Arguments Build_log_block {batch}.
